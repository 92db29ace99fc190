(** * Lemmas about exit trades: one order at a time *)
From Coq Require Import ZArith QArith Qabs Qminmax Bool Lia Lqa List Setoid Morphisms.
From Verif Require Import Base Num MathNb TolSpec XQFacts OrderFacts Order Account AccountSpec OrderLemmas4
  Replay ReplaySpec ReplayLemmas GenericLemmas2 Trades TradesSpec.
Import ListNotations.

Lemma sdiv_ok : forall a b, ~ b == 0 -> sdiv (Fin a) (Fin b) = Ok (Fin (Qred (a / b))).
Proof.
  intros a b H. unfold sdiv. rewrite div_fin by auto.
  assert (E : eqb (Fin b) zero = false); [|rewrite E; reflexivity].
  change (Qeq_bool b (inject_Z 0) = false). apply qeq_f. exact H.
Qed.

Lemma neg_fin : forall q, neg (Fin q) = Fin (Qred (- q)). Proof. reflexivity. Qed.

(** What a trade record says, in numbers. *)
Record trade_is (t : TradeRec XQ) (id col : nat) (size : Q) (ei : nat) (ep ef : Q) (xi : nat) (xp xf : Q)
    (d : TradeDir) (st : TradeStatus) (par : Z) : Prop := {
  ti_id : tr_id t = id; ti_col : tr_col t = col; ti_ei : tr_entry_idx t = ei; ti_xi : tr_exit_idx t = xi;
  ti_dir : tr_dir t = d; ti_st : tr_status t = st; ti_par : tr_parent t = par;
  ti_fin : finite_trade t;
  ti_size : qty (tr_size t) == size; ti_ep : qty (tr_entry_price t) == ep; ti_ef : qty (tr_entry_fees t) == ef;
  ti_xp : qty (tr_exit_price t) == xp; ti_xf : qty (tr_exit_fees t) == xf;
  ti_pnl : Qabs (qty (tr_pnl t) - (trade_gross t - trade_fees t)) <= tolq (size * xp) (size * ep);
  ti_ret : qty (tr_return t) * (size * ep) == qty (tr_pnl t) }.

Lemma trade_stats_spec : forall s ep ef xp xf d, ~ s * ep == 0 ->
  exists pnl ret, get_trade_stats_nb (Fin s) (Fin ep) (Fin ef) (Fin xp) (Fin xf) d = Ok (Fin pnl, Fin ret) /\
    Qabs (pnl - (dir_sign d * (s * xp - s * ep) - (ef + xf))) <= tolq (s * xp) (s * ep) /\
    ret * (s * ep) == pnl.
Proof.
  intros s ep ef xp xf d Hne. unfold get_trade_stats_nb. rewrite !mul_fin, neg_fin.
  destruct (add_nb_fin (Qred (s * xp)) (Qred (- Qred (s * ep)))) as (v & Ev & Hv). rewrite Ev.
  apply approx_add_bound in Hv. rewrite !Qred_correct in Hv.
  assert (Ht : tolq (s * xp) (- (s * ep)) == tolq (s * xp) (s * ep)).
  { unfold tolq. rewrite Qabs_opp. reflexivity. }
  rewrite Ht in Hv.
  set (w := match d with TLong => Fin v | TShort => if neb (Fin v) zero then mul (Fin v) (neg one) else Fin v end).
  assert (Hw : exists u, w = Fin u /\ u == dir_sign d * v).
  { unfold w. destruct d; cbn [dir_sign].
    - exists v. split; [reflexivity|]. ring.
    - destruct (neb (Fin v) zero) eqn:E.
      + change (neg one) with (Fin (-1)). rewrite mul_fin. eexists. split; [reflexivity|]. rewrite Qred_correct.
        change (-1 # 1) with (-1). ring.
      + exists v. split; [reflexivity|]. unfold neb in E. apply negb_false_iff in E.
        change (Qeq_bool v 0 = true) in E. qb. rewrite E. ring. }
  destruct Hw as (u & -> & Hu). rewrite !sub_fin.
  rewrite sdiv_ok by (rewrite Qred_correct; exact Hne). cbn [bind].
  eexists _, _. split; [reflexivity|]. rewrite !Qred_correct. split.
  - rewrite Hu. 
    assert (E : dir_sign d * v - ef - xf - (dir_sign d * (s * xp - s * ep) - (ef + xf)) == dir_sign d * (v - (s * xp + - (s * ep)))) by ring.
    rewrite E, Qabs_Qmult. assert (Ed : Qabs (dir_sign d) == 1) by (destruct d; reflexivity). rewrite Ed, Qmult_1_l. exact Hv.
  - field. split; intros C; apply Hne; rewrite C; ring.
Qed.

Lemma fill_trade_spec : forall id col s ei ep ef xi xp xf d st par, ~ s * ep == 0 ->
  exists t, fill_trade_record_nb id col (Fin s) ei (Fin ep) (Fin ef) xi (Fin xp) (Fin xf) d st par = Ok t /\
    trade_is t id col s ei ep ef xi xp xf d st par /\ tr_size t = Fin s /\ tr_entry_price t = Fin ep /\
    tr_entry_fees t = Fin ef /\ tr_exit_price t = Fin xp /\ tr_exit_fees t = Fin xf.
Proof.
  intros id col s ei ep ef xi xp xf d st par H. unfold fill_trade_record_nb.
  destruct (trade_stats_spec s ep ef xp xf d H) as (pnl & ret & E & Hp & Hr). rewrite E. cbn [bind].
  eexists. split; [reflexivity|]. split; [|repeat split].
  constructor; cbn; try reflexivity; auto.
  unfold finite_trade. cbn. repeat split; eexists; reflexivity.
Qed.

(** Equal numbers make the same trade. *)
Lemma trade_is_eq : forall t id col s ei ep ef xi xp xf d st par s' ep' ef' xp' xf',
  trade_is t id col s ei ep ef xi xp xf d st par -> s == s' -> ep == ep' -> ef == ef' -> xp == xp' -> xf == xf' ->
  trade_is t id col s' ei ep' ef' xi xp' xf' d st par.
Proof.
  intros t id col s ei ep ef xi xp xf d st par s' ep' ef' xp' xf' [] E1 E2 E3 E4 E5.
  constructor; auto; try (rewrite <- E1 || rewrite <- E2 || rewrite <- E3 || rewrite <- E4 || rewrite <- E5; assumption).
  - rewrite <- E1, <- E2, <- E4. assumption.
  - rewrite <- E1, <- E2. assumption.
Qed.

(** ** One exit trade *)
Record xpos_is (p : XPos XQ) (ei : nat) (d : TradeDir) (E G F : Q) : Prop := {
  xi_ei : xp_entry_idx p = ei; xi_dir : xp_dir p = d;
  xi_size : exists q, xp_size p = Fin q /\ q == E;
  xi_gross : exists q, xp_gross p = Fin q /\ q == G;
  xi_fees : exists q, xp_fees p = Fin q /\ q == F }.

Lemma exit_trade_spec : forall tidx col p ei d E G F x xi xp xf st par,
  xpos_is p ei d E G F -> 0 < E -> 0 < G -> 0 < x ->
  exists t, exit_trade tidx col p (Fin x) xi (Fin xp) (Fin xf) st par = Ok t /\
    trade_is t tidx col x ei (G / E) (x / E * F) xi xp xf d st par.
Proof.
  intros tidx col p ei d E G F x xi xp xf st par [Hei Hd (e & He & Ee) (g & Hg & Eg) (f & Hf & Ef)] HE HG Hx.
  unfold exit_trade. rewrite He, Hg, Hf, Hei, Hd.
  rewrite !sdiv_ok by lra. cbn [bind]. rewrite mul_fin.
  assert (He0 : 0 < e) by lra. assert (Hg0 : 0 < g) by lra.
  destruct (fill_trade_spec tidx col x ei (Qred (g / e)) (Qred (Qred (x / e) * f)) xi xp xf d st par) as (t & Et & Ht & _).
  { rewrite Qred_correct. pose proof (Qdiv_pos g e Hg0 He0). pose proof (Qmul_pos _ _ Hx H). lra. }
  exists t. split; [exact Et|]. eapply trade_is_eq; [exact Ht| | | | |]; try reflexivity.
  - rewrite Qred_correct, Eg, Ee. reflexivity.
  - rewrite !Qred_correct, Ef, Ee. reflexivity.
Qed.

(** ** What one order does to the position *)
Definition oqty (r : OrderRec XQ) := qty (or_size r).
Definition oprice (r : OrderRec XQ) := qty (or_price r).
Definition ofees (r : OrderRec XQ) := qty (or_fees r).

Inductive xcase (col : nat) (s : XState XQ) (r : OrderRec XQ) (s' : XState XQ) : Prop :=
| xc_open p' : xs_pos s = None -> xs_pos s' = Some p' ->
    xpos_is p' (or_idx r) (opened_dir r) (oqty r) (oqty r * oprice r) (ofees r) ->
    xs_parent s' = (xs_parent s + 1)%Z -> xs_tidx s' = xs_tidx s -> xs_out s' = xs_out s -> xcase col s r s'
| xc_inc p ei d E G F p' : xs_pos s = Some p -> xpos_is p ei d E G F -> is_entry d r = true -> xs_pos s' = Some p' ->
    xpos_is p' ei d (E + oqty r) (G + oqty r * oprice r) (F + ofees r) ->
    xs_parent s' = xs_parent s -> xs_tidx s' = xs_tidx s -> xs_out s' = xs_out s -> xcase col s r s'
| xc_close p ei d E G F t : xs_pos s = Some p -> xpos_is p ei d E G F -> is_exit d r = true -> xs_pos s' = None ->
    Qabs (oqty r - E) <= tolq (oqty r) E ->
    trade_is t (xs_tidx s) col E ei (G / E) F (or_idx r) (oprice r) (ofees r) d TClosed (xs_parent s) ->
    xs_parent s' = xs_parent s -> xs_tidx s' = S (xs_tidx s) -> xs_out s' = xs_out s ++ [t] -> xcase col s r s'
| xc_reduce p ei d E G F t p' : xs_pos s = Some p -> xpos_is p ei d E G F -> is_exit d r = true -> xs_pos s' = Some p' ->
    tolq (oqty r) E < E - oqty r ->
    xpos_is p' ei d (E - oqty r) (G * ((E - oqty r) / E)) (F * ((E - oqty r) / E)) ->
    trade_is t (xs_tidx s) col (oqty r) ei (G / E) (oqty r / E * F) (or_idx r) (oprice r) (ofees r) d TClosed (xs_parent s) ->
    xs_parent s' = xs_parent s -> xs_tidx s' = S (xs_tidx s) -> xs_out s' = xs_out s ++ [t] -> xcase col s r s'
| xc_reverse p ei d E G F t p' : xs_pos s = Some p -> xpos_is p ei d E G F -> is_exit d r = true -> xs_pos s' = Some p' ->
    tolq (oqty r) E < oqty r - E ->
    xpos_is p' (or_idx r) (flip d) (oqty r - E) ((oqty r - E) * oprice r) (ofees r - E / oqty r * ofees r) ->
    trade_is t (xs_tidx s) col E ei (G / E) F (or_idx r) (oprice r) (E / oqty r * ofees r) d TClosed (xs_parent s) ->
    xs_parent s' = (xs_parent s + 1)%Z -> xs_tidx s' = S (xs_tidx s) -> xs_out s' = xs_out s ++ [t] -> xcase col s r s'.

(** The state holds nothing, or a finite position of positive size and value. *)
Definition xsane (s : XState XQ) : Prop :=
  match xs_pos s with
  | None => True
  | Some p => exists ei d E G F, xpos_is p ei d E G F /\ (1 # 1000000000000) < E /\ 0 < G
  end.

Lemma good_fin : forall r, good_order r ->
  or_size r = Fin (oqty r) /\ or_price r = Fin (oprice r) /\ or_fees r = Fin (ofees r) /\
  (1 # 1000000000000) < oqty r /\ 0 < oprice r /\ (or_side r = Some Buy \/ or_side r = Some Sell).
Proof.
  intros r ((( q1 & H1) & (q2 & H2) & (q3 & H3) & Hs) & Hz & Hp). unfold oqty, oprice, ofees. rewrite H1, H2, H3 in *. cbn in *.
  repeat split; auto. destruct (or_side r) as [[]|]; auto. congruence.
Qed.

Lemma check_record_ok : forall last r A (k : res A) b, check_record last r k = Ok b ->
  (last <= Z.of_nat (or_id r))%Z /\ k = Ok b.
Proof.
  intros last r A k b H. unfold check_record, check_id in H.
  apply raise_if_ok in H as (H1 & H). apply raise_if_ok in H as (_ & H). apply raise_if_ok in H as (_ & H).
  split; auto. apply Z.ltb_ge in H1. lia.
Qed.

Lemma check_record_pass : forall last r A (k : res A), good_order r -> (last <= Z.of_nat (or_id r))%Z ->
  check_record last r k = k.
Proof.
  intros last r A k Hg Hl. destruct (good_fin r Hg) as (E1 & E2 & _ & Hs & Hp & _).
  unfold check_record, check_id. rewrite E1, E2.
  replace (Z.of_nat (or_id r) <? last)%Z with false by (symmetry; apply Z.ltb_ge; lia).
  assert (X1 : leb (Fin (oqty r)) zero = false) by (change (Qle_bool (oqty r) 0 = false); apply qle_f; lra).
  assert (X2 : leb (Fin (oprice r)) zero = false) by (change (Qle_bool (oprice r) 0 = false); apply qle_f; lra).
  rewrite X1, X2. reflexivity.
Qed.

Lemma is_entry_or_exit : forall d (r : OrderRec XQ), or_side r = Some Buy \/ or_side r = Some Sell ->
  is_entry d r = true /\ is_exit d r = false \/ is_entry d r = false /\ is_exit d r = true.
Proof. intros d r [H|H]; unfold is_entry, is_exit; rewrite H; destruct d; auto. Qed.

Lemma opened_is_entry : forall (r : OrderRec XQ), or_side r = Some Buy \/ or_side r = Some Sell -> is_entry (opened_dir r) r = true.
Proof. intros r [H|H]; unfold is_entry, opened_dir; rewrite H; auto. Qed.

Lemma is_close_or_less_fin : forall a b, is_close_or_less_nb (Fin a) (Fin b) = true <->
  (Qabs (a - b) <= tolq a b \/ a < b).
Proof.
  intros a b. unfold is_close_or_less_nb. destruct (is_close_nb (Fin a) (Fin b)) eqn:E.
  - apply is_close_fin in E. tauto.
  - apply is_close_fin_f in E. change (ltb (Fin a) (Fin b)) with (qlt_bool a b). rewrite qlt_t. split; [auto|].
    intros [H|H]; [lra|auto].
Qed.

Lemma exit_step_spec : forall col s r, good_order r -> xsane s -> (xs_last s <= Z.of_nat (or_id r))%Z ->
  exists s', exit_step col s r = Ok s' /\ xcase col s r s' /\ xs_last s' = Z.of_nat (or_id r).
Proof.
  intros col s r Hg Hs Hl. unfold exit_step. rewrite check_record_pass by auto.
  destruct (good_fin r Hg) as (E1 & E2 & E3 & Hsz & Hpr & Hsd). rewrite E1, E2, E3.
  unfold xsane in Hs. destruct (xs_pos s) as [p|] eqn:Ep.
  - destruct Hs as (ei & d & E & G & F & Hp & HE & HG). pose proof Hp as Hp0.
    destruct Hp as [Hei Hd (e & He & Ee) (g & Hgr & Eg) (f & Hf & Ef)]. rewrite Hd.
    destruct (is_entry_or_exit d r Hsd) as [[Hen Hex]|[Hen Hex]]; rewrite Hen.
    + eexists. split; [reflexivity|]. split; [|reflexivity]. eapply xc_inc; try reflexivity; eauto.
      rewrite He, Hgr, Hf, Hei, mul_fin, !add_fin. constructor; cbn; auto.
      * eexists. split; [reflexivity|]. rewrite Qred_correct. lra.
      * eexists. split; [reflexivity|]. rewrite !Qred_correct. lra.
      * eexists. split; [reflexivity|]. rewrite Qred_correct. lra.
    + rewrite Hex, He. assert (He0 : 0 < e) by lra.
      assert (Hte : tolq (oqty r) e == tolq (oqty r) E) by (rewrite Ee; reflexivity).
      destruct (is_close_or_less_nb (Fin (oqty r)) (Fin e)) eqn:Ec.
      * apply is_close_or_less_fin in Ec.
        destruct (is_close_nb (Fin (oqty r)) (Fin e)) eqn:Ecl.
        -- apply is_close_fin in Ecl. rewrite Hte in Ecl.
           destruct (exit_trade_spec (xs_tidx s) col p ei d E G F e (or_idx r) (oprice r) (ofees r) TClosed (xs_parent s) Hp0) as (t & Et & Ht); try lra.
           rewrite Et. cbn [bind]. eexists. split; [reflexivity|]. split; [|reflexivity].
           eapply xc_close; try reflexivity; eauto.
           ++ rewrite <- Ee at 1. exact Ecl.
           ++ eapply trade_is_eq; [exact Ht|lra|reflexivity| |reflexivity|reflexivity].
              assert (Hx : e / E == 1) by (rewrite Ee; field; lra). rewrite Hx. ring.
        -- apply is_close_fin_f in Ecl. destruct Ec as [Ec|Ec]; [lra|].
           destruct (exit_trade_spec (xs_tidx s) col p ei d E G F (oqty r) (or_idx r) (oprice r) (ofees r) TClosed (xs_parent s) Hp0) as (t & Et & Ht); try lra.
           rewrite Et. cbn [bind]. rewrite sub_fin, sdiv_ok by lra. cbn [bind].
           eexists. split; [reflexivity|]. split; [|reflexivity].
           rewrite Hte in Ecl.
           assert (Hab : Qabs (oqty r - e) == E - oqty r) by (rewrite Qabs_neg by lra; lra).
           eapply xc_reduce; try reflexivity; eauto; [lra|].
           rewrite Hgr, Hf, Hei, !mul_fin. constructor; cbn; auto.
           ++ eexists. split; [reflexivity|]. rewrite !Qred_correct, Ee. field. lra.
           ++ eexists. split; [reflexivity|]. rewrite !Qred_correct, Ee, Eg. reflexivity.
           ++ eexists. split; [reflexivity|]. rewrite !Qred_correct, Ee, Ef. reflexivity.
      * assert (Hn : ~ (Qabs (oqty r - e) <= tolq (oqty r) e \/ oqty r < e)).
        { intros C. apply is_close_or_less_fin in C. congruence. }
        assert (Hlt : tolq (oqty r) e < Qabs (oqty r - e)) by (apply Qnot_le_lt; tauto).
        assert (Hge : e <= oqty r) by (apply Qnot_lt_le; tauto).
        rewrite Qabs_pos in Hlt by lra. rewrite Hte in Hlt.
        rewrite sdiv_ok by lra. cbn [bind]. rewrite mul_fin.
        destruct (exit_trade_spec (xs_tidx s) col p ei d E G F e (or_idx r) (oprice r) (Qred (Qred (e / oqty r) * ofees r)) TClosed (xs_parent s) Hp0) as (t & Et & Ht); try lra.
        rewrite Et. cbn [bind]. eexists. split; [reflexivity|]. split; [|reflexivity].
        eapply xc_reverse; try reflexivity; eauto; [lra| |].
        -- rewrite !sub_fin, !mul_fin. constructor; cbn; auto.
           ++ eexists. split; [reflexivity|]. rewrite !Qred_correct, Ee. reflexivity.
           ++ eexists. split; [reflexivity|]. rewrite !Qred_correct, Ee. reflexivity.
           ++ eexists. split; [reflexivity|]. rewrite !Qred_correct, Ee. reflexivity.
        -- eapply trade_is_eq; [exact Ht|lra|reflexivity| |reflexivity|rewrite !Qred_correct, Ee; reflexivity].
           assert (Hx : e / E == 1) by (rewrite Ee; field; lra). rewrite Hx. ring.
  - cbn [xp_dir xp_size xp_gross xp_fees xp_entry_idx].
    rewrite (opened_is_entry r Hsd). eexists. split; [reflexivity|]. split; [|reflexivity].
    eapply xc_open; try reflexivity; eauto.
    change zero with (Fin 0). rewrite mul_fin, !add_fin. constructor; cbn; auto.
    + eexists. split; [reflexivity|]. rewrite Qred_correct. lra.
    + eexists. split; [reflexivity|]. rewrite !Qred_correct. lra.
    + eexists. split; [reflexivity|]. rewrite Qred_correct. lra.
Qed.

Lemma tolq_atol : forall a b x, tolq a b < x -> (1 # 1000000000000) < x.
Proof. intros a b x H. pose proof (tolq_pos a b). lra. Qed.

Lemma xcase_sane : forall col s r s', good_order r -> xsane s -> xcase col s r s' -> xsane s'.
Proof.
  intros col s r s' Hg Hs H. destruct (good_fin r Hg) as (_ & _ & _ & Hsz & Hpr & _).
  assert (Hsz0 : 0 < oqty r) by lra.
  unfold xsane in *. destruct H as [p' E0 E1 H1|p ei d E G F p' E0 H0 He E1 H1|p ei d E G F t E0 H0 He E1|p ei d E G F t p' E0 H0 He E1 Ht H1|p ei d E G F t p' E0 H0 He E1 Ht H1]; rewrite E1; rewrite E0 in *; auto;
    try (destruct Hs as (ei0 & d0 & E' & G' & F' & Hp & HE & HG);
    assert (Hee : E' == E) by (destruct H0 as [_ _ (a & Ha & Ea) _ _]; destruct Hp as [_ _ (b & Hb & Eb) _ _]; rewrite Ha in Hb; injection Hb as <-; lra);
    assert (Hgg : G' == G) by (destruct H0 as [_ _ _ (a & Ha & Ea) _]; destruct Hp as [_ _ _ (b & Hb & Eb) _]; rewrite Ha in Hb; injection Hb as <-; lra)).
  - eexists _, _, _, _, _. split; [exact H1|]. split; auto. apply Qmul_pos; auto.
  - eexists _, _, _, _, _. split; [exact H1|]. split; [lra|]. pose proof (Qmul_pos _ _ Hsz0 Hpr). lra.
  - eexists _, _, _, _, _. split; [exact H1|]. apply tolq_atol in Ht. split; [lra|].
    apply Qmul_pos; [lra|]. apply Qdiv_pos; lra.
  - eexists _, _, _, _, _. split; [exact H1|]. apply tolq_atol in Ht. split; [lra|].
    apply Qmul_pos; lra.
Qed.
