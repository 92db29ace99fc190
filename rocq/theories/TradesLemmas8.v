(** * Lemmas about positions *)
From Coq Require Import String ZArith QArith Qabs Qminmax Bool Lia Lqa List Setoid Morphisms Sorted.
From Verif Require Import Base Num MathNb TolSpec XQFacts OrderFacts Order Account AccountSpec OrderLemmas4
  Replay ReplaySpec ReplayLemmas GenericLemmas2 Trades TradesSpec TradesLemmas TradesLemmas2 TradesLemmas3 TradesLemmas7.
Import ListNotations.

Definition position_rec (pidx : nat) (g : list (TradeRec XQ)) : res (TradeRec XQ) :=
  match g with
  | [] => Err (IndexError "no trade"%string)
  | [t] => Ok (copy_trade_record_nb pidx t)
  | _ => fill_position_record_nb pidx g
  end.

Lemma position_of_slice : forall (a g c : list (TradeRec XQ)) pidx, g <> [] ->
  position_of (a ++ g ++ c) pidx (length a) (length a + length g) = position_rec pidx g.
Proof.
  intros a g c pidx Hg. unfold position_of. replace (length a + length g - length a)%nat with (length g) by lia.
  rewrite skipn_app, skipn_all, Nat.sub_diag. cbn [skipn app]. rewrite firstn_app, firstn_all, Nat.sub_diag. cbn [firstn]. rewrite app_nil_r.
  destruct g as [|t [|t' g]]; [congruence| |reflexivity].
  cbn [length Nat.ltb Nat.leb]. rewrite nth_error_app2, Nat.sub_diag by lia. reflexivity.
Qed.

Lemma raise_if_false : forall A c e (k : res A), c = false -> raise_if c e k = k.
Proof. intros; subst; reflexivity. Qed.

Definition sound (t : TradeRec XQ) : Prop := finite_trade t /\ 0 < qty (tr_size t) /\ 0 < qty (tr_entry_price t) /\
  qty (tr_return t) * (qty (tr_size t) * qty (tr_entry_price t)) == qty (tr_pnl t).

Lemma np_sum_fin : forall (f : TradeRec XQ -> XQ) g, Forall (fun t => exists q, f t = Fin q) g ->
  exists q, np_sum f g = Fin q /\ q == tsum (fun t => qty (f t)) g.
Proof.
  intros f g H. unfold np_sum. change (zero : XQ) with (Fin 0).
  assert (G : forall a, exists q, fold_left (fun a t => add a (f t)) g (Fin a) = Fin q /\ q == a + tsum (fun t => qty (f t)) g).
  { induction H as [|t g (q & Hq) H IH]; intros a; cbn [fold_left tsum].
    - exists a. split; auto. ring.
    - rewrite Hq, add_fin. destruct (IH (Qred (a + q))) as (u & E1 & E2). exists u. split; auto. rewrite E2, Qred_correct. cbn [qty]. ring. }
  destruct (G 0) as (q & E1 & E2). exists q. split; auto. rewrite E2. ring.
Qed.

Lemma tsum_pos : forall (f : TradeRec XQ -> Q) g, g <> [] -> Forall (fun t => 0 < f t) g -> 0 < tsum f g.
Proof.
  intros f g Hn H. destruct H as [|t g Ht H]; [congruence|]. cbn [tsum]. clear Hn. enough (0 <= tsum f g) by lra.
  induction H; cbn [tsum]; lra.
Qed.

Lemma tsum_ext : forall (f f' : TradeRec XQ -> Q) g, Forall (fun t => f t == f' t) g -> tsum f g == tsum f' g.
Proof. intros f f' g H. induction H; cbn [tsum]; lra. Qed.

Lemma position_rec_spec : forall pidx g, g <> [] -> Forall sound g ->
  exists p, position_rec pidx g = Ok p /\ position_sums g p /\ tr_id p = pidx /\ tr_parent p = Z.of_nat pidx /\
    (length g = 1%nat \/ Qabs (qty (tr_pnl p) - (dir_sign (tr_dir p) * (qty (tr_size p) * qty (tr_exit_price p) - qty (tr_size p) * qty (tr_entry_price p)) - trade_fees p)) <=
       tolq (qty (tr_size p) * qty (tr_exit_price p)) (qty (tr_size p) * qty (tr_entry_price p))).
Proof.
  intros pidx g Hn Hs. destruct g as [|t [|t' g0]]; [congruence| |].
  - cbn [position_rec]. inversion Hs as [|? ? (Hf & H1 & H2 & H3) _]; subst. eexists. split; [reflexivity|]. split; [|cbn; auto].
    constructor; cbn; try ring; auto. exists t, [], t. repeat split; auto.
  - set (g := t :: t' :: g0) in *. change (position_rec pidx g) with (fill_position_record_nb pidx g).
    unfold fill_position_record_nb. unfold g at 1. fold g.
    assert (Hfin : forall f, (forall t, finite_trade t -> exists q, f t = Fin q) -> Forall (fun t => exists q, f t = Fin q) g).
    { intros f Hf. eapply Forall_impl; [|exact Hs]. intros u (Hu & _). auto. }
    assert (Ff : forall t, finite_trade t -> (exists q, tr_size t = Fin q) /\ (exists q, tr_entry_price t = Fin q) /\ (exists q, tr_entry_fees t = Fin q) /\ (exists q, tr_exit_price t = Fin q) /\ (exists q, tr_exit_fees t = Fin q)).
    { intros u Hu. unfold finite_trade in Hu. tauto. }
    destruct (np_sum_fin tr_size g) as (s & Es & Hsz). { apply Hfin. intros; apply Ff; auto. }
    destruct (np_sum_fin (fun t => mul (tr_size t) (tr_entry_price t)) g) as (eg & Eeg & Heg).
    { apply Hfin. intros u Hu. destruct (Ff u Hu) as ((a & ->) & (b & ->) & _). rewrite mul_fin. eauto. }
    destruct (np_sum_fin (fun t => mul (tr_size t) (tr_exit_price t)) g) as (xg & Exg & Hxg).
    { apply Hfin. intros u Hu. destruct (Ff u Hu) as ((a & ->) & _ & _ & (b & ->) & _). rewrite mul_fin. eauto. }
    destruct (np_sum_fin tr_entry_fees g) as (ef & Eef & Hef). { apply Hfin. intros; apply Ff; auto. }
    destruct (np_sum_fin tr_exit_fees g) as (xf & Exf & Hxf). { apply Hfin. intros; apply Ff; auto. }
    assert (Hs0 : 0 < s). { rewrite Hsz. apply tsum_pos; auto. eapply Forall_impl; [|exact Hs]. intros u (_ & H & _). auto. }
    assert (Heg' : eg == tsum (fun t => qty (tr_size t) * qty (tr_entry_price t)) g).
    { rewrite Heg. apply tsum_ext. eapply Forall_impl; [|exact Hs]. intros u (Hu & _). cbn. destruct (Ff u Hu) as ((a & ->) & (b & ->) & _). rewrite mul_fin. cbn [qty]. apply Qred_correct. }
    assert (Hxg' : xg == tsum (fun t => qty (tr_size t) * qty (tr_exit_price t)) g).
    { rewrite Hxg. apply tsum_ext. eapply Forall_impl; [|exact Hs]. intros u (Hu & _). cbn. destruct (Ff u Hu) as ((a & ->) & _ & _ & (b & ->) & _). rewrite mul_fin. cbn [qty]. apply Qred_correct. }
    assert (Heg0 : 0 < eg). { rewrite Heg'. apply tsum_pos; auto. eapply Forall_impl; [|exact Hs]. intros u (_ & A & B & _). apply Qmul_pos; auto. }
    rewrite Es, Eeg, Exg, Eef, Exf. rewrite !sdiv_ok by lra. cbn [bind].
    assert (Hep : s * Qred (eg / s) == eg) by (rewrite Qred_correct; field; lra).
    assert (Hxp : s * Qred (xg / s) == xg) by (rewrite Qred_correct; field; lra).
    destruct (trade_stats_spec s (Qred (eg / s)) ef (Qred (xg / s)) xf (tr_dir (last g t))) as (pnl & ret & E & Hp & Hr).
    { rewrite Hep. lra. }
    rewrite E. cbn [bind]. eexists. split; [reflexivity|]. split; [|split; [reflexivity|split; [reflexivity|right; exact Hp]]].
    constructor; cbn [tr_size tr_entry_price tr_exit_price tr_entry_fees tr_exit_fees tr_return tr_pnl qty]; auto.
    + unfold finite_trade. cbn. repeat split; eauto.
    + rewrite Hep; auto.
    + rewrite Hxp; auto.
    + exists t, (t' :: g0), (last g t). repeat split; auto.
Qed.

(** ** The loop *)
Section Loop.
  Context (R : TradeRec XQ -> TradeRec XQ -> Prop) (B : nat -> list (TradeRec XQ) -> Prop) (ncols : nat) (par : Z) (trades : list (TradeRec XQ)).
  Hypothesis HI : cols_inv R B ncols par trades.
  Hypothesis HS : Forall sound trades.

  Definition lastpar (l : list (TradeRec XQ)) : Z := last (map tr_parent l) (-1)%Z.

  Lemma lastpar_snoc : forall l t, lastpar (l ++ [t]) = tr_parent t.
  Proof. intros l t. unfold lastpar. rewrite map_app. cbn. apply last_last. Qed.

  Lemma sorted_split : forall A (f : A -> A -> Prop) l x l', StronglySorted f (l ++ x :: l') -> (forall y, In y l -> f y x) /\ (forall y, In y l' -> f x y).
  Proof.
    intros A f l x l'. induction l as [|z l IH]; cbn; intros H.
    - inversion H as [|? ? H1 H2]; subst. rewrite Forall_forall in H2. split; auto. intros ? [].
    - inversion H as [|? ? H1 H2]; subst. destruct (IH H1) as (H3 & H4). split; auto.
      intros y [<-|Hy]; auto. rewrite Forall_forall in H2. apply H2. apply in_or_app; right; left; auto.
  Qed.

  Lemma par_split : forall A t C, trades = A ++ t :: C ->
    (forall u, In u A -> (tr_parent u <= tr_parent t)%Z) /\ (forall u, In u C -> (tr_parent t <= tr_parent u)%Z).
  Proof.
    intros A t C E. pose proof (ci_par _ _ _ _ _ HI) as H. rewrite E, map_app in H. cbn in H. apply sorted_split in H as (H1 & H2).
    split; intros u Hu; [apply H1|apply H2]; apply in_map; auto.
  Qed.

  Lemma chain_next : forall A t C, trades = A ++ t :: C ->
    (forall u, In u A -> (tr_parent u <= lastpar A)%Z) /\ (tr_parent t = lastpar A /\ A <> [] \/ tr_parent t = lastpar A + 1)%Z.
  Proof.
    intros A t C E. destruct (par_split A t C E) as (H1 & H2).
    pose proof (ci_range _ _ _ _ _ HI) as Hr. rewrite Forall_forall in Hr.
    assert (Hmax : forall u, In u A -> (tr_parent u <= lastpar A)%Z).
    { intros u Hu. destruct (@exists_last _ A) as (A' & z & Ez); [intros ->; destruct Hu|]. rewrite Ez in *. rewrite lastpar_snoc.
      apply in_app_or in Hu as [Hu|[<-|[]]]; [|lia]. destruct (par_split A' z (t :: C)) as (H3 & _); [rewrite E, <- app_assoc; reflexivity|]. auto. }
    split; auto.
    assert (Ht : (-1 < tr_parent t <= par)%Z) by (apply Hr; rewrite E; apply in_or_app; right; left; auto).
    assert (Hge : (lastpar A <= tr_parent t)%Z).
    { destruct A as [|a A'] eqn:EA; [cbn; lia|]. rewrite <- EA in *. destruct (@exists_last _ A) as (A1 & z & Ez); [congruence|]. rewrite Ez, lastpar_snoc. apply H1. rewrite Ez. apply in_or_app; right; left; auto. }
    assert (Hlo : (-1 <= lastpar A)%Z).
    { destruct A as [|a A'] eqn:EA; [cbn; lia|]. rewrite <- EA in *. destruct (@exists_last _ A) as (A1 & z & Ez); [congruence|]. rewrite Ez, lastpar_snoc.
      assert (In z trades) by (rewrite E, Ez; apply in_or_app; left; apply in_or_app; right; left; auto). apply Hr in H. lia. }
    destruct (Z.eq_dec (tr_parent t) (lastpar A)) as [He|Hne].
    - left. split; auto. intros ->. cbn in He. lia.
    - right. destruct (Z.eq_dec (tr_parent t) (lastpar A + 1)) as [He|Hne']; auto. exfalso.
      destruct (ci_cov _ _ _ _ _ HI (lastpar A + 1)%Z) as (u & Hu & Eu); [lia|]. rewrite E in Hu.
      apply in_app_or in Hu as [Hu|[<-|Hu]]; [apply Hmax in Hu; lia|lia|apply H2 in Hu; lia].
  Qed.

  Definition made (out : list (TradeRec XQ)) (l : list (TradeRec XQ)) : Prop :=
    forall j, (j < length out)%nat -> exists p, nth_error out j = Some p /\ position_rec j (trades_of_pos (Z.of_nat j) l) = Ok p.

  (** between columns *)
  Record PI0 (A out : list (TradeRec XQ)) : Prop := {
    p0_len : Z.of_nat (length out) = (lastpar A + 1)%Z;
    p0_made : made out A }.

  (** inside a column *)
  Record PI (Q : list (TradeRec XQ)) (s : PState XQ) : Prop := {
    pi_split : exists B' cur, Q = B' ++ cur /\ length B' = ps_from s /\ cur <> [] /\
      (forall u, In u cur -> tr_parent u = ps_posid s) /\ (forall u, In u B' -> (tr_parent u < ps_posid s)%Z);
    pi_len : Z.of_nat (length (ps_out s)) = ps_posid s;
    pi_made : made (ps_out s) Q;
    pi_last : exists t Q', Q = Q' ++ [t] /\ ps_last s = Z.of_nat (tr_id t) /\ tr_parent t = ps_posid s }.

  Lemma of_pos_app : forall k (l l' : list (TradeRec XQ)), trades_of_pos k (l ++ l') = trades_of_pos k l ++ trades_of_pos k l'.
  Proof. intros. apply filter_app. Qed.
  Lemma of_pos_all : forall k (l : list (TradeRec XQ)), (forall u, In u l -> tr_parent u = k) -> trades_of_pos k l = l.
  Proof. intros k l H. unfold trades_of_pos. induction l as [|t l IH]; cbn; auto. rewrite (H t) by (left; auto). rewrite Z.eqb_refl, IH; auto. intros; apply H; cbn; auto. Qed.
  Lemma of_pos_none : forall k (l : list (TradeRec XQ)), (forall u, In u l -> tr_parent u <> k) -> trades_of_pos k l = [].
  Proof. intros k l H. unfold trades_of_pos. induction l as [|t l IH]; cbn; auto. assert (Hn : tr_parent t <> k) by (apply H; left; auto). apply Z.eqb_neq in Hn. rewrite Hn. apply IH. intros; apply H; cbn; auto. Qed.

  Lemma made_snoc : forall out l t, made out l -> (Z.of_nat (length out) <= tr_parent t)%Z -> made out (l ++ [t]).
  Proof.
    intros out l t H Hp j Hj. destruct (H j Hj) as (p & E1 & E2). exists p. split; auto.
    rewrite of_pos_app, (of_pos_none _ [t]), app_nil_r; auto. intros u [<-|[]]. lia.
  Qed.

  Lemma finish_pos : forall Q C s, trades = Q ++ C -> PI Q s ->
    exists p, position_of trades (length (ps_out s)) (ps_from s) (length Q) = Ok p /\ made (ps_out s ++ [p]) Q.
  Proof.
    intros Q C s E [(B' & cur & E1 & E2 & E3 & E4 & E5) Hl Hm (t & Q' & F1 & F2 & F3)].
    rewrite E, E1, app_length, <- E2, <- app_assoc, position_of_slice by auto.
    assert (Hcur : trades_of_pos (Z.of_nat (length (ps_out s))) (B' ++ cur) = cur).
    { rewrite of_pos_app, of_pos_none, of_pos_all; auto. { intros u Hu. rewrite Hl; auto. } intros u Hu. apply E5 in Hu. lia. }
    destruct (position_rec_spec (length (ps_out s)) cur E3) as (p & Ep & _).
    { apply Forall_forall. intros u Hu. rewrite Forall_forall in HS. apply HS. rewrite E, E1. apply in_or_app; left. apply in_or_app; auto. }
    exists p. split; auto. intros j Hj. rewrite app_length in Hj. cbn in Hj.
    destruct (Nat.eq_dec j (length (ps_out s))) as [->|Hn].
    - exists p. rewrite nth_error_app2, Nat.sub_diag by lia. split; auto. rewrite Hcur. exact Ep.
    - destruct (Hm j) as (p' & H1 & H2); [lia|]. exists p'. rewrite nth_error_app1 by lia. split; auto. rewrite <- E1. auto.
  Qed.

  Lemma first_step : forall A t C out, trades = A ++ t :: C -> PI0 A out ->
    (forall u, In u A -> tr_col u <> tr_col t) ->
    exists s', position_step trades (mkPState (-1) (-1) 0 out) (length A) = Ok s' /\ PI (A ++ [t]) s'.
  Proof.
    intros A t C out E [Hl Hm] Hc. destruct (chain_next A t C E) as (H1 & H2).
    pose proof (ci_range _ _ _ _ _ HI) as Hr. rewrite Forall_forall in Hr.
    assert (Ht : (-1 < tr_parent t)%Z) by (apply Hr; rewrite E; apply in_or_app; right; left; auto).
    assert (Hp : tr_parent t = Z.of_nat (length out)).
    { destruct H2 as [(H2 & Hn)|H2]; [|lia]. exfalso. destruct (@exists_last _ A Hn) as (A1 & z & Ez). rewrite Ez, lastpar_snoc in H2.
      assert (Hz : In z A) by (rewrite Ez; apply in_or_app; right; left; auto). apply (Hc z Hz).
      apply (ci_uni _ _ _ _ _ HI z t); auto; rewrite E; apply in_or_app; [left; auto|right; left; auto]. }
    assert (Hnth : nth_error trades (length A) = Some t) by (rewrite E, nth_error_app2, Nat.sub_diag by lia; reflexivity).
    unfold position_step. rewrite Hnth. cbn [ps_last ps_posid ps_out].
    rewrite raise_if_false by (apply Z.ltb_ge; lia). replace (Z.eqb (tr_parent t) (-1)) with false by (symmetry; apply Z.eqb_neq; lia).
    cbn [Z.eqb Pos.eqb]. eexists. split; [reflexivity|]. constructor; cbn [ps_from ps_posid ps_out ps_last]; auto.
    - exists A, [t]. repeat split; auto; try congruence.
      + intros u [<-|[]]; auto.
      + intros u Hu. apply H1 in Hu. lia.
    - apply made_snoc; auto. lia.
    - exists t, A. auto.
  Qed.

  Lemma next_step : forall Q t C s, trades = Q ++ t :: C -> PI Q s ->
    exists s', position_step trades s (length Q) = Ok s' /\ PI (Q ++ [t]) s'.
  Proof.
    intros Q t C s E HP. pose proof HP as [(B' & cur & E1 & E2 & E3 & E4 & E5) Hl Hm (z & Q' & F1 & F2 & F3)].
    destruct (chain_next Q t C E) as (H1 & H2). assert (Hlp : lastpar Q = ps_posid s) by (rewrite F1, lastpar_snoc; auto).
    rewrite Hlp in *.
    assert (Hnth : nth_error trades (length Q) = Some t) by (rewrite E, nth_error_app2, Nat.sub_diag by lia; reflexivity).
    unfold position_step. rewrite Hnth.
    assert (Hid : (tr_id z <= tr_id t)%nat).
    { pose proof (ci_ids _ _ _ _ _ HI) as Hi. rewrite E, F1, !map_app in Hi. cbn [map] in Hi.
      assert (G : forall n k a b c, a ++ [b] ++ c = seq n k -> b = (n + length a)%nat).
      { clear. intros n k a b c H. assert (Hn : nth (length a) (a ++ [b] ++ c) 0%nat = b) by (rewrite app_nth2, Nat.sub_diag by lia; reflexivity).
        rewrite H in Hn. rewrite seq_nth in Hn; auto. rewrite <- (seq_length k n), <- H, !app_length. cbn. lia. }
      rewrite <- app_assoc in Hi. cbn [app] in Hi. pose proof (G _ _ (map tr_id Q') (tr_id z) (tr_id t :: map tr_id C) Hi) as G1.
      change (map tr_id Q' ++ tr_id z :: tr_id t :: map tr_id C) with (map tr_id Q' ++ [tr_id z] ++ [tr_id t] ++ map tr_id C) in Hi.
      rewrite app_assoc in Hi. apply G in Hi. rewrite app_length in Hi. cbn in Hi. lia. }
    rewrite raise_if_false by (apply Z.ltb_ge; lia).
    destruct (Z.eqb (tr_parent t) (ps_posid s)) eqn:Eq.
    - apply Z.eqb_eq in Eq. eexists. split; [reflexivity|]. constructor; cbn [ps_from ps_posid ps_out ps_last]; auto.
      + exists B', (cur ++ [t]). rewrite E1, <- app_assoc. repeat split; auto.
        * intros Hc. apply app_eq_nil in Hc as (_ & Hc). discriminate.
        * intros u Hu. apply in_app_or in Hu as [Hu|[<-|[]]]; auto.
      + apply made_snoc; auto. lia.
      + exists t, Q. auto.
    - apply Z.eqb_neq in Eq. replace (Z.eqb (ps_posid s) (-1)) with false by (symmetry; apply Z.eqb_neq; lia).
      destruct (finish_pos Q (t :: C) s E HP) as (p & Ep & Hmp). rewrite Ep. cbn [bind]. eexists. split; [reflexivity|].
      assert (Hpt : tr_parent t = (ps_posid s + 1)%Z) by (destruct H2 as [(H2 & _)|H2]; [congruence|auto]).
      constructor; cbn [ps_from ps_posid ps_out ps_last].
      + exists Q, [t]. repeat split; auto; try congruence.
        * intros u [<-|[]]; auto.
        * intros u Hu. apply H1 in Hu. lia.
      + rewrite app_length. cbn [length]. lia.
      + apply made_snoc; auto. rewrite app_length. cbn [length]. lia.
      + exists t, Q. auto.
  Qed.

  Lemma column_fold : forall ts Q C s, trades = Q ++ ts ++ C -> PI Q s ->
    exists s', foldM (position_step trades) s (seq (length Q) (length ts)) = Ok s' /\ PI (Q ++ ts) s'.
  Proof.
    induction ts as [|t ts IH]; intros Q C s E HP; cbn [length seq foldM].
    - exists s. rewrite app_nil_r. auto.
    - destruct (next_step Q t (ts ++ C) s E HP) as (s1 & E1 & HP1). rewrite E1. cbn [bind].
      replace (S (length Q)) with (length (Q ++ [t])) by (rewrite app_length; cbn; lia).
      destruct (IH (Q ++ [t]) C s1) as (s2 & E2 & HP2); auto. { rewrite E, <- app_assoc. reflexivity. }
      exists s2. split; auto. rewrite <- app_assoc in HP2. exact HP2.
  Qed.

  Lemma filter_all : forall A (f : A -> bool) l, (forall x, In x l -> f x = true) -> filter f l = l.
  Proof. intros A f l H. induction l as [|x l IH]; cbn; auto. rewrite H by (left; auto). rewrite IH; auto. intros; apply H; cbn; auto. Qed.
  Lemma filter_none : forall A (f : A -> bool) l, (forall x, In x l -> f x = false) -> filter f l = [].
  Proof. intros A f l H. induction l as [|x l IH]; cbn; auto. rewrite H by (left; auto). apply IH. intros; apply H; cbn; auto. Qed.

  Lemma column_trades_slice : forall A ts C c, trades = A ++ ts ++ C -> Forall (fun t => (tr_col t < c)%nat) A ->
    Forall (fun t => tr_col t = c) ts -> Forall (fun t => (c < tr_col t)%nat) C ->
    column_trades trades c = seq (length A) (length ts).
  Proof.
    intros A ts C c E HA Hts HC. unfold column_trades. rewrite E, !app_length, !seq_app, !filter_app.
    rewrite (filter_none _ _ (seq 0 (length A))), (filter_all _ _ (seq (0 + length A) (length ts))), (filter_none _ _ (seq (0 + length A + length ts) (length C))).
    - cbn. rewrite app_nil_r. auto.
    - intros k Hk. apply in_seq in Hk. rewrite nth_error_app2, nth_error_app2 by lia.
      destruct (nth_error C _) as [u|] eqn:Eu; auto. apply nth_error_In in Eu. rewrite Forall_forall in HC. apply HC in Eu. apply Nat.eqb_neq. lia.
    - intros k Hk. apply in_seq in Hk. rewrite nth_error_app2, nth_error_app1 by lia.
      destruct (nth_error ts (k - length A)) as [u|] eqn:Eu; [|apply nth_error_None in Eu; lia].
      apply nth_error_In in Eu. rewrite Forall_forall in Hts. apply Hts in Eu. apply Nat.eqb_eq. auto.
    - intros k Hk. apply in_seq in Hk. rewrite nth_error_app1 by lia.
      destruct (nth_error A k) as [u|] eqn:Eu; auto. apply nth_error_In in Eu. rewrite Forall_forall in HA. apply HA in Eu. apply Nat.eqb_neq. lia.
  Qed.

  Lemma column_split : forall (l : list (TradeRec XQ)) c, StronglySorted le (map tr_col l) -> Forall (fun t => (c <= tr_col t)%nat) l ->
    exists ts C, l = ts ++ C /\ Forall (fun t => tr_col t = c) ts /\ Forall (fun t => (c < tr_col t)%nat) C.
  Proof.
    induction l as [|t l IH]; intros c Hs Hc; cbn in Hs.
    - exists [], []. auto.
    - inversion Hs as [|? ? H1 H2]; subst. inversion Hc as [|? ? H3 H4]; subst.
      destruct (Nat.eq_dec (tr_col t) c) as [He|Hne].
      + destruct (IH c H1 H4) as (ts & C & -> & A1 & A2). exists (t :: ts), C. auto.
      + exists [], (t :: l). repeat split; auto. constructor; [lia|]. rewrite Forall_forall in H2. apply Forall_forall. intros u Hu.
        specialize (H2 (tr_col u) (in_map tr_col l u Hu)). lia.
  Qed.

  Lemma sorted_app_r : forall A (f : A -> A -> Prop) l l', StronglySorted f (l ++ l') -> StronglySorted f l'.
  Proof. intros A f l l'. induction l; cbn; intros H; auto. inversion H; auto. Qed.

  Lemma positions_fold : forall n c A rest out, trades = A ++ rest -> Forall (fun t => (tr_col t < c)%nat) A -> Forall (fun t => (c <= tr_col t)%nat) rest ->
    PI0 A out -> exists out' A' rest', foldM (position_column trades) out (seq c n) = Ok out' /\ trades = A' ++ rest' /\
      Forall (fun t => (tr_col t < c + n)%nat) A' /\ Forall (fun t => (c + n <= tr_col t)%nat) rest' /\ PI0 A' out'.
  Proof.
    induction n as [|n IH]; intros c A rest out E HA Hr HP; cbn [seq foldM].
    - exists out, A, rest. rewrite Nat.add_0_r. auto.
    - assert (Hs : StronglySorted le (map tr_col rest)).
      { pose proof (ci_csort _ _ _ _ _ HI) as H. rewrite E, map_app in H. eapply sorted_app_r; eauto. }
      destruct (column_split rest c Hs Hr) as (ts & C & Er & Hts & HC).
      assert (E' : trades = A ++ ts ++ C) by congruence.
      assert (K : exists out1, position_column trades out c = Ok out1 /\ PI0 (A ++ ts) out1).
      { unfold position_column. rewrite (column_trades_slice A ts C c) by auto.
        destruct ts as [|t ts]; [exists out; cbn [length seq]; rewrite app_nil_r; auto|].
        cbn [length seq]. 
        destruct (first_step A t (ts ++ C) out) as (s1 & E1 & HP1); auto.
        { intros u Hu. rewrite Forall_forall in HA. apply HA in Hu. inversion Hts; subst. lia. }
        destruct (column_fold ts (A ++ [t]) C s1) as (s2 & E2 & HP2); auto. { rewrite E', <- app_assoc. reflexivity. }
        rewrite app_length in E2. cbn [length] in E2. rewrite Nat.add_1_r in E2.
        cbn [foldM]. rewrite E1. cbn [bind]. rewrite E2. cbn [bind].
        rewrite <- app_assoc in HP2. cbn [app] in HP2.
        destruct (finish_pos (A ++ t :: ts) C s2) as (p & Ep & Hm); auto. { rewrite E', <- app_assoc. reflexivity. }
        assert (Hlast : S (last (length A :: seq (S (length A)) (length ts)) 0%nat) = length (A ++ t :: ts)).
        { change (length A :: seq (S (length A)) (length ts)) with (seq (length A) (S (length ts))).
          rewrite seq_S, last_last, app_length. cbn [length]. lia. }
        rewrite Hlast, Ep. cbn [bind]. eexists. split; [reflexivity|].
        destruct HP2 as [_ Hl _ (z & Q' & F1 & F2 & F3)]. constructor; auto.
        rewrite F1, lastpar_snoc, F3, app_length. cbn [length]. lia. }
      destruct K as (out1 & E1 & HP1). rewrite E1. cbn [bind]. rewrite <- Nat.add_succ_comm.
      apply (IH (S c) (A ++ ts) C out1); auto.
      + rewrite E', <- app_assoc. auto.
      + apply Forall_app. split; eapply Forall_impl; [|exact HA| |exact Hts]; cbn; intros; lia.
  Qed.

  Lemma positions_spec : exists ps, get_positions_nb ncols trades = Ok ps /\ Z.of_nat (length ps) = (par + 1)%Z /\
    forall j, (j < length ps)%nat -> exists p, nth_error ps j = Some p /\ trades_of_pos (Z.of_nat j) trades <> [] /\
      position_rec j (trades_of_pos (Z.of_nat j) trades) = Ok p.
  Proof.
    destruct (positions_fold ncols 0 [] trades []) as (ps & A & rest & E1 & E2 & _ & H2 & [Hl Hm]); auto.
    { apply Forall_forall. intros; lia. }
    { constructor; cbn; auto. intros j Hj. cbn in Hj. lia. }
    cbn [Nat.add] in H2. pose proof (ci_cols _ _ _ _ _ HI) as Hc.
    assert (rest = []) as ->.
    { destruct rest as [|t rest]; auto. exfalso. rewrite E2 in Hc. apply Forall_app in Hc as (_ & Hc). inversion Hc; inversion H2; subst. lia. }
    rewrite app_nil_r in E2. subst A.
    assert (Hlp : lastpar trades = par).
    { pose proof (ci_par0 _ _ _ _ _ HI) as H0. pose proof (ci_range _ _ _ _ _ HI) as Hr. rewrite Forall_forall in Hr.
      destruct trades as [|t0 l] eqn:Et; [cbn; destruct (Z.eq_dec par (-1)); [auto|]; destruct (ci_cov _ _ _ _ _ HI par) as (u & [] & _); lia|]. rewrite <- Et in *.
      destruct (@exists_last _ trades) as (A & z & Ez); [congruence|].
      destruct (par_split A z [] Ez) as (P1 & _). rewrite Ez at 1. rewrite lastpar_snoc.
      destruct (ci_cov _ _ _ _ _ HI par) as (u & Hu & Eu). { split; [|lia]. assert (Hz : In z trades) by (rewrite Ez; apply in_or_app; right; left; auto). apply Hr in Hz. lia. }
      assert (Hz : In z trades) by (rewrite Ez; apply in_or_app; right; left; auto). apply Hr in Hz.
      rewrite Ez in Hu. apply in_app_or in Hu as [Hu|[<-|[]]]; [apply P1 in Hu; lia|lia]. }
    exists ps. split; auto. split; [congruence|]. intros j Hj. destruct (Hm j Hj) as (p & F1 & F2). exists p. split; auto. split; auto.
    intros E. rewrite E in F2. discriminate.
  Qed.
End Loop.
