(** * Lemmas about entry trades: one order at a time *)
From Coq Require Import ZArith QArith Qabs Qminmax Bool Lia Lqa List Setoid Morphisms Sorted.
From Verif Require Import Base Num MathNb TolSpec XQFacts OrderFacts Order Account AccountSpec OrderLemmas4
  Replay ReplaySpec ReplayLemmas GenericLemmas2 Trades TradesSpec TradesLemmas TradesLemmas2 TradesLemmas3.
Import ListNotations.

(** ** The entries of a position *)
Definition ent := (OrderRec XQ * Q * Q)%type.
Fixpoint ents (d : TradeDir) (isfirst : bool) (fs ff : Q) (sl : list (OrderRec XQ)) : list ent :=
  match sl with
  | [] => []
  | r :: l =>
      if is_exit d r then ents d false fs ff l
      else (r, if isfirst then fs else oqty r, if isfirst then ff else ofees r) :: ents d false fs ff l
  end.
Definition en_r (x : ent) := fst (fst x).
Definition en_size (x : ent) := snd (fst x).
Definition en_fees (x : ent) := snd x.
Fixpoint esum (f : ent -> Q) (l : list ent) : Q := match l with [] => 0 | x :: l => f x + esum f l end.

Lemma esum_app : forall f l l', esum f (l ++ l') == esum f l + esum f l'.
Proof. intros f l l'. induction l as [|x l IH]; cbn; [lra|]. rewrite IH. lra. Qed.

Lemma ents_snoc : forall d b fs ff sl r, sl <> [] ->
  ents d b fs ff (sl ++ [r]) = ents d b fs ff sl ++ (if is_exit d r then [] else [(r, oqty r, ofees r)]).
Proof.
  intros d b fs ff sl. revert b. induction sl as [|x sl IH]; intros b r H; [congruence|]. cbn [ents app].
  destruct sl as [|y sl].
  - cbn [app ents]. destruct (is_exit d x); destruct (is_exit d r); reflexivity.
  - rewrite !IH by discriminate. destruct (is_exit d x); reflexivity.
Qed.

Section Fill.
  Variables (col xi : nat) (XS XG XF : Q) (d : TradeDir) (st : TradeStatus) (par : Z).

  Fixpoint filled (tidx : nat) (es : list ent) (ts : list (TradeRec XQ)) : Prop :=
    match es, ts with
    | [], [] => True
    | e :: es, t :: ts =>
        trade_is t tidx col (en_size e) (or_idx (en_r e)) (oprice (en_r e)) (en_fees e) xi (XG / XS) (en_size e / XS * XF) d st par /\
        filled (S tidx) es ts
    | _, _ => False
    end.

  Lemma filled_length : forall es tidx ts, filled tidx es ts -> length ts = length es.
  Proof. induction es as [|e es IH]; intros tidx [|t ts] H; cbn in *; try tauto. f_equal. eapply IH. apply H. Qed.

  Lemma filled_size : forall es tidx ts, filled tidx es ts -> tsum (fun t => qty (tr_size t)) ts == esum en_size es.
  Proof.
    induction es as [|e es IH]; intros tidx [|t ts] H; cbn in *; try tauto; try reflexivity.
    destruct H as (H1 & H2). rewrite (IH _ _ H2). destruct H1. rewrite ti_size. reflexivity.
  Qed.

  Lemma filled_fees : forall es tidx ts, filled tidx es ts ->
    tsum trade_fees ts == esum en_fees es + esum en_size es / XS * XF.
  Proof.
    induction es as [|e es IH]; intros tidx [|t ts] H; cbn in *; try tauto.
    - unfold Qdiv. ring.
    - destruct H as (H1 & H2). rewrite (IH _ _ H2), (trade_fees_is _ _ _ _ _ _ _ _ _ _ _ _ _ H1).
      unfold Qdiv. ring.
  Qed.

  Lemma filled_gross : forall es tidx ts, filled tidx es ts ->
    tsum trade_gross ts == dir_sign d * (esum en_size es / XS * XG - esum (fun e => en_size e * oprice (en_r e)) es).
  Proof.
    induction es as [|e es IH]; intros tidx [|t ts] H; cbn in *; try tauto.
    - unfold Qdiv. ring.
    - destruct H as (H1 & H2). rewrite (IH _ _ H2), (trade_gross_is _ _ _ _ _ _ _ _ _ _ _ _ _ H1).
      unfold Qdiv. ring.
  Qed.

  Lemma filled_in : forall es tidx ts t, filled tidx es ts -> In t ts ->
    exists e k, In e es /\ trade_is t k col (en_size e) (or_idx (en_r e)) (oprice (en_r e)) (en_fees e) xi (XG / XS) (en_size e / XS * XF) d st par.
  Proof.
    induction es as [|e es IH]; intros tidx [|t' ts] t H Hin; cbn in *; try tauto.
    destruct H as (H1 & H2). destruct Hin as [<-|Hin].
    - exists e, tidx. auto.
    - destruct (IH _ _ _ H2 Hin) as (e' & k & A & B). exists e', k. auto.
  Qed.

  Lemma filled_ids : forall es tidx ts, filled tidx es ts -> map tr_id ts = seq tidx (length ts).
  Proof.
    induction es as [|e es IH]; intros tidx [|t ts] H; cbn in *; try tauto.
    destruct H as (H1 & H2). rewrite (IH _ _ H2). destruct H1. congruence.
  Qed.

  Lemma fill_entry_spec : forall first fs ff xs xg xf sl c tidx,
    0 < xs -> xs == XS -> xg == XG -> xf == XF -> 0 < fs -> Forall good_order sl -> (first <= c)%nat ->
    exists ts, fill_entry_trades first c sl col (Fin fs) (Fin ff) xi (Fin xs) (Fin xg) (Fin xf) d st par tidx =
        Ok ((tidx + length ts)%nat, ts) /\ filled tidx (ents d (Nat.eqb c first) fs ff sl) ts.
  Proof.
    intros first fs ff xs xg xf sl. induction sl as [|r sl IH]; intros c tidx Hx Exs Exg Exf Hfs Hg Hc.
    - exists []. cbn. rewrite Nat.add_0_r. auto.
    - inversion Hg as [|? ? Hr Hg']; subst. cbn [fill_entry_trades ents].
      destruct (good_fin r Hr) as (E1 & E2 & E3 & Hs & Hp & Hsd).
      assert (Hcn : Nat.eqb (S c) first = false) by (apply Nat.eqb_neq; lia).
      destruct (is_exit d r).
      + destruct (IH (S c) tidx) as (ts & E & Hf); auto. rewrite Hcn in Hf. exists ts. auto.
      + rewrite E1, E2, E3. rewrite !sdiv_ok by lra. cbn [bind].
        set (b := Nat.eqb c first) in *.
        replace (if b then Fin fs else Fin (oqty r)) with (Fin (if b then fs else oqty r)) by (destruct b; reflexivity).
        replace (if b then Fin ff else Fin (ofees r)) with (Fin (if b then ff else ofees r)) by (destruct b; reflexivity).
        set (es := if b then fs else oqty r) in *. set (ef := if b then ff else ofees r) in *.
        assert (Hes : 0 < es) by (unfold es; destruct b; lra).
        rewrite sdiv_ok by lra. cbn [bind]. rewrite mul_fin.
        destruct (fill_trade_spec tidx col es (or_idx r) (oprice r) ef xi (Qred (xg / xs)) (Qred (Qred (es / xs) * xf)) d st par) as (t & Et & Ht & _).
        { pose proof (Qmul_pos _ _ Hes Hp). lra. }
        rewrite Et. cbn [bind].
        destruct (IH (S c) (S tidx)) as (ts & E & Hf); auto. rewrite E. cbn [bind].
        exists (t :: ts). split; [cbn [length]; do 2 f_equal; lia|]. rewrite Hcn in Hf. cbn [filled en_r en_size en_fees fst snd]. split; auto.
        eapply trade_is_eq; [exact Ht| | | | |]; try reflexivity; rewrite ?Qred_correct, ?Exs, ?Exg, ?Exf; reflexivity.
  Qed.
End Fill.

(** ** The position being held *)
Record epos_is (p : EPos XQ) (first : nat) (d : TradeDir) (E EG EF X XG XF fs ff : Q) : Prop := {
  ei_first : ep_first p = first; ei_dir : ep_dir p = d;
  ei_esize : exists q, ep_esize p = Fin q /\ q == E; ei_egross : exists q, ep_egross p = Fin q /\ q == EG;
  ei_efees : exists q, ep_efees p = Fin q /\ q == EF;
  ei_xsize : exists q, ep_xsize p = Fin q /\ q == X; ei_xgross : exists q, ep_xgross p = Fin q /\ q == XG;
  ei_xfees : exists q, ep_xfees p = Fin q /\ q == XF;
  ei_fsize : ep_fsize p = Fin fs; ei_ffees : ep_ffees p = Fin ff }.

(** [done] ends with the records [sl] of the position *)
Record eheld (done : list (OrderRec XQ)) (d : TradeDir) (first : nat) (E EG EF X XG XF fs ff : Q) (sl : list (OrderRec XQ)) : Prop := {
  eh_split : exists pre, done = pre ++ sl /\ length pre = first;
  eh_first : exists r0 l, sl = r0 :: l /\ is_entry d r0 = true;
  eh_fs : 0 < fs;
  eh_E : E == esum en_size (ents d true fs ff sl);
  eh_EG : EG == esum (fun e => en_size e * oprice (en_r e)) (ents d true fs ff sl);
  eh_EF : EF == esum en_fees (ents d true fs ff sl);
  eh_X : 0 <= X; eh_XG : 0 <= XG;
  eh_gap : tolq X E < E - X }.

Inductive ecase (crecs : list (OrderRec XQ)) (col : nat) (done : list (OrderRec XQ)) (s : EState XQ) (r : OrderRec XQ) (s' : EState XQ) : Prop :=
| ec_open p' : es_pos s = None -> es_pos s' = Some p' ->
    epos_is p' (length done) (opened_dir r) (oqty r) (oqty r * oprice r) (ofees r) 0 0 0 (oqty r) (ofees r) ->
    es_parent s' = (es_parent s + 1)%Z -> es_tidx s' = es_tidx s -> es_trades s' = es_trades s -> ecase crecs col done s r s'
| ec_inc p first d E EG EF X XG XF fs ff p' : es_pos s = Some p -> epos_is p first d E EG EF X XG XF fs ff ->
    is_entry d r = true -> es_pos s' = Some p' ->
    epos_is p' first d (E + oqty r) (EG + oqty r * oprice r) (EF + ofees r) X XG XF fs ff ->
    es_parent s' = es_parent s -> es_tidx s' = es_tidx s -> es_trades s' = es_trades s -> ecase crecs col done s r s'
| ec_dec p first d E EG EF X XG XF fs ff p' : es_pos s = Some p -> epos_is p first d E EG EF X XG XF fs ff ->
    is_exit d r = true -> es_pos s' = Some p' -> tolq (X + oqty r) E < E - (X + oqty r) ->
    epos_is p' first d E EG EF (X + oqty r) (XG + oqty r * oprice r) (XF + ofees r) fs ff ->
    es_parent s' = es_parent s -> es_tidx s' = es_tidx s -> es_trades s' = es_trades s -> ecase crecs col done s r s'
| ec_close p first d E EG EF X XG XF fs ff sl ts : es_pos s = Some p -> epos_is p first d E EG EF X XG XF fs ff ->
    is_exit d r = true -> es_pos s' = None -> Qabs (X + oqty r - E) <= tolq (X + oqty r) E ->
    (exists pre, done = pre ++ sl /\ length pre = first) ->
    (filled col (or_idx r) E (XG + oqty r * oprice r) (XF + ofees r) d TClosed (es_parent s) (es_tidx s) (ents d true fs ff (sl ++ [r])) ts) ->
    es_parent s' = es_parent s -> es_tidx s' = (es_tidx s + length ts)%nat -> es_trades s' = es_trades s ++ ts -> ecase crecs col done s r s'
| ec_reverse p first d E EG EF X XG XF fs ff sl ts p' fs' ff' : es_pos s = Some p -> epos_is p first d E EG EF X XG XF fs ff ->
    is_exit d r = true -> es_pos s' = Some p' -> tolq (X + oqty r) E < X + oqty r - E ->
    (exists pre, done = pre ++ sl /\ length pre = first) ->
    (filled col (or_idx r) E (XG + (E - X) * oprice r) (XF + (E - X) / oqty r * ofees r) d TClosed (es_parent s) (es_tidx s) (ents d true fs ff (sl ++ [r])) ts) ->
    fs' == X + oqty r - E -> ff' == (X + oqty r - E) / oqty r * ofees r ->
    epos_is p' (length done) (flip d) (X + oqty r - E) ((X + oqty r - E) * oprice r) ((X + oqty r - E) / oqty r * ofees r) 0 0 0 fs' ff' ->
    es_parent s' = (es_parent s + 1)%Z -> es_tidx s' = (es_tidx s + length ts)%nat -> es_trades s' = es_trades s ++ ts -> ecase crecs col done s r s'.

Definition esane (done : list (OrderRec XQ)) (s : EState XQ) : Prop :=
  match es_pos s with
  | None => True
  | Some p => exists first d E EG EF X XG XF fs ff sl,
      epos_is p first d E EG EF X XG XF fs ff /\ eheld done d first E EG EF X XG XF fs ff sl
  end.

Lemma slice_records : forall (pre sl : list (OrderRec XQ)) r rest,
  firstn (S (length (pre ++ sl)) - length pre) (skipn (length pre) ((pre ++ sl) ++ r :: rest)) = sl ++ [r].
Proof.
  intros pre sl r rest. rewrite <- app_assoc, skipn_app, skipn_all, Nat.sub_diag. cbn [skipn app].
  rewrite app_length. replace (S (length pre + length sl) - length pre)%nat with (length (sl ++ [r])) by (rewrite app_length; cbn [length]; lia).
  replace (sl ++ r :: rest) with ((sl ++ [r]) ++ rest) by (rewrite <- app_assoc; reflexivity).
  rewrite firstn_app, Nat.sub_diag, firstn_all. cbn. apply app_nil_r.
Qed.

Lemma flip_opened : forall d (r : OrderRec XQ), is_exit d r = true -> opened_dir r = flip d.
Proof. intros [] r; unfold is_exit, opened_dir; destruct (or_side r) as [[]|]; cbn; congruence. Qed.

Lemma is_less_fin : forall a b, is_less_nb (Fin a) (Fin b) = true <-> tolq a b < b - a.
Proof.
  intros a b. unfold is_less_nb. destruct (is_close_nb (Fin a) (Fin b)) eqn:E.
  - apply is_close_fin in E. split; [discriminate|]. intros H. pose proof (tolq_pos a b). rewrite Qabs_neg in E by lra. lra.
  - apply is_close_fin_f in E. change (ltb (Fin a) (Fin b)) with (qlt_bool a b). rewrite qlt_t.
    pose proof (tolq_pos a b). split; intros H0; [rewrite Qabs_neg in E by lra|]; lra.
Qed.

Lemma tolq_mono : forall a b a' b', Qabs a <= Qabs a' -> Qabs b <= Qabs b' -> tolq a b <= tolq a' b'.
Proof.
  intros a b a' b' Ha Hb. apply Qnot_lt_le. intros C. apply tolq_lt_iff in C as (C1 & C2 & C3).
  assert (X : tolq a b <= tolq a b) by lra. apply tolq_le_iff in X. lra.
Qed.
Lemma tolq_comm : forall a b, tolq a b == tolq b a.
Proof. intros. unfold tolq. rewrite (Q.max_comm (Qabs a)). reflexivity. Qed.
Lemma tolq_opp_r : forall a b, tolq a (- b) == tolq a b.
Proof. intros. unfold tolq. rewrite Qabs_opp. reflexivity. Qed.

Lemma add_nb_exact : forall a b, tolq a b < Qabs (a - b) -> exists q, add_nb (Fin a) (neg (Fin b)) = Fin q /\ q == a - b.
Proof.
  intros a b H. rewrite neg_fin. destruct (add_nb_fin a (Qred (- b))) as (q & E & [[H1 H2]|[H1 H2]]).
  - exfalso. rewrite Qred_correct, tolq_opp_r in H2. unfold Qminus in H. lra.
  - exists q. split; auto. rewrite H1, Qred_correct. ring.
Qed.

Lemma entry_step_spec : forall col s r done rest, good_order r -> Forall good_order done -> esane done s ->
  (es_last s <= Z.of_nat (or_id r))%Z ->
  exists s', entry_step (done ++ r :: rest) col s (length done, r) = Ok s' /\ ecase (done ++ r :: rest) col done s r s' /\
    es_last s' = Z.of_nat (or_id r).
Proof.
  intros col s r done rest Hg Hgd Hs Hl. unfold entry_step. rewrite check_record_pass by auto.
  destruct (good_fin r Hg) as (E1 & E2 & E3 & Hsz & Hpr & Hsd). rewrite E1, E2, E3.
  unfold esane in Hs. destruct (es_pos s) as [p|] eqn:Ep.
  - destruct Hs as (first & d & E & EG & EF & X & XG & XF & fs & ff & sl & Hp & Hh). pose proof Hp as Hp0.
    destruct Hp as [Hfi Hd (e & He & Ee) (eg & Heg & Eeg) (ef & Hef & Eef) (x & Hx & Ex) (xg & Hxg & Exg) (xf & Hxf & Exf) Hfs Hff].
    destruct Hh as [(pre & Edone & Epre) _ Hfs0 _ _ _ HX HXG Hgap].
    rewrite Hd.
    destruct (is_entry_or_exit d r Hsd) as [[Hen Hex]|[Hen Hex]]; rewrite Hen.
    + eexists. split; [reflexivity|]. split; [|reflexivity]. eapply ec_inc; try reflexivity; eauto.
      rewrite He, Heg, Hef, Hfi, mul_fin, !add_fin. constructor; cbn; eauto.
      * eexists. split; [reflexivity|]. rewrite Qred_correct. lra.
      * eexists. split; [reflexivity|]. rewrite !Qred_correct. lra.
      * eexists. split; [reflexivity|]. rewrite Qred_correct. lra.
    + rewrite Hex, Hx, He, add_fin.
      pose proof (tolq_pos X E) as Htp.
      assert (He0 : 0 < e) by lra.
      assert (Hte : tolq (Qred (x + oqty r)) e == tolq (X + oqty r) E) by (rewrite Qred_correct, Ee, Ex; reflexivity).
      assert (Hsl : forall xs xg' xf' XG' XF', xs == E -> xg' == XG' -> xf' == XF' ->
        exists ts, entry_trades_of (done ++ r :: rest) (length done) col p (or_idx r) (Fin xs) (Fin xg') (Fin xf') TClosed (es_parent s) (es_tidx s)
          = Ok ((es_tidx s + length ts)%nat, ts) /\
          filled col (or_idx r) E XG' XF' d TClosed (es_parent s) (es_tidx s) (ents d true fs ff (sl ++ [r])) ts).
      { intros xs xg' xf' XG' XF' A1 A2 A3. unfold entry_trades_of. rewrite Hfi, Hfs, Hff, Hd.
        rewrite <- Epre, Edone, slice_records.
        destruct (fill_entry_spec col (or_idx r) E XG' XF' d TClosed (es_parent s) (length pre) fs ff xs xg' xf' (sl ++ [r]) (length pre) (es_tidx s)) as (ts & Ets & Hts); auto; try lra.
        - apply Forall_app. split; auto. rewrite Edone in Hgd. apply Forall_app in Hgd. apply Hgd.
        - rewrite Nat.eqb_refl in Hts. exists ts. auto. }
      destruct (is_close_nb (Fin (Qred (x + oqty r))) (Fin e)) eqn:Ec.
      * apply is_close_fin in Ec. rewrite Hte in Ec.
        rewrite Hxg, Hxf, mul_fin, !add_fin.
        destruct (Hsl e (Qred (xg + Qred (oqty r * oprice r))) (Qred (xf + ofees r)) (XG + oqty r * oprice r) (XF + ofees r)) as (ts & Ets & Hts).
        { auto. } { rewrite !Qred_correct, Exg. reflexivity. } { rewrite Qred_correct, Exf. reflexivity. }
        rewrite Ets. cbn [bind]. eexists. split; [reflexivity|]. split; [|reflexivity].
        eapply ec_close; try reflexivity; eauto.
        rewrite Qred_correct, Ex in Ec. rewrite <- Ee at 1. exact Ec.
      * apply is_close_fin_f in Ec. rewrite Hte in Ec.
        destruct (is_less_nb (Fin (Qred (x + oqty r))) (Fin e)) eqn:Els.
        -- apply is_less_fin in Els. rewrite Hte, Qred_correct, Ex, Ee in Els.
           eexists. split; [reflexivity|]. split; [|reflexivity]. eapply ec_dec; try reflexivity; eauto.
           rewrite Heg, Hef, Hxg, Hxf, Hfi, mul_fin, !add_fin. constructor; cbn; eauto.
           ++ eexists. split; [reflexivity|]. rewrite Qred_correct. lra.
           ++ eexists. split; [reflexivity|]. rewrite !Qred_correct. lra.
           ++ eexists. split; [reflexivity|]. rewrite Qred_correct. lra.
        -- assert (Hrev : tolq (X + oqty r) E < X + oqty r - E).
           { rewrite Qred_correct, Ex, Ee in Ec. destruct (Qlt_le_dec (X + oqty r) E) as [C|C].
             - exfalso. rewrite Qabs_neg in Ec by lra. assert (D : is_less_nb (Fin (Qred (x + oqty r))) (Fin e) = true).
               { apply is_less_fin. rewrite Hte, Qred_correct, Ex, Ee. lra. } congruence.
             - rewrite Qabs_pos in Ec by lra. exact Ec. }
           destruct (add_nb_exact e x) as (rem & Erem & Hrem).
           { rewrite Ee, Ex, tolq_comm, Qabs_pos by lra. exact Hgap. }
           rewrite Erem. rewrite Ee, Ex in Hrem.
           destruct (add_nb_exact (oqty r) rem) as (es & Ees & Hes).
           { rewrite Hrem. assert (A : tolq (oqty r) (E - X) <= tolq (X + oqty r) E) by (apply tolq_mono; rewrite !Qabs_pos by lra; lra).
             pose proof (tolq_pos (X + oqty r) E). assert (B : 0 <= oqty r - (E - X)) by lra. rewrite (Qabs_pos _ B). lra. }
           rewrite Ees. rewrite Hrem in Hes. rewrite sdiv_ok by lra. cbn [bind].
           rewrite Hxg, Hxf, !mul_fin, !add_fin.
           destruct (Hsl e (Qred (xg + Qred (rem * oprice r))) (Qred (xf + Qred (Qred (rem / oqty r) * ofees r)))
             (XG + (E - X) * oprice r) (XF + (E - X) / oqty r * ofees r)) as (ts & Ets & Hts).
           { auto. } { rewrite !Qred_correct, Exg, Hrem. reflexivity. } { rewrite !Qred_correct, Exf, Hrem. reflexivity. }
           rewrite Ets. cbn [bind]. rewrite sdiv_ok by lra. cbn [bind]. rewrite mul_fin.
           eexists. split; [reflexivity|]. split; [|reflexivity].
           eapply (ec_reverse _ _ _ _ _ _ p first d E EG EF X XG XF fs ff sl ts _ es (Qred (Qred (es / oqty r) * ofees r))); try reflexivity; eauto.
           ++ rewrite Hes. ring.
           ++ rewrite !Qred_correct. assert (A : es == X + oqty r - E) by (rewrite Hes; ring). rewrite A. reflexivity.
           ++ assert (A : es == X + oqty r - E) by (rewrite Hes; ring).
              rewrite (flip_opened d r Hex). change zero with (Fin 0). constructor; cbn; auto; try (eexists; split; [reflexivity|]; rewrite ?Qred_correct, ?A; reflexivity).
  - cbn [ep_first ep_dir ep_esize ep_egross ep_efees ep_xsize ep_xgross ep_xfees ep_fsize ep_ffees].
    rewrite (opened_is_entry r Hsd). eexists. split; [reflexivity|]. split; [|reflexivity].
    eapply ec_open; try reflexivity; eauto.
    change zero with (Fin 0). rewrite mul_fin, !add_fin. constructor; cbn; auto; (eexists; split; [reflexivity|]); rewrite ?Qred_correct; try reflexivity; ring.
Qed.
