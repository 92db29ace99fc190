(** * Lemmas about accounts rebuilt from order records: the replay functions *)
From Coq Require Import ZArith QArith Qabs Qminmax Bool Lia Lqa List Setoid Morphisms Permutation Sorting.
From Verif Require Import Base Num MathNb TolSpec Order Account AccountSpec XQFacts OrderLemmas4 Replay ReplaySpec ReplayLemmas.
Import ListNotations.

Lemma signed_size_fin : forall r, proper r -> exists e, signed_size r = Fin e /\ e == bought_size r.
Proof.
  intros r ((q & Hq) & _ & _ & Hs). unfold signed_size, is_sell, bought_size. rewrite Hq.
  destruct (or_side r) as [[|]|]; [| |congruence]; cbn [qty].
  - exists q. split; reflexivity.
  - xs. eexists. split; [reflexivity|]. rewrite !Qred_correct. change (inject_Z 1) with 1. ring.
Qed.

Lemma cash_flow_fin : forall r, proper r ->
  exists e, sub (mul (neg (signed_size r)) (or_price r)) (or_fees r) = Fin e /\ e == cash_effect r.
Proof.
  intros r Hp. destruct (signed_size_fin r Hp) as (s & Es & Hs). rewrite Es.
  destruct Hp as (_ & (p & Hp) & (f & Hf) & _). unfold cash_effect. rewrite Hp, Hf. cbn [qty].
  xs. eexists. split; [reflexivity|]. rewrite ?Qred_correct. rewrite Hs. ring.
Qed.

Lemma column_records_of_col : forall c recs, column_records c recs = of_col c recs.
Proof. reflexivity. Qed.

Lemma asset_flow_recorded : forall recs c out i,
  Forall proper (of_col c recs) -> asset_flow_nb BothDir recs c = Ok out -> recorded bought_size i (of_col c recs) out.
Proof.
  intros recs c out i HP H. unfold asset_flow_nb in H. apply bind_ok in H as (s & H & E).
  injection E as <-. rewrite column_records_of_col in H.
  assert (G : forall l pre s0 s, Forall proper l -> recorded bought_size i pre (snd s0) ->
    foldM (asset_flow_step BothDir) s0 l = Ok s -> recorded bought_size i (pre ++ l) (snd s)).
  { clear. induction l as [|r l IH]; intros pre s0 s HP Hr H.
    - injection H as <-. rewrite app_nil_r. exact Hr.
    - inversion HP as [|? ? Hpr HPl]; subst. cbn [foldM] in H. apply bind_ok in H as (s1 & H1 & H2).
      destruct s0 as [[last p] o]. unfold asset_flow_step, check_id in H1. apply raise_if_ok in H1 as [_ H1].
      apply f_equal with (f := fun x => match x with Ok y => snd y | Err _ => o end) in H1. cbn [snd] in H1.
      destruct (signed_size_fin r Hpr) as (e & Ee & He). rewrite Ee in H1.
      replace (pre ++ r :: l) with ((pre ++ [r]) ++ l) by (rewrite <- app_assoc; reflexivity).
      eapply IH; [exact HPl| |exact H2]. rewrite <- H1. apply recorded_step; auto. }
  refine (G _ [] _ _ HP _ H). apply recorded_init.
Qed.

Lemma cash_flow_recorded : forall recs c out i,
  Forall proper (of_col c recs) -> cash_flow_nb false recs c = Ok out -> recorded cash_effect i (of_col c recs) out.
Proof.
  intros recs c out i HP H. unfold cash_flow_nb in H. apply bind_ok in H as (s & H & E).
  injection E as <-. rewrite column_records_of_col in H.
  assert (G : forall l pre s0 s, Forall proper l -> recorded cash_effect i pre (snd s0) ->
    foldM (cash_flow_step false) s0 l = Ok s -> recorded cash_effect i (pre ++ l) (snd s)).
  { clear. induction l as [|r l IH]; intros pre s0 s HP Hr H.
    - injection H as <-. rewrite app_nil_r. exact Hr.
    - inversion HP as [|? ? Hpr HPl]; subst. cbn [foldM] in H. apply bind_ok in H as (s1 & H1 & H2).
      destruct s0 as [[[last p] d] o]. unfold cash_flow_step, check_id in H1. apply raise_if_ok in H1 as [_ H1].
      cbn [bind] in H1.
      apply f_equal with (f := fun x => match x with Ok y => snd y | Err _ => o end) in H1. cbn [snd] in H1.
      destruct (cash_flow_fin r Hpr) as (e & Ee & He). rewrite Ee in H1.
      replace (pre ++ r :: l) with ((pre ++ [r]) ++ l) by (rewrite <- app_assoc; reflexivity).
      eapply IH; [exact HPl| |exact H2]. rewrite <- H1. apply recorded_step; auto. }
  refine (G _ [] _ _ HP _ H). apply recorded_init.
Qed.

Lemma cash_effect_turnover : forall l, total (fun r => Qabs (cash_effect r)) l <= turnover l.
Proof.
  unfold turnover. induction l as [|r l IH]; cbn; [lra|].
  assert (Qabs (cash_effect r) <= Qabs (bought_size r * qty (or_price r)) + Qabs (qty (or_fees r))).
  { unfold cash_effect. set (a := bought_size r * qty (or_price r)). set (b := qty (or_fees r)).
    assert (E : - a - b == - (a + b)) by ring. rewrite E, Qabs_opp. apply Qabs_triangle. }
  lra.
Qed.

(** ** Assets *)
Lemma assets_ledger : forall recs c out i,
  Forall proper (of_col c recs) -> asset_flow_nb BothDir recs c = Ok out ->
  exists q, assets_nb out i = Fin q /\
    within (2 * length (until i (of_col c recs))) (volume (until i (of_col c recs)))
      q (ledger_position (until i (of_col c recs))).
Proof.
  intros recs c out i HP H. apply asset_flow_recorded with (i := i) in H; auto.
  destruct (recorded_cumulated _ _ _ _ H 0) as (q & E & _ & Hq).
  exists q. split; [exact E|]. apply Hq. reflexivity.
Qed.

(** ** Cash *)
Lemma cash_ledger : forall recs c out i c0,
  Forall proper (of_col c recs) -> cash_flow_nb false recs c = Ok out ->
  exists q, cash_nb out (Fin c0) i = Fin q /\
    within (2 * length (until i (of_col c recs)) + 1) (Qabs c0 + turnover (until i (of_col c recs)))
      q (c0 + ledger_cash (until i (of_col c recs))).
Proof.
  intros recs c out i c0 HP H. apply cash_flow_recorded with (i := i) in H; auto.
  destruct (recorded_cumulated _ _ _ _ H c0) as (q & E & Hq & _).
  exists q. split; [exact E|]. eapply within_le; [apply Nat.le_refl| |exact Hq].
  pose proof (cash_effect_turnover (until i (of_col c recs))). lra.
Qed.

(** ** Groups of columns *)
Lemma recorded_perm : forall eff i l1 l2 out, Permutation l1 l2 -> recorded eff i l1 out -> recorded eff i l2 out.
Proof.
  intros eff i l1 l2 out HP (g & Hg & Hw & Ha & Hn).
  assert (HU : Permutation (until i l1) (until i l2)).
  { unfold until. revert HP. clear. induction 1 as [|x l l' HP IH|x y l|a b c H1 IH1 H2 IH2]; cbn.
    - constructor.
    - destruct (Nat.leb (or_idx x) i); auto.
    - destruct (Nat.leb (or_idx x) i), (Nat.leb (or_idx y) i); auto. apply perm_swap.
    - eapply Permutation_trans; eauto. }
  assert (HT : forall f a b, Permutation a b -> total f a == total f b).
  { clear. intros f a b HP. induction HP; cbn; try lra. }
  exists g. split; [exact Hg|].
  rewrite <- (Permutation_length HU), <- (HT eff _ _ HU), <- (HT _ _ _ HU). auto.
Qed.

Lemma recorded_add : forall eff i l1 l2 out1 out2,
  recorded eff i l1 out1 -> recorded eff i l2 out2 ->
  recorded eff i (l1 ++ l2) (fun j => add (out1 j) (out2 j)).
Proof.
  intros eff i l1 l2 out1 out2 (g1 & Hg1 & Hw1 & Ha1 & Hn1) (g2 & Hg2 & Hw2 & Ha2 & Hn2).
  exists (fun j => Qred (g1 j + g2 j)). split.
  { intros j. rewrite Hg1, Hg2. reflexivity. }
  rewrite until_app, !total_app, app_length.
  pose proof (total_abs_nonneg eff (until i l1)) as P1. pose proof (total_abs_nonneg eff (until i l2)) as P2.
  assert (E : forall n, sumQ (fun j => Qred (g1 j + g2 j)) n == sumQ g1 n + sumQ g2 n).
  { induction n as [|n IH]; cbn [sumQ]; [reflexivity|]. rewrite IH, Qred_correct. ring. }
  split; [|split].
  - rewrite E. eapply within_trans with (b := total eff (until i l1) + sumQ g2 (S i)).
    + apply within_shift. eapply within_le; [apply Nat.le_refl| |exact Hw1]. lra.
    + rewrite (Qplus_comm (total eff (until i l1)) (sumQ _ _)), (Qplus_comm (total eff (until i l1))).
      apply within_shift. eapply within_le; [apply Nat.le_refl| |exact Hw2]. lra.
  - assert (E2 : forall n, sumQ (fun j => Qabs (Qred (g1 j + g2 j))) n <=
      sumQ (fun j => Qabs (g1 j)) n + sumQ (fun j => Qabs (g2 j)) n).
    { induction n as [|n IH]; cbn [sumQ]; [lra|]. rewrite Qred_correct. pose proof (Qabs_triangle (g1 n) (g2 n)). lra. }
    pose proof (E2 (S i)). lra.
  - enough (E3 : forall n, (nzQ (fun j => Qred (g1 j + g2 j)) n <= nzQ g1 n + nzQ g2 n)%nat)
      by (pose proof (E3 (S i)); lia).
    induction n as [|n IH]; [apply Nat.le_0_l|]. rewrite !nzQ_S.
    enough (nonzeros [Qred (g1 n + g2 n)] <= nonzeros [g1 n] + nonzeros [g2 n])%nat by lia.
    unfold nonzeros. cbn [filter].
    destruct (Qeq_bool (g1 n) 0) eqn:E1; destruct (Qeq_bool (g2 n) 0) eqn:E22; cbn [negb length Nat.add];
      destruct (Qeq_bool (Qred (g1 n + g2 n)) 0) eqn:E0; cbn; try lia.
    exfalso. apply Qeq_bool_iff in E1, E22. apply Qeq_bool_neq in E0. apply E0. rewrite Qred_correct, E1, E22. reflexivity.
Qed.

Lemma recorded_ext : forall eff i l o1 o2, (forall j, o1 j = o2 j) -> recorded eff i l o1 -> recorded eff i l o2.
Proof. intros eff i l o1 o2 H (g & Hg & K). exists g. split; [intros j; rewrite <- H; auto|exact K]. Qed.

Lemma of_cols_S : forall from len recs,
  Permutation (of_cols from len recs ++ of_col (from + len) recs) (of_cols from (S len) recs).
Proof.
  intros from len recs. unfold of_cols, of_col. induction recs as [|r l IH]; cbn [filter]; [constructor|].
  destruct (Nat.leb from (or_col r)) eqn:E1; cbn [andb].
  - destruct (Nat.ltb (or_col r) (from + len)) eqn:E2; destruct (Nat.eqb (or_col r) (from + len)) eqn:E3;
      destruct (Nat.ltb (or_col r) (from + S len)) eqn:E4;
      rewrite ?Nat.leb_le, ?Nat.leb_gt, ?Nat.ltb_lt, ?Nat.ltb_ge, ?Nat.eqb_eq, ?Nat.eqb_neq in *; try lia.
    + cbn [app]. apply perm_skip. exact IH.
    + eapply Permutation_trans; [apply Permutation_sym, Permutation_middle|]. apply perm_skip. exact IH.
    + exact IH.
  - destruct (Nat.eqb (or_col r) (from + len)) eqn:E3; [|exact IH].
    rewrite Nat.leb_gt, Nat.eqb_eq in *. lia.
Qed.

Lemma group_flow_recorded : forall eff recs (flow : nat -> nat -> XQ) from len i,
  (forall c, (from <= c < from + len)%nat -> recorded eff i (of_col c recs) (fun j => flow j c)) ->
  recorded eff i (of_cols from len recs) (sum_cols flow from len).
Proof.
  intros eff recs flow from len i. induction len as [|len IH]; intros H.
  - assert (E : of_cols from 0 recs = []).
    { unfold of_cols. induction recs as [|r l IHl]; cbn [filter]; auto.
      destruct (Nat.leb from (or_col r)) eqn:E1; cbn [andb]; [|apply IHl].
      - destruct (Nat.ltb (or_col r) (from + 0)) eqn:E2; [|apply IHl].
        + rewrite Nat.leb_le, Nat.ltb_lt in *. lia.
        + intros c Hc. lia.
      - intros c Hc. lia. }
    rewrite E. apply recorded_init.
  - apply recorded_perm with (1 := of_cols_S from len recs).
    apply recorded_ext with (o1 := fun j => add (sum_cols flow from len j) (flow j (from + len)%nat)).
    + intros j. unfold sum_cols. rewrite seq_S, fold_left_app. reflexivity.
    + apply recorded_add; [apply IH; intros; apply H; lia|apply H; lia].
Qed.

Lemma cash_grouped_ledger : forall recs (flow : nat -> nat -> XQ) from len i c0,
  (forall c, (from <= c < from + len)%nat -> Forall proper (of_col c recs)) ->
  (forall c, (from <= c < from + len)%nat -> exists out, cash_flow_nb false recs c = Ok out /\ forall j, flow j c = out j) ->
  exists q, cash_nb (sum_cols flow from len) (Fin c0) i = Fin q /\
    within (2 * length (until i (of_cols from len recs)) + 1) (Qabs c0 + turnover (until i (of_cols from len recs)))
      q (c0 + ledger_cash (until i (of_cols from len recs))).
Proof.
  intros recs flow from len i c0 HP HF.
  assert (H : recorded cash_effect i (of_cols from len recs) (sum_cols flow from len)).
  { apply group_flow_recorded. intros c Hc. destruct (HF c Hc) as (out & Ho & Hj).
    apply recorded_ext with (o1 := out); [intros; auto|]. apply cash_flow_recorded; auto. }
  destruct (recorded_cumulated _ _ _ _ H c0) as (q & E & Hq & _).
  exists q. split; [exact E|]. eapply within_le; [apply Nat.le_refl| |exact Hq].
  pose proof (cash_effect_turnover (until i (of_cols from len recs))). lra.
Qed.

(** ** Total profit *)
Lemma total_profit_fold : forall l pre s s',
  Forall proper l ->
  (exists a c, snd (fst s) = Fin a /\ snd s = Fin c /\ Qabs a <= volume pre /\ Qabs c <= turnover pre /\
     within (length pre) (volume pre) a (ledger_position pre) /\
     within (length pre) (turnover pre) c (ledger_cash pre)) ->
  foldM total_profit_step s l = Ok s' ->
  exists a c, snd (fst s') = Fin a /\ snd s' = Fin c /\
     within (length (pre ++ l)) (volume (pre ++ l)) a (ledger_position (pre ++ l)) /\
     within (length (pre ++ l)) (turnover (pre ++ l)) c (ledger_cash (pre ++ l)).
Proof.
  induction l as [|r l IH]; intros pre s s' HP (a & c & Ea & Ec & Ba & Bc & Wa & Wc) H.
  - injection H as <-. rewrite app_nil_r. eauto 8.
  - inversion HP as [|? ? Hpr HPl]; subst. cbn [foldM] in H. apply bind_ok in H as (s1 & H1 & H2).
    replace (pre ++ r :: l) with ((pre ++ [r]) ++ l) by (rewrite <- app_assoc; reflexivity).
    apply (IH (pre ++ [r]) s1 s' HPl); [|exact H2].
    destruct s as [[last xa] xc]. cbn [fst snd] in *. subst xa xc.
    unfold total_profit_step, check_id in H1. apply raise_if_ok in H1 as [_ H1].
    assert (E : exists e1 e2, s1 = (Z.of_nat (or_id r), add_nb (Fin a) (Fin e1), add_nb (Fin c) (Fin e2)) /\
      e1 == bought_size r /\ e2 == cash_effect r).
    { destruct Hpr as ((q & Hq) & (p & Hp) & (f & Hf) & Hs). unfold cash_effect, bought_size.
      rewrite Hq, Hp, Hf in *. destruct (or_side r) as [[|]|]; [| |congruence]; cbn [qty]; injection H1 as <-;
        xs; do 2 eexists; (split; [reflexivity|]); split; rewrite ?Qred_correct; ring. }
    destruct E as (e1 & e2 & -> & He1 & He2). cbn [fst snd].
    destruct (add_nb_fin a e1) as (a1 & -> & Ha1). destruct (add_nb_fin c e2) as (c1 & -> & Hc1).
    exists a1, c1. split; [reflexivity|]. split; [reflexivity|].
    pose proof (approx_add_le _ _ _ Ha1) as La. pose proof (approx_add_le _ _ _ Hc1) as Lc.
    rewrite He1 in La, Ha1. rewrite He2 in Lc, Hc1.
    unfold volume, turnover, ledger_position, ledger_cash in *. rewrite !total_app. cbn [total].
    pose proof (cash_effect_turnover [r]) as Ht. unfold turnover in Ht. cbn [total] in Ht.
    pose proof (Qabs_nonneg a). pose proof (Qabs_nonneg c). pose proof (Qabs_nonneg (bought_size r)).
    pose proof (Qabs_nonneg (cash_effect r)).
    split; [lra|]. split; [lra|]. rewrite app_length. cbn [length]. rewrite (Nat.add_comm (length pre)). split.
    + eapply within_trans with (b := a + bought_size r).
      * apply approx_add_within with (1 := Ha1); lra.
      * rewrite (Qplus_0_r (bought_size r)). apply within_shift. eapply within_le; [apply Nat.le_refl| |exact Wa]. lra.
    + eapply within_trans with (b := c + cash_effect r).
      * apply approx_add_within with (1 := Hc1); lra.
      * rewrite (Qplus_0_r (cash_effect r)). apply within_shift. eapply within_le; [apply Nat.le_refl| |exact Wc]. lra.
Qed.

Lemma total_profit_ledger : forall recs c last p,
  Forall proper (of_col c recs) -> total_profit_nb (Fin last) recs c = Ok p ->
  exists q a m, p = Fin q /\ q == m + a * last /\
    within (length (of_col c recs)) (volume (of_col c recs)) a (ledger_position (of_col c recs)) /\
    within (length (of_col c recs)) (turnover (of_col c recs)) m (ledger_cash (of_col c recs)).
Proof.
  intros recs c last p HP H. unfold total_profit_nb in H. rewrite column_records_of_col in H.
  assert (G : forall s', foldM total_profit_step ((-1)%Z, zero, zero) (of_col c recs) = Ok s' ->
    exists a m, snd (fst s') = Fin a /\ snd s' = Fin m /\
     within (length (of_col c recs)) (volume (of_col c recs)) a (ledger_position (of_col c recs)) /\
     within (length (of_col c recs)) (turnover (of_col c recs)) m (ledger_cash (of_col c recs))).
  { intros s' Hs. apply (total_profit_fold _ [] _ _ HP) in Hs; auto.
    exists 0, 0. cbn. split; [reflexivity|]. split; [reflexivity|]. split; [lra|]. split; [lra|].
    split; apply within_refl; reflexivity. }
  destruct (of_col c recs) as [|r l] eqn:El.
  - injection H as <-. exists 0, 0, 0. split; [reflexivity|]. split; [ring|].
    split; apply within_refl; reflexivity.
  - apply bind_ok in H as ([[id xa] xm] & Hs & Hp). apply G in Hs as (a & m & Ea & Em & Wa & Wm).
    cbn [fst snd] in Ea, Em. subst xa xm. injection Hp as <-. xs.
    do 3 eexists. split; [reflexivity|]. split; [|split; [exact Wa|exact Wm]]. rewrite ?Qred_correct. ring.
Qed.

(** ** Successful replay *)
Lemma check_ids_ok : forall S (step : S -> OrderRec XQ -> res S) (lastid : S -> Z),
  (forall s r, (lastid s <= Z.of_nat (or_id r))%Z -> Forall proper [r] -> exists s', step s r = Ok s' /\ lastid s' = Z.of_nat (or_id r)) ->
  forall l s, Forall proper l -> StronglySorted (fun a b => (or_id a <= or_id b)%nat) l ->
  Forall (fun r => (lastid s <= Z.of_nat (or_id r))%Z) l -> exists s', foldM step s l = Ok s'.
Proof.
  intros S step lastid Hstep. induction l as [|r l IH]; intros s HP Hs Hl; cbn [foldM]; [eauto|].
  inversion HP; subst. inversion Hs as [|? ? Hs1 Hs2]; subst. inversion Hl; subst.
  destruct (Hstep s r) as (s1 & E & El); auto. rewrite E. cbn [bind]. apply IH; auto.
  rewrite El. apply Forall_forall. intros x Hx. rewrite Forall_forall in Hs2. specialize (Hs2 x Hx). lia.
Qed.

Lemma filter_sorted : forall A (R : A -> A -> Prop) (p : A -> bool) l, StronglySorted R l -> StronglySorted R (filter p l).
Proof.
  intros A R p l H. induction H as [|a l Hs IH Hf]; cbn; [constructor|].
  destruct (p a); auto. constructor; auto. apply Forall_forall. intros x Hx. apply filter_In in Hx as [Hx _].
  rewrite Forall_forall in Hf. auto.
Qed.

Lemma replay_succeeds : forall recs c last, Forall proper (of_col c recs) ->
  StronglySorted (fun a b => (or_id a <= or_id b)%nat) recs ->
  (exists out, asset_flow_nb BothDir recs c = Ok out) /\ (exists out, cash_flow_nb false recs c = Ok out) /\
  exists p, total_profit_nb (Fin last) recs c = Ok p.
Proof.
  intros recs c last HP Hs.
  apply (filter_sorted _ _ (fun r => Nat.eqb (or_col r) c)) in Hs. fold (of_col c recs) in Hs.
  assert (H0 : Forall (fun r => (-1 <= Z.of_nat (or_id r))%Z) (of_col c recs)) by (apply Forall_forall; intros; lia).
  split; [|split].
  - unfold asset_flow_nb. rewrite column_records_of_col.
    destruct (check_ids_ok _ (asset_flow_step BothDir) (fun s => fst (fst s))) with (l := of_col c recs)
      (s := ((-1)%Z, @zero XQ _, fun _ : nat => @zero XQ _)) as (s' & E); auto.
    + intros [[a b] o] r Hl _. unfold asset_flow_step, check_id, raise_if. cbn [fst] in Hl.
      destruct (Z.ltb_spec (Z.of_nat (or_id r)) a); [lia|]. eexists. split; reflexivity.
    + rewrite E. cbn [bind]. eauto.
  - unfold cash_flow_nb. rewrite column_records_of_col.
    destruct (check_ids_ok _ (cash_flow_step false) (fun s => fst (fst (fst s)))) with (l := of_col c recs)
      (s := ((-1)%Z, @zero XQ _, @zero XQ _, fun _ : nat => @zero XQ _)) as (s' & E); auto.
    + intros [[[a b] d] o] r Hl _. unfold cash_flow_step, check_id, raise_if. cbn [fst] in Hl.
      destruct (Z.ltb_spec (Z.of_nat (or_id r)) a); [lia|]. eexists. split; reflexivity.
    + rewrite E. cbn [bind]. eauto.
  - unfold total_profit_nb. rewrite column_records_of_col. destruct (of_col c recs) as [|r l] eqn:El; [eauto|].
    destruct (check_ids_ok _ total_profit_step (fun s => fst (fst s))) with (l := r :: l)
      (s := ((-1)%Z, @zero XQ _, @zero XQ _)) as ([[x y] z] & E); auto.
    + intros [[a b] o] r0 Hl _. unfold total_profit_step, check_id, raise_if. cbn [fst] in Hl.
      destruct (Z.ltb_spec (Z.of_nat (or_id r0)) a); [lia|].
      destruct (or_side r0) as [[|]|]; eexists; split; reflexivity.
    + rewrite E. cbn [bind]. eauto.
Qed.
