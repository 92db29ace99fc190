(** * Random entries and exits: proofs *)
From Coq Require Import String ZArith QArith Qround Lqa Bool List Arith Lia Permutation Sorting.
From Verif Require Import Base SignalsNb SignalsSpec SignalsLemmas SignalsLemmas2 SignalsLemmas7 RandSignals RandSignalsSpec.
Import ListNotations.
Local Open Scope list_scope.
Local Open Scope nat_scope.

(** ** Random floats that sum to one *)
Lemma q_insert_perm : forall x l, Permutation (q_insert x l) (x :: l).
Proof.
  intros x l. induction l as [|y l IH]; cbn; [auto|]. destruct (Qle_bool x y); [auto|]. rewrite IH. apply perm_swap.
Qed.
Lemma q_sort_perm : forall l, Permutation (q_sort l) l.
Proof. induction l as [|x l IH]; cbn; [auto|]. rewrite q_insert_perm. auto. Qed.
Lemma q_insert_sorted : forall x l, StronglySorted Qle l -> StronglySorted Qle (q_insert x l).
Proof.
  intros x l H. induction H as [|y l Hs IH Hf]; cbn; [repeat constructor|].
  destruct (Qle_bool x y) eqn:E.
  - apply Qle_bool_iff in E. constructor; [constructor; auto|]. constructor; [exact E|].
    eapply Forall_impl; [|exact Hf]. intros a Ha. eapply Qle_trans; eauto.
  - constructor; [exact IH|]. apply Forall_forall. intros a Ha. apply (Permutation_in _ (q_insert_perm x l)) in Ha as [<-|Ha].
    + destruct (Qlt_le_dec y x) as [Hl|Hl]; [lra|]. apply Qle_bool_iff in Hl. congruence.
    + rewrite Forall_forall in Hf. auto.
Qed.
Lemma q_sort_sorted : forall l, StronglySorted Qle (q_sort l).
Proof. induction l as [|x l IH]; cbn; [constructor|]. apply q_insert_sorted. exact IH. Qed.

Definition q_sum (l : list Q) : Q := fold_right Qplus 0%Q l.
Lemma q_diff_facts : forall l x, StronglySorted Qle (x :: l) ->
  (q_sum (q_diff (x :: l)) == last (x :: l) 0 - x)%Q /\ Forall (fun f => 0 <= f)%Q (q_diff (x :: l)) /\ List.length (q_diff (x :: l)) = List.length l.
Proof.
  induction l as [|y l IH]; intros x H; [cbn; repeat split; [lra|constructor]|].
  apply StronglySorted_inv in H as [H1 H2]. destruct (IH y H1) as (E1 & E2 & E3).
  change (q_diff (x :: y :: l)) with ((y - x)%Q :: q_diff (y :: l)). change (last (x :: y :: l) 0%Q) with (last (y :: l) 0%Q).
  split; [|split].
  - change (q_sum ((y - x)%Q :: q_diff (y :: l))) with ((y - x) + q_sum (q_diff (y :: l)))%Q. rewrite E1. lra.
  - constructor; [|exact E2]. apply Forall_inv in H2. lra.
  - cbn [List.length]. rewrite E3. reflexivity.
Qed.

Lemma sorted_last : forall l x, StronglySorted Qle (x :: l) -> Forall (fun y => y <= last (x :: l) 0)%Q (x :: l).
Proof.
  induction l as [|y l IH]; intros x H; [constructor; [apply Qle_refl|constructor]|].
  apply StronglySorted_inv in H as [H1 H2]. change (last (x :: y :: l) 0%Q) with (last (y :: l) 0%Q).
  constructor; [|apply IH; exact H1]. apply Forall_inv in H2. pose proof (Forall_inv (IH y H1)) as H3. cbv beta in H3. lra.
Qed.

Lemma summing_to_one : forall rg pos n fs pos', generator rg -> uniform_summing_to_one_nb rg pos n = Ok (fs, pos') ->
  (q_sum fs == 1)%Q /\ Forall (fun f => 0 <= f)%Q fs /\ Z.of_nat (List.length fs) = n.
Proof.
  intros rg pos n fs pos' (Hu & _) E. unfold uniform_summing_to_one_nb in E. destruct (Z.ltb_spec n 1); cbn [raise_if] in E; [discriminate|].
  cbv zeta in E. set (us := map (rg_uniform rg) (seq pos (Z.to_nat (n - 1)))) in *.
  assert (Ef : fs = q_diff (q_sort (0 :: 1 :: us)%Q)) by congruence. clear E. subst fs.
  pose proof (q_sort_perm (0 :: 1 :: us)%Q) as P. pose proof (q_sort_sorted (0 :: 1 :: us)%Q) as Hs.
  assert (R : forall x, In x (0 :: 1 :: us)%Q -> (0 <= x <= 1)%Q).
  { intros x [<-|[<-|Hx]]; try lra. apply in_map_iff in Hx as (k & <- & _). destruct (Hu k). lra. }
  assert (Hlen : List.length us = Z.to_nat (n - 1)) by (unfold us; rewrite map_length, seq_length; reflexivity).
  destruct (q_sort (0 :: 1 :: us)%Q) as [|x l] eqn:Eq; [apply Permutation_length in P; discriminate|].
  destruct (q_diff_facts l x Hs) as (F1 & F2 & F3). pose proof (sorted_last l x Hs) as F4.
  split; [|split; [exact F2|]].
  - rewrite F1. rewrite Forall_forall in F4.
    assert (H0 : (x <= 0)%Q).
    { assert (In 0%Q (x :: l)) as [->|H0] by (apply (Permutation_in _ (Permutation_sym P)); now left); [lra|].
      apply StronglySorted_inv in Hs as [_ Hs]. rewrite Forall_forall in Hs. auto. }
    assert (H1 : (0 <= x <= 1)%Q) by (apply R, (Permutation_in _ P); now left).
    assert (H2 : (1 <= last (x :: l) 0)%Q) by (apply F4, (Permutation_in _ (Permutation_sym P)); right; now left).
    assert (H3 : (0 <= last (x :: l) 0 <= 1)%Q).
    { apply R, (Permutation_in _ P). destruct (exists_last (l := x :: l)) as (l' & z & Ez); [discriminate|]. rewrite Ez, last_last. apply in_or_app. right. now left. }
    lra.
  - rewrite F3. apply Permutation_length in P. cbn [List.length] in P. lia.
Qed.

(** ** Integers with a given sum *)
Lemma bump_facts : forall lo l i, i < List.length l -> Forall (fun z => (lo <= z)%Z) l ->
  List.length (bump l i) = List.length l /\ Forall (fun z => (lo <= z)%Z) (bump l i) /\ z_sum (bump l i) = (z_sum l + 1)%Z.
Proof.
  intros lo l. induction l as [|x l IH]; intros i Hi Hf; cbn [List.length] in Hi; [lia|].
  apply Forall_cons_iff in Hf as [Hx Hf]. destruct i as [|i]; cbn.
  - split; [reflexivity|]. split; [constructor; [lia|exact Hf]|]. unfold z_sum. lia.
  - destruct (IH i) as (E1 & E2 & E3); [lia|exact Hf|]. split; [congruence|]. split; [constructor; auto|].
    unfold z_sum in *. cbn [fold_right]. lia.
Qed.
Lemma bump_loop_facts : forall rg lo n pos l, generator rg -> (0 < List.length l) -> Forall (fun z => (lo <= z)%Z) l ->
  let l' := fst (bump_loop rg pos n l) in
  List.length l' = List.length l /\ Forall (fun z => (lo <= z)%Z) l' /\ z_sum l' = (z_sum l + Z.of_nat n)%Z.
Proof.
  intros rg lo n. induction n as [|n IH]; intros pos l Hg Hl Hf; cbn [bump_loop fst]; [repeat split; auto; lia|].
  destruct (proj1 (proj2 Hg) pos (Z.of_nat (List.length l))) as [B1 B2]; [lia|].
  set (i := Z.to_nat (rg_below rg pos (Z.of_nat (List.length l)))).
  destruct (bump_facts lo l i) as (E1 & E2 & E3); [unfold i; lia|exact Hf|].
  destruct (IH (S pos) (bump l i) Hg) as (F1 & F2 & F3); [lia|exact E2|]. cbv zeta in *. fold i. rewrite F1, F3, E1, E3.
  repeat split; auto. lia.
Qed.

Lemma floors : forall (lo hi : Z) fs, (lo <= hi)%Z -> Forall (fun f => 0 <= f)%Q fs ->
  let ints := map (fun f => Qfloor (renormalize f 0 1 (inject_Z lo) (inject_Z hi))) fs in
  Forall (fun z => (lo <= z)%Z) ints /\
  (inject_Z (z_sum ints) <= inject_Z (Z.of_nat (List.length fs)) * inject_Z lo + (inject_Z hi - inject_Z lo) * q_sum fs)%Q.
Proof.
  intros lo hi fs Hl Hf. induction Hf as [|f fs H0 Hf IH]; cbv zeta in *; cbn [map]; [split; [constructor|]; cbn; change (inject_Z 0) with 0%Q; lra|].
  destruct IH as [I1 I2]. set (v := renormalize f 0 1 (inject_Z lo) (inject_Z hi)) in *.
  assert (Hv : (v == (inject_Z hi - inject_Z lo) * f + inject_Z lo)%Q) by (unfold v, renormalize; field).
  assert (Hm : (0 <= (inject_Z hi - inject_Z lo) * f)%Q).
  { apply Qmult_le_0_compat; [|exact H0]. rewrite Zle_Qle in Hl. lra. }
  split.
  - constructor; [|exact I1]. rewrite <- (Qfloor_Z lo). apply Qfloor_resp_le. rewrite Hv. lra.
  - change (z_sum (Qfloor v :: ?l)) with (Qfloor v + z_sum l)%Z. cbn [z_sum fold_right]. fold (z_sum (map (fun f => Qfloor (renormalize f 0 1 (inject_Z lo) (inject_Z hi))) fs)).
    rewrite inject_Z_plus. pose proof (Qfloor_le v) as Hfl. cbn [List.length q_sum fold_right]. fold (q_sum fs).
    rewrite Nat2Z.inj_succ. unfold Z.succ. rewrite inject_Z_plus. change (inject_Z 1) with 1%Q. lra.
Qed.

Lemma rescaled : forall rg pos fs lo hi total, generator rg -> (0 < List.length fs) -> (lo <= hi)%Z ->
  (q_sum fs == 1)%Q -> Forall (fun f => 0 <= f)%Q fs -> (Z.of_nat (List.length fs) * lo + (hi - lo) = total)%Z ->
  let l := fst (rescale_float_to_int_nb rg pos fs lo hi total) in
  List.length l = List.length fs /\ Forall (fun z => (lo <= z)%Z) l /\ z_sum l = total.
Proof.
  intros rg pos fs lo hi total Hg Hn Hl Hs Hf Ht. unfold rescale_float_to_int_nb. cbv zeta.
  destruct (floors lo hi fs Hl Hf) as [F1 F2]. cbv zeta in *.
  set (ints := map (fun f => Qfloor (renormalize f 0 1 (inject_Z lo) (inject_Z hi))) fs) in *.
  assert (Hle : (z_sum ints <= total)%Z).
  { rewrite Zle_Qle, <- Ht. rewrite inject_Z_plus, inject_Z_mult. unfold Z.sub. rewrite inject_Z_plus, inject_Z_opp.
    rewrite Hs in F2. lra. }
  assert (El : List.length ints = List.length fs) by (unfold ints; apply map_length).
  destruct (bump_loop_facts rg lo (Z.to_nat (total - z_sum ints)) pos ints Hg) as (E1 & E2 & E3); [lia|exact F1|]. cbv zeta in *.
  rewrite E1, E3. repeat split; auto. lia.
Qed.

(** ** Masks of ascending bars *)
Lemma sorted_same : forall l l', StronglySorted lt l -> StronglySorted lt l' -> (forall i, In i l <-> In i l') -> l = l'.
Proof.
  induction l as [|x l IH]; intros l' H H' E.
  - destruct l' as [|y l']; [reflexivity|]. exfalso. apply (E y). now left.
  - destruct l' as [|y l']; [exfalso; apply (E x); now left|].
    apply StronglySorted_inv in H as [H1 H2]. apply StronglySorted_inv in H' as [H3 H4]. rewrite Forall_forall in H2, H4.
    assert (x = y).
    { destruct (proj1 (E x) (or_introl eq_refl)) as [->|A]; [reflexivity|]. destruct (proj2 (E y) (or_introl eq_refl)) as [->|B]; [reflexivity|].
      specialize (H2 _ B). specialize (H4 _ A). lia. }
    subst y. f_equal. apply IH; auto. intros i. specialize (E i). split; intros Hi.
    + destruct (proj1 E (or_intror Hi)) as [->|A]; auto. specialize (H2 _ Hi). lia.
    + destruct (proj2 E (or_intror Hi)) as [->|A]; auto. specialize (H4 _ Hi). lia.
Qed.

Lemma mask_of_ok : forall rows es, StronglySorted lt es -> Forall (fun e => e < rows) es ->
  exists out, mask_of (Z.of_nat rows) (map Z.of_nat es) = Ok out /\ List.length out = rows /\ (forall i, tr out i <-> In i es) /\ flatnonzero out = es.
Proof.
  intros rows es Hs Hf. unfold mask_of.
  assert (E : existsb (out_of 0 (Z.of_nat rows)) (map Z.of_nat es) = false).
  { apply not_true_is_false. intros C. apply existsb_exists in C as (z & Hz & C). apply in_map_iff in Hz as (e & <- & He).
    rewrite Forall_forall in Hf. specialize (Hf e He). unfold out_of in C. apply orb_true_iff in C as [C|C]; lia. }
  rewrite E. cbn [raise_if]. eexists. split; [reflexivity|]. rewrite Nat2Z.id.
  assert (H1 : forall i, tr (set_all (repeat false rows) (map Z.of_nat es)) i <-> In i es).
  { intros i. rewrite tr_set_all, repeat_length. split.
    - intros [C|(Hi & z & Hz & ->)]; [unfold tr in C; rewrite nth_repeat in C; discriminate|].
      apply in_map_iff in Hz as (e & <- & He). rewrite Nat2Z.id. exact He.
    - intros Hi. right. rewrite Forall_forall in Hf. split; [auto|]. exists (Z.of_nat i). split; [apply in_map; exact Hi|]. now rewrite Nat2Z.id. }
  split; [rewrite set_all_length; apply repeat_length|]. split; [exact H1|].
  apply sorted_same; [apply flatnonzero_sorted|exact Hs|]. intros i. rewrite flatnonzero_in. apply H1.
Qed.

Lemma sorted_signals : forall rows out es, List.length out = rows -> (forall i, tr out i <-> In i es) -> StronglySorted lt es -> signals_at rows out es.
Proof.
  intros rows out es H1 H2 H3. split; [exact H1|]. split; [exact H2|]. intros j a b Ha Hb.
  clear H1 H2. revert j a b Ha Hb. induction H3 as [|x l Hs IH Hf]; intros j a b Ha Hb; [destruct j; discriminate|].
  destruct j as [|j]; [|eapply IH; eassumption]. inversion Ha; subst a. change (nth_error l 0 = Some b) in Hb. apply nth_error_In in Hb. rewrite Forall_forall in Hf. auto.
Qed.
