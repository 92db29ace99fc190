(** * Aligning indexes: what is refused *)
From Coq Require Import String ZArith List Arith Bool Lia.
From Verif Require Import Base Grouper IndexFns IndexSpec BaseFnsLemmas BaseFnsLemmas2 BaseFnsLemmas5.
Import ListNotations.
Open Scope list_scope.
Local Open Scope nat_scope.

Definition one_each (m : list (nat * nat)) : Prop := forall i j j', In (i, j) m -> In (i, j') m -> j = j'.

Lemma match_level_one : forall l1 i m p m', one_each m -> match_level l1 i m p = Ok m' -> one_each m'.
Proof.
  intros l1 i m [j l2] m' Hm H. unfold match_level in H.
  destruct (name_eqb (lv_name l1) (lv_name l2)); [|injection H as <-; exact Hm].
  destruct (subset_of (lv_values l2) (lv_values l1)).
  - apply raise_if_ok in H as [He H]. injection H as <-. intros i0 a b Ha Hb.
    assert (Hno : forall c, ~ In (i, c) m).
    { intros c Hc. assert (existsb (fun q => Nat.eqb (fst q) i) m = true); [|congruence].
      apply existsb_exists. exists (i, c). split; [exact Hc|]. apply Nat.eqb_refl. }
    apply in_app_iff in Ha as [Ha|[Ha|[]]]; apply in_app_iff in Hb as [Hb|[Hb|[]]].
    + exact (Hm _ _ _ Ha Hb).
    + injection Hb as <- <-. exfalso. exact (Hno _ Ha).
    + injection Ha as <- <-. exfalso. exact (Hno _ Hb).
    + congruence.
  - apply raise_if_ok in H as [_ H]. injection H as <-. exact Hm.
Qed.

Lemma match_levels_one : forall ls1 ls2 m, match_levels ls1 ls2 = Ok m -> one_each m.
Proof.
  intros ls1 ls2 m H. unfold match_levels in H.
  refine (foldM_inv _ _ one_each _ _ _ _ _ _ H); [|intros i a b []].
  intros m0 [i l1] m1 H0 _ H1. refine (foldM_inv _ _ one_each _ _ _ _ _ H0 H1).
  intros m2 p m3 H2 _ H3. exact (match_level_one _ _ _ _ _ H2 H3).
Qed.

Lemma has_duplicates_none : forall rows, has_duplicates rows = false ->
  forall p q r, nth_error rows p = Some r -> nth_error rows q = Some r -> p = q.
Proof.
  induction rows as [|x rows IH]; intros H p q r Hp Hq; [destruct p; discriminate|].
  cbn [has_duplicates] in H. apply orb_false_iff in H as [H1 H2].
  assert (Hx : ~ In x rows).
  { intros Hi. assert (existsb (values_eqb x) rows = true); [|congruence].
    apply existsb_exists. exists x. split; [exact Hi|]. now apply values_eqb_spec. }
  destruct p as [|p], q as [|q]; cbn in Hp, Hq; try reflexivity.
  - injection Hp as <-. apply nth_error_In in Hq. contradiction.
  - injection Hq as <-. apply nth_error_In in Hp. contradiction.
  - f_equal. exact (IH H2 _ _ _ Hp Hq).
Qed.

Lemma align_refuses : forall x1 x2 junk idxs, well_formed x1 -> well_formed x2 ->
  map lv_values (levels_of x1) <> map lv_values (levels_of x2) ->
  align_index_to x1 x2 junk = Ok idxs ->
  (forall p q, p < index_len x1 -> q < index_len x1 ->
     (forall l1 l2, common_levels x1 x2 l1 l2 -> nth_error (lv_values l1) p = nth_error (lv_values l1) q) -> p = q) /\
  (forall l1 j l2 j' l2', nth_error (levels_of x2) j = Some l2 -> nth_error (levels_of x2) j' = Some l2' ->
     common_levels x1 x2 l1 l2 -> common_levels x1 x2 l1 l2' -> j = j') /\
  (exists l1 l2, common_levels x1 x2 l1 l2) /\
  (forall l1 l2, In l1 (levels_of x1) -> In l2 (levels_of x2) -> lv_name l1 = lv_name l2 -> lv_name l1 <> None ->
     common_levels x1 x2 l1 l2).
Proof.
  intros x1 x2 junk idxs Hw1 Hw2 Hne H. unfold align_index_to in H.
  destruct (levels_eqb (levels_of x1) (levels_of x2)) eqn:El; [apply levels_eqb_spec in El; contradiction|].
  destruct (match_levels (levels_of x1) (levels_of x2)) as [mapper|] eqn:Em; [|discriminate]. cbn [bind] in H.
  destruct mapper as [|m0 mapper]; [discriminate|]. set (M := m0 :: mapper) in *.
  apply raise_if_ok in H as [Hd H].
  set (c1 := map (fun p => lv_values (nth (fst p) (levels_of x1) (mkLevel None []))) M) in *.
  split; [|split; [|split]].
  - intros p q Hp Hq Hpq.
    apply (has_duplicates_none _ Hd p q (row_at c1 p)); [now apply rows_of_nth|].
    rewrite rows_of_nth by exact Hq. f_equal. unfold row_at, c1. rewrite !map_map.
    apply map_ext_in. intros [i j] HM. cbn [fst].
    apply (match_levels_ok _ _ _ Em) in HM. destruct HM as (l1 & l2 & Hi & Hj & Hn & Hs).
    rewrite (nth_error_nth _ _ _ Hi).
    assert (Hc : common_levels x1 x2 l1 l2).
    { split; [exact (nth_error_In _ _ Hi)|]. split; [exact (nth_error_In _ _ Hj)|]. split; assumption. }
    specialize (Hpq l1 l2 Hc).
    assert (Hl : length (lv_values l1) = index_len x1).
    { eapply Forall_forall in Hw1; [exact Hw1|exact (nth_error_In _ _ Hi)]. }
    rewrite (nth_error_nth' _ (LInt 0)), (nth_error_nth' _ (LInt 0)) in Hpq by lia. congruence.
  - intros l1 j l2 j' l2' Hj Hj' (Hi & _ & Hn & Hs) (_ & _ & Hn' & Hs').
    apply In_nth_error in Hi as [i Hi].
    apply (match_levels_one _ _ _ Em i).
    + apply (match_levels_ok _ _ _ Em). exists l1, l2. auto.
    + apply (match_levels_ok _ _ _ Em). exists l1, l2'. auto.
  - destruct m0 as [i j]. assert (HM : In (i, j) M) by (left; reflexivity).
    apply (match_levels_ok _ _ _ Em) in HM. destruct HM as (l1 & l2 & Hi & Hj & Hn & Hs).
    exists l1, l2. split; [exact (nth_error_In _ _ Hi)|]. split; [exact (nth_error_In _ _ Hj)|]. split; assumption.
  - intros l1 l2 H1 H2 Hn Hnn. split; [exact H1|]. split; [exact H2|]. split; [exact Hn|].
    apply subset_of_spec. destruct (subset_of (lv_values l2) (lv_values l1)) eqn:Es; [reflexivity|]. exfalso.
    unfold match_levels in Em. apply In_nth_error in H1 as [i Hi]. apply In_nth_error in H2 as [j Hj].
    assert (Q : forall qs m m', In (j, l2) qs -> foldM (match_level l1 i) m qs = Ok m' -> False).
    { induction qs as [|q qs IH]; intros m m' Hin Hf; [destruct Hin|]. cbn [foldM] in Hf.
      apply bind_ok in Hf as (m1 & Hm1 & Hf). destruct Hin as [->|Hin]; [|exact (IH _ _ Hin Hf)].
      unfold match_level in Hm1. rewrite (proj2 (name_eqb_spec _ _) Hn), Es in Hm1.
      apply raise_if_ok in Hm1 as [Hm1 _]. apply negb_false_iff in Hm1. apply name_eqb_spec in Hm1. congruence. }
    assert (R : forall ps m m', In (i, l1) ps ->
      foldM (fun mapper p => foldM (match_level (snd p) (fst p)) mapper
        (combine (seq 0 (length (levels_of x2))) (levels_of x2))) m ps = Ok m' -> False).
    { induction ps as [|q ps IH]; intros m m' Hin Hf; [destruct Hin|]. cbn [foldM] in Hf.
      apply bind_ok in Hf as (m1 & Hm1 & Hf). destruct Hin as [->|Hin]; [|exact (IH _ _ Hin Hf)].
      cbn [fst snd] in Hm1. refine (Q _ _ _ _ Hm1). apply combine_seq_in. rewrite Nat.sub_0_r. split; [lia|exact Hj]. }
    refine (R _ _ _ _ Em). apply combine_seq_in. rewrite Nat.sub_0_r. split; [lia|exact Hi].
Qed.
