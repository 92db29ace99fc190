(** * Simulation with callbacks: flexible order functions that follow the call sequence *)
From Coq Require Import String ZArith Bool List Arith Lia.
From Verif Require Import Base Num Order OrderGen CallSeq Account Simulate SimSpec ReturnsNb OrderFunc OrderFuncSpec OrderFuncLemmas OrderFuncLemmas2 OrderFuncLemmas3.
Import ListNotations.
Open Scope list_scope.

Section Following.
  Context {T : Type} {N : Num T} {U A0 A1 A2 : Type}.
  Variables (draws : nat -> T) (op : FOpts T) (cb : Callbacks T U A0 A1 A2) (no_order : Order T).
  Notation cb' := (following cb no_order).
  Hypothesis HF : full_call_seq cb.
  Hypothesis HV : valid_call_seq cb.

  Lemma process_following : forall a calls g i col k o st u,
    process_step draws op cb' (a, calls) g i col k o st u = process_step draws op cb a g i col k o st u.
  Proof. reflexivity. Qed.
  Lemma process_seq : forall a g i col k o st u st' u', process_step draws op cb a g i col k o st u = Ok (st', u') -> fs_seq st' = fs_seq st.
  Proof.
    intros a g i col k o st u st' u' H. unfold process_step in H.
    apply bind_ok in H as ([[r s'] rc'] & _ & H). apply bind_ok in H as (st1 & H2 & H). apply bind_ok in H as (u1 & _ & H).
    inversion H; subst. unfold store_order in H2. apply bind_ok in H2 as (rec' & _ & H2). inversion H2; subst. reflexivity.
  Qed.

  Lemma flex_following : forall a calls g i n fuel k st u,
    (k + n = sg_len g)%nat -> n <= fuel -> List.length calls = sg_len g -> Forall (fun c => c < sg_len g) calls ->
    (forall j, j < sg_len g -> fs_seq st i (sg_from g + j) = nth j calls 0) ->
    flex_loop draws op cb' (a, calls) g i fuel k st u = Some (foldM (call_step draws op cb a g i) (st, u) (seq k n)).
  Proof.
    intros a calls g i n. induction n as [|n IH]; intros fuel k st u Hk Hf Hl Hv Hq.
    - destruct fuel; cbn [flex_loop following cb_flex_order]; rewrite (proj2 (Nat.ltb_ge _ _)) by lia; reflexivity.
    - destruct fuel as [|fuel]; [lia|]. cbn [flex_loop following cb_flex_order seq foldM].
      rewrite (proj2 (Nat.ltb_lt _ _)) by lia. unfold call_step at 1. rewrite Hq by lia.
      assert (Hc : nth k calls 0 < sg_len g) by (rewrite Forall_forall in Hv; apply Hv, nth_In; lia).
      rewrite (proj2 (Nat.leb_gt _ _)) by lia. cbn [raise_if].
      destruct (cb_order cb a g i (sg_from g + nth k calls 0) k st u) as [[o u1]|e]; cbn [bind]; [|reflexivity].
      rewrite (proj2 (Nat.ltb_ge _ _)), (proj2 (Nat.leb_gt _ _)) by lia. cbn [orb].
      rewrite process_following. destruct (process_step _ _ _ _ _ _ _ _ _ _ _) as [[st1 u2]|e] eqn:Ep; cbn [bind]; [|reflexivity].
      apply IH; auto; [lia|lia|]. intros j Hj. rewrite (process_seq _ _ _ _ _ _ _ _ _ _ Ep). auto.
  Qed.

  Lemma segment_following : forall fuel a g i su, sg_len g <= fuel ->
    segment draws op cb' (Flexible fuel) a g i su = segment draws op cb ByCallSeq a g i su.
  Proof.
    intros fuel a g i [st u] Hf. unfold segment. cbn [following cb_pre_segment cb_post_segment].
    destruct (fo_mask op i (sg_group g)) eqn:Em.
    - rewrite orb_true_r. destruct (cb_pre_segment cb a g i st u) as [[[[a2 vp] calls] u1]|e] eqn:Ep; cbn [bind]; [|reflexivity].
      pose proof (HF _ _ _ _ _ _ _ _ _ Ep) as Hl. pose proof (HV _ _ _ _ _ _ _ _ _ Ep) as Hv.
      destruct (open_stats op g (take_segment g i vp calls st)) as [st2|e] eqn:Eo; cbn [bind]; [|reflexivity].
      unfold orders_of_segment. rewrite (flex_following a2 calls g i (sg_len g) fuel 0); auto.
      intros j Hj. rewrite revalue_seq. apply open_stats_keeps in Eo as (r & ->). cbn [with_recs take_segment with_vp_seq fs_seq].
      rewrite firstn_all2 by lia. pose proof (set_slice_read (fs_seq st) i (sg_from g) calls) as Hr.
      rewrite <- Hr at 2. rewrite (nth_indep _ 0 (set_slice (fs_seq st) i (sg_from g) calls i (sg_from g + 0))) by (rewrite map_length, seq_length; lia).
      rewrite (map_nth (fun j => set_slice (fs_seq st) i (sg_from g) calls i (sg_from g + j))), seq_nth by lia. reflexivity.
    - destruct (fo_call_pre op); cbn [orb]; [|reflexivity].
      destruct (cb_pre_segment cb a g i st u) as [[[[a2 vp] calls] u1]|e]; cbn [bind]; reflexivity.
  Qed.

  Lemma columns_following : forall fuel nrows ncols lens cash init u, Forall (fun n => n <= fuel) lens ->
    simulate_nb draws op cb' (Flexible fuel) nrows ncols lens cash init u = simulate_nb draws op cb ByCallSeq nrows ncols lens cash init u.
  Proof.
    intros fuel nrows ncols lens cash init u Hf. unfold simulate_nb. cbn [following cb_pre_sim cb_post_sim].
    assert (Hg : forall a0 su g, In g (segs 0 0 lens) -> group_run draws op cb' (Flexible fuel) nrows a0 su g = group_run draws op cb ByCallSeq nrows a0 su g).
    { intros a0 [st u0] g Hg. assert (Hlen : sg_len g <= fuel).
      { revert Hg Hf. generalize 0 at 1. generalize 0. induction lens as [|n l IH]; intros f k Hg Hf; cbn in Hg; [contradiction|].
        inversion Hf; subst. destruct Hg as [<-|Hg]; [exact H1|]. exact (IH _ _ Hg H2). }
      unfold group_run. cbn [following cb_pre_group cb_post_group]. destruct (cb_pre_group cb a0 g st u0) as [[a1 u1]|e]; cbn [bind]; [|reflexivity].
      rewrite (foldM_ext_in _ (fun su i => segment draws op cb ByCallSeq a1 g i su)); [reflexivity|]. intros b i _. apply segment_following. exact Hlen. }
    unfold check_groups. destruct (negb _); cbn [raise_if]; [reflexivity|]. destruct (negb _); cbn [raise_if]; [reflexivity|].
    destruct (cb_pre_sim cb init u) as [[a0 u1]|e]; cbn [bind]; [|reflexivity].
    rewrite (foldM_ext_in _ (group_run draws op cb ByCallSeq nrows a0)) by (intros b g H; apply Hg; exact H). reflexivity.
  Qed.

  Lemma rows_following : forall fuel nrows ncols lens cash init u, Forall (fun n => n <= fuel) lens ->
    simulate_row_wise_nb draws op cb' (Flexible fuel) nrows ncols lens cash init u = simulate_row_wise_nb draws op cb ByCallSeq nrows ncols lens cash init u.
  Proof.
    intros fuel nrows ncols lens cash init u Hf. unfold simulate_row_wise_nb. cbn [following cb_pre_sim cb_post_sim].
    assert (Hlen : forall g, In g (segs 0 0 lens) -> sg_len g <= fuel).
    { revert Hf. generalize 0 at 1. generalize 0. induction lens as [|n l IH]; intros f k Hf g Hg; cbn in Hg; [contradiction|].
      inversion Hf; subst. destruct Hg as [<-|Hg]; [exact H1|]. exact (IH _ _ H2 g Hg). }
    assert (Hr : forall a0 su i, row_run draws op cb' (Flexible fuel) (segs 0 0 lens) a0 su i = row_run draws op cb ByCallSeq (segs 0 0 lens) a0 su i).
    { intros a0 [st u0] i. unfold row_run. cbn [following cb_pre_row cb_post_row]. destruct (cb_pre_row cb a0 i st u0) as [[a1 u1]|e]; cbn [bind]; [|reflexivity].
      rewrite (foldM_ext_in _ (fun su g => segment draws op cb ByCallSeq a1 g i su)); [reflexivity|]. intros b g Hg. apply segment_following. exact (Hlen g Hg). }
    unfold check_groups. destruct (negb _); cbn [raise_if]; [reflexivity|]. destruct (negb _); cbn [raise_if]; [reflexivity|].
    destruct (cb_pre_sim cb init u) as [[a0 u1]|e]; cbn [bind]; [|reflexivity].
    rewrite (foldM_ext_in _ (row_run draws op cb ByCallSeq (segs 0 0 lens) a0)) by (intros b i _; apply Hr). reflexivity.
  Qed.
End Following.
