(** * The call sequence used by a simulation (C16) *)
From Coq Require Import String ZArith Bool List Arith Lia Permutation Sorting.
From Verif Require Import Base Num Order OrdLaws CallSeq Simulate SimSpec SimLemmas SimLemmas2 CallSeqLemmas SimLemmas3 SimLemmas4.
Import ListNotations.
Open Scope list_scope.
Open Scope nat_scope.

Section SimLemmas5.
  Context {T : Type} {N : Num T}.
  Implicit Types (inp : Inputs T) (fl : Flags) (st : Sim T).

  Definition row_of (sq : nat -> nat -> nat) (i f len : nat) : list nat := map (fun k => sq i (f + k)) (seq 0 len).

  Lemma row_seq : forall sq i f len, row_of sq i f len = map (sq i) (seq f len).
  Proof.
    intros sq i f len. unfold row_of. rewrite <- (map_map (fun k => f + k) (sq i)). f_equal.
    replace (seq f len) with (seq (f + 0) len) by (f_equal; lia). generalize 0. induction len as [|len IH]; intros n; cbn; auto. f_equal.
    rewrite IH. f_equal. lia.
  Qed.

  Lemma row_ext : forall s1 s2 i f len, (forall k, k < len -> s1 i (f + k) = s2 i (f + k)) -> row_of s1 i f len = row_of s2 i f len.
  Proof. intros. apply map_ext_in. intros k Hk. apply in_seq in Hk. apply H. lia. Qed.

  Lemma bar_rows : forall draws inp fl sh g f len st i st',
    bar_step draws inp fl sh g f len st i = Ok st' ->
    forall i', Permutation (row_of (sm_seq st) i' f len) (row_of (sm_seq st') i' f len).
  Proof.
    intros draws inp fl sh g f len st i st' H i'.
    destruct (Nat.eq_dec i' i) as [->|Hn].
    - unfold bar_step in H. apply orders_fold in H as (a & _ & _ & _ & _ & S); [|intros k Hk; apply in_seq in Hk; lia].
      destruct (price_step_rc inp fl i (seq f len) st) as (_ & P2 & _).
      unfold row_of. rewrite S. rewrite <- P2. apply sort_row.
    - apply bar_orders in H as (a & _ & _ & _ & _ & S). erewrite row_ext; [apply Permutation_refl|].
      intros k _. symmetry. apply S. auto.
  Qed.

  Lemma groups_rows : forall draws inp fl sh nrows lens g from init st st',
    sim_groups draws inp fl sh nrows g from lens init st = Ok st' ->
    forall i k len, nth_error lens k = Some len ->
    Permutation (row_of (sm_seq st) i (from + sum_lens (firstn k lens)) len)
                (row_of (sm_seq st') i (from + sum_lens (firstn k lens)) len).
  Proof.
    intros draws inp fl sh nrows lens. induction lens as [|n lens IH]; intros g from init st st' H i k len Hk;
      [destruct k; discriminate|].
    cbn [sim_groups] in H. destruct (nth_error init g) as [c|]; [|discriminate].
    apply bind_ok in H as (m & H1 & H2). unfold sim_group in H1.
    pose proof (bars_one _ _ _ _ _ _ _ _ _ _ H1) as [K1 _].
    pose proof (groups_one _ _ _ _ _ _ _ _ _ _ _ H2) as [K2 _].
    destruct k as [|k].
    - cbn in Hk. injection Hk as ->. cbn [firstn sum_lens fold_right]. rewrite Nat.add_0_r.
      eapply perm_trans.
      + eapply (foldM_inv _ _ (fun s => Permutation (row_of (sm_seq st) i from len) (row_of (sm_seq s) i from len)));
          [| |exact H1]; [|apply Permutation_refl].
        intros s a s' HP _ E. eapply perm_trans; [exact HP|]. eapply bar_rows; eauto.
      + erewrite row_ext; [apply Permutation_refl|]. intros k Hk. symmetry. apply (kp_seq _ _ _ _ K2). left. lia.
    - cbn in Hk. cbn [firstn]. change (sum_lens (n :: firstn k lens)) with (n + sum_lens (firstn k lens)).
      rewrite Nat.add_assoc. eapply perm_trans; [|eapply IH; eauto].
      erewrite row_ext; [apply Permutation_refl|]. intros j Hj. symmetry. apply (kp_seq _ _ _ _ K1). right. lia.
  Qed.

  Lemma sim_rows_permuted : forall draws rng nrows ncols lens init inp fl mo ml o l s,
    simulate_from_orders_nb draws rng nrows ncols lens init inp fl mo ml = Ok (o, l, s) ->
    forall i g len, nth_error lens g = Some len ->
    Permutation (map (in_call_seq inp i) (seq (sum_lens (firstn g lens)) len))
                (map (s i) (seq (sum_lens (firstn g lens)) len)).
  Proof.
    intros draws rng nrows ncols lens init inp fl mo ml o l s H i g len Hg. unfold simulate_from_orders_nb in H.
    apply raise_if_ok in H as [_ H]. apply raise_if_ok in H as [_ H].
    apply bind_ok in H as (m & H & E). injection E as <- <- <-.
    rewrite <- !row_seq. eapply groups_rows in H; eauto.
  Qed.

  (** The approximate order value of a column at the start of a bar *)
  Definition order_value_of inp i st f len col : T :=
    approx_order_value_nb (in_size inp i col) (in_size_type inp i col) (in_direction inp i col)
      (sm_cash st) (sm_pos st col) (sm_free st) (sm_vp st col)
      (get_group_value_nb f len (sm_cash st) (sm_pos st) (sm_vp st)).

  Lemma sort_step_sorted : forall {L : OrdLaws N} inp fl i f len st,
    auto_call_seq fl = true -> (forall k, k < len -> sm_seq st i (f + k) = k) ->
    let cols := map (fun k => f + sm_seq (sort_step inp fl true i f len st) i (f + k)) (seq 0 len) in
    Permutation (seq f len) cols /\
    ForallOrdPairs (fun c1 c2 => isnan (order_value_of inp i st f len c2) = true \/
      leb (order_value_of inp i st f len c1) (order_value_of inp i st f len c2) = true) cols.
  Proof.
    intros L inp fl i f len st Ha Hd.
    assert (E0 : map (fun k => sm_seq st i (f + k)) (seq 0 len) = seq 0 len).
    { rewrite <- (map_id (seq 0 len)) at 2. apply map_ext_in. intros k Hk. apply in_seq in Hk. apply Hd. lia. }
    cbn zeta. rewrite <- (map_map (fun k => sm_seq _ i (f + k)) (fun x => f + x)).
    split.
    - assert (Es : seq f len = map (fun x => f + x) (seq 0 len)).
      { pose proof (row_seq (fun _ x => x) 0 f len) as R. unfold row_of in R. rewrite R. symmetry. apply map_id. }
      rewrite Es. apply Permutation_map. rewrite <- E0 at 1. apply sort_row.
    - unfold sort_step. rewrite Ha. cbn [sm_seq].
      match goal with |- context [insert_argsort_nb ?p] => set (pairs := p) end.
      assert (Lp : length (map snd (insert_argsort_nb pairs)) = len).
      { rewrite map_length, argsort_length. unfold pairs. rewrite map_length, seq_length. auto. }
      assert (E : map (fun k => set_slice (sm_seq st) i f (map snd (insert_argsort_nb pairs)) i (f + k)) (seq 0 len)
                = map snd (insert_argsort_nb pairs)).
      { apply nth_ext with (d := 0) (d' := 0).
        - rewrite map_length, seq_length. auto.
        - intros n Hn. rewrite map_length, seq_length in Hn.
          set (F := fun k => set_slice (sm_seq st) i f (map snd (insert_argsort_nb pairs)) i (f + k)).
          rewrite (nth_indep (map F (seq 0 len)) 0 (F 0)) by (rewrite map_length, seq_length; auto).
          rewrite map_nth. unfold F. rewrite seq_nth by auto. cbn [Nat.add]. unfold set_slice.
          rewrite Nat.eqb_refl, Lp. rewrite (proj2 (Nat.leb_le f (f + n))) by lia.
          rewrite (proj2 (Nat.ltb_lt (f + n) (f + len))) by lia. cbn [andb].
          f_equal. lia. }
      rewrite E, map_map.
      assert (V : Forall (fun p => fst p = order_value_of inp i st f len (f + snd p)) (insert_argsort_nb pairs)).
      { eapply Permutation_Forall; [apply argsort_perm|]. unfold pairs. apply Forall_forall. intros p Hp.
        apply in_map_iff in Hp as (k & <- & Hk). apply in_seq in Hk. cbn [fst snd].
        rewrite Hd by lia. reflexivity. }
      pose proof (argsort_sorted pairs) as S. clear E Lp. revert V S. generalize (insert_argsort_nb pairs). intros res V S.
      induction S as [|p l Hp S IH]; cbn [map]; constructor.
      + inversion V as [|? ? V1 V2]; subst. rewrite Forall_map. rewrite Forall_forall in *. intros q Hq.
        specialize (Hp q Hq). specialize (V2 q Hq). rewrite <- V1, <- V2. exact Hp.
      + apply IH. inversion V; auto.
  Qed.
End SimLemmas5.
