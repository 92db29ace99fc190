(** * The Rust kernels for records against the Numba ones: records, sorting,
    expansion and counting *)
From Coq Require Import String ZArith Bool List Arith Lia.
From Verif Require Import Base Num GenericNb RecordsNb RecordsSpec RecordsLemmas RecordsLemmas2 RecordsLemmas3 RecordsLemmas4 RustRecords RustRecordsLemmas.
Import ListNotations.
Open Scope list_scope.

(** ** Records *)
Section Recs.
  Context {A : Type} (set_col : nat -> A -> A) (d : A).

  Let piece (col_arr : list nat) (memory : list A) (ic : nat * nat) : list A :=
    map (set_col (fst ic)) (values_of d (snd ic) col_arr memory).

  Lemma piece_length : forall col_arr memory ic, List.length (piece col_arr memory ic) = List.length (rows_of (snd ic) col_arr).
  Proof. intros. unfold piece. rewrite map_length, values_of_length. reflexivity. Qed.

  Lemma pieces_run : forall col_arr memory n new_cols total mem (step : list A * nat -> nat * nat -> list A * nat),
    cols_below n new_cols -> total = list_sum (map (fun c => List.length (rows_of c col_arr)) new_cols) ->
    (forall o j i c, c < n -> j + List.length (rows_of c col_arr) <= List.length o ->
      step (o, j) (i, c) = (put o j (piece col_arr memory (i, c)), j + List.length (rows_of c col_arr))) ->
    fst (fold_left step (numbered_cols new_cols) (np_empty mem total, 0)) = selected set_col d col_arr memory new_cols.
  Proof.
    intros col_arr memory n new_cols total mem step Hn -> Hstep.
    assert (Hsz : list_sum (map (fun c => List.length (rows_of c col_arr)) new_cols) = list_sum (map (fun ic => List.length (piece col_arr memory ic)) (numbered_cols new_cols))).
    { rewrite <- (map_snd_numbered _ (fun c => List.length (rows_of c col_arr))). f_equal. apply map_ext. intros. rewrite piece_length. reflexivity. }
    rewrite Hsz.
    rewrite (fold_left_ext_inv _ _ (fun s l => let '(o, j) := s in List.length o = j + list_sum (map (fun ic => List.length (piece col_arr memory ic)) l) /\
        Forall (fun ic => snd ic < n) l) step
      (fun s ic => let '(o, j) := s in (put o j (piece col_arr memory ic), j + List.length (piece col_arr memory ic)))).
    - rewrite put_run1 by (rewrite np_empty_length; auto). reflexivity.
    - intros [o j] [i c] l (L & F). inversion F as [|? ? Hc F' E1]; subst. cbn [snd] in Hc.
      cbn [map list_sum fold_right] in L. change (fold_right Nat.add 0) with list_sum in L. pose proof (piece_length col_arr memory (i, c)) as Lp. cbn [snd] in Lp.
      split.
      + rewrite Hstep by (auto; lia). rewrite Lp. reflexivity.
      + rewrite put_length by lia. split; [lia|auto].
    - rewrite np_empty_length. split; auto. apply Forall_forall. intros [i c] Hic. apply in_numbered in Hic.
      unfold cols_below in Hn. rewrite Forall_forall in Hn. apply Hn. auto.
  Qed.

  Lemma take_slice : forall memory a n, a + n <= List.length memory -> slice a (a + n) memory = take d memory (seq a n).
  Proof. intros memory a n H. rewrite (slice_rows d) by auto. replace (a + n - a) with n by lia. reflexivity. Qed.

  Lemma r_record_range : forall mem col_arr n rg memory new_cols, List.length col_arr <= List.length memory ->
    (forall c, c < n -> range_says col_arr c (nth c rg (-1, -1)%Z)) -> cols_below n new_cols ->
    r_record_col_range_select set_col d mem memory (flat_pairs rg) new_cols = selected set_col d col_arr memory new_cols.
  Proof.
    intros mem col_arr n rg memory new_cols Hlen Hs Hn. unfold r_record_col_range_select. fold (numbered_cols new_cols).
    apply (pieces_run col_arr memory n); auto; [apply (r_range_total col_arr n); auto|].
    intros o j i c Hc Hj. rewrite flat_nth0, flat_nth1. specialize (Hs c Hc). destruct (arange_says col_arr c _ Hs) as (A1 & A2 & A3).
    rewrite A1, A2, Nat2Z.id. unfold piece. cbn [fst snd].
    destruct (Nat.eqb_spec (List.length (rows_of c col_arr)) 0) as [E0|E0].
    - unfold values_of. apply length_zero_iff_nil in E0. rewrite E0. cbn [List.length map]. rewrite put_nil, Nat.add_0_r. reflexivity.
    - specialize (A3 E0). unfold arange in A3. rewrite A2, Nat2Z.id in A3. set (a := Z.to_nat _) in *.
      set (m := List.length (rows_of c col_arr)) in *.
      assert (Hb : a + m <= List.length memory).
      { assert (Hin : In (a + m - 1) (rows_of c col_arr)) by (rewrite <- A3; apply in_seq; lia). apply rows_of_in in Hin. lia. }
      rewrite take_slice by auto. f_equal. unfold values_of. rewrite <- A3.
      change (map (fun r => nth r memory d) (seq a m)) with (take d memory (seq a m)).
      assert (Lt : List.length (take d memory (seq a m)) = m) by (unfold take; rewrite map_length, seq_length; reflexivity).
      rewrite <- Lt at 1. apply patch_put. lia.
  Qed.

  Lemma contiguous_seq : forall l e, contiguous_from e l = true -> l = seq e (List.length l).
  Proof.
    induction l as [|x l IH]; intros e H; cbn in *; auto. destruct (Nat.eqb_spec x e) as [->|]; [|discriminate]. cbn [negb] in H.
    f_equal. rewrite Nat.add_1_r in H. auto.
  Qed.

  Lemma copy_each : forall v memory l o j, j + List.length l <= List.length o ->
    fold_left (fun s src => (upd (fst s) (snd s) (set_col v (nth src memory d)), snd s + 1)) l (o, j) =
    (put o j (map (set_col v) (take d memory l)), j + List.length l).
  Proof.
    intros v memory l. induction l as [|x l IH] using rev_ind; intros o j H.
    - cbn. rewrite put_nil, Nat.add_0_r. reflexivity.
    - rewrite app_length in H |- *. cbn [List.length] in H |- *. rewrite fold_left_app, IH by lia. cbn [fold_left fst snd]. f_equal; [|lia].
      unfold take. rewrite !map_app. cbn [map].
      replace (j + List.length l) with (j + List.length (map (set_col v) (map (fun i => nth i memory d) l))) by (rewrite !map_length; reflexivity).
      apply put_snoc. rewrite !map_length. lia.
  Qed.

  Lemma r_record_map : forall mem mem' col_arr n memory new_cols, List.length col_arr <= List.length memory ->
    cols_below n col_arr -> cols_below n new_cols ->
    r_record_col_map_select set_col d mem' memory (fst (col_map_nb mem col_arr n)) (snd (col_map_nb mem col_arr n)) new_cols =
    selected set_col d col_arr memory new_cols.
  Proof.
    intros mem mem' col_arr n memory new_cols Hlen H Hn. unfold r_record_col_map_select. fold (numbered_cols new_cols). cbv zeta.
    apply (pieces_run col_arr memory n); auto; [rewrite r_map_total; apply (select_total mem col_arr n); auto|].
    intros o j i c Hc Hj. cbv iota beta. rewrite r_starts.
    pose proof (col_map_seg mem col_arr n c H Hc) as Eseg. pose proof (col_map_len mem col_arr n c H Hc) as Elen.
    unfold col_len in Elen. unfold col_seg in Eseg. destruct (col_map_nb mem col_arr n) as [idxs lens]. cbn [fst snd] in *.
    rewrite Elen in *. rewrite Eseg. unfold piece. cbn [fst snd]. change (values_of d c col_arr memory) with (take d memory (rows_of c col_arr)).
    set (m := List.length (rows_of c col_arr)) in *.
    destruct (Nat.eqb_spec m 0) as [E0|E0].
    - apply length_zero_iff_nil in E0. subst m. rewrite E0. cbn [List.length map take]. rewrite put_nil, Nat.add_0_r. reflexivity.
    - destruct (is_contiguous_indices (rows_of c col_arr)) eqn:Ec.
      + assert (Es : rows_of c col_arr = seq (nth 0 (rows_of c col_arr) 0) m).
        { unfold is_contiguous_indices in Ec. destruct (rows_of c col_arr) as [|x l] eqn:Er; [subst m; cbn in E0; lia|].
          apply contiguous_seq in Ec. exact Ec. }
        set (a := nth 0 (rows_of c col_arr) 0) in *.
        assert (Hb : a + m <= List.length memory).
        { assert (Hin : In (a + m - 1) (rows_of c col_arr)) by (rewrite Es; apply in_seq; lia). apply rows_of_in in Hin. lia. }
        rewrite take_slice by auto. rewrite <- Es. f_equal.
        assert (Lt : List.length (take d memory (rows_of c col_arr)) = m) by (unfold take; rewrite map_length; reflexivity).
        rewrite <- Lt at 1. apply patch_put. lia.
      + rewrite copy_each by auto. reflexivity.
  Qed.

  Lemma selected_strided : forall col_arr memory new_cols,
    selected set_col d col_arr (strided d memory 1 (List.length col_arr)) new_cols = selected set_col d col_arr memory new_cols.
  Proof.
    intros col_arr memory new_cols. unfold selected. f_equal. apply map_ext. intros [i c]. cbn [fst snd]. f_equal. unfold values_of. apply map_ext_in.
    intros r Hr. apply rows_of_in in Hr. unfold strided. rewrite (nth_map_seq _ (fun i => nth (i * 1) memory d)) by lia. rewrite Nat.mul_1_r. reflexivity.
  Qed.
End Recs.

(** ** Sortedness *)
Lemma r_sorted_eq : forall l, r_is_col_sorted l = is_col_sorted_nb l.
Proof.
  intros [|a l]; auto. unfold r_is_col_sorted. revert a. induction l as [|b l IH]; intros a; auto.
  cbn [r_sorted_from]. change (is_col_sorted_nb (a :: b :: l)) with (if Nat.ltb b a then false else is_col_sorted_nb (b :: l)).
  rewrite <- IH. reflexivity.
Qed.

Lemma r_idx_sorted_eq : forall cols ids, List.length cols = List.length ids -> r_is_col_idx_sorted cols ids = is_col_idx_sorted_nb (combine cols ids).
Proof.
  intros [|c0 l] [|i0 ids] H; cbn in H; try lia; auto. unfold r_is_col_idx_sorted. cbn [nth].
  assert (G : forall l ids pre c i, List.length l = List.length ids ->
    r_idx_sorted_from (pre ++ ids) (List.length pre) c i l = is_col_idx_sorted_nb (combine (c :: l) (i :: ids))).
  { clear. induction l as [|b l IH]; intros [|y ids] pre c i H; cbn in H; try lia; auto.
    cbn [r_idx_sorted_from]. rewrite app_nth2, Nat.sub_diag by lia. cbn [nth].
    change (is_col_idx_sorted_nb (combine (c :: b :: l) (i :: y :: ids))) with
      (if Nat.ltb b c then false else if Nat.eqb b c && Nat.ltb y i then false else is_col_idx_sorted_nb (combine (b :: l) (y :: ids))).
    rewrite <- (IH ids (pre ++ [y]) b y) by lia. rewrite <- app_assoc, app_length. reflexivity. }
  apply (G l ids [i0] c0 i0). lia.
Qed.

(** ** Flat matrices *)
Lemma shaped_forall : forall A nr nc (m : list (list A)), shaped nr nc m -> List.length m = nr /\ Forall (fun r => List.length r = nc) m.
Proof.
  intros A nr nc m (H1 & H2). split; auto. apply Forall_forall. intros r Hr. destruct (In_nth m r [] Hr) as (i & Hi & <-). apply H2. lia.
Qed.

Lemma upd_app1 : forall A (a b : list A) i v, i < List.length a -> upd (a ++ b) i v = upd a i v ++ b.
Proof. induction a as [|x a IH]; intros b [|i] v H; cbn in *; try lia; auto. f_equal. apply IH. lia. Qed.
Lemma upd_app2 : forall A (a b : list A) i v, upd (a ++ b) (List.length a + i) v = a ++ upd b i v.
Proof. induction a as [|x a IH]; intros b i v; cbn; auto. f_equal. apply IH. Qed.

Lemma flat_set : forall A nc (m : list (list A)) i c v, Forall (fun r => List.length r = nc) m -> c < nc ->
  upd (concat m) (i * nc + c) v = concat (mset m i c v).
Proof.
  intros A nc m i c v H Hc. unfold mset. revert i. induction H as [|r m Hr Hm IH]; intros i.
  - cbn. destruct (i * nc + c); reflexivity.
  - destruct i as [|i]; cbn [concat upd nth Nat.mul Nat.add].
    + rewrite upd_app1 by lia. reflexivity.
    + rewrite <- Nat.add_assoc. rewrite <- Hr at 1. rewrite upd_app2. f_equal. apply IH.
Qed.

Lemma flat_get : forall A nc (m : list (list A)) i c d, Forall (fun r => List.length r = nc) m -> c < nc ->
  nth (i * nc + c) (concat m) d = mget d m i c.
Proof.
  intros A nc m i c d H Hc. unfold mget. revert i. induction H as [|r m Hr Hm IH]; intros i.
  - cbn. destruct (i * nc + c), i, c; reflexivity.
  - destruct i as [|i]; cbn [concat nth Nat.mul Nat.add].
    + apply app_nth1. lia.
    + rewrite <- Nat.add_assoc. rewrite app_nth2 by lia. replace (nc + (i * nc + c) - List.length r) with (i * nc + c) by lia. apply IH.
Qed.

Lemma flat_full : forall A nr nc (v : A), repeat v (nr * nc) = concat (mfull nr nc v).
Proof. intros A nr nc v. unfold mfull. induction nr as [|n IH]; cbn; auto. rewrite repeat_app. f_equal. auto. Qed.

Lemma rows_concat : forall A nr nc (m : list (list A)), shaped nr nc m -> rows_from nr nc (concat m) = m.
Proof.
  intros A nr nc m H. apply shaped_forall in H. destruct H as (<- & H). unfold rows_from.
  induction H as [|r m Hr Hm IH]; cbn [List.length seq map concat]; auto. f_equal.
  - cbn [Nat.mul Nat.add]. unfold slice. cbn [skipn]. rewrite <- Hr. rewrite firstn_app, firstn_all, Nat.sub_diag. cbn. apply app_nil_r.
  - rewrite <- IH at 2. rewrite <- seq_shift, map_map. apply map_ext. intros i. unfold slice. cbn [Nat.mul].
    replace (nc + i * nc + nc) with (List.length r + (i * nc + nc)) by lia. replace (nc + i * nc) with (List.length r + i * nc) by lia.
    rewrite firstn_app, firstn_all2 by lia. replace (List.length r + (i * nc + nc) - List.length r) with (i * nc + nc) by lia.
    rewrite skipn_app, skipn_all2 by lia. replace (List.length r + i * nc - List.length r) with (i * nc) by lia. reflexivity.
Qed.

(** ** Expansion *)
Lemma r_expandable_eq : forall nr nc cells, cells_in nr nc cells -> r_is_mapped_expandable cells nr nc = is_mapped_expandable_nb cells nr nc.
Proof.
  intros nr nc cells H. unfold r_is_mapped_expandable, is_mapped_expandable_nb. rewrite flat_full.
  assert (G : forall temp, shaped nr nc temp -> r_expandable_from nc (concat temp) cells = expandable_from temp cells).
  { induction H as [|[i c] cells (Hi & Hc) Hcs IH]; intros temp Ht; cbn [r_expandable_from expandable_from]; auto. cbn [fst snd] in *.
    pose proof (proj2 (shaped_forall _ _ _ _ Ht)) as F. rewrite flat_get by auto. destruct (mget false temp i c); auto.
    rewrite flat_set by auto. apply IH. apply mset_shaped. auto. }
  apply G. apply mfull_shaped.
Qed.

Lemma expand_shaped : forall B nr nc (l : list (B * (nat * nat))) m, shaped nr nc m -> Forall (fun vc => snd (snd vc) < nc) l ->
  fold_left (fun dst vc => upd dst (fst (snd vc) * nc + snd (snd vc)) (fst vc)) l (concat m) =
  concat (fold_left (fun out vc => mset out (fst (snd vc)) (snd (snd vc)) (fst vc)) l m) /\
  shaped nr nc (fold_left (fun out vc => mset out (fst (snd vc)) (snd (snd vc)) (fst vc)) l m).
Proof.
  intros B nr nc l. induction l as [|[v [i c]] l IH]; intros m Hm F; cbn [fold_left]; auto. inversion F as [|? ? Hc F' E1]; subst. cbn [fst snd] in *.
  rewrite flat_set by (auto; apply (shaped_forall _ nr nc m Hm)). apply IH; auto. apply mset_shaped. auto.
Qed.

Lemma r_expand_eq : forall B nr nc (vals : list B) cells fill, cells_in nr nc cells ->
  rows_from nr nc (r_expand_mapped vals cells nr nc fill) = expand_mapped_nb vals cells nr nc fill.
Proof.
  intros B nr nc vals cells fill H. unfold r_expand_mapped, expand_mapped_nb. rewrite flat_full.
  destruct (expand_shaped B nr nc (combine vals cells) (mfull nr nc fill) (mfull_shaped _ _ _ _)) as (E & S).
  { apply Forall_forall. intros [v p] Hin. apply in_combine_r in Hin. unfold cells_in in H. rewrite Forall_forall in H. apply H in Hin. apply Hin. }
  rewrite E. apply rows_concat. auto.
Qed.

(** The segments of the column map fit the list of records. *)
Lemma seg_nth : forall cm col k, list_sum (snd cm) = List.length (fst cm) -> col < List.length (snd cm) -> k < col_len cm col ->
  nth k (col_seg cm col) 0 = nth (nth col (start_idxs (snd cm)) 0 + k) (fst cm) 0.
Proof.
  intros [idxs lens] col k H Hc Hk. unfold col_seg, col_len in *. cbn [fst snd] in *. apply slice_nth; [lia|].
  rewrite start_idxs_nth by auto. rewrite <- sum_to_S by auto. rewrite <- H, <- sum_to_all. apply sum_to_mono. lia.
Qed.
Lemma seg_length : forall cm col, list_sum (snd cm) = List.length (fst cm) -> col < List.length (snd cm) ->
  List.length (col_seg cm col) = col_len cm col.
Proof.
  intros [idxs lens] col H Hc. unfold col_seg, col_len. cbn [fst snd] in *. rewrite slice_length; [lia|].
  rewrite start_idxs_nth by auto. rewrite <- sum_to_S by auto. rewrite <- H, <- sum_to_all. apply sum_to_mono. lia.
Qed.
Lemma seg_map : forall cm col, list_sum (snd cm) = List.length (fst cm) -> col < List.length (snd cm) ->
  col_seg cm col = map (fun k => nth (nth col (start_idxs (snd cm)) 0 + k) (fst cm) 0) (seq 0 (col_len cm col)).
Proof.
  intros cm col H Hc. apply (nth_ext _ _ 0 0).
  - rewrite map_length, seq_length. apply seg_length; auto.
  - rewrite seg_length by auto. intros k Hk. rewrite (nth_map_seq _ (fun k => nth (nth col (start_idxs (snd cm)) 0 + k) (fst cm) 0)) by auto. apply seg_nth; auto.
Qed.

Lemma stack_head : forall lens,
  fold_left (fun s i =>
      let '(starts, max_len) := s in
      let starts := if Nat.ltb 0 i then upd starts i (nth (i - 1) starts 0 + nth (i - 1) lens 0) else starts in
      let cl := nth i lens 0 in
      (starts, if Nat.ltb max_len cl then cl else max_len)) (seq 0 (List.length lens)) (repeat 0 (List.length lens), 0) =
  (start_idxs lens, fold_left Nat.max lens 0).
Proof.
  intros lens.
  set (f := fun (s : list nat) i => if Nat.ltb 0 i then upd s i (nth (i - 1) s 0 + nth (i - 1) lens 0) else s).
  set (g := fun m i => if Nat.ltb m (nth i lens 0) then nth i lens 0 else m).
  transitivity (fold_left (fun s i => (f (fst s) i, g (snd s) i)) (seq 0 (List.length lens)) (repeat 0 (List.length lens), 0)).
  { apply fold_left_ext_in. intros [st mx] i _. reflexivity. }
  rewrite fold_pair. f_equal.
  - rewrite <- r_starts. unfold r_start_idxs. destruct (List.length lens) as [|n] eqn:E; [reflexivity|].
    rewrite Nat.sub_succ, Nat.sub_0_r. cbn [seq fold_left]. change (f (repeat 0 (S n)) 0) with (repeat 0 (S n)).
    apply fold_left_ext_in. intros s i Hi. apply in_seq in Hi. unfold f. destruct (Nat.ltb_spec 0 i); auto; lia.
  - assert (E : lens = map (fun i => nth i lens 0) (seq 0 (List.length lens))).
    { apply (nth_ext _ _ 0 0); [rewrite map_length, seq_length; auto|]. intros k Hk. rewrite (nth_map_seq _ (fun i => nth i lens 0)) by auto. auto. }
    rewrite E at 2. rewrite fold_left_map. apply fold_left_ext_in. intros m i _. unfold g. destruct (Nat.ltb_spec m (nth i lens 0)); lia.
Qed.

Lemma combine_map_r : forall A B C (f : B -> C) (a : list A) (b : list B), combine a (map f b) = map (fun p => (fst p, f (snd p))) (combine a b).
Proof. induction a as [|x a IH]; intros [|y b]; cbn; auto. f_equal. auto. Qed.
Lemma combine_diag : forall A (l : list A), combine l l = map (fun x => (x, x)) l.
Proof. induction l as [|x l IH]; cbn; auto. f_equal. auto. Qed.

Lemma r_stack_eq : forall B (d : B) vals cm fill, list_sum (snd cm) = List.length (fst cm) ->
  let out := r_stack_expand_mapped d vals (fst cm) (snd cm) fill in
  rows_from (fst out) (List.length (snd cm)) (snd out) = stack_expand_mapped_nb d vals cm fill.
Proof.
  intros B d vals cm fill H. unfold r_stack_expand_mapped, stack_expand_mapped_nb. cbv zeta. rewrite stack_head. cbn [fst snd].
  set (lens := snd cm) in *. set (height := fold_left Nat.max lens 0). set (nc := List.length lens). rewrite flat_full.
  assert (G : forall cols m, (forall c, In c cols -> c < nc) -> shaped height nc m ->
    fold_left (fun dst col => if Nat.eqb (nth col lens 0) 0 then dst else
      fold_left (fun dst k => upd dst (k * nc + col) (nth (nth (nth col (start_idxs lens) 0 + k) (fst cm) 0) vals d)) (seq 0 (nth col lens 0)) dst) cols (concat m) =
    concat (fold_left (fun out col => if Nat.eqb (col_len cm col) 0 then out
      else fold_left (fun o kv => mset o (fst kv) col (snd kv)) (combine (seq 0 (col_len cm col)) (take d vals (col_seg cm col))) out) cols m) /\
    shaped height nc (fold_left (fun out col => if Nat.eqb (col_len cm col) 0 then out
      else fold_left (fun o kv => mset o (fst kv) col (snd kv)) (combine (seq 0 (col_len cm col)) (take d vals (col_seg cm col))) out) cols m)).
  { induction cols as [|col cols IH]; intros m Hcols Hm; cbn [fold_left]; auto.
    assert (Hc : col < nc) by (apply Hcols; left; auto).
    change (col_len cm col) with (nth col lens 0). destruct (Nat.eqb (nth col lens 0) 0); [apply IH; auto; intros; apply Hcols; right; auto|].
    assert (K : forall ks m, shaped height nc m ->
      fold_left (fun dst k => upd dst (k * nc + col) (nth (nth (nth col (start_idxs lens) 0 + k) (fst cm) 0) vals d)) ks (concat m) =
      concat (fold_left (fun o k => mset o k col (nth (nth (nth col (start_idxs lens) 0 + k) (fst cm) 0) vals d)) ks m) /\
      shaped height nc (fold_left (fun o k => mset o k col (nth (nth (nth col (start_idxs lens) 0 + k) (fst cm) 0) vals d)) ks m)).
    { clear m Hm. induction ks as [|k ks IHk]; intros m Hm; cbn [fold_left]; auto. rewrite flat_set by (auto; apply (shaped_forall _ height nc m Hm)).
      apply IHk. apply mset_shaped; auto. }
    destruct (K (seq 0 (nth col lens 0)) m Hm) as (K1 & K2). rewrite K1.
    assert (E : fold_left (fun o kv => mset o (fst kv) col (snd kv)) (combine (seq 0 (nth col lens 0)) (take d vals (col_seg cm col))) m =
      fold_left (fun o k => mset o k col (nth (nth (nth col (start_idxs lens) 0 + k) (fst cm) 0) vals d)) (seq 0 (nth col lens 0)) m).
    { rewrite seg_map by auto. unfold take. rewrite map_map. change (col_len cm col) with (nth col lens 0). fold lens. rewrite combine_map_r, combine_diag, map_map, fold_left_map. reflexivity. }
    rewrite E. apply IH; auto. intros; apply Hcols; right; auto. }
  destruct (G (seq 0 nc) (mfull height nc fill)) as (G1 & G2); [intros c Hc; apply in_seq in Hc; lia|apply mfull_shaped|].
  rewrite G1. apply rows_concat. auto.
Qed.

(** ** Counting *)
Lemma r_counts_eq : forall codes nu cm, list_sum (snd cm) = List.length (fst cm) ->
  rows_from nu (List.length (snd cm)) (r_mapped_value_counts codes nu (fst cm) (snd cm)) = mapped_value_counts_nb codes nu cm.
Proof.
  intros codes nu cm H. unfold r_mapped_value_counts, mapped_value_counts_nb. cbv zeta. rewrite r_starts.
  set (lens := snd cm) in *. set (nc := List.length lens). rewrite flat_full.
  assert (G : forall cols m, (forall c, In c cols -> c < nc) -> shaped nu nc m ->
    fold_left (fun dst col => if Nat.eqb (nth col lens 0) 0 then dst else
      fold_left (fun dst c => upd dst (nth (nth (nth col (start_idxs lens) 0 + c) (fst cm) 0) codes 0 * nc + col)
        (nth (nth (nth (nth col (start_idxs lens) 0 + c) (fst cm) 0) codes 0 * nc + col) dst 0 + 1)) (seq 0 (nth col lens 0)) dst) cols (concat m) =
    concat (fold_left (fun out col => if Nat.eqb (col_len cm col) 0 then out
      else fold_left (fun o r => mset o (nth r codes 0) col (mget 0 o (nth r codes 0) col + 1)) (col_seg cm col) out) cols m) /\
    shaped nu nc (fold_left (fun out col => if Nat.eqb (col_len cm col) 0 then out
      else fold_left (fun o r => mset o (nth r codes 0) col (mget 0 o (nth r codes 0) col + 1)) (col_seg cm col) out) cols m)).
  { induction cols as [|col cols IH]; intros m Hcols Hm; cbn [fold_left]; auto.
    assert (Hc : col < nc) by (apply Hcols; left; auto).
    change (col_len cm col) with (nth col lens 0). destruct (Nat.eqb (nth col lens 0) 0); [apply IH; auto; intros; apply Hcols; right; auto|].
    rewrite seg_map by auto. change (col_len cm col) with (nth col lens 0). fold lens. rewrite fold_left_map.
    assert (K : forall ks m, shaped nu nc m ->
      fold_left (fun dst c => upd dst (nth (nth (nth col (start_idxs lens) 0 + c) (fst cm) 0) codes 0 * nc + col)
        (nth (nth (nth (nth col (start_idxs lens) 0 + c) (fst cm) 0) codes 0 * nc + col) dst 0 + 1)) ks (concat m) =
      concat (fold_left (fun o k => mset o (nth (nth (nth col (start_idxs lens) 0 + k) (fst cm) 0) codes 0) col
        (mget 0 o (nth (nth (nth col (start_idxs lens) 0 + k) (fst cm) 0) codes 0) col + 1)) ks m) /\
      shaped nu nc (fold_left (fun o k => mset o (nth (nth (nth col (start_idxs lens) 0 + k) (fst cm) 0) codes 0) col
        (mget 0 o (nth (nth (nth col (start_idxs lens) 0 + k) (fst cm) 0) codes 0) col + 1)) ks m)).
    { clear m Hm. induction ks as [|k ks IHk]; intros m Hm; cbn [fold_left]; auto.
      pose proof (proj2 (shaped_forall _ nu nc m Hm)) as F. rewrite flat_get by auto. rewrite flat_set by auto. apply IHk. apply mset_shaped; auto. }
    destruct (K (seq 0 (nth col lens 0)) m Hm) as (K1 & K2). rewrite K1. apply IH; auto. intros; apply Hcols; right; auto. }
  destruct (G (seq 0 nc) (mfull nu nc 0)) as (G1 & G2); [intros c Hc; apply in_seq in Hc; lia|apply mfull_shaped|].
  rewrite G1. apply rows_concat. auto.
Qed.
