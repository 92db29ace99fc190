(** * The Rust kernels do what the Numba kernels do: loops over rows, filling, shifting, rolling (C97) *)
From Coq Require Import String ZArith Bool List Lia.
From Verif Require Import Base Num OrdLaws GenericNb GenericSpec GenericLemmas GenericLemmas7 IndicatorLemmas ReduceLemmas RustGeneric RustGenericSpec.
Import ListNotations.
Open Scope nat_scope.

Section Loops.
  Context {T : Type} {N : Num T}.

  Lemma row_loop_rows : forall S B (step : nat -> nat -> S -> T -> S * B) src ncols rows states,
    length (row_loop step src ncols rows states) = length rows.
  Proof. intros S B step src ncols rows. induction rows as [|r rows IH]; intros states; cbn; auto. Qed.

  Lemma row_loop_cols : forall S B (step : nat -> nat -> S -> T -> S * B) src ncols rows states, length states = ncols ->
    Forall (fun l => length l = ncols) (row_loop step src ncols rows states).
  Proof.
    intros S B step src ncols rows. induction rows as [|r rows IH]; intros states Hs; cbn; constructor.
    - rewrite !map_length, combine_length, seq_length. lia.
    - apply IH. rewrite !map_length, combine_length, seq_length. lia.
  Qed.

  Fixpoint scan_rows {S B} (f : nat -> S -> T -> S * B) (x : nat -> T) (rows : list nat) (s : S) : list B :=
    match rows with [] => [] | r :: rows' => let (s', b) := f r s (x r) in b :: scan_rows f x rows' s' end.

  Lemma scan_rows_seq : forall S B (f : nat -> S -> T -> S * B) x n i s, scan_rows f x (seq i n) s = scan f i s (map x (seq i n)).
  Proof. intros S B f x n. induction n as [|n IH]; intros i s; cbn; auto. destruct (f i s (x i)). rewrite IH. auto. Qed.

  Lemma scan_rows_any : forall S B (g : S -> T -> S * B) x rows i s, scan_rows (fun _ => g) x rows s = scan (fun _ => g) i s (map x rows).
  Proof. intros S B g x rows. induction rows as [|r rows IH]; intros i s; cbn; auto. destruct (g s (x r)). rewrite (IH (Datatypes.S i)). auto. Qed.

  Lemma nth_error_combine_seq : forall A (l : list A) i c x, nth_error l c = Some x -> nth_error (combine (seq i (length l)) l) c = Some (i + c, x).
  Proof.
    intros A l. induction l as [|y l IH]; intros i [|c] x H; cbn in *; try discriminate.
    - injection H as ->. rewrite Nat.add_0_r. auto.
    - rewrite (IH (S i) c x H). f_equal. f_equal. lia.
  Qed.

  Lemma row_loop_col : forall S B (step : nat -> nat -> S -> T -> S * B) src ncols d c rows states s, length states = ncols ->
    nth_error states c = Some s ->
    map (fun r => nth c r d) (row_loop step src ncols rows states) = scan_rows (step c) (fun r => nth (r * ncols + c) src nan) rows s.
  Proof.
    intros S B step src ncols d c rows. induction rows as [|r rows IH]; intros states s Hl Hs; [reflexivity|].
    cbn [row_loop map scan_rows]. subst ncols.
    pose proof (nth_error_combine_seq _ states 0 c s Hs) as K. cbn in K.
    destruct (step c r s (nth (r * length states + c) src nan)) as [s' b] eqn:E.
    set (rs := map _ (combine _ _)).
    assert (Kr : nth_error rs c = Some (s', b)).
    { unfold rs. rewrite (map_nth_error _ _ _ K). cbn. rewrite E. auto. }
    f_equal.
    - apply nth_error_nth. rewrite (map_nth_error _ _ _ Kr). auto.
    - apply IH; [unfold rs; rewrite !map_length, combine_length, seq_length; lia|]. rewrite (map_nth_error _ _ _ Kr). auto.
  Qed.

  Lemma map_nth_all : forall A (l : list A) d, map (fun k => nth k l d) (seq 0 (length l)) = l.
  Proof. intros A l d. induction l as [|f l IH]; [reflexivity|]. cbn [length seq map nth]. f_equal. rewrite <- seq_shift, map_map. exact IH. Qed.

  Lemma column_concat : forall (ls : list (list T)) nrows ncols c, length ls = nrows -> Forall (fun l => length l = ncols) ls -> c < ncols ->
    column (concat ls) nrows ncols c = map (fun r => nth c r nan) ls.
  Proof.
    intros ls nrows ncols c <- H Hc. rewrite <- (map_nth_all _ ls []) at 3. rewrite map_map. unfold column.
    apply map_ext_in. intros r Hr. apply in_seq in Hr. rewrite (concat_nth ls ncols) by (auto; lia). auto.
  Qed.

  Lemma column_length : forall src nrows ncols c, length (column src nrows ncols c) = nrows.
  Proof. intros. unfold column. rewrite map_length, seq_length. auto. Qed.
  Lemma column_nth : forall src nrows ncols c r d, r < nrows -> nth r (column src nrows ncols c) d = nth (r * ncols + c) src nan.
  Proof. intros. unfold column. apply (nth_map_seq _ (fun r => nth (r * ncols + c) src nan)). auto. Qed.
  Lemma column_nth_nan : forall src nrows ncols c r, c_order src nrows ncols -> c < ncols -> nth r (column src nrows ncols c) nan = nth (r * ncols + c) src nan.
  Proof.
    intros src nrows ncols c r Hs Hc. destruct (le_lt_dec nrows r).
    - rewrite !nth_overflow; auto; [unfold c_order in Hs; rewrite Hs; nia|rewrite column_length; auto].
    - apply column_nth; auto.
  Qed.
  Lemma only_column : forall src nrows, c_order src nrows 1 -> column src nrows 1 0 = src.
  Proof.
    intros src nrows H. unfold c_order in H. rewrite Nat.mul_1_r in H. unfold column. rewrite <- H. transitivity (map (fun k => nth k src nan) (seq 0 (length src))); [|apply map_nth_all].
    apply map_ext. intros r. f_equal. lia.
  Qed.

  Lemma row_loop_shape : forall S (step : nat -> nat -> S -> T -> S * T) src ncols rows states, length states = ncols ->
    c_order (concat (row_loop step src ncols rows states)) (length rows) ncols.
  Proof.
    intros S step src ncols rows states H. unfold c_order. rewrite (concat_len _ ncols); [rewrite row_loop_rows; auto|].
    apply row_loop_cols; auto.
  Qed.

  (** A loop over rows is, on each column, the loop over that column. *)
  Lemma row_loop_column : forall S (step : nat -> nat -> S -> T -> S * T) src nrows ncols states c s, length states = ncols -> nth_error states c = Some s ->
    column (concat (row_loop step src ncols (seq 0 nrows) states)) nrows ncols c = scan (step c) 0 s (column src nrows ncols c).
  Proof.
    intros S step src nrows ncols states c s Hl Hs. rewrite column_concat.
    - rewrite (row_loop_col _ _ step src ncols nan c _ states s) by auto. apply scan_rows_seq.
    - rewrite row_loop_rows, seq_length. auto.
    - apply row_loop_cols. auto.
    - rewrite <- Hl. apply nth_error_Some. congruence.
  Qed.
  Lemma nth_error_repeat' : forall A (x : A) n c, c < n -> nth_error (repeat x n) c = Some x.
  Proof. intros A x n. induction n as [|n IH]; intros [|c] H; cbn; auto; try lia. apply IH. lia. Qed.
  Lemma row_loop_by_column : forall S (step : list T -> nat -> nat -> S -> T -> S * T) (s0 : S) nrows ncols g,
    (forall src c, c_order src nrows ncols -> c < ncols -> scan (step src c) 0 s0 (column src nrows ncols c) = g (column src nrows ncols c)) ->
    by_column (fun src => concat (row_loop (step src) src ncols (seq 0 nrows) (repeat s0 ncols))) g nrows ncols.
  Proof.
    intros S step s0 nrows ncols g H src Hs. split.
    - rewrite <- (seq_length nrows 0) at 2. apply row_loop_shape. apply repeat_length.
    - intros c Hc. rewrite (row_loop_column _ _ _ _ _ _ _ s0); [apply H; auto|apply repeat_length|apply nth_error_repeat'; auto].
  Qed.

  (** ** Filling *)
  Lemma fill_step_eq : @rs_fill_step T N = ffill_step.
  Proof. reflexivity. Qed.
  Lemma ffill_1d_eq : forall a : list T, rs_ffill_1d a = ffill_1d_nb a.
  Proof. intros [|x a]; reflexivity. Qed.
  Lemma bfill_1d_eq : forall a : list T, rs_bfill_1d a = bfill_1d_nb a.
  Proof. intros [|x a]; reflexivity. Qed.

  Lemma same_refl : forall x : T, same x x.
  Proof. left. auto. Qed.
  Lemma fill_same : forall (a : list T) i s1 s2, same s1 s2 -> Forall2 same (scan ffill_step i s1 a) (scan ffill_step i s2 a).
  Proof.
    induction a as [|x a IH]; intros i s1 s2 H; cbn; [constructor|]. unfold ffill_step at 1 3.
    destruct (isnan x); constructor; auto; try apply same_refl; apply IH; auto. apply same_refl.
  Qed.
  Hypothesis nan_is_nan : isnan (nan : T) = true.
  Lemma fill_from_first : forall (a : list T), Forall2 same (scan ffill_step 0 nan a) (scan ffill_step 0 (hd nan a) a).
  Proof.
    intros [|x a]; cbn; [constructor|]. unfold ffill_step at 1 3. destruct (isnan x) eqn:E.
    - assert (same nan x) by (right; auto). constructor; auto. apply fill_same. auto.
    - constructor; [apply same_refl|]. apply fill_same. apply same_refl.
  Qed.
  Lemma Forall2_rev' : forall A B (R : A -> B -> Prop) l1 l2, Forall2 R l1 l2 -> Forall2 R (rev l1) (rev l2).
  Proof. intros A B R l1 l2 H. induction H; cbn; [constructor|]. apply Forall2_app; auto. Qed.
  Lemma last_rev : forall A (a : list A) d, last a d = hd d (rev a).
  Proof. intros A a d. destruct a as [|x a] using rev_ind; auto. rewrite last_last, rev_app_distr. auto. Qed.

  Lemma ffill_2d_ok : forall src nrows ncols, c_order src nrows ncols ->
    c_order (rs_ffill_2d_c src nrows ncols) nrows ncols /\
    forall c, c < ncols -> Forall2 same (column (rs_ffill_2d_c src nrows ncols) nrows ncols c) (ffill_1d_nb (column src nrows ncols c)).
  Proof.
    intros src nrows ncols Hs.
    destruct (row_loop_by_column _ (fun _ _ => rs_fill_step) (nan : T) nrows ncols (scan ffill_step 0 nan)) with (src := src) as [H1 H2]; auto.
    split; auto. intros c Hc. unfold rs_ffill_2d_c. rewrite H2 by auto. apply fill_from_first.
  Qed.
  Lemma bfill_2d_ok : forall src nrows ncols, c_order src nrows ncols ->
    c_order (rs_bfill_2d_c src nrows ncols) nrows ncols /\
    forall c, c < ncols -> Forall2 same (column (rs_bfill_2d_c src nrows ncols) nrows ncols c) (bfill_1d_nb (column src nrows ncols c)).
  Proof.
    intros src nrows ncols Hs. unfold rs_bfill_2d_c. set (ls := row_loop _ _ _ _ _).
    assert (Hr : length (rev ls) = nrows) by (unfold ls; rewrite rev_length, row_loop_rows, rev_length, seq_length; auto).
    assert (Hf : Forall (fun l => length l = ncols) (rev ls)) by (apply Forall_rev; apply row_loop_cols; apply repeat_length).
    split; [unfold c_order; rewrite (concat_len _ ncols); auto; congruence|]. intros c Hc.
    rewrite (column_concat (rev ls) nrows ncols c Hr Hf Hc). rewrite map_rev. unfold ls.
    rewrite (row_loop_col _ _ _ _ _ _ _ _ _ nan); [|apply repeat_length|apply nth_error_repeat'; auto].
    pose proof (scan_rows_any _ _ (rs_fill_step 0) (fun r => nth (r * ncols + c) src nan) (rev (seq 0 nrows)) 0 nan) as K.
    change (fun _ : nat => rs_fill_step 0) with (@rs_fill_step T N) in K. rewrite K. rewrite map_rev. fold (column src nrows ncols c).
    unfold bfill_1d_nb. apply Forall2_rev'. rewrite last_rev. apply fill_from_first.
  Qed.
End Loops.
