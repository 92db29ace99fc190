(** * The Rust kernels do what the Numba kernels do: expanding, exponential, ranges, drawdowns, crossovers (C97) *)
From Coq Require Import String ZArith Bool List Lia.
From Verif Require Import Base Num OrdLaws GenericNb GenericSpec GenericLemmas GenericLemmas7 IndicatorLemmas ReduceLemmas RustGeneric RustGenericSpec RustGenericLemmas RustGenericLemmas2.
Import ListNotations.
Open Scope nat_scope.

Section Kernels.
  Context {T : Type} {N : Num T}.

  (** ** Rows at once *)
  Lemma rolling_std_2d_ok : forall sqrt tol nrows ncols window minp ddof,
    by_column (fun src => rs_rolling_std_2d_c sqrt tol src nrows ncols window minp ddof) (fun a => rs_rolling_std_1d sqrt tol a window minp ddof) nrows ncols.
  Proof.
    intros sqrt tol nrows ncols window minp ddof. unfold rs_rolling_std_2d_c.
    apply (row_loop_by_column _ (fun src col => rs_std_step sqrt tol (fun row => nth (row * ncols + col) src nan) window (Nat.max minp 1) ddof)).
    intros src c Hs Hc. unfold rs_rolling_std_1d. rewrite !(std_sim sqrt tol _ (column src nrows ncols c)); auto.
    intros j. symmetry. apply column_nth_nan; auto.
  Qed.
  Lemma rolling_mean_2d_ok : forall nrows ncols window minp,
    by_column (fun src => rs_rolling_mean_2d_c src nrows ncols window minp) (fun a => rs_rolling_mean_1d a window minp) nrows ncols.
  Proof.
    intros nrows ncols window minp. unfold rs_rolling_mean_2d_c.
    apply (row_loop_by_column _ (fun src col => rs_mean_step (fun row => nth ((row - window) * ncols + col) src nan) window minp)).
    intros src c Hs Hc. unfold rs_rolling_mean_1d. apply scan_ext. intros k [s n] x Hx. unfold rs_mean_step. rewrite <- (column_nth_nan src nrows ncols c) by auto. reflexivity.
  Qed.
  Lemma expanding_mean_2d_ok : forall nrows ncols minp,
    by_column (fun src => rs_expanding_mean_2d_c src nrows ncols minp) (fun a => rs_expanding_mean_1d a minp) nrows ncols.
  Proof. intros nrows ncols minp. apply (row_loop_by_column _ (fun _ _ => rs_exp_mean_step minp)). auto. Qed.
  Lemma expanding_std_2d_ok : forall sqrt nrows ncols minp ddof,
    by_column (fun src => rs_expanding_std_2d_c sqrt src nrows ncols minp ddof) (fun a => rs_expanding_std_1d sqrt a minp ddof) nrows ncols.
  Proof. intros sqrt nrows ncols minp ddof. apply (row_loop_by_column _ (fun _ _ => rs_exp_std_step sqrt minp ddof)). auto. Qed.

  (** ** Expanding extremes *)
  Lemma expanding_extreme_eq : forall better (a : list T) minp,
    rs_expanding_extreme better a minp = scan (expanding_extreme_step better minp) 0 (hd nan a, 0) a.
  Proof.
    intros better [|a0 a] minp; [reflexivity|]. unfold rs_expanding_extreme. cbn [hd]. apply scan_ext. intros k [v c] x _. unfold expanding_extreme_step.
    replace (if negb (isnan x) then c + 1 else c) with (if isnan x then c else S c) by (destruct (isnan x); cbn; lia).
    rewrite Nat.ltb_antisym. destruct (minp <=? _); reflexivity.
  Qed.

  (** ** Exponential mean *)
  Hypothesis eqb_nan : forall x : T, eqb x x = negb (isnan x).
  Lemma ewm_step_ok : forall f w adjust m i s x r, ewm_mean_step f w adjust m i s x = Ok r -> rs_ewm_step f w adjust m i s x = r.
  Proof.
    intros f w adjust m i [[wa n] ow] x r H. unfold ewm_mean_step in H. unfold rs_ewm_step. rewrite !eqb_nan in H.
    replace (if negb (isnan x) then n + 1 else n) with (if negb (isnan x) then S n else n) by (destruct (isnan x); cbn; lia).
    destruct (negb (isnan wa)), (negb (isnan x)); cbn in H.
    - destruct (neb wa x); cbn in H; [|congruence]. unfold sdiv in H. destruct (eqb (add _ _) zero); cbn in H; congruence.
    - congruence.
    - congruence.
    - congruence.
  Qed.
  Lemma scanM_scan : forall S A B (f : nat -> S -> A -> res (S * B)) (g : nat -> S -> A -> S * B) l i s out,
    (forall i s x r, f i s x = Ok r -> g i s x = r) -> scanM f i s l = Ok out -> scan g i s l = out.
  Proof.
    intros S A B f g l. induction l as [|x l IH]; intros i s out H E; cbn in *; [congruence|].
    destruct (f i s x) as [[s' b]|] eqn:Ef; cbn in E; [|discriminate]. rewrite (H _ _ _ _ Ef).
    destruct (scanM f (Datatypes.S i) s' l) as [r|] eqn:Er; cbn in E; [|discriminate]. injection E as <-. f_equal. apply IH; auto.
  Qed.
  Lemma ewm_mean_eq : forall (a : list T) span minp adjust out, exact_span (T := T) span -> ewm_mean_1d_nb a span minp adjust = Ok out ->
    rs_ewm_mean a span (or_default minp span) adjust = Ok out.
  Proof.
    intros a span minp adjust out Hs H. unfold ewm_mean_1d_nb in H. unfold rs_ewm_mean, rs_validate_window. cbv zeta in H.
    change (match minp with None => span | Some m => m end) with (or_default minp span) in H.
    destruct (span <? or_default minp span); cbn [raise_if] in *; [discriminate|]. f_equal. unfold rs_ewm_mean_1d.
    destruct a as [|a0 a]; [congruence|]. unfold rs_ewm_weights. rewrite <- Hs.
    unfold sdiv in H. destruct (eqb (add one (div (ofZ (Z.of_nat span - 1)) two)) zero); cbn [bind] in H; [discriminate|].
    rewrite eqb_nan in H. destruct (scanM _ _ _ a) as [r|] eqn:E; cbn [bind] in H; [|discriminate]. injection H as <-. f_equal.
    apply (scanM_scan _ _ _ _ _ _ _ _ _ (fun i s x r => ewm_step_ok _ _ _ _ i s x r) E).
  Qed.
  Lemma ewm_mean_error : forall (a : list T) span minp adjust, span < or_default minp span ->
    rs_ewm_mean a span (or_default minp span) adjust = Err (ValueError "minp must be <= span") /\ ewm_mean_1d_nb a span minp adjust = Err (ValueError "minp must be <= span").
  Proof.
    intros a span minp adjust H. unfold rs_ewm_mean, rs_validate_window, ewm_mean_1d_nb. cbv zeta.
    change (match minp with None => span | Some m => m end) with (or_default minp span). rewrite (proj2 (Nat.ltb_lt _ _) H). auto.
  Qed.
  Lemma ewm_mean_2d_ok : forall nrows ncols span minp adjust,
    by_column (fun src => rs_ewm_mean_2d_c src nrows ncols span minp adjust) (fun a => rs_ewm_mean_1d a span minp adjust) nrows ncols.
  Proof.
    intros nrows ncols span minp adjust src Hs. unfold rs_ewm_mean_2d_c. destruct (Nat.eqb_spec nrows 0) as [->|Hn].
    - split; [reflexivity|]. intros c Hc. reflexivity.
    - destruct nrows as [|k]; [lia|]. clear Hn. replace (S k - 1) with k by lia.
      destruct (rs_ewm_weights span adjust) as [f w] eqn:Ew.
      set (first := map _ (firstn ncols src)). set (loop := row_loop _ _ _ _ _).
      assert (Lf : length (firstn ncols src) = ncols) by (rewrite firstn_length; unfold c_order in Hs; rewrite Hs; cbn; lia).
      assert (Ls : length (map fst first) = ncols) by (unfold first; rewrite !map_length; auto).
      assert (L : length (map snd first :: loop) = S k) by (cbn; unfold loop; rewrite row_loop_rows, seq_length; auto).
      assert (F : Forall (fun l => length l = ncols) (map snd first :: loop)).
      { constructor; [unfold first; rewrite !map_length; auto|]. apply row_loop_cols. auto. }
      split; [unfold c_order; rewrite (concat_len _ ncols), L; auto|]. intros c Hc. rewrite (column_concat _ _ _ _ L F Hc).
      assert (E0 : nth_error (firstn ncols src) c = Some (nth c src nan)).
      { destruct (nth_error (firstn ncols src) c) eqn:E; [|apply nth_error_None in E; lia]. f_equal.
        pose proof (nth_error_nth _ _ nan E) as K. rewrite nth_firstn in K by auto. auto. }
      unfold column. cbn [seq map]. cbn [Nat.mul Nat.add]. unfold rs_ewm_mean_1d. rewrite Ew. f_equal.
      + apply nth_error_nth. unfold first. rewrite map_map. rewrite (map_nth_error _ _ _ E0). reflexivity.
      + unfold loop. set (v0 := nth c src nan) in *.
        rewrite (row_loop_col _ _ _ _ _ _ _ _ _ (v0, if negb (isnan v0) then 1 else 0, one)); auto.
        * apply scan_rows_seq.
        * unfold first. rewrite map_map. rewrite (map_nth_error _ _ _ E0). reflexivity.
  Qed.
End Kernels.

Section Records.
  Context {T : Type} {N : Num T} {L : OrdLaws N}.

  Lemma eqb_nan_refl : forall x : T, eqb x x = negb (isnan x).
  Proof. intros x. rewrite ol_eqb, ol_leb, ltb_irrefl. destruct (isnan x); reflexivity. Qed.
  Lemma eqb_nan_r : forall x y : T, isnan y = true -> eqb x y = false.
  Proof. intros x y H. rewrite ol_eqb, !ol_leb, H. destruct (isnan x); reflexivity. Qed.

  (** ** Ranges *)
  Lemma is_gap_eq : forall gap x : T, (if isnan gap then isnan x else eqb x gap) = is_gap gap x.
  Proof.
    intros gap x. unfold is_gap. destruct (isnan gap) eqn:E.
    - rewrite (eqb_nan_r x gap E). destruct (isnan x); auto.
    - rewrite andb_false_r, orb_false_r. auto.
  Qed.
  Lemma ranges_sim : forall gap col n xs i started start out, i + length xs = n -> 1 <= n ->
    snd (fold_left (find_ranges_step gap n col) (combine (seq i (length xs)) xs) (started, start, out)) =
    let '(st, s, o) := fold_left (rs_range_step gap col) (combine (seq i (length xs)) xs) (started, start, out) in
    match xs with [] => o | _ => if st then o ++ [mkRange (length o) col s (Z.of_nat (n - 1)) RangeOpen] else o end.
  Proof.
    intros gap col n xs. induction xs as [|x xs IH]; intros i started start out Hn H1; [reflexivity|].
    cbn [length seq combine fold_left] in *. unfold rs_range_step at 2. unfold find_ranges_step at 2. rewrite is_gap_eq.
    destruct (is_gap gap x) eqn:Eg.
    - destruct started.
      + rewrite (IH (S i)) by lia. destruct xs; [reflexivity|]. reflexivity.
      + rewrite (IH (S i)) by lia. destruct xs; [reflexivity|]. reflexivity.
    - destruct xs as [|y xs].
      + cbn in Hn. replace (S i =? n) with true by (symmetry; apply Nat.eqb_eq; lia). cbn.
        destruct started; cbn; repeat f_equal; lia.
      + replace (S i =? n) with false by (symmetry; apply Nat.eqb_neq; cbn in Hn; lia).
        destruct started; cbn [negb]; rewrite (IH (S i)) by lia; reflexivity.
  Qed.
  Lemma ranges_col_eq : forall gap out col ts, rs_ranges_col gap out col ts = find_ranges_col gap out col (ts : list T).
  Proof.
    intros gap out col ts. unfold rs_ranges_col, find_ranges_col, enumerate. destruct ts as [|x ts]; [reflexivity|].
    rewrite ranges_sim by (cbn; lia). destruct (fold_left _ _ _) as [[st s] o]. reflexivity.
  Qed.
  Lemma fold_columns : forall A B (f : A -> nat -> B -> A) (g : nat -> B) n i out,
    fold_left (fun recs '(col, c) => f recs col c) (combine (seq i (length (map g (seq i n)))) (map g (seq i n))) out =
    fold_left (fun out col => f out col (g col)) (seq i n) out.
  Proof. intros A B f g n. induction n as [|n IH]; intros i out; cbn; auto. Qed.
  Lemma find_ranges_eq : forall gap (src : list T) nrows ncols, rs_find_ranges gap src nrows ncols = find_ranges_nb gap (columns_of src nrows ncols).
  Proof.
    intros gap src nrows ncols. unfold rs_find_ranges, find_ranges_nb, enumerate, columns_of.
    pose proof (fold_columns _ _ (fun recs col c => find_ranges_col gap recs col c) (column src nrows ncols) ncols 0 []) as K. cbv beta in K.
    etransitivity; [|symmetry; exact K]. generalize (@nil RangeRec). generalize (seq 0 ncols). intros l. induction l as [|c l IH]; intros out; cbn; auto.
    rewrite IH. f_equal. rewrite ranges_col_eq. reflexivity.
  Qed.

  (** ** Drawdowns *)
  Lemma dd_sim : forall n col xs i (s : DDState T), i + length xs = n -> (ds_started s = true -> isnan (ds_peak_val s) = false) ->
    ds_recs (fold_left (rs_dd_step n col) (combine (seq i (length xs)) xs) s) = ds_recs (fold_left (drawdown_step n col) (combine (seq i (length xs)) xs) s).
  Proof.
    intros n col xs. induction xs as [|x xs IH]; intros i s Hn Hp; [reflexivity|]. cbn [length seq combine fold_left] in *.
    assert (Hlast : (i =? n - 1) = (S i =? n)) by (destruct (Nat.eqb_spec i (n - 1)), (Nat.eqb_spec (S i) n); auto; lia).
    destruct s as [st p v pv vv recs]. cbn [ds_started ds_peak_val] in Hp.
    unfold rs_dd_step at 2. unfold drawdown_step at 2. rewrite Hlast. cbn [ds_started ds_peak_idx ds_valley_idx ds_peak_val ds_valley_val ds_recs].
    destruct (isnan x) eqn:En; [apply IH; [lia|exact Hp]|].
    destruct (isnan pv || geb x pv) eqn:Ep.
    - destruct st; cbn [negb].
      + rewrite (Hp eq_refl) in Ep. cbn in Ep. rewrite Ep. cbn [ds_started andb]. rewrite !andb_false_r.
        apply IH; [lia|]. cbn. discriminate.
      + cbn [ds_started]. rewrite !andb_false_r. apply IH; [lia|]. cbn. discriminate.
    - apply orb_false_iff in Ep as [Ep1 Ep2]. destruct st; cbn [negb].
      + destruct (ltb x vv); cbn [ds_started ds_peak_idx ds_valley_idx ds_peak_val ds_valley_val ds_recs]; rewrite !andb_true_r;
          (destruct (Nat.eqb_spec (S i) n); [destruct xs; [reflexivity|cbn in Hn; lia]|apply IH; [lia|auto]]).
      + cbn [ds_started ds_peak_idx ds_valley_idx ds_peak_val ds_valley_val ds_recs]; rewrite !andb_true_r;
          (destruct (Nat.eqb_spec (S i) n); [destruct xs; [reflexivity|cbn in Hn; lia]|apply IH; [lia|auto]]).
  Qed.
  Lemma dd_col_eq : forall out col (ts : list T), rs_dd_col out col ts = drawdowns_col out col ts.
  Proof.
    intros out col ts. unfold rs_dd_col, drawdowns_col, enumerate.
    replace (nth 0 ts nan) with (hd nan ts) by (destruct ts; auto). apply dd_sim; [lia|]. cbn. discriminate.
  Qed.
  Lemma drawdowns_eq : forall (src : list T) nrows ncols, rs_get_drawdowns src nrows ncols = get_drawdowns_nb (columns_of src nrows ncols).
  Proof.
    intros src nrows ncols. unfold rs_get_drawdowns, get_drawdowns_nb, enumerate, columns_of.
    pose proof (fold_columns _ _ (fun recs col c => drawdowns_col recs col c) (column src nrows ncols) ncols 0 []) as K. cbv beta in K.
    etransitivity; [|symmetry; exact K]. destruct (Nat.eqb_spec nrows 0) as [->|_].
    - clear K. generalize (seq 0 ncols). intros l. induction l as [|c l IH]; cbn; auto.
    - generalize (@nil (DrawdownRec T)). generalize (seq 0 ncols). intros l. induction l as [|c l IH]; intros out; cbn; auto.
      rewrite IH. f_equal. rewrite dd_col_eq. reflexivity.
  Qed.

  (** ** Crossovers *)
  Lemma crossed_eq : forall (a b : list T) wait, rs_crossed_above_1d a b wait = crossed_above_1d_nb a b wait.
  Proof. intros a b wait. apply scan_ext. intros k [w c] [x y] _. reflexivity. Qed.
  Lemma crossed_col_eq : forall (a b : list T) wait, rs_crossed_above_col a b wait = crossed_above_1d_nb a b wait.
  Proof.
    intros a b wait. apply scan_ext. intros k [w c] [x y] _. unfold rs_crossed_step_2d, crossed_step.
    destruct (isnan x) eqn:Ex, (isnan y) eqn:Ey; cbn [orb]; auto. unfold gtb. destruct (ltb y x) eqn:E1; auto.
    rewrite ol_eqb, !ol_leb, Ex, Ey, E1. destruct (ltb x y); reflexivity.
  Qed.
End Records.
