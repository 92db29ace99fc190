(** * The Rust indicators do what the compiled Python indicators do (C104) *)
From Coq Require Import String ZArith QArith Bool List Lia.
From Verif Require Import Base Num OrdLaws XQFacts GenericNb GenericSpec GenericLemmas GenericLemmas2 ReduceLemmas IndicatorLemmas IndicatorsNb IndicatorsSpec IndicatorsLemmas
  RustGeneric RustGenericSpec RustGenericLemmas RustGenericLemmas2 RustGenericLemmas3 RustGenericLemmas4 RustGenericLemmas6 RustIndicators RustIndicatorsSpec.
Import ListNotations.
Open Scope nat_scope.

Section Cache.
  Context {K V : Type} (hash : K -> Z) (f : K -> V).
  Lemma rs_fill_as : forall ks, fill_cache hash (fun k => Ok (f k)) ks = Ok (rs_fill_cache hash f ks).
  Proof.
    unfold fill_cache, rs_fill_cache. intros ks. generalize (@nil (Z * V)). induction ks as [|k ks IH]; intros d; cbn [foldM fold_left bind]; auto.
    destruct (lookup (hash k) d); cbn [bind]; apply IH.
  Qed.
  Lemma rs_cached : forall ks k, no_collision hash ks -> In k ks -> getitem (rs_fill_cache hash f ks) (hash k) = Ok (f k).
  Proof.
    intros ks k HC Hk. destruct (cached hash _ ks _ k HC (rs_fill_as ks) Hk) as (v & E & G). injection E as <-. auto.
  Qed.
End Cache.

Section Any.
  Context {T : Type} {N : Num T}.

  Lemma lengths_ok : forall A names n m (k : res A), n = m -> rs_validate_param_lengths names n m k = k.
  Proof. intros A names n m k ->. unfold rs_validate_param_lengths. rewrite Nat.eqb_refl. reflexivity. Qed.

  (** ** Averages and deviations *)
  Lemma roll_std_same : forall sqrt tol (a : list T) w adjust ddof, same_deviation sqrt tol a w false adjust ddof.
  Proof.
    intros sqrt tol a w adjust ddof out H. unfold mstd_nb in H. unfold rs_mstd. rewrite <- rolling_std_eq in H. unfold rs_rolling_std, rs_validate_window in H.
    rewrite Nat.ltb_irrefl in H. cbn [raise_if] in H. congruence.
  Qed.

  Hypothesis eqb_nan : forall x : T, eqb x x = negb (isnan x).
  Lemma ewm_mean_same : forall (a : list T) w adjust, exact_span (T := T) w -> same_average a w true adjust.
  Proof.
    intros a w adjust Hs out H. unfold ma_nb in H. unfold rs_ma. apply (ewm_mean_eq eqb_nan) in H; auto. cbn [or_default] in H.
    unfold rs_ewm_mean, rs_validate_window in H. rewrite Nat.ltb_irrefl in H. cbn [raise_if] in H. congruence.
  Qed.
  Lemma ewm_std_step_ok : forall sqrt f w adjust m i s x s' r, sqrt nan = nan -> ewm_std_step f w adjust m i s x = Ok (s', r) ->
    rs_ewm_std_step sqrt f w adjust m i s x = (s', sqrt r).
  Proof.
    intros sqrt f w adjust m i s x s' r Hn H. unfold ewm_std_step in H. unfold rs_ewm_std_step. cbv zeta in *. rewrite !eqb_nan in H.
    replace (if negb (isnan x) then e_nobs s + 1 else e_nobs s) with (if negb (isnan x) then S (e_nobs s) else e_nobs s) by (destruct (isnan x); cbn; lia).
    assert (G : forall (e : @Ewm T) q,
      bind (if m <=? e_nobs e then if gtb (sub (mul (e_sum_wt e) (e_sum_wt e)) (e_sum_wt2 e)) zero
        then let! r := sdiv (mul (e_sum_wt e) (e_sum_wt e)) (sub (mul (e_sum_wt e) (e_sum_wt e)) (e_sum_wt2 e)) in Ok (mul r (e_cov e)) else Ok nan else Ok nan)
        (fun out => Ok (e, out)) = Ok q ->
      (e, if m <=? e_nobs e then if gtb (sub (mul (e_sum_wt e) (e_sum_wt e)) (e_sum_wt2 e)) zero
        then sqrt (mul (div (mul (e_sum_wt e) (e_sum_wt e)) (sub (mul (e_sum_wt e) (e_sum_wt e)) (e_sum_wt2 e))) (e_cov e)) else nan else nan) = (fst q, sqrt (snd q))).
    { intros e q E. destruct (m <=? e_nobs e); [|injection E as <-; cbn; rewrite Hn; auto].
      destruct (gtb _ zero); [|injection E as <-; cbn; rewrite Hn; auto].
      unfold sdiv in E. destruct (eqb (sub _ _) zero); cbn [bind] in E; [discriminate|]. injection E as <-. reflexivity. }
    destruct (negb (isnan (e_mean s))).
    - destruct (negb (isnan x)).
      + assert (D : forall a b q, sdiv (T := T) a b = Ok q -> q = div a b) by (intros a b q; unfold sdiv; destruct (eqb b zero); congruence).
        set (mean := if neb (e_mean s) x then _ else e_mean s) in |- *.
        destruct (if neb (e_mean s) x then _ else Ok (e_mean s)) as [mu|] eqn:Em in H; cbn [bind] in H; [|discriminate].
        assert (Emu : mu = mean) by (unfold mean; destruct (neb (e_mean s) x); [apply D; auto|congruence]). rewrite Emu in H. clear Em Emu mu.
        destruct (sdiv _ (add (mul (e_old_wt s) f) w)) as [cov|] eqn:Ec in H; cbn [bind] in H; [|discriminate]. apply D in Ec.
        destruct adjust; cbn [negb].
        * cbn [bind] in H. rewrite Ec in H. exact (G _ (s', r) H).
        * destruct (sdiv _ (add (mul (e_old_wt s) f) w)) as [sw|] eqn:Es in H; cbn [bind] in H; [|discriminate]. apply D in Es.
          destruct (sdiv _ (mul _ _)) as [sw2|] eqn:Es2 in H; cbn [bind] in H; [|discriminate]. apply D in Es2.
          rewrite Ec, Es, Es2 in H. exact (G _ (s', r) H).
      + cbn [bind] in H. exact (G _ (s', r) H).
    - destruct (negb (isnan x)); cbn [bind] in H; exact (G _ (s', r) H).
  Qed.
  Lemma scanM_map : forall S A B C (g : B -> C) (f : nat -> S -> A -> res (S * B)) (h : nat -> S -> A -> S * C) l i s out,
    (forall i s x s' b, f i s x = Ok (s', b) -> h i s x = (s', g b)) -> scanM f i s l = Ok out -> scan h i s l = map g out.
  Proof.
    intros S A B C g f h l. induction l as [|x l IH]; intros i s out H E; cbn in *; [injection E as <-; auto|].
    destruct (f i s x) as [[s' b]|] eqn:Ef; cbn in E; [|discriminate]. rewrite (H _ _ _ _ _ Ef).
    destruct (scanM f (Datatypes.S i) s' l) as [r|] eqn:Er; cbn in E; [|discriminate]. injection E as <-. cbn. f_equal. apply IH; auto.
  Qed.
  Lemma ewm_std_same : forall sqrt tol (a : list T) w adjust ddof, sqrt nan = nan -> exact_span (T := T) w -> same_deviation sqrt tol a w true adjust ddof.
  Proof.
    intros sqrt tol a w adjust ddof Hn Hs out H. unfold mstd_nb, ewm_std_1d_nb in H. cbv zeta in H. rewrite Nat.ltb_irrefl in H. cbn [raise_if] in H.
    unfold rs_mstd, rs_ewm_std_1d. destruct a as [|a0 a]; [congruence|]. unfold rs_ewm_weights. rewrite <- Hs. unfold sdiv in H at 1.
    destruct (eqb (add one (div (ofZ (Z.of_nat w - 1)) two)) zero); cbn [bind] in H; [discriminate|].
    rewrite eqb_nan in H. destruct (scanM _ _ _ a) as [r|] eqn:E; cbn [bind] in H; [|discriminate]. injection H as <-. cbn [map]. rewrite Hn. f_equal.
    apply (scanM_map _ _ _ _ sqrt _ _ _ _ _ _ (fun i s x s' b => ewm_std_step_ok sqrt _ _ _ _ i s x s' b Hn) E).
  Qed.
End Any.

Section Shapes.
  Context {T : Type} {N : Num T}.
  Lemma ewm_std_2d_ok : forall sqrt nrows ncols span minp adjust ddof,
    by_column (fun src => rs_ewm_std_2d_c sqrt src nrows ncols span minp adjust ddof) (fun a => rs_ewm_std_1d sqrt a span minp adjust ddof) nrows ncols.
  Proof.
    intros sqrt nrows ncols span minp adjust ddof src Hs. unfold rs_ewm_std_2d_c. destruct (Nat.eqb_spec nrows 0) as [->|Hn].
    - split; [reflexivity|]. intros c Hc. reflexivity.
    - destruct nrows as [|k]; [lia|]. clear Hn. replace (S k - 1) with k by lia.
      destruct (rs_ewm_weights span adjust) as [f w] eqn:Ew.
      set (first := map _ (firstn ncols src)). set (loop := row_loop _ _ _ _ _).
      assert (Lf : length (firstn ncols src) = ncols) by (rewrite firstn_length; unfold c_order in Hs; rewrite Hs; cbn; lia).
      assert (Ls : length first = ncols) by (unfold first; rewrite !map_length; auto).
      assert (L : length (repeat nan ncols :: loop) = S k) by (cbn [length]; unfold loop; rewrite row_loop_rows, seq_length; auto).
      assert (F : Forall (fun l => length l = ncols) (repeat nan ncols :: loop)).
      { constructor; [apply repeat_length|]. apply row_loop_cols. auto. }
      split; [unfold c_order; rewrite (concat_len _ ncols), L; auto|]. intros c Hc. rewrite (column_concat _ _ _ _ L F Hc).
      assert (E0 : nth_error (firstn ncols src) c = Some (nth c src nan)).
      { destruct (nth_error (firstn ncols src) c) eqn:E; [|apply nth_error_None in E; lia]. f_equal.
        pose proof (nth_error_nth _ _ nan E) as K. rewrite nth_firstn in K by auto. auto. }
      unfold column. cbn [seq map]. cbn [Nat.mul Nat.add]. unfold rs_ewm_std_1d. rewrite Ew. f_equal.
      + apply nth_error_nth. apply nth_error_repeat'; auto.
      + unfold loop. set (v0 := nth c src nan) in *.
        rewrite (row_loop_col _ _ _ _ _ _ _ _ _ (rs_ewm_std_first v0)); auto.
        * apply scan_rows_seq.
        * unfold first. rewrite (map_nth_error _ _ _ E0). reflexivity.
  Qed.
  Lemma true_range_eq : forall high low close : list T, rs_true_range_1d high low close = true_range_nb high low close.
  Proof.
    intros high low close. unfold rs_true_range_1d, true_range_nb. apply map_ext. intros i. cbv zeta.
    destruct (Nat.eqb_spec i 0) as [->|_]; [reflexivity|]. reflexivity.
  Qed.
  Lemma true_range_2d_ok : forall (high low close : list T) nrows ncols, c_order high nrows ncols -> c_order low nrows ncols -> c_order close nrows ncols ->
    c_order (rs_true_range_2d_c high low close nrows ncols) nrows ncols /\
    forall c, c < ncols -> column (rs_true_range_2d_c high low close nrows ncols) nrows ncols c =
      rs_true_range_1d (column high nrows ncols c) (column low nrows ncols c) (column close nrows ncols c).
  Proof.
    intros high low close nrows ncols H1 H2 H3. unfold rs_true_range_2d_c.
    assert (L : forall g : nat -> nat -> T, length (map (fun row => map (g row) (seq 0 ncols)) (seq 0 nrows)) = nrows) by (intros; rewrite map_length, seq_length; auto).
    assert (F : forall g : nat -> nat -> T, Forall (fun l => length l = ncols) (map (fun row => map (g row) (seq 0 ncols)) (seq 0 nrows))).
    { intros g. apply Forall_forall. intros l Hl. apply in_map_iff in Hl as (r & <- & _). rewrite map_length, seq_length. auto. }
    split.
    - unfold c_order. rewrite (concat_len _ ncols), map_length, seq_length; auto.
    - intros c Hc. rewrite column_concat; auto. rewrite map_map. unfold rs_true_range_1d.
      replace (length (column high nrows ncols c)) with nrows by (unfold column; rewrite map_length, seq_length; auto).
      apply map_ext. intros r.
      rewrite (nth_map_seq _ (fun col => if r =? 0 then _ else _)) by auto. destruct (Nat.eqb_spec r 0) as [->|Hr].
      + rewrite !column_nth_nan by auto. reflexivity.
      + rewrite !column_nth_nan by auto. reflexivity.
  Qed.
End Shapes.
