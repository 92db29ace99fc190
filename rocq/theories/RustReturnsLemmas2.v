(** * Proofs for C103: arrays stored row by row; exact arithmetic *)
From Coq Require Import String ZArith QArith Qround Bool List Arith Lia Lqa.
From Verif Require Import Base Num XQFacts OrdLaws GenericNb RustGeneric RustGenericSpec RustGenericLemmas RustGenericLemmas2 ReturnsNb RustReturns RustReturnsSpec RustReturnsLemmas.
Import ListNotations.
Local Open Scope nat_scope.

Section Rows.
  Context {T : Type} {N : Num T}.

  Lemma row_reduce_run : forall S (step : nat -> nat -> S -> S) ncols rows g,
    fold_left (fun states row => map (fun cs => step (fst cs) (row * ncols + fst cs) (snd cs)) (combine (seq 0 ncols) states)) rows (map g (seq 0 ncols)) =
    map (fun c => fold_left (fun s r => step c (r * ncols + c) s) rows (g c)) (seq 0 ncols).
  Proof.
    intros S step ncols. induction rows as [|r rows IH]; intros g; cbn [fold_left]; [reflexivity|].
    rewrite <- (map_id (seq 0 ncols)) at 1. rewrite combine_map2, map_map. cbn [fst snd].
    exact (IH (fun c => step c (r * ncols + c) (g c))).
  Qed.
  Lemma repeat_map_seq : forall A (x : A) n s, repeat x n = map (fun _ => x) (seq s n).
  Proof. intros A x. induction n as [|n IH]; intros s; cbn; [reflexivity|]. f_equal. apply IH. Qed.
  Lemma row_reduce_eq : forall S (step : nat -> nat -> S -> S) nrows ncols init,
    row_reduce step nrows ncols init = map (fun c => fold_left (fun s r => step c (r * ncols + c) s) (seq 0 nrows) init) (seq 0 ncols).
  Proof. intros. unfold row_reduce. rewrite (repeat_map_seq _ init ncols 0). apply row_reduce_run. Qed.
  Lemma over_column : forall S (f : S -> T -> S) (src : list T) nrows ncols c s,
    fold_left (fun s r => f s (nth (r * ncols + c) src nan)) (seq 0 nrows) s = fold_left f (column src nrows ncols c) s.
  Proof. intros. exact (fold_left_map_at _ _ _ f (fun r => nth (r * ncols + c) src nan) (seq 0 nrows) s). Qed.
  Lemma over_columns : forall S (f : S -> T * T -> S) (a b : list T) nrows ncols c s,
    fold_left (fun s r => f s (nth (r * ncols + c) a nan, nth (r * ncols + c) b nan)) (seq 0 nrows) s = fold_left f (combine (column a nrows ncols c) (column b nrows ncols c)) s.
  Proof.
    intros. unfold column. rewrite combine_map2.
    exact (fold_left_map_at _ _ _ f (fun r => (nth (r * ncols + c) a nan, nth (r * ncols + c) b nan)) (seq 0 nrows) s).
  Qed.
  Lemma chunks_ok : forall A ncols (k : res A), 1 <= ncols -> chunks_exact ncols k = k.
  Proof. intros A [|n] k H; [lia|reflexivity]. Qed.

  (** Sum, count and squared differences of the values *)
  Definition moments (l : list T) : T * nat * T :=
    (fold_left (fun c v => if isnan v then c else add c v) l zero, length (filter (fun v => negb (isnan v)) l),
     fold_left (fun c v => if isnan v then c else add c (mul (sub v (np_nanmean l)) (sub v (np_nanmean l)))) l zero).
  Lemma moments_c_eq : forall (value : nat -> T) nrows ncols,
    rs_moments_c value nrows ncols = map (fun c => moments (map (fun r => value (r * ncols + c)) (seq 0 nrows))) (seq 0 ncols).
  Proof.
    intros value nrows ncols. unfold rs_moments_c. cbv zeta.
    rewrite (row_reduce_eq _ (fun (_ p : nat) (s : T * nat) => if isnan (value p) then s else (add (fst s) (value p), snd s + 1))). rewrite row_reduce_eq.
    set (sc := fun c => fold_left (fun (s : T * nat) r => if isnan (value (r * ncols + c)) then s else (add (fst s) (value (r * ncols + c)), snd s + 1)) (seq 0 nrows) (zero, 0)).
    assert (Hsc : forall c, sc c = (fold_left (fun x v => if isnan v then x else add x v) (map (fun r => value (r * ncols + c)) (seq 0 nrows)) zero,
       length (filter (fun v => negb (isnan v)) (map (fun r => value (r * ncols + c)) (seq 0 nrows))))).
    { intros c. exact (sum_count_eq nat (fun r => value (r * ncols + c)) (seq 0 nrows)). }
    rewrite combine_map2. apply map_ext_in. intros c Hc. apply in_seq in Hc. unfold moments. f_equal; [apply Hsc|].
    rewrite <- (fold_left_map_at _ _ _ (fun x v => if isnan v then x else add x (mul (sub v (np_nanmean (map (fun r => value (r * ncols + c)) (seq 0 nrows)))) (sub v (np_nanmean (map (fun r => value (r * ncols + c)) (seq 0 nrows))))))
      (fun r => value (r * ncols + c)) (seq 0 nrows) zero).
    apply fold_ext. intros s r. destruct (isnan (value (r * ncols + c))); [reflexivity|].
    assert (E : nth c (map sc (seq 0 ncols)) (zero, 0) = sc c).
    { rewrite (nth_indep _ (zero, 0) (sc 0)) by (rewrite map_length, seq_length; lia). rewrite map_nth, seq_nth by lia. reflexivity. }
    rewrite E, Hsc. reflexivity.
  Qed.
End Rows.

Section AnyRows.
  Context {T : Type} {N : Num T} {L : OrdLaws N} (I : ieee_like N).
  Variable pow : T -> T -> T.
  Hypothesis one_not_zero : eqb (one : T) zero = false.

  Lemma returns_2d_ok : forall (value : list T) nrows ncols init, length init = ncols ->
    exists out, rs_returns_2d_c value nrows ncols init = Ok out /\ c_order out nrows ncols /\
      forall c, c < ncols -> column out nrows ncols c = returns_1d_nb (column value nrows ncols c) (nth c init nan).
  Proof.
    intros value nrows ncols init Hi. unfold rs_returns_2d_c. rewrite Hi, Nat.eqb_refl. cbn [negb raise_if]. eexists; split; [reflexivity|].
    split; [rewrite <- (seq_length nrows 0) at 2; apply row_loop_shape; auto|].
    intros c Hc. rewrite (row_loop_column _ _ _ _ _ _ _ (nth c init nan)); auto.
    - apply (returns_1d_eq I).
    - apply nth_error_nth'. lia.
  Qed.
  Lemma cum_returns_2d_ok : forall nrows ncols v,
    by_column (fun src => rs_cum_returns_2d_c src nrows ncols v) (fun a => cum_returns_1d_nb a v) nrows ncols.
  Proof.
    intros nrows ncols v. apply (row_loop_by_column _ (fun _ _ => rs_cum_step v) one). intros src c _ _. apply cum_returns_1d_eq.
  Qed.
  Lemma cum_returns_final_2d_ok : forall nrows ncols v, 1 <= ncols ->
    reduces_columns (fun src => rs_cum_returns_final_2d_c src nrows ncols v) (fun a => cum_returns_final_1d_nb a v) nrows ncols.
  Proof.
    intros nrows ncols v Hn src Hs. unfold rs_cum_returns_final_2d_c. rewrite chunks_ok by auto. eexists; split; [reflexivity|].
    rewrite row_reduce_eq, map_map. apply map_ext. intros c. rewrite over_column. apply (cum_returns_final_1d_eq I).
  Qed.
  Lemma annualized_return_2d_ok : forall nrows ncols f, 1 <= ncols ->
    reduces_columns (fun src => rs_annualized_return_2d_c pow src nrows ncols f) (fun a => annualized_return_1d_nb pow a f) nrows ncols.
  Proof.
    intros nrows ncols f Hn src Hs. unfold rs_annualized_return_2d_c. rewrite chunks_ok by auto. eexists; split; [reflexivity|].
    rewrite row_reduce_eq, map_map. apply map_ext. intros c. rewrite over_column, <- (from_product_eq I pow one_not_zero), column_length. reflexivity.
  Qed.
  Lemma capture_2d_ok : forall nrows ncols f,
    reduces_columns2 (fun a b => Ok (rs_capture_2d_c pow a b nrows ncols f)) (fun a b => capture_1d_nb pow (combine a b) f) nrows ncols.
  Proof.
    intros nrows ncols f a b Ha Hb. unfold rs_capture_2d_c. eexists; split; [reflexivity|].
    rewrite row_reduce_eq, map_map. apply map_ext. intros c.
    pose proof (over_columns _ (fun (s : T * T) x => (rs_grow (fst s) (fst x), rs_grow (snd s) (snd x))) a b nrows ncols c (one, one)) as H. cbn [fst snd] in H. rewrite H. clear H.
    rewrite <- (capture_1d_eq I pow one_not_zero) by (rewrite !column_length; reflexivity). unfold rs_capture_1d.
    destruct (fold_left _ _ _) as [x y]. rewrite !column_length. reflexivity.
  Qed.
  Lemma filtered_capture_2d_ok : forall nrows ncols f (up : bool), 1 <= ncols ->
    reduces_columns2 (fun a b => rs_filtered_capture_2d_c pow a b nrows ncols f up)
      (fun a b => if up then up_capture_1d_nb pow (combine a b) f else down_capture_1d_nb pow (combine a b) f) nrows ncols.
  Proof.
    intros nrows ncols f up Hn a b Ha Hb. unfold rs_filtered_capture_2d_c. rewrite chunks_ok by auto. eexists; split; [reflexivity|].
    rewrite row_reduce_eq, map_map. apply map_ext. intros c.
    rewrite (over_columns _ (rs_filtered_step (fun b0 => (up && gtb b0 zero) || (negb up && ltb b0 zero))%bool)).
    destruct up; cbn [andb negb].
    - rewrite <- (up_capture_1d_eq I pow one_not_zero). unfold rs_up_capture_1d. f_equal. apply fold_ext. intros [[x y] n] z.
      unfold rs_filtered_step. rewrite orb_false_r. reflexivity.
    - rewrite <- (down_capture_1d_eq I pow one_not_zero). unfold rs_down_capture_1d. reflexivity.
  Qed.
End AnyRows.
