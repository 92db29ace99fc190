(** * The Rust kernels do what the Numba kernels do: shifting, rolling, expanding, exponential (C97) *)
From Coq Require Import String ZArith Bool List Lia.
From Verif Require Import Base Num OrdLaws GenericNb GenericSpec GenericLemmas GenericLemmas7 IndicatorLemmas ReduceLemmas RustGeneric RustGenericSpec RustGenericLemmas.
Import ListNotations.
Open Scope nat_scope.

Section Kernels.
  Context {T : Type} {N : Num T}.

  (** ** Shifting *)
  Lemma nth_repeat' : forall A (x : A) n c d, c < n -> nth c (repeat x n) d = x.
  Proof. intros A x n c d H. apply nth_error_nth. apply nth_error_repeat'. auto. Qed.
  Lemma seq_map_split : forall A (f : nat -> A) n len, map f (seq 0 len) = map f (seq 0 (Nat.min n len)) ++ map f (seq n (len - n)).
  Proof.
    intros A f n len. rewrite <- map_app. f_equal. destruct (le_lt_dec n len).
    - replace (Nat.min n len) with n by lia. replace len with (n + (len - n)) at 1 by lia. rewrite seq_app. auto.
    - replace (Nat.min n len) with len by lia. replace (len - n) with 0 by lia. cbn. rewrite app_nil_r. auto.
  Qed.
  Lemma map_const_seq : forall A (f : nat -> A) x n s, (forall i, s <= i < s + n -> f i = x) -> map f (seq s n) = repeat x n.
  Proof. intros A f x n. induction n as [|n IH]; intros s H; cbn; auto. rewrite H by lia. f_equal. apply IH. intros i Hi. apply H. lia. Qed.

  Lemma bshift_1d_eq : forall (a : list T) n v, rs_bshift_1d a n v = bshift_1d_nb a n v.
  Proof.
    intros a n v. unfold rs_bshift_1d, bshift_1d_nb. apply map_ext. intros i.
    destruct (Nat.ltb_spec (i + n) (length a)), (Nat.leb_spec (i + n + 1) (length a)); auto; lia.
  Qed.
  Lemma fshift_1d_eq : forall (a : list T) n v, rs_fshift_1d a n v = fshift_1d_nb a n v.
  Proof.
    intros a n v. unfold rs_fshift_1d, fshift_1d_nb. rewrite (seq_map_split _ _ n). f_equal.
    - symmetry. apply map_const_seq. intros i Hi. destruct (Nat.leb_spec n i); auto; lia.
    - apply map_ext_in. intros i Hi. apply in_seq in Hi. destruct (Nat.leb_spec n i); auto; lia.
  Qed.
  Definition change_1d (f : T -> T -> T) (a : list T) (n : nat) : list T :=
    map (fun i => if Nat.ltb i n then nan else f (nth i a nan) (nth (i - n) a nan)) (seq 0 (length a)).
  Lemma change_1d_eq : forall f (a : list T) n,
    repeat nan (Nat.min n (length a)) ++ map (fun i => f (nth i a nan) (nth (i - n) a nan)) (seq n (length a - n)) = change_1d f a n.
  Proof.
    intros f a n. unfold change_1d. rewrite (seq_map_split _ _ n). f_equal.
    - symmetry. apply map_const_seq. intros i Hi. destruct (Nat.ltb_spec i n); auto; lia.
    - apply map_ext_in. intros i Hi. apply in_seq in Hi. destruct (Nat.ltb_spec i n); auto; lia.
  Qed.
  Lemma diff_1d_eq : forall (a : list T) n, rs_diff_1d a n = diff_1d_nb a n.
  Proof. intros a n. apply (change_1d_eq sub). Qed.
  Lemma pct_change_1d_eq : forall (a : list T) n, rs_pct_change_1d a n = pct_change_1d_nb a n.
  Proof. intros a n. apply (change_1d_eq (fun x y => sub (div x y) one)). Qed.

  (** Rows given one by one. *)
  Lemma rows_by_column : forall (row : list T -> nat -> list T) (g : list T -> list T) nrows ncols,
    (forall src r, c_order src nrows ncols -> r < nrows -> length (row src r) = ncols) ->
    (forall src c, c_order src nrows ncols -> c < ncols -> map (fun r => nth c (row src r) nan) (seq 0 nrows) = g (column src nrows ncols c)) ->
    by_column (fun src => concat (map (row src) (seq 0 nrows))) g nrows ncols.
  Proof.
    intros row g nrows ncols H1 H2 src Hs.
    assert (F : Forall (fun l => length l = ncols) (map (row src) (seq 0 nrows))).
    { apply Forall_forall. intros l Hl. apply in_map_iff in Hl as (r & <- & Hr). apply in_seq in Hr. apply H1; auto. lia. }
    assert (L : length (map (row src) (seq 0 nrows)) = nrows) by (rewrite map_length, seq_length; auto).
    split; [unfold c_order; rewrite (concat_len _ ncols), L; auto|]. intros c Hc. rewrite column_concat by auto. rewrite map_map. apply H2; auto.
  Qed.
  Lemma by_column_ext : forall f f' g nrows ncols, (forall src, c_order src nrows ncols -> f src = f' src) ->
    by_column f' g nrows ncols -> by_column f g nrows ncols.
  Proof. intros f f' g nrows ncols H B src Hs. rewrite H by auto. apply B. auto. Qed.
  Lemma single_column : forall (g : list T -> list T) nrows, (forall a, length a = nrows -> length (g a) = nrows) -> by_column g g nrows 1.
  Proof.
    intros g nrows H src Hs. assert (Hl : length src = nrows) by (unfold c_order in Hs; lia).
    assert (Ho : c_order (g src) nrows 1) by (unfold c_order; rewrite H; auto; lia). split; auto.
    intros c Hc. replace c with 0 by lia. rewrite !only_column; auto.
  Qed.

  Lemma row_slice : forall (src : list T) nrows ncols r, c_order src nrows ncols -> r < nrows ->
    length (slice (r * ncols) (r * ncols + ncols) src) = ncols /\ forall c, c < ncols -> nth c (slice (r * ncols) (r * ncols + ncols) src) nan = nth (r * ncols + c) src nan.
  Proof.
    intros src nrows ncols r Hs Hr. unfold c_order in Hs. split.
    - unfold slice. rewrite skipn_length, firstn_length, Hs. assert (r * ncols + ncols <= nrows * ncols) by nia. lia.
    - intros c Hc. apply nth_slice. lia.
  Qed.

  Lemma bshift_2d_ok : forall nrows ncols n v, by_column (fun src => rs_bshift_2d_c src nrows ncols n v) (fun a => bshift_1d_nb a n v) nrows ncols.
  Proof.
    intros nrows ncols n v. unfold rs_bshift_2d_c. destruct (Nat.eqb_spec ncols 1) as [->|Hn].
    - apply (by_column_ext _ (fun a => bshift_1d_nb a n v)); [intros; apply bshift_1d_eq|]. apply single_column.
      intros a Ha. unfold bshift_1d_nb. rewrite map_length, seq_length. auto.
    - apply (rows_by_column (fun src row => if row + n <? nrows then slice ((row + n) * ncols) ((row + n) * ncols + ncols) src else repeat v ncols)).
      + intros src r Hs Hr. destruct (Nat.ltb_spec (r + n) nrows); [|apply repeat_length]. apply (row_slice src nrows ncols (r + n)); auto.
      + intros src c Hs Hc. unfold bshift_1d_nb. rewrite column_length. apply map_ext_in. intros r Hr. apply in_seq in Hr.
        destruct (Nat.ltb_spec (r + n) nrows), (Nat.leb_spec (r + n + 1) nrows); try lia.
        * rewrite column_nth by auto. apply (row_slice src nrows ncols (r + n)); auto.
        * apply nth_repeat'. auto.
  Qed.
  Lemma fshift_2d_ok : forall nrows ncols n v, by_column (fun src => rs_fshift_2d_c src nrows ncols n v) (fun a => fshift_1d_nb a n v) nrows ncols.
  Proof.
    intros nrows ncols n v. unfold rs_fshift_2d_c. destruct (Nat.eqb_spec ncols 1) as [->|Hn].
    - apply (by_column_ext _ (fun a => fshift_1d_nb a n v)); [intros; apply fshift_1d_eq|]. apply single_column.
      intros a Ha. unfold fshift_1d_nb. rewrite map_length, seq_length. auto.
    - apply (rows_by_column (fun src row => if row <? n then repeat v ncols else slice ((row - n) * ncols) ((row - n) * ncols + ncols) src)).
      + intros src r Hs Hr. destruct (Nat.ltb_spec r n); [apply repeat_length|]. apply (row_slice src nrows ncols (r - n)); auto. lia.
      + intros src c Hs Hc. unfold fshift_1d_nb. rewrite column_length. apply map_ext_in. intros r Hr. apply in_seq in Hr.
        destruct (Nat.ltb_spec r n), (Nat.leb_spec n r); try lia.
        * apply nth_repeat'. auto.
        * rewrite column_nth by lia. apply (row_slice src nrows ncols (r - n)); auto. lia.
  Qed.
  Lemma rows_from_ok : forall f nrows ncols n, by_column (fun src => rs_rows_from f src nrows ncols n) (fun a => change_1d f a n) nrows ncols.
  Proof.
    intros f nrows ncols n.
    set (row := fun (src : list T) row => if row <? n then repeat nan ncols
                  else map (fun col => f (nth (row * ncols + col) src nan) (nth ((row - n) * ncols + col) src nan)) (seq 0 ncols)).
    apply (by_column_ext _ (fun src => concat (map (row src) (seq 0 nrows)))).
    - intros src Hs. unfold rs_rows_from. f_equal. rewrite (seq_map_split _ _ n nrows). f_equal.
      + symmetry. apply map_const_seq. intros i Hi. unfold row. destruct (Nat.ltb_spec i n); auto; lia.
      + apply map_ext_in. intros i Hi. apply in_seq in Hi. unfold row. destruct (Nat.ltb_spec i n); auto; lia.
    - apply rows_by_column.
      + intros src r Hs Hr. unfold row. destruct (r <? n); [apply repeat_length|]. rewrite map_length, seq_length. auto.
      + intros src c Hs Hc. unfold change_1d. rewrite column_length. apply map_ext_in. intros r Hr. apply in_seq in Hr. unfold row.
        destruct (Nat.ltb_spec r n); [apply nth_repeat'; auto|]. rewrite !column_nth by lia.
        rewrite (nth_map_seq _ (fun col => f (nth (r * ncols + col) src nan) (nth ((r - n) * ncols + col) src nan))) by auto. auto.
  Qed.
  Lemma change_length : forall f (a : list T) n, length (change_1d f a n) = length a.
  Proof. intros. unfold change_1d. rewrite map_length, seq_length. auto. Qed.
  Lemma diff_2d_ok : forall nrows ncols n, by_column (fun src => rs_diff_2d_c src nrows ncols n) (fun a => diff_1d_nb a n) nrows ncols.
  Proof.
    intros nrows ncols n. unfold rs_diff_2d_c. destruct (Nat.eqb_spec ncols 1) as [->|Hn]; [|apply (rows_from_ok sub)].
    apply (by_column_ext _ (fun a => diff_1d_nb a n)); [intros; apply diff_1d_eq|]. apply single_column. intros a Ha. rewrite <- Ha. apply (change_length sub).
  Qed.
  Lemma pct_change_2d_ok : forall nrows ncols n, by_column (fun src => rs_pct_change_2d_c src nrows ncols n) (fun a => pct_change_1d_nb a n) nrows ncols.
  Proof.
    intros nrows ncols n. unfold rs_pct_change_2d_c. destruct (Nat.eqb_spec ncols 1) as [->|Hn]; [|apply (rows_from_ok (fun x y => sub (div x y) one))].
    apply (by_column_ext _ (fun a => pct_change_1d_nb a n)); [intros; apply pct_change_1d_eq|]. apply single_column. intros a Ha. rewrite <- Ha. apply (change_length (fun x y => sub (div x y) one)).
  Qed.

  (** ** Rolling extremes *)
  Lemma extreme_eq : forall better (a : list T) window m i, rs_extreme better a window m i = rolling_extreme better a window m i.
  Proof.
    intros better a window m i. unfold rs_extreme, rolling_extreme.
    replace (if window <=? i + 1 then i + 1 - window else 0) with (S i - window) by (destruct (Nat.leb_spec window (i + 1)); lia).
    replace (i + 1) with (S i) by lia.
    assert (E : forall l s, fold_left (fun '(minv, cnt) x => if isnan x then (minv, cnt) else (if isnan minv || better x minv then x else minv, cnt + 1)) l s
              = fold_left (extreme_step better) l s).
    { intros l. induction l as [|x l IH]; intros [m0 c0]; cbn; auto. rewrite IH. f_equal. destruct (isnan x); auto. f_equal. lia. }
    rewrite E. destruct (fold_left _ _ _) as [v c]. rewrite Nat.ltb_antisym. destruct (m <=? c); auto.
  Qed.
  Lemma rolling_extreme_eq : forall better (a : list T) window minp,
    rs_rolling_extreme better a window minp = check_minp window minp (fun m => Ok (map (rolling_extreme better a window m) (seq 0 (length a)))).
  Proof.
    intros better a window minp. unfold rs_rolling_extreme, check_minp, rs_validate_window. cbv zeta. f_equal. f_equal.
    apply map_ext. intros i. apply extreme_eq.
  Qed.

  (** ** Two loops in step *)
  Lemma scan_sim : forall S1 S2 A B (R : nat -> S1 -> S2 -> Prop) (f : nat -> S1 -> A -> S1 * B) (g : nat -> S2 -> A -> S2 * B) l i s1 s2, R i s1 s2 ->
    (forall k s1 s2 x, nth_error l k = Some x -> R (i + k) s1 s2 ->
       R (S (i + k)) (fst (f (i + k) s1 x)) (fst (g (i + k) s2 x)) /\ snd (f (i + k) s1 x) = snd (g (i + k) s2 x)) ->
    scan f i s1 l = scan g i s2 l.
  Proof.
    intros S1 S2 A B R f g l. induction l as [|x l IH]; intros i s1 s2 H0 H; [reflexivity|]. cbn [scan].
    pose proof (H 0 s1 s2 x eq_refl) as K. rewrite Nat.add_0_r in K. destruct (K H0) as [K1 K2].
    destruct (f i s1 x) as [s1' b1], (g i s2 x) as [s2' b2]. cbn in K1, K2. subst b2. f_equal.
    apply (IH (S i)); auto. intros k t1 t2 y Hy Ht. replace (S i + k) with (i + S k) in * by lia. apply H; auto.
  Qed.

  Lemma slice_seq : forall (a : list T) s e, e <= length a -> slice s e a = map (fun j => nth j a nan) (seq s (e - s)).
  Proof.
    intros a s e He. apply (nth_ext _ _ nan nan); [rewrite map_length, seq_length; unfold slice; rewrite skipn_length, firstn_length; lia|].
    intros k Hk. unfold slice in Hk. rewrite skipn_length, firstn_length in Hk. rewrite nth_slice by lia.
    rewrite (nth_indep (map (fun j => nth j a nan) (seq s (e - s))) nan (nth 0 a nan)) by (rewrite map_length, seq_length; lia). 
    pose proof (map_nth (fun j => nth j a nan) (seq s (e - s)) 0 k) as K. cbv beta in K. rewrite K. rewrite seq_nth by lia. auto.
  Qed.
  Lemma slice_snoc : forall (a : list T) s i x, nth_error a i = Some x -> s <= i -> slice s (S i) a = slice s i a ++ [x].
  Proof.
    intros a s i x Hx Hs. assert (i < length a) by (apply nth_error_Some; congruence).
    rewrite !slice_seq by lia. replace (S i - s) with (i - s + 1) by lia. rewrite seq_app, map_app. cbn. replace (s + (i - s)) with i by lia.
    rewrite (nth_error_nth a i nan Hx). auto.
  Qed.
  Lemma slice_head : forall (a : list T) s e, s < e <= length a -> slice s e a = nth s a nan :: slice (S s) e a.
  Proof. intros a s e H. rewrite !slice_seq by lia. replace (e - s) with (S (e - S s)) by lia. auto. Qed.

  (** ** Rolling standard deviation *)
  Definition count_in (a : list T) (s e : nat) : Z := Z.of_nat (length (numbers (slice s e a))).
  Lemma numbers_app : forall l1 l2 : list T, numbers (l1 ++ l2) = numbers l1 ++ numbers l2.
  Proof. intros. unfold numbers. apply filter_app. Qed.
  Definition view (s : VarState T) : Var T * T * T * bool := (mkVar (rs_count s) (rs_mean s) (rs_m2 s), rs_comp_add s, rs_comp_remove s, rs_unstable s).

  Lemma add_view : forall tol s x, view (rs_add tol s x) =
    let '(v, c, u) := add_var_nb tol x (mkVar (rs_count s) (rs_mean s) (rs_m2 s)) (rs_comp_add s) (rs_unstable s) in (v, c, rs_comp_remove s, u).
  Proof. intros tol s x. unfold rs_add, add_var_nb, view. destruct (isnan x); reflexivity. Qed.
  Lemma remove_view : forall tol s x, (isnan x = false -> 1 <= rs_count s)%Z -> view (rs_remove tol s x) =
    let '(v, c, u) := remove_var_nb tol x (mkVar (rs_count s) (rs_mean s) (rs_m2 s)) (rs_comp_remove s) (rs_unstable s) in (v, rs_comp_add s, c, u).
  Proof.
    intros tol s x H. unfold rs_remove, remove_var_nb, view. destruct (isnan x); [reflexivity|]. specialize (H eq_refl). cbn [v_nobs].
    destruct (Z.ltb_spec 0 (rs_count s - 1)), (Z.eqb_spec (rs_count s - 1) 0); try lia; reflexivity.
  Qed.
  Lemma add_count : forall tol s x, rs_count (rs_add tol s x) = if isnan x then rs_count s else (rs_count s + 1)%Z.
  Proof. intros tol s x. unfold rs_add. destruct (isnan x); reflexivity. Qed.
  Lemma remove_count : forall tol s x, rs_count (rs_remove tol s x) = if isnan x then rs_count s else (rs_count s - 1)%Z.
  Proof. intros tol s x. unfold rs_remove. destruct (isnan x); [reflexivity|]. destruct (Z.ltb 0 _); reflexivity. Qed.

  Lemma recompute_view : forall tol xs s v c u, view s = (v, c, zero, u) ->
    exists u', view (fold_left (fun s x => rs_add tol s x) xs s) =
      let '(v', c', _) := fold_left (fun '(v, c, u) x => add_var_nb tol x v c u) xs (v, c, u) in (v', c', zero, u').
  Proof.
    intros tol xs. induction xs as [|x xs IH]; intros s v c u H; cbn [fold_left]; [exists u; auto|].
    pose proof (add_view tol s x) as K. unfold view in H. injection H as <- <- Hr <-. rewrite Hr in K.
    destruct (add_var_nb tol x _ _ _) as [[v1 c1] u1]. apply (IH _ _ _ _ K).
  Qed.
  Lemma recompute_count : forall tol xs s, rs_count (fold_left (fun s x => rs_add tol s x) xs s) = (rs_count s + Z.of_nat (length (numbers xs)))%Z.
  Proof.
    intros tol xs. induction xs as [|x xs IH]; intros s; cbn [fold_left numbers filter length]; [lia|]. rewrite IH, add_count.
    unfold numbers. cbn [filter]. destruct (isnan x); cbn [negb length]; lia.
  Qed.
  Lemma fold_left_map_at : forall A B C (f : A -> B -> A) (g : C -> B) l s, fold_left (fun s j => f s (g j)) l s = fold_left f (map g l) s.
  Proof. intros A B C f g l. induction l as [|x l IH]; intros s; cbn; auto. Qed.

  Lemma std_sim : forall sqrt tol (at_ : nat -> T) a window minp ddof, (forall j, at_ j = nth j a nan) ->
    scan (rs_std_step sqrt tol at_ window minp ddof) 0 var_default a = scan (rolling_std_step sqrt tol a window minp (Z.of_nat ddof)) 0 (mkVar 0 zero zero, zero, zero, false) a.
  Proof.
    intros sqrt tol at_ a window minp ddof Hat.
    apply (scan_sim _ _ _ _ (fun i s1 s2 => view s1 = s2 /\ rs_count s1 = (if window =? 0 then 0%Z else count_in a (i - window) i))).
    { split; [reflexivity|]. destruct (window =? 0); auto. }
    intros i s1 s2 x Hx [Hv Hc]. cbn [plus] in *. assert (Hi : i < length a) by (apply nth_error_Some; congruence).
    assert (Ex : at_ i = x) by (rewrite Hat; apply nth_error_nth; auto).
    unfold rs_std_step, rolling_std_step. cbv zeta.
    set (req := (i =? 0) || (window =? 0)).
    set (s1a := if negb req && (window <=? i) then rs_remove tol s1 (at_ (i - window)) else s1).
    set (s1b := if negb req then rs_add tol s1a (at_ i) else s1a).
    set (t1 := if req then s2 else _).
    assert (Hb : view s1b = t1 /\ (req = false -> rs_count s1b = count_in a (S i - window) (S i))).
    { unfold s1b, s1a, t1. destruct req eqn:Er; cbn [negb andb]; [split; auto; discriminate|].
      unfold req in Er. apply orb_false_iff in Er as [E1 E2]. apply Nat.eqb_neq in E1, E2. rewrite (proj2 (Nat.eqb_neq window 0) E2) in Hc.
      subst s2. rewrite Hat, Ex. unfold view at 2. destruct (Nat.leb_spec window i) as [Hw|Hw].
      - assert (H0 : count_in a (i - window) i = ((if isnan (nth (i - window) a nan) then 0 else 1) + count_in a (S i - window) i)%Z).
        { unfold count_in. rewrite (slice_head a (i - window) i) by lia. replace (S (i - window)) with (S i - window) by lia. unfold numbers. cbn [filter].
          destruct (isnan _); cbn [negb length]; lia. }
        assert (H1 : count_in a (S i - window) (S i) = (count_in a (S i - window) i + if isnan x then 0 else 1)%Z).
        { unfold count_in. rewrite (slice_snoc a (S i - window) i x) by (auto; lia). rewrite numbers_app, app_length. unfold numbers at 2. cbn [filter].
          destruct (isnan x); cbn [negb length]; lia. }
        pose proof (remove_view tol s1 (nth (i - window) a nan)) as K1. pose proof (remove_count tol s1 (nth (i - window) a nan)) as K1c.
        pose proof (add_view tol (rs_remove tol s1 (nth (i - window) a nan)) x) as K2. pose proof (add_count tol (rs_remove tol s1 (nth (i - window) a nan)) x) as K2c.
        set (sr := rs_remove tol s1 (nth (i - window) a nan)) in *. clearbody sr.
        split.
        + rewrite K2. destruct (remove_var_nb tol _ _ _ _) as [[v c] u]. unfold view in K1.
          rewrite H0 in Hc.
          assert (Kp : (isnan (nth (i - window) a nan) = false -> (1 <= rs_count s1)%Z)).
          { intros Hn. rewrite Hn in Hc. unfold count_in in Hc. lia. }
          specialize (K1 Kp). injection K1 as -> -> -> ->. destruct (add_var_nb tol x _ _ _) as [[v2 c2] u2]. reflexivity.
        + intros _. rewrite K2c, K1c, Hc, H0, H1. destruct (isnan (nth (i - window) a nan)), (isnan x); lia.
      - split.
        + rewrite add_view. destruct (add_var_nb tol x _ _ _) as [[v2 c2] u2]. reflexivity.
        + intros _. rewrite add_count, Hc. replace (i - window) with 0 by lia. replace (S i - window) with 0 by lia.
          unfold count_in. rewrite (slice_snoc a 0 i x) by (auto; lia). rewrite numbers_app, app_length. unfold numbers at 4. cbn [filter].
          destruct (isnan x); cbn [negb length]; lia. }
    destruct Hb as [Hb Hbc]. clearbody s1b t1. subst t1. unfold view. cbv beta iota.
    set (xs := slice (S i - window) (S i) a).
    assert (Hf : fold_left (fun s j => rs_add tol s (at_ j)) (seq (i + 1 - window) (i + 1 - (i + 1 - window))) var_default
                 = fold_left (fun s x => rs_add tol s x) xs var_default).
    { unfold xs. rewrite slice_seq by lia. replace (i + 1) with (S i) by lia. rewrite <- (map_ext at_ _ Hat).
      apply (fold_left_map_at _ _ _ (fun s x => rs_add tol s x) at_). }
    rewrite Hf. clear Hf.
    pose proof (recompute_view tol xs var_default (mkVar 0 zero zero) zero false eq_refl) as (u' & Ku).
    pose proof (recompute_count tol xs var_default) as Kc. cbn [var_default rs_count] in Kc.
    unfold recompute_var. fold (xs). change (slice (S i - window) (S i) a) with xs.
    set (F := fold_left (fun s x => rs_add tol s x) xs var_default) in *. clearbody F.
    assert (Hcnt : Z.of_nat (length (numbers xs)) = (if window =? 0 then 0%Z else count_in a (S i - window) (S i))).
    { destruct (Nat.eqb_spec window 0) as [->|]; auto. unfold xs. rewrite slice_seq by lia. replace (S i - (S i - 0)) with 0 by lia. reflexivity. }
    cbv beta iota. destruct (req || rs_unstable s1b) eqn:Eu.
    - destruct (fold_left _ xs (mkVar 0 zero zero, zero, false)) as [[v c] u]. unfold view in Ku. injection Ku as <- <- K1 <-.
      cbn [fst snd]. cbn [rs_count rs_mean rs_m2 rs_comp_add rs_comp_remove rs_unstable v_nobs v_m2]. rewrite K1. split; [split; [reflexivity|lia]|].
      unfold rs_std. cbn [rs_count rs_m2]. reflexivity.
    - apply orb_false_iff in Eu as [Er Eu]. cbn [fst snd]. split; [split; [reflexivity|]|reflexivity].
      rewrite (Hbc Er). unfold req in Er. apply orb_false_iff in Er as [_ Er]. rewrite Er. auto.
  Qed.
  Lemma rolling_std_eq : forall sqrt tol (a : list T) window minp ddof, rs_rolling_std sqrt tol a window minp ddof = rolling_std_1d_nb sqrt tol a window minp (Z.of_nat ddof).
  Proof.
    intros sqrt tol a window minp ddof. unfold rs_rolling_std, rolling_std_1d_nb, check_minp, rs_validate_window, rs_rolling_std_1d. cbv zeta. f_equal. f_equal.
    apply std_sim. auto.
  Qed.
End Kernels.
