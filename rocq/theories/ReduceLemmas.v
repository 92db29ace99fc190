(** * Lemmas on loops over columns, rows and windows *)
From Coq Require Import ZArith Bool List Arith Lia.
From Verif Require Import Base Num GenericNb GenericLemmas Reduce ReduceSpec.
Import ListNotations.

(** ** collect *)
Lemma collect_forall2 : forall A B (f : A -> res B) l out, collect f l = Ok out -> Forall2 (fun x y => f x = Ok y) l out.
Proof.
  intros A B f l. induction l as [|x l IH]; intros out H; cbn [collect] in H.
  - injection H as <-. constructor.
  - apply bind_ok in H as (y & E & H). apply bind_ok in H as (r & Hr & H). injection H as <-. constructor; auto.
Qed.
Lemma collect_length : forall A B (f : A -> res B) l out, collect f l = Ok out -> length out = length l.
Proof. intros A B f l out H. apply collect_forall2 in H. induction H; cbn; auto. Qed.
Lemma collect_nth : forall A B (f : A -> res B) l out i x, collect f l = Ok out -> nth_error l i = Some x ->
  exists y, nth_error out i = Some y /\ f x = Ok y.
Proof.
  intros A B f l out i x H. apply collect_forall2 in H. revert i. induction H; intros [|i] Hi; cbn in Hi |- *; try discriminate; auto.
  injection Hi as ->. eauto.
Qed.
Lemma collect_seq : forall B (f : nat -> res B) n out i d, collect f (seq 0 n) = Ok out -> i < n -> f i = Ok (nth i out d).
Proof.
  intros B f n out i d H Hi. destruct (collect_nth _ _ _ _ _ i i H) as (y & Hy & E).
  - rewrite (nth_error_nth' _ 0) by (rewrite seq_length; auto). rewrite seq_nth; auto.
  - rewrite (nth_error_nth _ _ _ Hy). auto.
Qed.
Lemma collect_err : forall A B (f : A -> res B) l e, collect f l = Err e -> exists x, In x l /\ f x = Err e.
Proof.
  intros A B f l. induction l as [|x l IH]; intros e H; cbn [collect] in H; [discriminate|].
  destruct (f x) as [y|e'] eqn:E; cbn [bind] in H.
  - destruct (collect f l) as [r|e'] eqn:E'; cbn [bind] in H; [discriminate|]. injection H as <-.
    destruct (IH e' eq_refl) as (z & Hz & Hf). exists z. split; auto. right; auto.
  - injection H as <-. exists x. split; auto. left; auto.
Qed.
Lemma collect_ext : forall A B (f g : A -> res B) l, (forall x, In x l -> f x = g x) -> collect f l = collect g l.
Proof.
  intros A B f g l. induction l as [|x l IH]; intros H; cbn [collect]; auto.
  rewrite (H x) by (left; auto). rewrite IH; auto. intros y Hy. apply H. right; auto.
Qed.
Lemma collect_map : forall A B C (h : A -> B) (f : B -> res C) l, collect f (map h l) = collect (fun x => f (h x)) l.
Proof. intros A B C h f l. induction l as [|x l IH]; cbn [collect map]; auto. rewrite IH. auto. Qed.

(** A loop with a state that is known at every turn *)
Lemma scanM_collect : forall S A B (f : nat -> S -> A -> res (S * B)) (st : nat -> S) (body : nat -> res B) l i,
  (forall k x, nth_error l k = Some x -> f (i + k) (st (i + k)) x = (let! b := body (i + k) in Ok (st (Datatypes.S (i + k)), b))) ->
  scanM f i (st i) l = collect body (seq i (length l)).
Proof.
  intros S A B f st body l. induction l as [|x l IH]; intros i H; cbn [scanM collect seq length]; auto.
  specialize (H 0 x eq_refl) as H0. rewrite Nat.add_0_r in H0. rewrite H0. destruct (body i) as [b|e]; cbn [bind]; auto.
  rewrite (IH (Datatypes.S i)); auto. intros k y Hk. specialize (H (Datatypes.S k) y Hk).
  replace (i + Datatypes.S k) with (Datatypes.S i + k) in H by lia. auto.
Qed.

(** ** Arrays *)
Lemma nth_map : forall A B (f : A -> B) l i d e, i < length l -> nth i (map f l) d = f (nth i l e).
Proof. intros A B f l i d e H. rewrite (nth_indep _ d (f e)) by (rewrite map_length; auto). apply map_nth. Qed.
Lemma nth_map_seq : forall A (f : nat -> A) n i d, i < n -> nth i (map f (seq 0 n)) d = f i.
Proof. intros A f n i d H. rewrite (nth_map _ _ _ _ _ _ 0) by (rewrite seq_length; auto). rewrite seq_nth; auto. Qed.
Lemma map_as_seq : forall A B (f : A -> B) l d, map f l = map (fun i => f (nth i l d)) (seq 0 (length l)).
Proof.
  intros A B f l d. apply (nth_ext _ _ (f d) (f d)).
  - rewrite !map_length, seq_length. auto.
  - intros i Hi. rewrite map_length in Hi. rewrite map_nth, nth_map_seq; auto.
Qed.

Lemma enumerate_seq : forall A (l : list A) d, enumerate l = map (fun i => (i, nth i l d)) (seq 0 (length l)).
Proof.
  intros A l d. unfold enumerate. apply (nth_ext _ _ (0, d) (0, d)).
  - rewrite combine_length, seq_length, map_length, seq_length. lia.
  - intros i Hi. rewrite combine_length, seq_length, Nat.min_id in Hi.
    rewrite combine_nth by apply seq_length. rewrite seq_nth, nth_map_seq by auto. auto.
Qed.

Lemma rectangular_row : forall T (a : mat T) i, rectangular a -> i < nrows a -> length (nth i (rows a) []) = ncols a.
Proof. intros T a i H Hi. unfold rectangular in H. rewrite Forall_forall in H. apply H. apply nth_In. auto. Qed.

Lemma col_of_val : forall A (d : A) a c, col_of d a c = map (fun i => val d a i c) (seq 0 (nrows a)).
Proof. intros A d a c. unfold col_of, val, nrows. apply (map_as_seq _ _ (fun r => nth c r d) (rows a) []). Qed.
Lemma col_of_length : forall A (d : A) a c, length (col_of d a c) = nrows a.
Proof. intros A d a c. unfold col_of. apply map_length. Qed.
Lemma col_of_nth : forall A (d : A) a c i e, i < nrows a -> nth i (col_of d a c) e = val d a i c.
Proof. intros A d a c i e H. rewrite col_of_val. rewrite nth_map_seq; auto. Qed.
Lemma column_col_of : forall T (N : Num T) (a : mat T) c, col_of nan a c = column a c.
Proof. intros T N a c. apply col_of_val. Qed.

Lemma from_columns_shape : forall A (d : A) n cols, shaped n (length cols) (from_columns d n cols).
Proof.
  intros A d n cols. unfold from_columns. repeat split.
  - unfold nrows. cbn. rewrite map_length, seq_length. auto.
  - unfold rectangular. cbn [rows ncols]. apply Forall_forall. intros r Hr. apply in_map_iff in Hr as (i & <- & _). apply map_length.
Qed.
Lemma from_columns_val : forall A (d : A) n cols i c, i < n -> c < length cols ->
  val d (from_columns d n cols) i c = nth i (nth c cols []) d.
Proof.
  intros A d n cols i c Hi Hc. unfold val, from_columns. cbn [rows].
  rewrite nth_map_seq by auto. rewrite (nth_map _ _ _ _ _ _ []) by auto. auto.
Qed.

Lemma nth_slice : forall A (l : list A) a b i d, a + i < b -> nth i (slice a b l) d = nth (a + i) l d.
Proof.
  intros A l a b i d H. unfold slice.
  assert (E : forall n (x : list A) k, nth k (skipn n x) d = nth (n + k) x d).
  { induction n; intros x k; cbn; auto. destruct x; cbn; auto. destruct k; auto. }
  rewrite E. clear E. revert b H. generalize (a + i) as k. intros k. revert l. induction k; intros l b H; destruct b; try lia; destruct l; cbn; auto.
  apply IHk. lia.
Qed.
Lemma slice_length : forall A (l : list A) a b, length (slice a b l) = Nat.min b (length l) - a.
Proof. intros A l a b. unfold slice. rewrite skipn_length, firstn_length. auto. Qed.
Lemma slice_seq : forall A (l : list A) a b d, b <= length l -> slice a b l = map (fun j => nth j l d) (seq a (b - a)).
Proof.
  intros A l a b d H. apply (nth_ext _ _ d d).
  - rewrite slice_length, map_length, seq_length. lia.
  - intros i Hi. rewrite slice_length in Hi. rewrite nth_slice by lia.
    rewrite (nth_map _ _ _ _ _ _ 0) by (rewrite seq_length; lia). rewrite seq_nth by lia. auto.
Qed.

(** ** Counting missing values *)
Section Count.
  Context {T : Type} {N : Num T}.
  Definition nans (l : list T) : nat := length (filter isnan l).
  Lemma nans_app : forall a b, nans (a ++ b) = nans a + nans b.
  Proof. intros a b. unfold nans. rewrite filter_app, app_length. auto. Qed.
  Lemma nans_present : forall l, nans l + present l = length l.
  Proof. intros l. unfold nans, present. induction l as [|x l IH]; cbn; auto. destruct (isnan x); cbn; lia. Qed.
  Lemma nans_firstn_S : forall l i x, nth_error l i = Some x -> nans (firstn (S i) l) = (if isnan x then nans (firstn i l) + 1 else nans (firstn i l)).
  Proof.
    intros l i x H. rewrite (firstn_snoc _ _ _ _ H), nans_app. unfold nans at 2. cbn. destruct (isnan x); cbn; lia.
  Qed.
  Lemma nans_slice : forall l a b, a <= b -> nans (slice a b l) = nans (firstn b l) - nans (firstn a l).
  Proof.
    intros l a b H. unfold slice. rewrite <- (firstn_skipn a (firstn b l)) at 2. rewrite nans_app, firstn_firstn, Nat.min_l by auto. lia.
  Qed.
  Lemma nans_firstn_le : forall l a b, a <= b -> nans (firstn a l) <= nans (firstn b l).
  Proof.
    intros l a b H. rewrite <- (firstn_skipn a (firstn b l)). rewrite nans_app, firstn_firstn, Nat.min_l by auto. lia.
  Qed.
End Count.

(** ** Rolling windows *)
Section Rolling.
  Context {T : Type} {N : Num T}.
  Variable f : nat -> nat -> list T -> res T.

  Definition rolled (a : mat T) (window need : nat) (col i : nat) : res T :=
    let w := last_values a window i col in if Nat.ltb (present w) need then Ok nan else f i col w.

  Lemma last_values_slice : forall (a : mat T) w i c, i < nrows a -> last_values a w i c = slice (i + 1 - w) (i + 1) (column a c).
  Proof.
    intros a w i c H. unfold last_values.
    assert (L : length (column a c) = nrows a) by (unfold column; rewrite map_length, seq_length; auto).
    rewrite (slice_seq _ _ _ _ nan) by lia.
    replace (i + 1 - (i + 1 - w)) with (Nat.min w (i + 1)) by lia.
    apply map_ext_in. intros j Hj. apply in_seq in Hj. unfold column. rewrite nth_map_seq; auto. lia.
  Qed.

  Definition rstate (c : list T) (i : nat) : nat * list nat := (nans (firstn i c), map (fun j => nans (firstn (S j) c)) (seq 0 i)).

  Lemma rolling_step_eq : forall (a : mat T) window need col i x, nth_error (column a col) i = Some x ->
    rolling_apply_step f (column a col) window need col i (rstate (column a col) i) x =
    (let! b := rolled a window need col i in Ok (rstate (column a col) (S i), b)).
  Proof.
    intros a window need col i x Hx. unfold rolling_apply_step, rstate.
    assert (Hi : i < length (column a col)) by (apply nth_error_Some; congruence).
    assert (L : length (column a col) = nrows a) by (unfold column; rewrite map_length, seq_length; auto).
    rewrite <- (nans_firstn_S _ _ _ Hx).
    assert (E : map (fun j => nans (firstn (S j) (column a col))) (seq 0 i) ++ [nans (firstn (S i) (column a col))] =
                map (fun j => nans (firstn (S j) (column a col))) (seq 0 (S i))).
    { rewrite seq_S, map_app. auto. }
    rewrite E. cbv zeta. unfold rolled. rewrite last_values_slice by lia.
    set (w := slice (i + 1 - window) (i + 1) (column a col)).
    assert (Lw : length w = Nat.min window (i + 1)) by (unfold w; rewrite slice_length; lia).
    assert (V : (if Nat.ltb i window then (Z.of_nat (i + 1) - Z.of_nat (nans (firstn (S i) (column a col))))%Z
        else (Z.of_nat window - (Z.of_nat (nans (firstn (S i) (column a col))) -
             Z.of_nat (nth (i - window)%nat (map (fun j => nans (firstn (S j) (column a col))) (seq 0 (S i))) 0%nat)))%Z) = Z.of_nat (present w)).
    { pose proof (nans_present w) as Q. rewrite Lw in Q. unfold w in Q at 1. rewrite nans_slice in Q by lia.
      replace (i + 1) with (S i) in Q by lia.
      pose proof (nans_firstn_le (column a col) (S i - window) (S i)) as M.
      destruct (Nat.ltb i window) eqn:B.
      - apply Nat.ltb_lt in B. replace (S i - window) with 0 in Q by lia. change (nans (firstn 0 (column a col))) with 0 in Q. lia.
      - apply Nat.ltb_ge in B. rewrite nth_map_seq by lia. replace (S i - window) with (S (i - window)) in Q by lia.
        replace (S i - window) with (S (i - window)) in M by lia. lia. }
    rewrite V. clear V.
    destruct (Nat.ltb (present w) need) eqn:B.
    - replace (Z.of_nat (present w) <? Z.of_nat need)%Z with true by (symmetry; apply Z.ltb_lt; apply Nat.ltb_lt in B; lia). auto.
    - replace (Z.of_nat (present w) <? Z.of_nat need)%Z with false by (symmetry; apply Z.ltb_ge; apply Nat.ltb_ge in B; lia).
      destruct (f i col w); auto.
  Qed.

  Lemma rolling_apply_eq : forall (a : mat T) window minp,
    rolling_apply_nb a window minp f =
    (let! columns := collect (fun col => collect (rolled a window (asked window minp) col) (seq 0 (nrows a))) (seq 0 (ncols a)) in
     Ok (from_columns nan (nrows a) columns)).
  Proof.
    intros a window minp. unfold rolling_apply_nb. fold (asked window minp). f_equal. apply collect_ext. intros col _. cbv zeta.
    rewrite column_col_of.
    assert (L : length (column a col) = nrows a) by (unfold column; rewrite map_length, seq_length; auto).
    rewrite <- L at 1. apply (scanM_collect _ _ _ _ (rstate (column a col))).
    intros k x Hk. cbn [Nat.add]. apply rolling_step_eq. auto.
  Qed.

  Lemma rolling_ok : forall (a : mat T) window minp out, rolling_apply_nb a window minp f = Ok out ->
    shaped (nrows a) (ncols a) out /\
    forall i c, i < nrows a -> c < ncols a ->
      (asked window minp <= present (last_values a window i c) -> f i c (last_values a window i c) = Ok (val nan out i c)) /\
      (present (last_values a window i c) < asked window minp -> val nan out i c = nan).
  Proof.
    intros a window minp out H. rewrite rolling_apply_eq in H. apply bind_ok in H as (cols & H & E). injection E as <-.
    pose proof (collect_length _ _ _ _ _ H) as L. rewrite seq_length in L. split.
    - rewrite <- L. apply from_columns_shape.
    - intros i c Hi Hc. rewrite from_columns_val by lia.
      pose proof (collect_seq _ _ _ _ c [] H Hc) as Hcol. pose proof (collect_seq _ _ _ _ i nan Hcol Hi) as Hv.
      unfold rolled in Hv. cbv zeta in Hv. split; intros B.
      + rewrite (proj2 (Nat.ltb_ge _ _) B) in Hv. auto.
      + rewrite (proj2 (Nat.ltb_lt _ _) B) in Hv. congruence.
  Qed.

  Lemma rolling_err : forall (a : mat T) window minp e, rolling_apply_nb a window minp f = Err e ->
    exists i c, i < nrows a /\ c < ncols a /\ asked window minp <= present (last_values a window i c) /\
      f i c (last_values a window i c) = Err e.
  Proof.
    intros a window minp e H. rewrite rolling_apply_eq in H.
    destruct (collect _ (seq 0 (ncols a))) as [cols|e'] eqn:E; cbn [bind] in H; [discriminate|]. injection H as <-.
    apply collect_err in E as (c & Hc & E). apply collect_err in E as (i & Hi & E).
    apply in_seq in Hc. apply in_seq in Hi. exists i, c. repeat split; try lia;
    unfold rolled in E; cbv zeta in E; destruct (Nat.ltb _ _) eqn:B; try discriminate; auto.
    apply Nat.ltb_ge in B. auto.
  Qed.
End Rolling.

Lemma shaped_ext : forall A (d : A) n m (a b : mat A), shaped n m a -> shaped n m b ->
  (forall i c, i < n -> c < m -> val d a i c = val d b i c) -> a = b.
Proof.
  intros A d n m [ca ra] [cb rb] (Na & Ca & Ra) (Nb & Cb & Rb) H. unfold nrows, rectangular, val in *. cbn [rows ncols] in *. subst ca cb.
  f_equal. apply (nth_ext _ _ [] []); [congruence|]. intros i Hi. rewrite Forall_forall in Ra, Rb.
  assert (La : length (nth i ra []) = m) by (apply Ra; apply nth_In; auto).
  assert (Lb : length (nth i rb []) = m) by (apply Rb; apply nth_In; congruence).
  apply (nth_ext _ _ d d); [congruence|]. intros c Hc. apply H; lia.
Qed.

Lemma nth_firstn : forall A (l : list A) k i d, i < k -> nth i (firstn k l) d = nth i l d.
Proof. intros A l k. revert l. induction k; intros l i d H; [lia|]. destruct l, i; cbn; auto. apply IHk. lia. Qed.

Lemma rolling_no_look_ahead : forall T (N : Num T) f (a b : mat T) window minp k outa outb,
  same_until k a b -> rolling_apply_nb a window minp f = Ok outa -> rolling_apply_nb b window minp f = Ok outb ->
  same_until k outa outb.
Proof.
  intros T N f a b window minp k outa outb [Hc Hk] Ha Hb.
  destruct (rolling_ok f a window minp outa Ha) as [(Na & Ca & Ra) Va].
  destruct (rolling_ok f b window minp outb Hb) as [(Nb & Cb & Rb) Vb].
  split; [congruence|].
  assert (L : Nat.min k (nrows a) = Nat.min k (nrows b)).
  { unfold nrows. rewrite <- !firstn_length. congruence. }
  assert (HR : forall i, i < k -> nth i (rows a) [] = nth i (rows b) []).
  { intros i Hi. rewrite <- (nth_firstn _ _ k i) by auto. rewrite Hk, nth_firstn; auto. }
  apply (nth_ext _ _ [] []).
  - rewrite !firstn_length. unfold nrows in *. lia.
  - intros i Hi. rewrite firstn_length in Hi. unfold nrows in *. rewrite !nth_firstn by lia.
    assert (La : length (nth i (rows outa) []) = ncols a) by (rewrite <- Ca; apply rectangular_row; auto; unfold nrows; lia).
    assert (Lb : length (nth i (rows outb) []) = ncols a) by (rewrite Hc, <- Cb; apply rectangular_row; auto; unfold nrows; lia).
    apply (nth_ext _ _ nan nan); [congruence|]. intros c Hcc. rewrite La in Hcc.
    assert (W : last_values a window i c = last_values b window i c).
    { unfold last_values. apply map_ext_in. intros j Hj. apply in_seq in Hj. unfold val. rewrite HR; auto. lia. }
    destruct (Va i c) as [Va1 Va2]; [lia|auto|]. destruct (Vb i c) as [Vb1 Vb2]; [lia|lia|]. rewrite W in Va1, Va2.
    destruct (Nat.lt_ge_cases (present (last_values b window i c)) (asked window minp)) as [B|B].
    + specialize (Va2 B). specialize (Vb2 B). unfold val in *. congruence.
    + specialize (Va1 B). specialize (Vb1 B). unfold val in *. congruence.
Qed.

(** ** Windows with all columns *)
Lemma spread_ok : forall U m (o : out_of U) r, spread m o = Ok r -> stands_for m o r.
Proof.
  intros U m o r H. unfold spread in H. destruct o as [x|[|x [|y l]]].
  - injection H as <-. split; [apply repeat_length|]. intros c y E. apply nth_error_In, repeat_spec in E. auto.
  - apply raise_if_ok in H as [E H]. injection H as <-. apply negb_false_iff, Nat.eqb_eq in E. split; auto.
  - injection H as <-. split; [apply repeat_length|]. right. exists x. split; auto. intros c y E. apply nth_error_In, repeat_spec in E. auto.
  - apply raise_if_ok in H as [E H]. injection H as <-. apply negb_false_iff, Nat.eqb_eq in E. split; auto.
Qed.

Section Matrix.
  Context {T : Type} {N : Num T}.
  Variable f : nat -> mat T -> res (out_of T).

  Definition mrolled (a : mat T) (window need i : nat) : res (list T) :=
    if Nat.ltb (Nat.min window (i + 1)) need then Ok (repeat nan (ncols a))
    else let! o := f i (last_rows a window i) in spread (ncols a) o.

  Lemma matrix_eq : forall (a : mat T) window minp, rectangular a -> complete a ->
    rolling_matrix_apply_nb a window minp f =
    (let! rs := collect (mrolled a window (asked window minp)) (seq 0 (nrows a)) in Ok (Mat (ncols a) rs)).
  Proof.
    intros a window minp R C. unfold rolling_matrix_apply_nb. fold (asked window minp). f_equal.
    apply (scanM_collect _ _ _ _ (fun i => repeat 0 i)).
    intros i x Hx. cbn [Nat.add]. unfold rolling_matrix_step.
    assert (Hi : i < nrows a) by (apply nth_error_Some; congruence).
    assert (Ex : x = nth i (rows a) []) by (symmetry; apply nth_error_nth; auto).
    assert (Z0 : length (filter isnan x) = 0).
    { destruct (filter isnan x) as [|y l] eqn:E; auto. assert (In y (filter isnan x)) as Hy by (rewrite E; left; auto).
      apply filter_In in Hy as [Hy Hn]. apply (In_nth _ _ nan) in Hy as (c & Hc & Ec).
      assert (Lx : length x = ncols a) by (subst x; apply rectangular_row; auto).
      specialize (C i c Hi). rewrite Lx in Hc. specialize (C Hc). unfold val in C. rewrite <- Ex, Ec in C. congruence. }
    rewrite Z0. assert (E0 : repeat 0 i ++ [0] = repeat 0 (S i)) by (symmetry; apply repeat_cons).
    cbv zeta. rewrite E0.
    assert (NZ : nth (i - window) (repeat 0 (S i)) 0 = 0) by apply nth_repeat.
    rewrite NZ. unfold mrolled.
    assert (V : (if Nat.ltb i window then (Z.of_nat (i + 1) - Z.of_nat 0)%Z else (Z.of_nat window - (Z.of_nat 0 - Z.of_nat 0))%Z) = Z.of_nat (Nat.min window (i + 1))).
    { destruct (Nat.ltb i window) eqn:B; [apply Nat.ltb_lt in B|apply Nat.ltb_ge in B]; lia. }
    rewrite V.
    destruct (Nat.ltb (Nat.min window (i + 1)) (asked window minp)) eqn:B.
    - rewrite (proj2 (Z.ltb_lt _ _)) by (apply Nat.ltb_lt in B; lia). auto.
    - rewrite (proj2 (Z.ltb_ge _ _)) by (apply Nat.ltb_ge in B; lia).
      assert (W : Mat (ncols a) (slice (i + 1 - window) (i + 1) (rows a)) = last_rows a window i).
      { unfold last_rows. f_equal. rewrite (slice_seq _ _ _ _ []) by (unfold nrows in Hi; lia).
        replace (i + 1 - (i + 1 - window)) with (Nat.min window (i + 1)) by lia. auto. }
      rewrite W. destruct (f i (last_rows a window i)) as [o|e]; cbn [bind]; auto.
  Qed.

  Lemma matrix_ok : forall (a : mat T) window minp out, rectangular a -> complete a ->
    rolling_matrix_apply_nb a window minp f = Ok out ->
    shaped (nrows a) (ncols a) out /\
    forall i, i < nrows a ->
      (asked window minp <= Nat.min window (i + 1) ->
         exists o, f i (last_rows a window i) = Ok o /\ stands_for (ncols a) o (nth i (rows out) [])) /\
      (Nat.min window (i + 1) < asked window minp -> forall c, c < ncols a -> val nan out i c = nan).
  Proof.
    intros a window minp out R C H. rewrite matrix_eq in H by auto. apply bind_ok in H as (rs & H & E). injection E as <-.
    pose proof (collect_length _ _ _ _ _ H) as L. rewrite seq_length in L.
    assert (Hrow : forall i, i < nrows a -> mrolled a window (asked window minp) i = Ok (nth i rs [])).
    { intros i Hi. eapply collect_seq; eauto. }
    assert (Hlen : forall i, i < nrows a -> length (nth i rs []) = ncols a).
    { intros i Hi. specialize (Hrow i Hi). unfold mrolled in Hrow. destruct (Nat.ltb _ _).
      - injection Hrow as <-. apply repeat_length.
      - apply bind_ok in Hrow as (o & _ & Hs). apply spread_ok in Hs. apply Hs. }
    split.
    - repeat split; auto. unfold rectangular. cbn [rows ncols]. apply Forall_forall. intros r Hr.
      apply (In_nth _ _ []) in Hr as (i & Hi & <-). apply Hlen. lia.
    - intros i Hi. specialize (Hrow i Hi). unfold mrolled in Hrow. split; intros B.
      + rewrite (proj2 (Nat.ltb_ge _ _) B) in Hrow. apply bind_ok in Hrow as (o & Ho & Hs). exists o. split; auto. apply spread_ok; auto.
      + rewrite (proj2 (Nat.ltb_lt _ _) B) in Hrow. injection Hrow as Hrow. intros c Hc. unfold val. cbn [rows]. rewrite <- Hrow. apply nth_repeat.
  Qed.
End Matrix.
