(** * Lemmas on groups of columns *)
From Coq Require Import ZArith Bool List Arith Lia.
From Verif Require Import Base Num GenericNb GenericLemmas Reduce ReduceSpec ReduceLemmas.
Import ListNotations.

Lemma group_fold : forall A U (a : mat A) (f : nat -> mat A -> res U) l g0 c0 out0,
  foldM (group_step a f) (c0, out0) (combine (seq g0 (length l)) l) =
  (let! r := collect (fun g => f (g0 + g) (cols_of a (c0 + first_col l g) (c0 + first_col l g + nth g l 0))) (seq 0 (length l)) in
   Ok (c0 + fold_right Nat.add 0 l, out0 ++ r)).
Proof.
  intros A U a f l. induction l as [|x l IH]; intros g0 c0 out0.
  - cbn. rewrite app_nil_r, Nat.add_0_r. auto.
  - cbn [length seq combine foldM collect]. unfold group_step at 1. cbn [fst snd].
    replace (c0 + first_col (x :: l) 0) with c0 by (unfold first_col; cbn; lia). rewrite Nat.add_0_r. cbn [nth].
    destruct (f g0 (cols_of a c0 (c0 + x))) as [o|e]; cbn [bind]; auto.
    rewrite IH. rewrite <- seq_shift, collect_map.
    replace (collect (fun g => f (S g0 + g) (cols_of a (c0 + x + first_col l g) (c0 + x + first_col l g + nth g l 0))) (seq 0 (length l)))
      with (collect (fun y => f (g0 + S y) (cols_of a (c0 + first_col (x :: l) (S y)) (c0 + first_col (x :: l) (S y) + nth (S y) (x :: l) 0))) (seq 0 (length l))).
    + destruct (collect _ (seq 0 (length l))) as [r|e]; cbn [bind]; auto. f_equal. f_equal; [cbn; lia|]. rewrite <- app_assoc. auto.
    + apply collect_ext. intros g _. cbn [nth]. unfold first_col. cbn [firstn fold_right]. f_equal; [lia|]. f_equal; lia.
Qed.

Definition group_of {A} (a : mat A) (lens : list nat) (g : nat) : mat A := cols_of a (first_col lens g) (first_col lens g + nth g lens 0).

Lemma reduce_grouped_eq : forall A U (a : mat A) lens (f : nat -> mat A -> res U),
  reduce_grouped_nb a lens f = collect (fun g => f g (group_of a lens g)) (seq 0 (length lens)).
Proof.
  intros A U a lens f. unfold reduce_grouped_nb, enumerate. rewrite group_fold. cbn [Nat.add].
  unfold group_of. destruct (collect _ _); auto.
Qed.

Lemma first_col_S : forall lens g, g < length lens -> first_col lens (S g) = first_col lens g + nth g lens 0.
Proof.
  intros lens. unfold first_col. induction lens as [|x l IH]; intros [|g] H; cbn in H; try lia; cbn; [lia|].
  specialize (IH g). cbn in IH. rewrite IH; lia.
Qed.
Lemma first_col_le : forall lens g, first_col lens g <= fold_right Nat.add 0 lens.
Proof. intros lens. unfold first_col. induction lens as [|x l IH]; intros [|g]; cbn; try lia. specialize (IH g). lia. Qed.
Lemma group_end : forall lens g, g < length lens -> first_col lens g + nth g lens 0 <= fold_right Nat.add 0 lens.
Proof. intros lens g H. rewrite <- first_col_S by auto. apply first_col_le. Qed.

Lemma group_of_spec : forall A (d : A) a lens g, rectangular a -> groups_of a lens -> g < length lens ->
  is_group d a lens g (group_of a lens g).
Proof.
  intros A d a lens g R G Hg. unfold is_group, group_of, cols_of, groups_of in *.
  pose proof (group_end lens g Hg) as E. rewrite G in E.
  split; [split; [|split]|].
  - unfold nrows. cbn [rows]. apply map_length.
  - cbn [ncols]. lia.
  - unfold rectangular in *. cbn [rows ncols]. apply Forall_forall. intros r Hr. apply in_map_iff in Hr as (r0 & <- & Hr0).
    rewrite slice_length. rewrite Forall_forall in R. rewrite (R _ Hr0). lia.
  - intros i k Hi Hk. unfold val. cbn [rows]. rewrite (nth_map _ _ _ _ _ _ []) by auto. rewrite nth_slice by lia. auto.
Qed.

Lemma concat_uniform : forall A (d : A) m (ls : list (list A)), Forall (fun l => length l = m) ls ->
  length (concat ls) = length ls * m /\ forall i k, i < length ls -> k < m -> nth (i * m + k) (concat ls) d = nth k (nth i ls []) d.
Proof.
  intros A d m ls H. induction H as [|l ls Hl _ [IL IN]]; [split; cbn; intros; try lia; auto|]. split.
  - cbn. rewrite app_length. lia.
  - intros [|i] k Hi Hk; cbn [concat nth].
    + rewrite app_nth1 by lia. auto.
    + rewrite app_nth2 by (cbn; lia). replace (S i * m + k - length l) with (i * m + k) by (cbn; lia). apply IN; auto. cbn in Hi. lia.
Qed.

Lemma flatten_in_spec : forall A (d : A) by_rows a lens g m, is_group d a lens g m -> is_flat_group d by_rows a lens g (flatten_in d by_rows m).
Proof.
  intros A d by_rows a lens g m [(Nm & Cm & Rm) V]. unfold is_flat_group, flatten_in. destruct by_rows.
  - unfold flatten_c. unfold rectangular in Rm. rewrite Cm in Rm. destruct (concat_uniform _ d _ _ Rm) as [L E]. unfold nrows in Nm at 1. rewrite Nm in *. split; auto.
    intros i k Hi Hk. rewrite E by auto. apply V; auto.
  - unfold flatten_forder_nb. rewrite Cm.
    assert (F : Forall (fun l => length l = nrows a) (map (col_of d m) (seq 0 (nth g lens 0)))).
    { apply Forall_forall. intros l Hl. apply in_map_iff in Hl as (k & <- & _). rewrite col_of_length. auto. }
    destruct (concat_uniform _ d _ _ F) as [L E]. rewrite map_length, seq_length in *. split; [lia|].
    intros i k Hi Hk. rewrite E by auto. rewrite nth_map_seq by auto. rewrite col_of_nth by lia. apply V; auto.
Qed.

Section Reductions.
  Context {T : Type} {N : Num T}.

  Lemma reduce_columns_ok : forall U (a : mat T) (f : nat -> list T -> res U) out, reduce_nb a f = Ok out ->
    length out = ncols a /\ forall c, c < ncols a -> exists y, nth_error out c = Some y /\ f c (column a c) = Ok y.
  Proof.
    intros U a f out H. unfold reduce_nb in H. pose proof (collect_length _ _ _ _ _ H) as L. rewrite seq_length in L. split; auto.
    intros c Hc. destruct (collect_nth _ _ _ _ _ c c H) as (y & Hy & E).
    - rewrite (nth_error_nth' _ 0) by (rewrite seq_length; auto). rewrite seq_nth; auto.
    - rewrite column_col_of in E. eauto.
  Qed.

  Lemma reduce_groups_ok : forall U (a : mat T) lens (f : nat -> mat T -> res U) out, rectangular a -> groups_of a lens ->
    reduce_grouped_nb a lens f = Ok out ->
    length out = length lens /\
    forall g, g < length lens -> exists m y, is_group nan a lens g m /\ nth_error out g = Some y /\ f g m = Ok y.
  Proof.
    intros U a lens f out R G H. rewrite reduce_grouped_eq in H. pose proof (collect_length _ _ _ _ _ H) as L. rewrite seq_length in L. split; auto.
    intros g Hg. destruct (collect_nth _ _ _ _ _ g g H) as (y & Hy & E).
    - rewrite (nth_error_nth' _ 0) by (rewrite seq_length; auto). rewrite seq_nth; auto.
    - exists (group_of a lens g), y. split; auto. apply group_of_spec; auto.
  Qed.
  Lemma reduce_groups_err : forall U (a : mat T) lens (f : nat -> mat T -> res U) e, rectangular a -> groups_of a lens ->
    reduce_grouped_nb a lens f = Err e -> exists g m, g < length lens /\ is_group nan a lens g m /\ f g m = Err e.
  Proof.
    intros U a lens f e R G H. rewrite reduce_grouped_eq in H. apply collect_err in H as (g & Hg & H). apply in_seq in Hg.
    exists g, (group_of a lens g). split; [lia|]. split; auto. apply group_of_spec; auto. lia.
  Qed.

  Lemma flat_groups_ok : forall U (a : mat T) lens by_rows (f : nat -> list T -> res U) out, rectangular a -> groups_of a lens ->
    flat_reduce_grouped_nb a lens by_rows f = Ok out ->
    length out = length lens /\
    forall g, g < length lens -> exists xs y, is_flat_group nan by_rows a lens g xs /\ nth_error out g = Some y /\ f g xs = Ok y.
  Proof.
    intros U a lens by_rows f out R G H. apply reduce_groups_ok in H as [L H]; auto. split; auto.
    intros g Hg. destruct (H g Hg) as (m & y & Hm & Hy & E). exists (flatten_in nan by_rows m), y. split; auto. apply flatten_in_spec; auto.
  Qed.
  Lemma flat_groups_err : forall U (a : mat T) lens by_rows (f : nat -> list T -> res U) e, rectangular a -> groups_of a lens ->
    flat_reduce_grouped_nb a lens by_rows f = Err e -> exists g xs, g < length lens /\ is_flat_group nan by_rows a lens g xs /\ f g xs = Err e.
  Proof.
    intros U a lens by_rows f e R G H. apply reduce_groups_err in H as (g & m & Hg & Hm & E); auto.
    exists g, (flatten_in nan by_rows m). split; auto. split; auto. apply flatten_in_spec; auto.
  Qed.

  (** Arrays per column or group *)
  Lemma stack_arrays_ok : forall U (d : U) outs m, stack_arrays d outs = Ok m ->
    ncols m = length outs /\ rectangular m /\
    forall c o, nth_error outs c = Some o -> length o = nrows m /\ forall j, j < nrows m -> val d m j c = nth j o d.
  Proof.
    intros U d outs m H. unfold stack_arrays in H. apply raise_if_ok in H as [E H]. injection H as <-.
    set (k := length (hd [] outs)) in *. destruct (from_columns_shape _ d k outs) as (S1 & S2 & S3). split; auto. split; auto.
    intros c o Hc. rewrite S1.
    assert (Ho : length o = k).
    { destruct (Nat.eq_dec (length o) k) as [->|n]; auto. exfalso. rewrite <- not_true_iff_false in E. apply E.
      apply existsb_exists. exists o. split; [eapply nth_error_In; eauto|]. rewrite negb_true_iff, Nat.eqb_neq. auto. }
    split; auto. intros j Hj. rewrite from_columns_val by (auto; apply nth_error_Some; congruence).
    rewrite (nth_error_nth _ _ _ Hc). auto.
  Qed.

  (** Positions found in a flattened group, turned into rows *)
  Definition cell_of (by_rows : bool) (n len p : nat) : nat * nat := if by_rows then (p / len, p mod len) else (p mod n, p / n).

  Lemma cell_of_spec : forall by_rows n len p i k, p < n * len -> cell_of by_rows n len p = (i, k) ->
    i < n /\ k < len /\ p = (if by_rows then i * len + k else k * n + i).
  Proof.
    intros by_rows n len p i k Hp E. unfold cell_of in E. destruct by_rows; injection E as <- <-.
    - destruct len; [lia|]. pose proof (Nat.mod_upper_bound p (S len)). pose proof (Nat.div_mod p (S len)).
      split; [apply Nat.div_lt_upper_bound; lia|]. split; [lia|]. lia.
    - destruct n; [lia|]. pose proof (Nat.mod_upper_bound p (S n)). pose proof (Nat.div_mod p (S n)).
      split; [lia|]. split; [apply Nat.div_lt_upper_bound; lia|]. lia.
  Qed.

  Lemma to_rows_ok : forall (a : mat T) lens by_rows f out, rectangular a -> groups_of a lens ->
    reduce_flat_to_rows a lens by_rows f = Ok out ->
    length out = length lens /\
    forall g, g < length lens -> exists xs p, is_flat_group nan by_rows a lens g xs /\ f g xs = Ok p /\
      nth_error out g = Some (fst (cell_of by_rows (nrows a) (nth g lens 0) p)).
  Proof.
    intros a lens by_rows f out R G H. unfold reduce_flat_to_rows in H. apply bind_ok in H as (ps & H & E). injection E as <-.
    apply flat_groups_ok in H as [L H]; auto. split.
    - rewrite map_length, combine_length. lia.
    - intros g Hg. destruct (H g Hg) as (xs & p & Hx & Hp & E). exists xs, p. split; auto. split; auto.
      rewrite nth_error_map. assert (Hc : nth_error (combine ps lens) g = Some (p, nth g lens 0)).
      { rewrite (nth_error_nth' _ (0, 0)) by (rewrite combine_length; lia). rewrite combine_nth by auto. rewrite (nth_error_nth _ _ _ Hp). auto. }
      rewrite Hc. cbn. destruct by_rows; auto.
  Qed.

  Lemma to_rows_cell : forall (a : mat T) lens by_rows f out, rectangular a -> groups_of a lens ->
    reduce_flat_to_rows a lens by_rows f = Ok out ->
    length out = length lens /\
    forall g, g < length lens -> exists xs p, is_flat_group nan by_rows a lens g xs /\ f g xs = Ok p /\
      (p < length xs -> exists i k, nth_error out g = Some i /\ i < nrows a /\ k < nth g lens 0 /\
         p = (if by_rows then i * nth g lens 0 + k else k * nrows a + i) /\ nth p xs nan = val nan a i (first_col lens g + k)).
  Proof.
    intros a lens by_rows f out R G H. apply to_rows_ok in H as [L H]; auto. split; auto. intros g Hg.
    destruct (H g Hg) as (xs & p & Hx & Hp & E). exists xs, p. split; auto. split; auto. intros Hl.
    destruct (cell_of by_rows (nrows a) (nth g lens 0) p) as [i k] eqn:Ec. cbn [fst] in E.
    destruct Hx as [Lx Hx]. rewrite Lx in Hl. destruct (cell_of_spec _ _ _ _ _ _ Hl Ec) as (Hi & Hk & Ep).
    exists i, k. split; auto. split; auto. split; auto. split; auto. rewrite <- Hx by auto. rewrite Ep. auto.
  Qed.
End Reductions.

(** ** Squeezing *)
Section Squeeze.
  Context {T : Type} {N : Num T}.
  Lemma squeeze_ok : forall U (d : U) (a : mat T) lens (f : nat -> nat -> list T -> res U) out, rectangular a -> groups_of a lens ->
    squeeze_grouped_nb d a lens f = Ok out ->
    shaped (nrows a) (length lens) out /\
    forall i g, i < nrows a -> g < length lens ->
      f i g (map (fun k => val nan a i (first_col lens g + k)) (seq 0 (nth g lens 0))) = Ok (val d out i g).
  Proof.
    intros U d a lens f out R G H. unfold squeeze_grouped_nb in H. apply bind_ok in H as (cols & H & E). injection E as <-.
    apply reduce_groups_ok in H as [L H]; auto. split.
    - rewrite <- L. apply from_columns_shape.
    - intros i g Hi Hg. rewrite from_columns_val by lia. destruct (H g Hg) as (m & y & [(Nm & Cm & Rm) V] & Hy & E).
      rewrite (nth_error_nth _ _ _ Hy).
      rewrite (enumerate_seq _ _ []) , collect_map in E. cbn [fst snd] in E. fold (nrows m) in E. rewrite Nm in E.
      pose proof (collect_seq _ _ _ _ i d E Hi) as Hv. cbv beta in Hv. rewrite <- Hv. f_equal.
      apply (nth_ext _ _ nan nan).
      + rewrite map_length, seq_length. symmetry. rewrite <- Cm. apply rectangular_row; auto. lia.
      + intros k Hk. rewrite map_length, seq_length in Hk. rewrite nth_map_seq by auto. symmetry. apply V; auto.
  Qed.
End Squeeze.
