(** * Lemmas on flattening and counting groups, on cells and on groups of rows *)
From Coq Require Import String ZArith Bool List Arith Lia.
From Verif Require Import Base Num GenericNb Reduce ReduceSpec ReduceLemmas ReduceLemmas2.
Import ListNotations.
Open Scope string_scope.
Open Scope list_scope.
Open Scope nat_scope.

(** ** Writing cells one after another *)
Section Writes.
  Context {A P : Type}.
  Variables (pos : P -> nat) (v : P -> A).
  Definition writes (ps : list P) (out : list A) : list A := fold_left (fun o p => upd o (pos p) (v p)) ps out.
  Lemma writes_length : forall ps out, length (writes ps out) = length out.
  Proof. intros ps. induction ps as [|p ps IH]; intros out; cbn; auto. unfold writes in IH. rewrite IH, upd_length. auto. Qed.
  Lemma writes_other : forall ps out j d, (forall p, In p ps -> pos p <> j) -> nth j (writes ps out) d = nth j out d.
  Proof.
    intros ps. induction ps as [|p ps IH]; intros out j d H; cbn; auto.
    unfold writes in IH. rewrite IH by (intros q Hq; apply H; right; auto). apply upd_nth_other. apply H. left; auto.
  Qed.
  Lemma writes_at : forall ps out p j d, In p ps -> pos p = j -> j < length out ->
    (forall q, In q ps -> pos q = j -> v q = v p) -> nth j (writes ps out) d = v p.
  Proof.
    intros ps out p j d. induction ps as [|q ps IH] using rev_ind; intros Hp Hj Hl Hq; [destruct Hp|].
    unfold writes. rewrite fold_left_app. cbn [fold_left]. fold (writes ps out).
    destruct (Nat.eq_dec (pos q) j) as [E|E].
    - rewrite E, upd_nth_same by (rewrite writes_length; auto). apply Hq; auto. apply in_or_app. right; left; auto.
    - rewrite upd_nth_other by auto. apply IH; auto.
      + apply in_app_or in Hp as [Hp|[->|[]]]; auto. congruence.
      + intros r Hr. apply Hq. apply in_or_app. auto.
  Qed.
End Writes.

Lemma fold_left_flat_map : forall A B S (f : S -> B -> S) (h : A -> list B) l s,
  fold_left (fun s x => fold_left f (h x) s) l s = fold_left f (flat_map h l) s.
Proof. intros A B S f h l. induction l as [|x l IH]; intros s; cbn; auto. rewrite fold_left_app, IH. auto. Qed.
Lemma fold_left_map' : forall A B S (f : S -> B -> S) (h : A -> B) l s, fold_left f (map h l) s = fold_left (fun s x => f s (h x)) l s.
Proof. intros A B S f h l. induction l as [|x l IH]; intros s; cbn; auto. Qed.
Lemma fold_left_ext_in : forall A S (f g : S -> A -> S) l s, (forall s x, In x l -> f s x = g s x) -> fold_left f l s = fold_left g l s.
Proof.
  intros A S f g l. induction l as [|x l IH]; intros s H; cbn; auto. rewrite H by (left; auto). apply IH. intros s' y Hy. apply H. right; auto.
Qed.

Lemma flat_map_prod : forall A B C (h : A -> B -> C) l r, flat_map (fun x => map (h x) r) l = map (fun p => h (fst p) (snd p)) (list_prod l r).
Proof.
  intros A B C h l r. induction l as [|x l IH]; cbn; auto. rewrite map_app, IH, map_map. auto.
Qed.

Lemma flatten_group_writes : forall A (d : A) by_rows step blank m,
  flatten_group d by_rows step blank m =
  writes (fun ki => if by_rows then fst ki + step * snd ki else fst ki * nrows m + snd ki) (fun ki => val d m (snd ki) (fst ki))
    (list_prod (seq 0 (ncols m)) (seq 0 (nrows m))) blank.
Proof.
  intros A d by_rows step blank m. unfold flatten_group, writes.
  rewrite <- (map_id (list_prod (seq 0 (ncols m)) (seq 0 (nrows m)))).
  rewrite (map_ext (fun x => x) (fun p => (fst p, snd p))) by (intros []; auto).
  rewrite <- (flat_map_prod _ _ _ (fun k i => (k, i)) (seq 0 (ncols m)) (seq 0 (nrows m))).
  rewrite <- fold_left_flat_map. apply fold_left_ext_in. intros s k _. rewrite fold_left_map'. cbn [fst snd].
  destruct by_rows; unfold put_every, put_block; rewrite (enumerate_seq _ _ d), fold_left_map', col_of_length; cbn [fst snd];
    apply fold_left_ext_in; intros s' i Hi; apply in_seq in Hi; rewrite col_of_nth by lia; auto.
Qed.

Lemma flatten_group_at : forall A (d : A) by_rows step n blank m, shaped n (ncols m) m -> ncols m <= step -> length blank = n * step ->
  length (flatten_group d by_rows step blank m) = n * step /\
  (forall i k, i < n -> k < ncols m -> nth (if by_rows then i * step + k else k * n + i) (flatten_group d by_rows step blank m) d = val d m i k) /\
  (forall i k, i < n -> ncols m <= k < step -> nth (if by_rows then i * step + k else k * n + i) (flatten_group d by_rows step blank m) d =
      nth (if by_rows then i * step + k else k * n + i) blank d).
Proof.
  intros A d by_rows step n blank m (Nm & _ & _) Hs Hb. rewrite flatten_group_writes, Nm.
  assert (INJ : forall i k i' k', i < n -> k < step -> i' < n -> k' < step ->
    (if by_rows then k' + step * i' else k' * n + i') = (if by_rows then i * step + k else k * n + i) -> i' = i /\ k' = k).
  { intros i k i' k' Hi Hk Hi' Hk' E. destruct by_rows.
    - assert (i' = i) by (destruct (Nat.lt_trichotomy i' i) as [C|[C|C]]; [|auto|]; nia). subst. split; auto. nia.
    - assert (k' = k) by (destruct (Nat.lt_trichotomy k' k) as [C|[C|C]]; [|auto|]; nia). subst. split; auto. nia. }
  split; [rewrite writes_length; auto|]. split.
  - intros i k Hi Hk. apply (writes_at _ (fun ki => val d m (snd ki) (fst ki)) _ _ (k, i)).
    + apply in_prod; apply in_seq; lia.
    + cbn [fst snd]. destruct by_rows; lia.
    + rewrite Hb. destruct by_rows; nia.
    + intros [k' i'] Hq E. apply in_prod_iff in Hq as [Hk' Hi']. apply in_seq in Hk'. apply in_seq in Hi'. cbn [fst snd] in *.
      destruct (INJ i k i' k') as [-> ->]; auto; lia.
  - intros i k Hi Hk. apply writes_other. intros [k' i'] Hq E. apply in_prod_iff in Hq as [Hk' Hi']. apply in_seq in Hk'. apply in_seq in Hi'. cbn [fst snd] in *.
    destruct (INJ i k i' k') as [_ E']; auto; lia.
Qed.

Lemma fold_max_mono : forall l m, m <= fold_left Nat.max l m.
Proof. induction l as [|x l IH]; intros m; cbn; auto. specialize (IH (Nat.max m x)). lia. Qed.
Lemma longest_le : forall lens g, nth g lens 0 <= longest lens.
Proof.
  unfold longest. intros lens. generalize 0 at 2 as m. induction lens as [|x l IH]; intros m [|g]; cbn; try lia.
  - pose proof (fold_max_mono l (Nat.max m x)). lia.
  - apply IH.
Qed.
Lemma uniform_longest : forall lens g, forallb (Nat.eqb (hd 0 lens)) lens = true -> g < length lens -> nth g lens 0 = longest lens.
Proof.
  intros lens g H Hg. rewrite forallb_forall in H.
  assert (E : forall x, In x lens -> x = hd 0 lens) by (intros x Hx; specialize (H x Hx); apply Nat.eqb_eq in H; auto).
  rewrite (E (nth g lens 0)) by (apply nth_In; auto).
  destruct lens as [|x l]; [cbn in Hg; lia|]. cbn [hd] in *. unfold longest. cbn [fold_left Nat.max].
  assert (F : forall l', (forall y, In y l' -> y = x) -> fold_left Nat.max l' x = x).
  { induction l' as [|y l' IH]; intros HE; cbn; auto. rewrite (HE y) by (left; auto). rewrite Nat.max_id. apply IH. intros z Hz. apply HE. right; auto. }
  symmetry. apply F. intros y Hy. apply E. right; auto.
Qed.

Lemma concat_repeat_nth : forall (s : list nat) k j i, j < k -> i < length s -> nth (j * length s + i) (concat (repeat s k)) 0 = nth i s 0.
Proof.
  intros s k j i Hj Hi.
  assert (F : Forall (fun l => length l = length s) (repeat s k)) by (apply Forall_forall; intros l Hl; apply repeat_spec in Hl; subst; auto).
  destruct (concat_uniform _ 0 _ _ F) as [_ E]. rewrite E by (rewrite ?repeat_length; auto).
  assert (R : nth j (repeat s k) [] = s) by (rewrite (nth_indep _ [] s) by (rewrite repeat_length; auto); apply nth_repeat).
  rewrite R. auto.
Qed.
Lemma flat_map_repeat_nth : forall n k i j, i < n -> j < k -> nth (i * k + j) (flat_map (fun i => repeat i k) (seq 0 n)) 0 = i.
Proof.
  intros n k i j Hi Hj. rewrite flat_map_concat_map.
  assert (F : Forall (fun l => length l = k) (map (fun i => repeat i k) (seq 0 n))).
  { apply Forall_forall. intros l Hl. apply in_map_iff in Hl as (x & <- & _). apply repeat_length. }
  destruct (concat_uniform _ 0 _ _ F) as [_ E]. rewrite E by (rewrite ?map_length, ?seq_length; auto). rewrite nth_map_seq by auto.
  rewrite (nth_indep _ 0 i) by (rewrite repeat_length; auto). apply nth_repeat.
Qed.

Lemma reduce_groups_any : forall A U (d : A) (a : mat A) lens (f : nat -> mat A -> res U) out, rectangular a -> groups_of a lens ->
  reduce_grouped_nb a lens f = Ok out ->
  length out = length lens /\
  forall g, g < length lens -> exists m y, is_group d a lens g m /\ nth_error out g = Some y /\ f g m = Ok y.
Proof.
  intros A U d a lens f out R G H. rewrite reduce_grouped_eq in H. pose proof (collect_length _ _ _ _ _ H) as L. rewrite seq_length in L. split; auto.
  intros g Hg. destruct (collect_nth _ _ _ _ _ g g H) as (y & Hy & E).
  - rewrite (nth_error_nth' _ 0) by (rewrite seq_length; auto). rewrite seq_nth; auto.
  - exists (group_of a lens g), y. split; auto. apply group_of_spec; auto.
Qed.

Lemma collect_total : forall A B (f : A -> B) l, collect (fun x => Ok (f x)) l = Ok (map f l).
Proof. intros A B f l. induction l as [|x l IH]; cbn [collect map]; auto. cbn [bind]. rewrite IH. auto. Qed.

Lemma flatten_grouped_ok : forall A (nan_ blank : A) (a : mat A) lens by_rows, rectangular a -> groups_of a lens ->
  exists out labels, flatten_grouped nan_ blank a lens by_rows = Ok (out, labels) /\
    shaped (nrows a * longest lens) (length lens) out /\ length labels = nrows a * longest lens /\
    forall g i k, g < length lens -> i < nrows a -> k < longest lens ->
      let r := if by_rows then i * longest lens + k else k * nrows a + i in
      nth r labels 0 = i /\ val nan_ out r g = (if Nat.ltb k (nth g lens 0) then val nan_ a i (first_col lens g + k) else nan_).
Proof.
  intros A nan_ blank a lens by_rows R G. unfold flatten_grouped, flatten_grouped_nb.
  set (uniform := forallb (Nat.eqb (hd 0 lens)) lens). set (bl := if uniform then blank else nan_). set (len := nrows a * longest lens).
  destruct (reduce_grouped_nb a lens (fun _ m => Ok (flatten_group nan_ by_rows (longest lens) (repeat bl len) m))) as [cols|e] eqn:E.
  2:{ rewrite reduce_grouped_eq, collect_total in E. discriminate. }
  cbn [bind]. eexists. eexists. split; [reflexivity|].
  apply (reduce_groups_any _ _ nan_) in E as [L H]; auto. split; [|split].
  - rewrite <- L. apply from_columns_shape.
  - destruct by_rows.
    + rewrite flat_map_concat_map.
      assert (F : Forall (fun l => length l = longest lens) (map (fun i => repeat i (longest lens)) (seq 0 (nrows a)))).
      { apply Forall_forall. intros l Hl. apply in_map_iff in Hl as (x & <- & _). apply repeat_length. }
      destruct (concat_uniform _ 0 _ _ F) as [-> _]. rewrite map_length, seq_length. auto.
    + assert (F : Forall (fun l => length l = nrows a) (repeat (seq 0 (nrows a)) (longest lens))).
      { apply Forall_forall. intros l Hl. apply repeat_spec in Hl. subst. apply seq_length. }
      destruct (concat_uniform _ 0 _ _ F) as [-> _]. rewrite repeat_length. lia.
  - intros g i k Hg Hi Hk. cbv zeta. set (r := if by_rows then i * longest lens + k else k * nrows a + i).
    assert (Hr : r < len) by (unfold r, len; destruct by_rows; nia).
    split.
    + unfold r. destruct by_rows; [apply flat_map_repeat_nth; auto|].
      pose proof (concat_repeat_nth (seq 0 (nrows a)) (longest lens) k i Hk) as Q. rewrite seq_length in Q. rewrite Q by auto. apply seq_nth. auto.
    + rewrite from_columns_val by (auto; lia). destruct (H g Hg) as (m & y & [(Nm & Cm & Rm) V] & Hy & E).
      rewrite (nth_error_nth _ _ _ Hy). injection E as <-.
      destruct (flatten_group_at _ nan_ by_rows (longest lens) (nrows a) (repeat bl len) m) as (_ & F1 & F2).
      { split; auto. } { rewrite Cm. apply longest_le. } { apply repeat_length. }
      rewrite Cm in F1, F2. destruct (Nat.ltb k (nth g lens 0)) eqn:B.
      * apply Nat.ltb_lt in B. unfold r. rewrite F1 by auto. apply V; auto.
      * apply Nat.ltb_ge in B. unfold r. rewrite F2 by auto. fold r.
        assert (U : uniform = false).
        { destruct uniform eqn:U; auto. pose proof (uniform_longest lens g U Hg). lia. }
        unfold bl. rewrite U. apply nth_repeat.
Qed.

(** ** Counting values *)
Lemma count_fold : forall l out u, u < length out ->
  nth u (fold_left (fun out code => upd out code (nth code out 0 + 1)) l out) 0 = nth u out 0 + length (filter (fun x => Nat.eqb x u) l).
Proof.
  induction l as [|x l IH]; intros out u Hu; cbn [fold_left filter]; [cbn; lia|].
  rewrite IH by (rewrite upd_length; auto). destruct (Nat.eqb x u) eqn:E.
  - apply Nat.eqb_eq in E. subst. rewrite upd_nth_same by auto. cbn. lia.
  - apply Nat.eqb_neq in E. rewrite upd_nth_other by auto. auto.
Qed.
Lemma filter_map_len : forall A B (h : A -> B) (p : B -> bool) l, length (filter p (map h l)) = length (filter (fun x => p (h x)) l).
Proof. intros A B h p l. induction l as [|x l IH]; cbn; auto. destruct (p (h x)); cbn; auto. Qed.
Lemma filter_ext_len : forall A (p q : A -> bool) l, (forall x, In x l -> p x = q x) -> length (filter p l) = length (filter q l).
Proof.
  intros A p q l. induction l as [|x l IH]; intros H; cbn; auto. rewrite (H x) by (left; auto).
  destruct (q x); cbn; rewrite IH; auto; intros y Hy; apply H; right; auto.
Qed.

Lemma value_counts_ok : forall (codes : mat nat) n_uniques lens, rectangular codes -> groups_of codes lens ->
  exists out, value_counts_nb codes n_uniques lens = Ok out /\ shaped n_uniques (length lens) out /\
    forall u g, u < n_uniques -> g < length lens -> val 0 out u g = times_in_group codes lens g u.
Proof.
  intros codes n_uniques lens R G. unfold value_counts_nb.
  match goal with |- context [reduce_grouped_nb codes lens ?f] => destruct (reduce_grouped_nb codes lens f) as [cols|e] eqn:E end.
  2:{ rewrite reduce_grouped_eq, collect_total in E. discriminate. }
  cbn [bind]. eexists. split; [reflexivity|]. apply (reduce_groups_any _ _ 0) in E as [L H]; auto. split.
  - rewrite <- L. apply from_columns_shape.
  - intros u g Hu Hg. rewrite from_columns_val by (auto; lia). destruct (H g Hg) as (m & y & [(Nm & Cm & Rm) V] & Hy & E).
    rewrite (nth_error_nth _ _ _ Hy). injection E as <-.
    rewrite count_fold by (rewrite repeat_length; auto). rewrite nth_repeat. cbn [Nat.add].
    unfold times_in_group, flatten_forder_nb. rewrite Cm, <- flat_map_concat_map.
    rewrite (flat_map_ext (col_of 0 m) (fun k => map (fun i => val 0 m i k) (seq 0 (nrows codes)))) by (intros k; rewrite col_of_val, Nm; auto).
    rewrite (flat_map_prod _ _ _ (fun k i => val 0 m i k)), filter_map_len. apply filter_ext_len.
    intros [k i] Hp. apply in_prod_iff in Hp as [Hk Hi]. apply in_seq in Hk. apply in_seq in Hi. cbn [fst snd]. rewrite V by lia. auto.
Qed.

(** ** Cells *)
Section Cells.
  Context {T : Type} {N : Num T}.

  Lemma cells_ok : forall (a : mat T) (body : nat -> nat * T -> res T) out,
    (let! columns := collect (fun col => collect (body col) (enumerate (col_of nan a col))) (seq 0 (ncols a)) in
     Ok (from_columns nan (nrows a) columns)) = Ok out ->
    shaped (nrows a) (ncols a) out /\
    forall i c, i < nrows a -> c < ncols a -> body c (i, val nan a i c) = Ok (val nan out i c).
  Proof.
    intros a body out H. apply bind_ok in H as (cols & H & E). injection E as <-.
    pose proof (collect_length _ _ _ _ _ H) as L. rewrite seq_length in L. split; [rewrite <- L; apply from_columns_shape|].
    intros i c Hi Hc. rewrite from_columns_val by lia.
    pose proof (collect_seq _ _ _ _ c [] H Hc) as Hcol. cbv beta in Hcol.
    rewrite (enumerate_seq _ _ nan), collect_map, col_of_length in Hcol.
    pose proof (collect_seq _ _ _ _ i nan Hcol Hi) as Hv. cbv beta in Hv. rewrite col_of_nth in Hv by auto. auto.
  Qed.
  Lemma cells_err : forall (a : mat T) (body : nat -> nat * T -> res T) e,
    (let! columns := collect (fun col => collect (body col) (enumerate (col_of nan a col))) (seq 0 (ncols a)) in
     Ok (from_columns nan (nrows a) columns)) = Err e ->
    exists i c, i < nrows a /\ c < ncols a /\ body c (i, val nan a i c) = Err e.
  Proof.
    intros a body e H. destruct (collect _ (seq 0 (ncols a))) as [o|e'] eqn:E; cbn [bind] in H; [discriminate|]. injection H as <-.
    apply collect_err in E as (c & Hc & E). apply in_seq in Hc. rewrite (enumerate_seq _ _ nan), collect_map, col_of_length in E.
    apply collect_err in E as (i & Hi & E). apply in_seq in Hi. rewrite col_of_nth in E by lia. exists i, c. repeat split; auto; lia.
  Qed.

  Lemma applymap_ok : forall (a : mat T) f out, applymap_nb a f = Ok out ->
    shaped (nrows a) (ncols a) out /\ forall i c, i < nrows a -> c < ncols a ->
      if isnan (val nan a i c) then val nan out i c = nan else f i c (val nan a i c) = Ok (val nan out i c).
  Proof.
    intros a f out H. unfold applymap_nb in H. apply (cells_ok a (fun col ix => if isnan (snd ix) then Ok nan else f (fst ix) col (snd ix))) in H as [S H].
    split; auto. intros i c Hi Hc. specialize (H i c Hi Hc). cbn [fst snd] in H. destruct (isnan (val nan a i c)); congruence.
  Qed.
  Lemma applymap_err : forall (a : mat T) f e, applymap_nb a f = Err e ->
    exists i c, i < nrows a /\ c < ncols a /\ isnan (val nan a i c) = false /\ f i c (val nan a i c) = Err e.
  Proof.
    intros a f e H. unfold applymap_nb in H. apply (cells_err a (fun col ix => if isnan (snd ix) then Ok nan else f (fst ix) col (snd ix))) in H as (i & c & Hi & Hc & H).
    cbn [fst snd] in H. exists i, c. destruct (isnan (val nan a i c)); [discriminate|]. auto.
  Qed.

  Lemma filter_ok : forall (a : mat T) f out, filter_nb a f = Ok out ->
    shaped (nrows a) (ncols a) out /\ forall i c, i < nrows a -> c < ncols a ->
      if isnan (val nan a i c) then val nan out i c = val nan a i c
      else exists keep, f i c (val nan a i c) = Ok keep /\ val nan out i c = (if keep : bool then val nan a i c else nan).
  Proof.
    intros a f out H. unfold filter_nb in H.
    apply (cells_ok a (fun col ix => if isnan (snd ix) then Ok (snd ix) else let! keep := f (fst ix) col (snd ix) in Ok (if keep : bool then snd ix else nan))) in H as [S H].
    split; auto. intros i c Hi Hc. specialize (H i c Hi Hc). cbn [fst snd] in H. destruct (isnan (val nan a i c)); [congruence|].
    apply bind_ok in H as (keep & Hk & E). exists keep. split; auto. congruence.
  Qed.
  Lemma filter_err : forall (a : mat T) f e, filter_nb a f = Err e ->
    exists i c, i < nrows a /\ c < ncols a /\ isnan (val nan a i c) = false /\ f i c (val nan a i c) = Err e.
  Proof.
    intros a f e H. unfold filter_nb in H.
    apply (cells_err a (fun col ix => if isnan (snd ix) then Ok (snd ix) else let! keep := f (fst ix) col (snd ix) in Ok (if keep : bool then snd ix else nan))) in H as (i & c & Hi & Hc & H).
    cbn [fst snd] in H. exists i, c. destruct (isnan (val nan a i c)); [discriminate|]. destruct (f i c (val nan a i c)); cbn [bind] in H; [discriminate|].
    injection H as <-. auto.
  Qed.

  (** ** Groups of rows *)
  Lemma groupby_ok : forall U (d : U) (a : mat T) groups f out, (forall g i, In g groups -> In i g -> i < nrows a) ->
    groupby_apply_nb d a groups f = Ok out ->
    shaped (length groups) (ncols a) out /\ forall g idxs c, nth_error groups g = Some idxs -> c < ncols a ->
      f idxs c (map (fun i => val nan a i c) idxs) = Ok (val d out g c).
  Proof.
    intros U d a groups f out B H. unfold groupby_apply_nb in H. apply bind_ok in H as (cols & H & E). injection E as <-.
    pose proof (collect_length _ _ _ _ _ H) as L. rewrite seq_length in L. split; [rewrite <- L; apply from_columns_shape|].
    intros g idxs c Hg Hc. assert (Lg : g < length groups) by (apply nth_error_Some; congruence). rewrite from_columns_val by lia.
    pose proof (collect_seq _ _ _ _ c [] H Hc) as Hcol. cbv beta in Hcol.
    destruct (collect_nth _ _ _ _ _ g idxs Hcol Hg) as (y & Hy & Ey). rewrite (nth_error_nth _ _ _ Hy). rewrite <- Ey. f_equal.
    apply map_ext_in. intros i Hi. rewrite col_of_nth; auto. eapply B; eauto. eapply nth_error_In; eauto.
  Qed.
  Lemma groupby_matrix_ok : forall U (a : mat T) groups (f : list nat -> mat T -> res (out_of U)) out,
    groupby_matrix_apply_nb a groups f = Ok out ->
    shaped (length groups) (ncols a) out /\ forall g idxs, nth_error groups g = Some idxs ->
      exists o, f idxs (Mat (ncols a) (map (fun i => nth i (rows a) []) idxs)) = Ok o /\ stands_for (ncols a) o (nth g (rows out) []).
  Proof.
    intros U a groups f out H. unfold groupby_matrix_apply_nb in H. apply bind_ok in H as (rs & H & E). injection E as <-.
    pose proof (collect_length _ _ _ _ _ H) as L.
    assert (HR : forall g idxs, nth_error groups g = Some idxs ->
      exists o, f idxs (Mat (ncols a) (map (fun i => nth i (rows a) []) idxs)) = Ok o /\ stands_for (ncols a) o (nth g rs [])).
    { intros g idxs Hg. destruct (collect_nth _ _ _ _ _ g idxs H Hg) as (y & Hy & Ey). apply bind_ok in Ey as (o & Ho & Es).
      exists o. split; auto. rewrite (nth_error_nth _ _ _ Hy). apply spread_ok; auto. }
    split; auto. repeat split; auto. unfold rectangular. cbn [rows ncols]. apply Forall_forall. intros r Hr.
    apply (In_nth _ _ []) in Hr as (g & Hg & <-). destruct (nth_error groups g) as [idxs|] eqn:E; [|apply nth_error_None in E; lia].
    destruct (HR g idxs E) as (o & _ & HS). apply HS.
  Qed.

  (** ** Columns and rows *)
  Lemma apply_ok : forall U (d : U) (a : mat T) f out, apply_nb d a f = Ok out ->
    shaped (nrows a) (ncols a) out /\ forall c, c < ncols a ->
      exists o, f c (column a c) = Ok o /\ stands_for (nrows a) o (map (fun i => val d out i c) (seq 0 (nrows a))).
  Proof.
    intros U d a f out H. unfold apply_nb in H. apply bind_ok in H as (cols & H & E). injection E as <-.
    pose proof (collect_length _ _ _ _ _ H) as L. rewrite seq_length in L. split; [rewrite <- L; apply from_columns_shape|].
    intros c Hc. pose proof (collect_seq _ _ _ _ c [] H Hc) as Hcol. cbv beta in Hcol. apply bind_ok in Hcol as (o & Ho & Hs).
    rewrite column_col_of in Ho. exists o. split; auto. apply spread_ok in Hs.
    replace (map (fun i => val d (from_columns d (nrows a) cols) i c) (seq 0 (nrows a))) with (nth c cols []); auto.
    apply (nth_ext _ _ d d).
    - rewrite map_length, seq_length. apply Hs.
    - intros i Hi. destruct Hs as [Hs _]. rewrite Hs in Hi. rewrite nth_map_seq by auto. rewrite from_columns_val by (auto; lia). auto.
  Qed.
  Lemma row_apply_ok : forall U (a : mat T) f out, row_apply_nb (U := U) a f = Ok out ->
    shaped (nrows a) (ncols a) out /\ forall i, i < nrows a ->
      exists o, f i (nth i (rows a) []) = Ok o /\ stands_for (ncols a) o (nth i (rows out) []).
  Proof.
    intros U a f out H. unfold row_apply_nb in H. apply bind_ok in H as (rs & H & E). injection E as <-.
    pose proof (collect_length _ _ _ _ _ H) as L. rewrite seq_length in L.
    assert (HR : forall i, i < nrows a -> exists o, f i (nth i (rows a) []) = Ok o /\ stands_for (ncols a) o (nth i rs [])).
    { intros i Hi. pose proof (collect_seq _ _ _ _ i [] H Hi) as Hv. cbv beta in Hv. apply bind_ok in Hv as (o & Ho & Hs). exists o. split; auto. apply spread_ok; auto. }
    split; auto. repeat split; auto. unfold rectangular. cbn [rows ncols]. apply Forall_forall. intros r Hr.
    apply (In_nth _ _ []) in Hr as (i & Hi & <-). destruct (HR i) as (o & _ & HS); [lia|]. apply HS.
  Qed.

  Lemma apply_and_reduce_ok : forall V U (a : mat T) (f : nat -> list T -> res V) (g : nat -> V -> res U) out,
    apply_and_reduce_nb a f g = Ok out ->
    length out = ncols a /\ forall c, c < ncols a -> exists m y, f c (column a c) = Ok m /\ g c m = Ok y /\ nth_error out c = Some y.
  Proof.
    intros V U a f g out H. unfold apply_and_reduce_nb in H. pose proof (collect_length _ _ _ _ _ H) as L. rewrite seq_length in L. split; auto.
    intros c Hc. destruct (collect_nth _ _ _ _ _ c c H) as (y & Hy & E).
    { rewrite (nth_error_nth' _ 0) by (rewrite seq_length; auto). rewrite seq_nth; auto. }
    apply bind_ok in E as (m & Hm & Hg). rewrite column_col_of in Hm. exists m, y. auto.
  Qed.

  Lemma nth_reduce_ok : forall n c (l : list T),
    let len := Z.of_nat (length l) in
    ((0 <= n < len)%Z -> nth_reduce_nb n c l = Ok (nth (Z.to_nat n) l nan) /\ nth_index_reduce_nb n c l = Ok (Z.to_nat n)) /\
    ((- len <= n < 0)%Z -> nth_reduce_nb n c l = Ok (nth (Z.to_nat (len + n)) l nan) /\ nth_index_reduce_nb n c l = Ok (Z.to_nat (len + n))) /\
    ((n < - len \/ len <= n)%Z -> nth_reduce_nb n c l = Err (ValueError "index is out of bounds") /\
                                  nth_index_reduce_nb n c l = Err (ValueError "index is out of bounds")).
  Proof.
    intros n c l len. unfold nth_reduce_nb, nth_index_reduce_nb. fold len. assert (0 <= len)%Z by (unfold len; lia).
    split; [|split]; intros H1.
    - rewrite (proj2 (Z.ltb_ge n 0)) by lia. rewrite (proj2 (Z.leb_gt len n)) by lia. rewrite (proj2 (Z.leb_le 0 n)) by lia. auto.
    - rewrite (proj2 (Z.ltb_lt n 0)) by lia. rewrite (proj2 (Z.ltb_ge len (Z.abs n))) by lia. rewrite (proj2 (Z.leb_gt len n)) by lia.
      rewrite (proj2 (Z.leb_gt 0 n)) by lia. auto.
    - assert (E : ((n <? 0)%Z && (len <? Z.abs n)%Z || (len <=? n)%Z)%bool = true).
      { destruct H1 as [H1|H1].
        - rewrite (proj2 (Z.ltb_lt n 0)) by lia. rewrite (proj2 (Z.ltb_lt len (Z.abs n))) by lia. auto.
        - rewrite (proj2 (Z.leb_le len n)) by lia. apply orb_true_r. }
      rewrite E. auto.
  Qed.
End Cells.

(** ** Lemmas together *)
From Verif Require Import OrdLaws ReduceLemmas3.
Section Together.
  Context {T : Type} {N : Num T}.
  Lemma expanding_ok : forall (f : nat -> nat -> list T -> res T) (a : mat T) minp out,
    expanding_apply_nb a minp f = Ok out ->
    shaped (nrows a) (ncols a) out /\
    forall i c, i < nrows a -> c < ncols a ->
      let seen := map (fun j => val nan a j c) (seq 0 (i + 1)) in
      (asked (nrows a) minp <= present seen -> f i c seen = Ok (val nan out i c)) /\
      (present seen < asked (nrows a) minp -> val nan out i c = nan).
  Proof.
    intros f a minp out H. apply rolling_ok in H as [S H]. split; auto. intros i c Hi Hc. specialize (H i c Hi Hc).
    assert (E : last_values a (nrows a) i c = map (fun j => val nan a j c) (seq 0 (i + 1))).
    { unfold last_values. replace (i + 1 - nrows a) with 0 by lia. rewrite Nat.min_r by lia. auto. }
    rewrite E in H. auto.
  Qed.

  Lemma reduce_columns_all :
    (forall U (a : mat T) (f : nat -> list T -> res U) out, reduce_nb a f = Ok out ->
       length out = ncols a /\ forall c, c < ncols a -> exists y, nth_error out c = Some y /\ f c (column a c) = Ok y) /\
    (forall U (d : U) (a : mat T) (f : nat -> list T -> res (list U)) out, reduce_to_array_nb d a f = Ok out ->
       ncols out = ncols a /\ rectangular out /\
       forall c, c < ncols a -> exists o, f c (column a c) = Ok o /\ length o = nrows out /\ forall j, j < nrows out -> val d out j c = nth j o d) /\
    (forall V U (a : mat T) (f : nat -> list T -> res V) (g : nat -> V -> res U) out, apply_and_reduce_nb a f g = Ok out ->
       length out = ncols a /\ forall c, c < ncols a -> exists m y, f c (column a c) = Ok m /\ g c m = Ok y /\ nth_error out c = Some y).
  Proof.
    split; [|split].
    - intros U. apply reduce_columns_ok.
    - intros U d a f out H. unfold reduce_to_array_nb in H. apply bind_ok in H as (outs & H & E).
      apply reduce_columns_ok in H as [L H]. apply stack_arrays_ok in E as (S1 & S2 & S3). split; [congruence|]. split; auto.
      intros c Hc. destruct (H c Hc) as (y & Hy & Ey). exists y. split; auto.
    - intros V U. apply apply_and_reduce_ok.
  Qed.

  Lemma reduce_groups_all : forall (a : mat T) lens, rectangular a -> groups_of a lens ->
    (forall U (f : nat -> mat T -> res U) out, reduce_grouped_nb a lens f = Ok out ->
       length out = length lens /\
       forall g, g < length lens -> exists m y, is_group nan a lens g m /\ nth_error out g = Some y /\ f g m = Ok y) /\
    (forall U by_rows (f : nat -> list T -> res U) out, flat_reduce_grouped_nb a lens by_rows f = Ok out ->
       length out = length lens /\
       forall g, g < length lens -> exists xs y, is_flat_group nan by_rows a lens g xs /\ nth_error out g = Some y /\ f g xs = Ok y) /\
    (forall U (f : nat -> mat T -> res U) e, reduce_grouped_nb a lens f = Err e ->
       exists g m, g < length lens /\ is_group nan a lens g m /\ f g m = Err e) /\
    (forall U by_rows (f : nat -> list T -> res U) e, flat_reduce_grouped_nb a lens by_rows f = Err e ->
       exists g xs, g < length lens /\ is_flat_group nan by_rows a lens g xs /\ f g xs = Err e).
  Proof.
    intros a lens R G. split; [|split; [|split]].
    - intros U f out. apply reduce_groups_ok; auto.
    - intros U b f out. apply flat_groups_ok; auto.
    - intros U f e. apply reduce_groups_err; auto.
    - intros U b f e. apply flat_groups_err; auto.
  Qed.

  Lemma reduce_arrays_all : forall (a : mat T) lens U (d : U), rectangular a -> groups_of a lens ->
    (forall (f : nat -> mat T -> res (list U)) out, reduce_grouped_to_array_nb d a lens f = Ok out ->
       ncols out = length lens /\ rectangular out /\
       forall g, g < length lens -> exists m o, is_group nan a lens g m /\ f g m = Ok o /\ length o = nrows out /\
         forall j, j < nrows out -> val d out j g = nth j o d) /\
    (forall by_rows (f : nat -> list T -> res (list U)) out, flat_reduce_grouped_to_array_nb d a lens by_rows f = Ok out ->
       ncols out = length lens /\ rectangular out /\
       forall g, g < length lens -> exists xs o, is_flat_group nan by_rows a lens g xs /\ f g xs = Ok o /\ length o = nrows out /\
         forall j, j < nrows out -> val d out j g = nth j o d).
  Proof.
    intros a lens U d R G. split.
    - intros f out H. unfold reduce_grouped_to_array_nb in H. apply bind_ok in H as (outs & H & E).
      apply reduce_groups_ok in H as [L H]; auto. apply stack_arrays_ok in E as (S1 & S2 & S3). split; [congruence|]. split; auto.
      intros g Hg. destruct (H g Hg) as (m & y & Hm & Hy & Ey). exists m, y. split; auto.
    - intros b f out H. unfold flat_reduce_grouped_to_array_nb in H. apply bind_ok in H as (outs & H & E).
      apply flat_groups_ok in H as [L H]; auto. apply stack_arrays_ok in E as (S1 & S2 & S3). split; [congruence|]. split; auto.
      intros g Hg. destruct (H g Hg) as (xs & y & Hx & Hy & Ey). exists xs, y. split; auto.
  Qed.

  Lemma idx_groups_all : OrdLaws N -> infinity_on_top N ->
    forall (a : mat T) lens by_rows, rectangular a -> groups_of a lens ->
    (forall out, idxmin a (Some lens) by_rows = Ok out -> length out = length lens /\
       forall g, g < length lens -> exists i, nth_error out g = Some (Some i) /\
         (has_better ltb pinf a (first_col lens g) (nth g lens 0) -> exists c, first_best ltb by_rows a (first_col lens g) (nth g lens 0) i c)) /\
    (forall out, idxmax a (Some lens) by_rows = Ok out -> length out = length lens /\
       forall g, g < length lens -> exists i, nth_error out g = Some (Some i) /\
         (has_better gtb ninf a (first_col lens g) (nth g lens 0) -> exists c, first_best gtb by_rows a (first_col lens g) (nth g lens 0) i c)) /\
    (forall e, idxmin a (Some lens) by_rows = Err e \/ idxmax a (Some lens) by_rows = Err e ->
       exists g, g < length lens /\ all_missing a (first_col lens g) (nth g lens 0)).
  Proof.
    intros L I a lens b R G. split; [|split].
    - intros out. apply (idx_groups_ok _ _ _ (argmin_finds I)); auto.
    - intros out. apply (idx_groups_ok _ _ _ (argmax_finds I)); auto.
    - intros e [H|H].
      + apply (idx_groups_err _ _ _ (argmin_finds I) a lens b e); auto.
      + apply (idx_groups_err _ _ _ (argmax_finds I) a lens b e); auto.
  Qed.

  Lemma idx_columns_all : OrdLaws N -> infinity_on_top N ->
    forall (a : mat T) by_rows,
    exists least greatest, idxmin a None by_rows = Ok least /\ idxmax a None by_rows = Ok greatest /\
      length least = ncols a /\ length greatest = ncols a /\
      forall c, c < ncols a ->
        (all_missing a c 1 -> nth_error least c = Some None /\ nth_error greatest c = Some None) /\
        (~ all_missing a c 1 -> exists i j, nth_error least c = Some (Some i) /\ nth_error greatest c = Some (Some j) /\
           (has_better ltb pinf a c 1 -> first_best ltb by_rows a c 1 i c) /\
           (has_better gtb ninf a c 1 -> first_best gtb by_rows a c 1 j c)).
  Proof.
    intros L I a b. destruct (idx_columns_ok _ _ _ (argmin_finds I) a b) as (o1 & E1 & L1 & H1).
    destruct (idx_columns_ok _ _ _ (argmax_finds I) a b) as (o2 & E2 & L2 & H2).
    exists o1, o2. split; auto. split; auto. split; auto. split; auto. intros c Hc.
    destruct (H1 c Hc) as [A1 B1]. destruct (H2 c Hc) as [A2 B2]. split; auto.
    intros n. destruct (B1 n) as (i & Ei & Fi). destruct (B2 n) as (j & Ej & Fj). exists i, j. auto.
  Qed.

  Lemma reducers_all : OrdLaws N -> forall c (l : list T),
    (l <> [] ->
     (exists m, min_reduce_nb c l = Ok m /\ In m l /\ (isnan m = true -> forall y, In y l -> isnan y = true) /\ forall y, In y l -> ltb y m = false) /\
     (exists m, max_reduce_nb c l = Ok m /\ In m l /\ (isnan m = true -> forall y, In y l -> isnan y = true) /\ forall y, In y l -> ltb m y = false)) /\
    count_reduce_nb c l = Ok (present l) /\
    (forall n, let len := Z.of_nat (length l) in
       ((0 <= n < len)%Z -> nth_reduce_nb n c l = Ok (nth (Z.to_nat n) l nan) /\ nth_index_reduce_nb n c l = Ok (Z.to_nat n)) /\
       ((- len <= n < 0)%Z -> nth_reduce_nb n c l = Ok (nth (Z.to_nat (len + n)) l nan) /\ nth_index_reduce_nb n c l = Ok (Z.to_nat (len + n))) /\
       ((n < - len \/ len <= n)%Z -> nth_reduce_nb n c l = Err (ValueError "index is out of bounds") /\
                                     nth_index_reduce_nb n c l = Err (ValueError "index is out of bounds"))).
  Proof.
    intros L c l. split; [|split].
    - intros H. split; [apply ltb_best|apply gtb_best]; auto.
    - reflexivity.
    - intros n. apply nth_reduce_ok.
  Qed.

  Lemma groupby_all : forall (a : mat T) groups, (forall g i, In g groups -> In i g -> i < nrows a) ->
    (forall U (d : U) f out, groupby_apply_nb d a groups f = Ok out ->
       shaped (length groups) (ncols a) out /\ forall g idxs c, nth_error groups g = Some idxs -> c < ncols a ->
         f idxs c (map (fun i => val nan a i c) idxs) = Ok (val d out g c)) /\
    (forall U (f : list nat -> mat T -> res (out_of U)) out, groupby_matrix_apply_nb a groups f = Ok out ->
       shaped (length groups) (ncols a) out /\ forall g idxs, nth_error groups g = Some idxs ->
         exists o, f idxs (Mat (ncols a) (map (fun i => nth i (rows a) []) idxs)) = Ok o /\ stands_for (ncols a) o (nth g (rows out) [])).
  Proof.
    intros a groups B. split.
    - intros U d f out. apply groupby_ok; auto.
    - intros U f out. apply groupby_matrix_ok; auto.
  Qed.

  Lemma columns_rows_all : forall (a : mat T),
    (forall U (d : U) f out, apply_nb d a f = Ok out ->
       shaped (nrows a) (ncols a) out /\ forall c, c < ncols a ->
         exists o, f c (column a c) = Ok o /\ stands_for (nrows a) o (map (fun i => val d out i c) (seq 0 (nrows a)))) /\
    (forall U f out, row_apply_nb (U := U) a f = Ok out ->
       shaped (nrows a) (ncols a) out /\ forall i, i < nrows a ->
         exists o, f i (nth i (rows a) []) = Ok o /\ stands_for (ncols a) o (nth i (rows out) [])).
  Proof.
    intros a. split.
    - intros U d f out. apply apply_ok.
    - intros U f out. apply row_apply_ok.
  Qed.
End Together.
