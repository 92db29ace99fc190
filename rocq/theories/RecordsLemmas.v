(** * Lemmas about column maps and column ranges *)
From Coq Require Import ZArith Bool List Arith Lia Permutation.
From Verif Require Import Base Num GenericNb RecordsNb RecordsSpec.
Import ListNotations.
Open Scope list_scope.

Lemma rows_of_snoc : forall c l x, rows_of c (l ++ [x]) = rows_of c l ++ (if Nat.eqb x c then [length l] else []).
Proof.
  intros c l x. unfold rows_of. rewrite app_length, Nat.add_comm. cbn [length Nat.add].
  replace (S (length l)) with (length l + 1) by lia. rewrite seq_app, filter_app. f_equal.
  - apply filter_ext_in. intros r Hr. apply in_seq in Hr. rewrite app_nth1 by lia. reflexivity.
  - cbn. rewrite app_nth2 by lia. rewrite Nat.sub_diag. cbn. destruct (Nat.eqb x c); reflexivity.
Qed.

Lemma rows_of_in : forall c l r, In r (rows_of c l) <-> r < length l /\ nth r l 0 = c.
Proof. intros. unfold rows_of. rewrite filter_In, in_seq, Nat.eqb_eq. split; intros (A & B); split; auto; lia. Qed.

Lemma rows_of_nodup : forall c l, NoDup (rows_of c l).
Proof. intros. apply NoDup_filter. apply seq_NoDup. Qed.

Lemma rows_of_app_len : forall c l l', length (rows_of c l) <= length (rows_of c (l ++ l')).
Proof.
  intros c l l'. induction l' as [|x l' IH] using rev_ind; [rewrite app_nil_r; auto|].
  rewrite app_assoc, rows_of_snoc, app_length. lia.
Qed.

Lemma rows_of_app_pre : forall c l l', exists t, rows_of c (l ++ l') = rows_of c l ++ t.
Proof.
  intros c l l'. induction l' as [|x l' (t & IH)] using rev_ind; [rewrite app_nil_r; exists []; rewrite app_nil_r; auto|].
  rewrite app_assoc, rows_of_snoc, IH, <- app_assoc. eauto.
Qed.

(** Lengths *)
Definition lens_of (n : nat) (l : list nat) : list nat := map (fun c => length (rows_of c l)) (seq 0 n).

Lemma nth_map_seq : forall A (f : nat -> A) n i d, i < n -> nth i (map f (seq 0 n)) d = f i.
Proof.
  intros A f n i d H. rewrite (nth_indep _ d (f 0)) by (rewrite map_length, seq_length; auto).
  rewrite map_nth, seq_nth by auto. reflexivity.
Qed.

Lemma upd_map_seq : forall A (f : nat -> A) n i v, upd (map f (seq 0 n)) i v = map (fun k => if Nat.eqb k i then v else f k) (seq 0 n).
Proof.
  intros A f n i v. apply (nth_ext _ _ v v); [rewrite upd_length, !map_length; auto|].
  intros k Hk. rewrite upd_length, map_length, seq_length in Hk. rewrite (nth_map_seq _ (fun k => if Nat.eqb k i then v else f k)) by auto.
  destruct (Nat.eqb_spec k i) as [->|Hn].
  - apply upd_nth_same. rewrite map_length, seq_length; auto.
  - rewrite upd_nth_other by congruence. apply nth_map_seq; auto.
Qed.

Lemma repeat_map_seq : forall A (v : A) n, repeat v n = map (fun _ => v) (seq 0 n).
Proof. intros A v n. generalize 0. induction n; intros s; cbn; auto. f_equal. apply IHn. Qed.

Lemma col_lens_run : forall n l, cols_below n l ->
  fold_left (fun lens col => upd lens col (nth col lens 0 + 1)) l (repeat 0 n) = lens_of n l.
Proof.
  intros n l. induction l as [|x l IH] using rev_ind; intros H.
  - cbn. unfold lens_of. rewrite repeat_map_seq. apply map_ext. reflexivity.
  - apply Forall_app in H as (H & Hx). inversion Hx; subst. rewrite fold_left_app, IH by auto. cbn [fold_left].
    unfold lens_of. rewrite upd_map_seq. apply map_ext_in. intros c Hc. apply in_seq in Hc. rewrite rows_of_snoc, app_length.
    rewrite nth_map_seq by auto. destruct (Nat.eqb_spec c x) as [->|Hn].
    + rewrite Nat.eqb_refl. cbn. auto.
    + destruct (Nat.eqb_spec x c); [congruence|]. cbn. lia.
Qed.

(** Start positions *)
Definition sum_to (lens : list nat) (c : nat) : nat := list_sum (firstn c lens).

Lemma cumsum_nth : forall l acc c d, c < length l -> nth c (cumsum_nat acc l) d = acc + sum_to l (S c).
Proof.
  induction l as [|x l IH]; intros acc c d H; cbn in H; [lia|]. destruct c as [|c]; cbn.
  - unfold sum_to. cbn. lia.
  - rewrite IH by lia. unfold sum_to. cbn [firstn list_sum fold_right]. lia.
Qed.
Lemma cumsum_length : forall l acc, length (cumsum_nat acc l) = length l.
Proof. induction l; intros; cbn; auto. Qed.

Lemma sum_to_S : forall l c, c < length l -> sum_to l (S c) = sum_to l c + nth c l 0.
Proof.
  induction l as [|x l IH]; intros c H; cbn in H; [lia|]. destruct c as [|c].
  - unfold sum_to. cbn. lia.
  - unfold sum_to in *. cbn [firstn list_sum fold_right nth]. specialize (IH c ltac:(lia)). cbn [firstn] in IH. unfold list_sum in IH. lia.
Qed.

Lemma start_idxs_length : forall lens, length (start_idxs lens) = length lens.
Proof. intros. unfold start_idxs. rewrite map_length, combine_length, cumsum_length. lia. Qed.

Lemma start_idxs_nth : forall lens c, c < length lens -> nth c (start_idxs lens) 0 = sum_to lens c.
Proof.
  intros lens c H. unfold start_idxs.
  change 0 with ((fun p : nat * nat => fst p - snd p) (0, 0)) at 2.
  rewrite map_nth, combine_nth by apply cumsum_length. cbn [fst snd]. rewrite cumsum_nth by auto.
  rewrite sum_to_S by auto. lia.
Qed.

Lemma sum_to_mono : forall l a b, a <= b -> sum_to l a <= sum_to l b.
Proof.
  intros l a b H. unfold sum_to. revert a b H. induction l as [|x l IH]; intros a b H; [rewrite !firstn_nil; auto|].
  destruct a as [|a]; [cbn; lia|]. destruct b as [|b]; [lia|]. cbn. specialize (IH a b ltac:(lia)). unfold list_sum in IH. lia.
Qed.

Lemma sum_to_all : forall l, sum_to l (length l) = list_sum l.
Proof. intros. unfold sum_to. rewrite firstn_all. reflexivity. Qed.

(** Every record has a column. *)
Lemma lens_total : forall n l, cols_below n l -> list_sum (lens_of n l) = length l.
Proof.
  intros n l. induction l as [|x l IH] using rev_ind; intros H.
  - unfold lens_of. cbn. induction (seq 0 n); cbn; auto.
  - apply Forall_app in H as (H & Hx). inversion Hx as [|? ? Hx' _]; subst. rewrite app_length, <- IH by auto. cbn.
    unfold lens_of. 
    assert (G : forall s k, (forall c, In c (seq s k) -> True) -> list_sum (map (fun c => length (rows_of c (l ++ [x]))) (seq s k)) =
      list_sum (map (fun c => length (rows_of c l)) (seq s k)) + (if (s <=? x) && (x <? s + k) then 1 else 0)).
    { intros s k _. revert s. induction k as [|k IHk]; intros s; cbn [seq map list_sum fold_right].
      - destruct (Nat.leb_spec s x), (Nat.ltb_spec x (s + 0)); cbn; lia.
      - change (fold_right Nat.add 0) with list_sum. rewrite IHk, rows_of_snoc, app_length.
        destruct (Nat.eqb_spec x s), (Nat.leb_spec (S s) x), (Nat.leb_spec s x), (Nat.ltb_spec x (S s + k)), (Nat.ltb_spec x (s + S k)); cbn; lia. }
    rewrite G by auto. replace ((0 <=? x) && (x <? 0 + n)) with true; [lia|].
    symmetry. apply andb_true_intro. split; [reflexivity|apply Nat.ltb_lt; lia].
Qed.

(** The filling loop *)
Section Fill.
  Context (n : nat) (all : list nat).
  Hypothesis Hall : cols_below n all.
  Let lens := lens_of n all.
  Let starts := start_idxs lens.

  Lemma lens_length : length lens = n.
  Proof. unfold lens, lens_of. rewrite map_length, seq_length. auto. Qed.
  Lemma lens_nth : forall c, c < n -> nth c lens 0 = length (rows_of c all).
  Proof. intros. unfold lens, lens_of. apply (nth_map_seq _ (fun c => length (rows_of c all))). auto. Qed.
  Lemma starts_nth : forall c, c < n -> nth c starts 0 = sum_to lens c.
  Proof. intros. apply start_idxs_nth. rewrite lens_length. auto. Qed.

  Lemma seg_end : forall c, c < n -> sum_to lens c + length (rows_of c all) <= length all.
  Proof.
    intros c Hc. rewrite <- lens_nth by auto. rewrite <- sum_to_S by (rewrite lens_length; auto).
    rewrite <- (lens_total n all Hall). fold lens. rewrite <- sum_to_all. apply sum_to_mono. rewrite lens_length. lia.
  Qed.

  Lemma seg_disjoint : forall c c' k k', c < n -> c' < n -> k < length (rows_of c all) -> k' < length (rows_of c' all) ->
    sum_to lens c + k = sum_to lens c' + k' -> c = c' /\ k = k'.
  Proof.
    intros c c' k k' Hc Hc' Hk Hk' E.
    assert (G : forall a b, a < n -> b < n -> a < b -> sum_to lens a + length (rows_of a all) <= sum_to lens b).
    { intros a b Ha Hb Hab. rewrite <- lens_nth by auto. rewrite <- sum_to_S by (rewrite lens_length; auto). apply sum_to_mono. lia. }
    destruct (Nat.lt_trichotomy c c') as [H|[H|H]].
    - specialize (G c c' Hc Hc' H). lia.
    - subst. split; auto. lia.
    - specialize (G c' c Hc' Hc H). lia.
  Qed.

  Definition fill_step := fun (s : list nat * list nat) (rc : nat * nat) =>
      let '(out, col_i) := s in
      let '(r, col) := rc in
      (upd out (nth col starts 0 + nth col col_i 0) r, upd col_i col (nth col col_i 0 + 1)).

  Lemma combine_seq_snoc : forall (l : list nat) x, combine (seq 0 (length (l ++ [x]))) (l ++ [x]) = combine (seq 0 (length l)) l ++ [(length l, x)].
  Proof.
    intros l x. rewrite app_length. cbn [length]. rewrite seq_app. cbn [seq Nat.add].
    assert (G : forall (a b : list nat) u v, length a = length b -> combine (a ++ [u]) (b ++ [v]) = combine a b ++ [(u, v)]).
    { induction a as [|y a IH]; intros [|z b] u v H; cbn in *; try lia; auto. f_equal. apply IH. lia. }
    apply G. rewrite seq_length. auto.
  Qed.

  Lemma fill_run : forall l rest out0, all = l ++ rest -> length out0 = length all ->
    let s := fold_left fill_step (combine (seq 0 (length l)) l) (out0, repeat 0 n) in
    length (fst s) = length all /\ snd s = lens_of n l /\
    forall c k, c < n -> k < length (rows_of c l) -> nth (sum_to lens c + k) (fst s) 0 = nth k (rows_of c l) 0.
  Proof.
    intros l. induction l as [|x l IH] using rev_ind; intros rest out0 E H0; cbn zeta.
    - cbn. split; auto. split.
      + unfold lens_of. rewrite repeat_map_seq. apply map_ext. reflexivity.
      + intros; lia.
    - rewrite <- app_assoc in E. cbn in E. destruct (IH (x :: rest) out0 E H0) as (A & B & C). cbn zeta in *.
      rewrite combine_seq_snoc, fold_left_app. cbn [fold_left].
      destruct (fold_left fill_step (combine (seq 0 (length l)) l) (out0, repeat 0 n)) as [out ci]. cbn [fst snd] in *.
      unfold fill_step. cbn [fst snd].
      assert (Hx : x < n). { unfold cols_below in Hall. rewrite E in Hall. apply Forall_app in Hall as (_ & Hx). inversion Hx; auto. }
      assert (Hci : nth x ci 0 = length (rows_of x l)) by (rewrite B; apply (nth_map_seq _ (fun c => length (rows_of c l))); auto).
      assert (Hlt : length (rows_of x l) < length (rows_of x all)).
      { rewrite E. replace (l ++ x :: rest) with ((l ++ [x]) ++ rest) by (rewrite <- app_assoc; auto).
        pose proof (rows_of_app_len x (l ++ [x]) rest) as H. rewrite rows_of_snoc, Nat.eqb_refl, app_length in H. cbn in H. lia. }
      rewrite Hci, starts_nth by auto. split; [rewrite upd_length; auto|]. split.
      + rewrite B. unfold lens_of. rewrite upd_map_seq. apply map_ext_in. intros c Hc. rewrite rows_of_snoc, app_length.
        destruct (Nat.eqb_spec c x) as [->|Hn]; [rewrite Nat.eqb_refl; cbn; auto|]. destruct (Nat.eqb_spec x c); [congruence|]. cbn. lia.
      + intros c k Hc Hk. rewrite rows_of_snoc in Hk |- *. rewrite app_length in Hk.
        pose proof (seg_end x Hx) as Hse.
        assert (Hka : k < length (rows_of c all)).
        { rewrite E. replace (l ++ x :: rest) with ((l ++ [x]) ++ rest) by (rewrite <- app_assoc; auto).
          pose proof (rows_of_app_len c (l ++ [x]) rest) as H. rewrite rows_of_snoc, app_length in H. lia. }
        destruct (Nat.eq_dec (sum_to lens c + k) (sum_to lens x + length (rows_of x l))) as [Eq|Ne].
        * destruct (seg_disjoint c x k (length (rows_of x l)) Hc Hx Hka Hlt Eq) as (-> & ->).
          rewrite upd_nth_same by lia. rewrite Nat.eqb_refl, app_nth2, Nat.sub_diag by lia. reflexivity.
        * rewrite upd_nth_other by congruence. destruct (Nat.eqb_spec x c) as [->|Hn].
          -- cbn in Hk. assert (k <> length (rows_of c l)) by congruence. rewrite app_nth1 by lia. apply C; auto. lia.
          -- rewrite app_nil_r. cbn in Hk. apply C; auto. lia.
  Qed.
End Fill.

Lemma slice_nth : forall A (l : list A) a b k d, k < b - a -> b <= length l -> nth k (slice a b l) d = nth (a + k) l d.
Proof.
  intros A l a b k d Hk Hb. unfold slice. 
  assert (Hl : a + k < length (firstn b l)) by (rewrite firstn_length; lia).
  rewrite <- (firstn_skipn b l) at 2. rewrite app_nth1 by auto.
  rewrite <- (firstn_skipn a (firstn b l)) at 2. rewrite app_nth2; rewrite firstn_length, firstn_length; [|lia].
  replace (a + k - Nat.min a (Nat.min b (length l))) with k by lia. reflexivity.
Qed.
Lemma slice_length : forall A (l : list A) a b, b <= length l -> length (slice a b l) = b - a.
Proof. intros. unfold slice. rewrite skipn_length, firstn_length. lia. Qed.

Lemma col_map_props : forall mem l n, cols_below n l ->
  snd (col_map_nb mem l n) = lens_of n l /\ length (fst (col_map_nb mem l n)) = length l /\
  forall c, c < n -> col_seg (col_map_nb mem l n) c = rows_of c l.
Proof.
  intros mem l n H. unfold col_map_nb. rewrite col_lens_run by auto.
  change (fun (s : list nat * list nat) (rc : nat * nat) => let '(out, col_i) := s in let '(r, col) := rc in
           (upd out (nth col (start_idxs (lens_of n l)) 0 + nth col col_i 0) r, upd col_i col (nth col col_i 0 + 1))) with (fill_step n l).
  pose proof (fill_run n l H l [] (np_empty mem (length l))) as F. rewrite app_nil_r in F. cbn zeta in F.
  destruct F as (A & B & C); auto. { unfold np_empty. rewrite map_length, seq_length. auto. }
  destruct (fold_left (fill_step n l) (combine (seq 0 (length l)) l) (np_empty mem (length l), repeat 0 n)) as [out ci]. cbn [fst snd] in *.
  split; auto. split; auto. intros c Hc. unfold col_seg. rewrite starts_nth, lens_nth by auto.
  pose proof (seg_end n l H c Hc) as He.
  apply (nth_ext _ _ 0 0).
  - rewrite slice_length by lia. lia.
  - intros k Hk. rewrite slice_length in Hk by lia. rewrite slice_nth by lia. apply C; auto. lia.
Qed.

Lemma col_map_seg : forall mem l n c, cols_below n l -> c < n -> col_seg (col_map_nb mem l n) c = rows_of c l.
Proof. intros. apply col_map_props; auto. Qed.
Lemma col_map_len : forall mem l n c, cols_below n l -> c < n -> col_len (col_map_nb mem l n) c = length (rows_of c l).
Proof.
  intros mem l n c H Hc. unfold col_len. rewrite (proj1 (col_map_props mem l n H)).
  apply (nth_map_seq _ (fun c => length (rows_of c l))). auto.
Qed.
Lemma col_map_ncols : forall mem l n, cols_below n l -> length (snd (col_map_nb mem l n)) = n.
Proof. intros mem l n H. rewrite (proj1 (col_map_props mem l n H)). apply lens_length. Qed.

(** Slices side by side *)
Lemma skipn_plus : forall A a b (l : list A), skipn (a + b) l = skipn b (skipn a l).
Proof. induction a; intros b l; cbn; auto. destruct l; cbn; [rewrite skipn_nil|]; auto. Qed.

Lemma concat_slices : forall A (l : list A) (lens : list nat) a, a + list_sum lens = length l ->
  concat (map (fun c => slice (a + sum_to lens c) (a + sum_to lens c + nth c lens 0) l) (seq 0 (length lens))) = skipn a l.
Proof.
  intros A l lens. induction lens as [|x lens IH]; intros a H; cbn [length seq map concat].
  - cbn in H. rewrite skipn_all2 by lia. reflexivity.
  - cbn [list_sum fold_right] in H. change (fold_right Nat.add 0) with list_sum in H.
    rewrite <- seq_shift, map_map. 
    rewrite (map_ext_in _ (fun c => slice (a + x + sum_to lens c) (a + x + sum_to lens c + nth c lens 0) l)).
    + rewrite IH by lia. unfold sum_to. cbn [firstn list_sum fold_right nth]. rewrite Nat.add_0_r. unfold slice.
      assert (E : skipn (a + x) l = skipn x (skipn a l)). { apply skipn_plus. }
      rewrite E. assert (E2 : skipn a (firstn (a + x) l) = firstn x (skipn a l)).
      { rewrite skipn_firstn_comm. f_equal. lia. }
      rewrite E2. apply firstn_skipn.
    + intros c _. unfold sum_to. cbn [firstn list_sum fold_right nth]. change (fold_right Nat.add 0) with list_sum. rewrite !Nat.add_assoc. reflexivity.
Qed.

Lemma col_map_whole : forall mem l n, cols_below n l ->
  col_map_nb mem l n = (concat (map (fun c => rows_of c l) (seq 0 n)), map (fun c => length (rows_of c l)) (seq 0 n)).
Proof.
  intros mem l n H. destruct (col_map_props mem l n H) as (A & B & C). rewrite (surjective_pairing (col_map_nb mem l n)). rewrite A. f_equal.
  pose proof (concat_slices _ (fst (col_map_nb mem l n)) (lens_of n l) 0) as E. cbn [Nat.add skipn] in E. rewrite lens_length in E.
  rewrite <- E by (rewrite lens_total; auto). f_equal. apply map_ext_in. intros c Hc. apply in_seq in Hc. rewrite <- (C c) by lia.
  unfold col_seg. rewrite (surjective_pairing (col_map_nb mem l n)) at 2. rewrite A. rewrite starts_nth by lia. reflexivity.
Qed.

Lemma col_map_perm : forall mem l n, cols_below n l -> Permutation (fst (col_map_nb mem l n)) (seq 0 (length l)).
Proof.
  intros mem l n H. rewrite col_map_whole by auto. cbn [fst].
  apply NoDup_Permutation.
  - assert (G : forall k s, NoDup (concat (map (fun c => rows_of c l) (seq s k)))).
    { induction k as [|k IH]; intros s; cbn; [constructor|].
      assert (Hd : forall r, In r (rows_of s l) -> ~ In r (concat (map (fun c => rows_of c l) (seq (S s) k)))).
      { intros r Hr Hc. apply in_concat in Hc as (x & Hx & Hr'). apply in_map_iff in Hx as (c & <- & Hc). apply in_seq in Hc.
        apply rows_of_in in Hr, Hr'. lia. }
      pose proof (rows_of_nodup s l) as Hn. specialize (IH (S s)). revert Hd Hn. generalize (rows_of s l) as a. induction a as [|x a IHa]; intros Hd Hn; cbn; auto.
      inversion Hn; subst. constructor; [|apply IHa; auto; intros; apply Hd; right; auto].
      intros Hin. apply in_app_or in Hin as [Hin|Hin]; auto. apply (Hd x); auto. left; auto. }
    apply G.
  - apply seq_NoDup.
  - intros r. rewrite in_concat, in_seq. split.
    + intros (x & Hx & Hr). apply in_map_iff in Hx as (c & <- & Hc). apply rows_of_in in Hr. lia.
    + intros Hr. exists (rows_of (nth r l 0) l). split.
      * apply in_map_iff. exists (nth r l 0). split; auto. apply in_seq. unfold cols_below in H. rewrite Forall_forall in H.
        split; [lia|]. cbn. apply H. apply nth_In. lia.
      * apply rows_of_in. split; auto. lia.
Qed.
