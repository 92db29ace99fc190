(** * Expanding, reducing and mapping by column *)
From Coq Require Import ZArith Bool List Arith Lia.
From Verif Require Import Base Num GenericNb RecordsNb RecordsSpec RecordsLemmas RecordsLemmas2 RecordsLemmas3.
Import ListNotations.

(** ** Matrices *)
Lemma mfull_shaped : forall A nr nc (v : A), shaped nr nc (mfull nr nc v).
Proof.
  intros. unfold mfull. split; [apply repeat_length|]. intros i Hi. rewrite repeat_map_seq, (nth_map_seq _ (fun _ => repeat v nc)) by auto. apply repeat_length.
Qed.
Lemma mfull_get : forall A nr nc (v d : A) i c, i < nr -> c < nc -> mget d (mfull nr nc v) i c = v.
Proof.
  intros. unfold mget, mfull. rewrite repeat_map_seq, (nth_map_seq _ (fun _ => repeat v nc)) by auto.
  rewrite repeat_map_seq, (nth_map_seq _ (fun _ => v)) by auto. auto.
Qed.
Lemma mset_shaped : forall A nr nc (m : list (list A)) i c v, shaped nr nc m -> shaped nr nc (mset m i c v).
Proof.
  intros A nr nc m i c v (H1 & H2). unfold mset. split; [rewrite upd_length; auto|]. intros k Hk.
  destruct (Nat.eq_dec i k) as [->|Hn]; [rewrite upd_nth_same by lia; rewrite upd_length; auto|rewrite upd_nth_other by auto; auto].
Qed.
Lemma mget_mset : forall A nr nc (m : list (list A)) i c v d i' c', shaped nr nc m -> i < nr -> c < nc ->
  mget d (mset m i c v) i' c' = if Nat.eqb i' i && Nat.eqb c' c then v else mget d m i' c'.
Proof.
  intros A nr nc m i c v d i' c' (H1 & H2) Hi Hc. unfold mget, mset.
  destruct (Nat.eqb_spec i' i) as [->|Hn]; cbn [andb]; [|rewrite upd_nth_other by auto; auto].
  rewrite upd_nth_same by lia. destruct (Nat.eqb_spec c' c) as [->|Hn]; [rewrite upd_nth_same by (rewrite H2; auto); auto|rewrite upd_nth_other by auto; auto].
Qed.

(** ** Expandable *)
Lemma expandable_from_iff : forall nr nc cells temp, shaped nr nc temp -> cells_in nr nc cells ->
  expandable_from temp cells = true <-> NoDup cells /\ forall i c, In (i, c) cells -> mget false temp i c = false.
Proof.
  intros nr nc cells. induction cells as [|[i c] l IH]; intros temp Hs Hc; cbn [expandable_from].
  - split; auto. intros _. split; [constructor|intros i c []].
  - inversion Hc; subst. destruct H1 as (Hi & Hc'). cbn [fst snd] in *. destruct (mget false temp i c) eqn:E.
    + split; [discriminate|]. intros (_ & H). rewrite H in E by (left; auto). discriminate.
    + rewrite IH by (auto; apply mset_shaped; auto). split.
      * intros (H1 & H3). split.
        -- constructor; auto. intros Hin. specialize (H3 i c Hin). rewrite (mget_mset _ nr nc), !Nat.eqb_refl in H3 by auto. discriminate.
        -- intros i' c' [He|Hin]; [injection He as <- <-; auto|]. specialize (H3 i' c' Hin). rewrite (mget_mset _ nr nc) in H3 by auto.
           destruct (Nat.eqb i' i && Nat.eqb c' c); [discriminate|auto].
      * intros (H1 & H3). inversion H1; subst. split; auto. intros i' c' Hin. rewrite (mget_mset _ nr nc) by auto.
        destruct (Nat.eqb_spec i' i), (Nat.eqb_spec c' c); cbn [andb]; try (apply H3; right; auto). subst. contradiction.
Qed.

Lemma expandable_iff : forall nr nc cells, cells_in nr nc cells -> is_mapped_expandable_nb cells nr nc = true <-> NoDup cells.
Proof.
  intros nr nc cells H. unfold is_mapped_expandable_nb. rewrite (expandable_from_iff nr nc) by (auto; apply mfull_shaped).
  split; [tauto|]. intros HN. split; auto. intros i c Hin. unfold cells_in in H. rewrite Forall_forall in H. specialize (H _ Hin). apply mfull_get; apply H.
Qed.

(** ** Expand *)
Lemma expand_run : forall B nr nc (vals : list B) cells m d, length vals = length cells -> cells_in nr nc cells -> shaped nr nc m ->
  let out := fold_left (fun out (vc : B * (nat * nat)) => mset out (fst (snd vc)) (snd (snd vc)) (fst vc)) (combine vals cells) m in
  shaped nr nc out /\
  (forall i c, ~ In (i, c) cells -> mget d out i c = mget d m i c) /\
  (forall k, k < length cells -> (forall k', k < k' < length cells -> nth k' cells (0, 0) <> nth k cells (0, 0)) ->
     mget d out (fst (nth k cells (0, 0))) (snd (nth k cells (0, 0))) = nth k vals d).
Proof.
  intros B nr nc vals. induction vals as [|v vals IH]; intros [|[i c] cells] m d Hl Hc Hs; cbn in Hl; try lia; cbn [combine fold_left].
  - split; auto. split; auto. intros k Hk. cbn in Hk. lia.
  - inversion Hc; subst. destruct H1 as (Hi & Hc'). cbn [fst snd] in *.
    destruct (IH cells (mset m i c v) d) as (A & B1 & C); [lia|auto|apply mset_shaped; auto|]. cbn zeta. split; auto. split.
    + intros i' c' Hn. rewrite B1 by (intros Hin; apply Hn; right; auto). rewrite (mget_mset _ nr nc) by auto.
      destruct (Nat.eqb_spec i' i), (Nat.eqb_spec c' c); auto. subst. exfalso. apply Hn. left; auto.
    + intros [|k] Hk Hlast; cbn [nth fst snd].
      * rewrite B1.
        -- rewrite (mget_mset _ nr nc), !Nat.eqb_refl by auto. auto.
        -- intros Hin. apply In_nth with (d := (0, 0)) in Hin as (k' & Hk' & E). apply (Hlast (S k')); cbn in *; [lia|auto].
      * apply C; [cbn in Hk; lia|]. intros k' Hk'. apply (Hlast (S k')). cbn. lia.
Qed.

(** ** One write per column *)
Lemma fold_upd_seq : forall C (fv : C) (skip : nat -> bool) (g : nat -> C) n,
  fold_left (fun out c => if skip c then out else upd out c (g c)) (seq 0 n) (repeat fv n) =
  map (fun c => if skip c then fv else g c) (seq 0 n).
Proof.
  intros C fv skip g n.
  assert (G : forall k, k <= n -> fold_left (fun out c => if skip c then out else upd out c (g c)) (seq 0 k) (repeat fv n) =
    map (fun c => if Nat.ltb c k then (if skip c then fv else g c) else fv) (seq 0 n)).
  { induction k as [|k IH]; intros Hk; [cbn; apply repeat_map_seq|]. rewrite seq_S, fold_left_app. cbn [fold_left Nat.add]. rewrite IH by lia.
    destruct (skip k) eqn:E.
    - apply map_ext. intros c. destruct (Nat.ltb_spec c k), (Nat.ltb_spec c (S k)); auto; try lia. assert (c = k) by lia. subst. rewrite E. auto.
    - rewrite upd_map_seq. apply map_ext. intros c. destruct (Nat.eqb_spec c k) as [->|Hn].
      + destruct (Nat.ltb_spec k (S k)); [|lia]. rewrite E. auto.
      + destruct (Nat.ltb_spec c k), (Nat.ltb_spec c (S k)); auto; lia. }
  rewrite G by lia. apply map_ext_in. intros c Hc. apply in_seq in Hc. destruct (Nat.ltb_spec c n); auto. lia.
Qed.

Lemma fold_ext_seq : forall A (f g : A -> nat -> A) n a, (forall a c, c < n -> f a c = g a c) -> fold_left f (seq 0 n) a = fold_left g (seq 0 n) a.
Proof. intros. apply fold_left_ext_in. intros a0 c Hc. apply in_seq in Hc. apply H. lia. Qed.

Lemma reduce_spec : forall B C (d : B) mem vals col_arr n (fv : C) f, cols_below n col_arr ->
  reduce_mapped_nb d vals (col_map_nb mem col_arr n) fv f =
  map (fun c => if Nat.eqb (length (rows_of c col_arr)) 0 then fv else f c (values_of d c col_arr vals)) (seq 0 n).
Proof.
  intros. unfold reduce_mapped_nb. rewrite col_map_ncols by auto. rewrite <- (fold_upd_seq _ fv (fun c => Nat.eqb (length (rows_of c col_arr)) 0)).
  apply fold_ext_seq. intros a c Hc. rewrite col_map_len, col_map_seg by auto. reflexivity.
Qed.

Lemma reduce_idx_spec : forall B (d : B) mem vals col_arr n idx_arr fv f, cols_below n col_arr ->
  reduce_mapped_to_idx_nb d vals (col_map_nb mem col_arr n) idx_arr fv f =
  map (fun c => if Nat.eqb (length (rows_of c col_arr)) 0 then fv else nth (f c (values_of d c col_arr vals)) (values_of 0 c col_arr idx_arr) 0) (seq 0 n).
Proof.
  intros. unfold reduce_mapped_to_idx_nb. rewrite col_map_ncols by auto. rewrite <- (fold_upd_seq _ fv (fun c => Nat.eqb (length (rows_of c col_arr)) 0)).
  apply fold_ext_seq. intros a c Hc. rewrite col_map_len, col_map_seg by auto. reflexivity.
Qed.

(** ** Writing back to the rows *)
Lemma put_at_length : forall A idxs (xs : list A) out, length (put_at out idxs xs) = length out.
Proof.
  intros A idxs. unfold put_at. induction idxs as [|i idxs IH]; intros [|x xs] out; cbn; auto. rewrite IH. apply upd_length.
Qed.
Lemma put_at_other : forall A idxs (xs : list A) out r d, ~ In r idxs -> nth r (put_at out idxs xs) d = nth r out d.
Proof.
  intros A idxs. unfold put_at. induction idxs as [|i idxs IH]; intros [|x xs] out r d H; cbn; auto.
  rewrite IH by (intros Hin; apply H; right; auto). apply upd_nth_other. intros ->. apply H. left; auto.
Qed.
Lemma put_at_same : forall A idxs (xs : list A) out k d, NoDup idxs -> length xs = length idxs -> k < length idxs ->
  (forall i, In i idxs -> i < length out) -> nth (nth k idxs 0) (put_at out idxs xs) d = nth k xs d.
Proof.
  intros A idxs. induction idxs as [|i idxs IH]; intros [|x xs] out k d HN Hl Hk Hb; cbn in Hl, Hk; try lia.
  inversion HN; subst. change (put_at out (i :: idxs) (x :: xs)) with (put_at (upd out i x) idxs xs). destruct k as [|k]; cbn [nth].
  - rewrite put_at_other by auto. apply upd_nth_same. apply Hb. left; auto.
  - apply IH; auto; [lia|]. intros j Hj. rewrite upd_length. apply Hb. right; auto.
Qed.

Lemma values_of_nth : forall A (e : A) c col_arr vals j, j < length (rows_of c col_arr) ->
  nth j (values_of e c col_arr vals) e = nth (nth j (rows_of c col_arr) 0) vals e.
Proof.
  intros A e c col_arr vals j Hj. unfold values_of. rewrite (nth_indep (map _ _) e (nth 0 vals e)) by (rewrite map_length; auto).
  apply (map_nth (fun r => nth r vals e)).
Qed.

Lemma apply_spec : forall B C (d : B) (e : C) mem mem' vals col_arr n f, cols_below n col_arr -> length vals = length col_arr ->
  (forall c, c < n -> length (f c (values_of d c col_arr vals)) = length (rows_of c col_arr)) ->
  let out := apply_on_mapped_nb d mem' vals (col_map_nb mem col_arr n) f in
  length out = length vals /\
  forall c, c < n -> values_of e c col_arr out = f c (values_of d c col_arr vals).
Proof.
  intros B C d e mem mem' vals col_arr n f Hb Hl Hf out. unfold out, apply_on_mapped_nb. rewrite col_map_ncols by auto.
  rewrite (fold_ext_seq _ _ (fun o c => put_at o (rows_of c col_arr) (f c (values_of d c col_arr vals)))).
  2:{ intros a c Hc. rewrite col_map_len, col_map_seg by auto. destruct (Nat.eqb_spec (length (rows_of c col_arr)) 0) as [E|_]; auto.
      apply length_zero_iff_nil in E. rewrite E. reflexivity. }
  assert (G : forall k, k <= n -> let o := fold_left (fun o c => put_at o (rows_of c col_arr) (f c (values_of d c col_arr vals))) (seq 0 k) (np_empty mem' (length vals)) in
    length o = length vals /\ forall c, c < k -> values_of e c col_arr o = f c (values_of d c col_arr vals)).
  { induction k as [|k IH]; intros Hk o.
    - unfold o. cbn [seq fold_left]. split; [apply np_empty_length|]. intros c Hc. lia.
    - destruct IH as (I1 & I2); [lia|]. unfold o. rewrite seq_S, fold_left_app. cbn [fold_left Nat.add]. set (o0 := fold_left _ (seq 0 k) _) in *. clearbody o0.
      split; [rewrite put_at_length; auto|]. intros c Hc. destruct (Nat.eq_dec c k) as [->|Hn].
      + apply (nth_ext _ _ e e); [rewrite values_of_length; symmetry; apply Hf; lia|]. intros j Hj. rewrite values_of_length in Hj.
        rewrite values_of_nth by auto.
        apply put_at_same; [apply rows_of_nodup|apply Hf; lia|auto|]. intros i Hi. apply rows_of_in in Hi. lia.
      + rewrite <- (I2 c) by lia. unfold values_of. apply map_ext_in. intros r Hr. apply put_at_other. intros Hin.
        apply rows_of_in in Hr, Hin. lia. }
  apply G. auto.
Qed.

(** ** Stacking and counting *)
Lemma list_max_spec : forall l a, fold_left Nat.max l a = Nat.max a (list_max l).
Proof. induction l as [|x l IH]; intros a; cbn [fold_left list_max fold_right]; [lia|]. change (fold_right Nat.max 0) with list_max. rewrite IH. lia. Qed.

Lemma list_max_le_in : forall l x, In x l -> x <= list_max l.
Proof. intros l x H. pose proof (proj1 (list_max_le l (list_max l)) (le_n _)) as F. rewrite Forall_forall in F. auto. Qed.

Lemma stack_col : forall B nr nc (xs : list B) s col m d, shaped nr nc m -> col < nc -> s + length xs <= nr ->
  let o := fold_left (fun o kv => mset o (fst kv) col (snd kv)) (combine (seq s (length xs)) xs) m in
  shaped nr nc o /\ forall k c, mget d o k c = if Nat.eqb c col && Nat.leb s k && Nat.ltb k (s + length xs) then nth (k - s) xs d else mget d m k c.
Proof.
  intros B nr nc xs. induction xs as [|x xs IH]; intros s col m d Hs Hc Hl; cbn [length seq combine fold_left] in *.
  - split; auto. intros k c. destruct (Nat.leb_spec s k), (Nat.ltb_spec k (s + 0)); rewrite ?andb_false_r; auto; lia.
  - destruct (IH (S s) col (mset m s col x) d) as (A & B1); [apply mset_shaped; auto|auto|lia|]. cbn zeta. split; auto.
    intros k c. cbn [fst snd]. rewrite B1. rewrite (mget_mset _ nr nc) by (auto; lia).
    destruct (Nat.eqb_spec c col) as [->|Hn]; cbn [andb]; [|rewrite andb_false_r; auto].
    destruct (Nat.leb_spec (S s) k), (Nat.ltb_spec k (S s + length xs)), (Nat.leb_spec s k), (Nat.ltb_spec k (s + S (length xs))), (Nat.eqb_spec k s); cbn [andb]; auto; try lia.
    + destruct (k - s) as [|j] eqn:E; [lia|]. cbn [nth]. f_equal. lia.
    + subst. rewrite Nat.sub_diag. auto.
Qed.

Lemma stack_spec : forall B (d : B) mem vals col_arr n fv, cols_below n col_arr ->
  let out := stack_expand_mapped_nb d vals (col_map_nb mem col_arr n) fv in
  let height := list_max (map (fun c => length (rows_of c col_arr)) (seq 0 n)) in
  shaped height n out /\
  forall k c, k < height -> c < n -> mget d out k c = nth k (values_of d c col_arr vals) fv.
Proof.
  intros B d mem vals col_arr n fv Hb out height. unfold out, stack_expand_mapped_nb. rewrite col_map_ncols by auto.
  replace (fold_left Nat.max (snd (col_map_nb mem col_arr n)) 0) with height
    by (rewrite (proj1 (col_map_props mem col_arr n Hb)), list_max_spec; reflexivity).
  rewrite (fold_ext_seq _ _ (fun out col => fold_left (fun o kv => mset o (fst kv) col (snd kv))
            (combine (seq 0 (length (values_of d col col_arr vals))) (values_of d col col_arr vals)) out)).
  2:{ intros a c Hc. rewrite col_map_len, col_map_seg by auto. rewrite values_of_length.
      destruct (Nat.eqb_spec (length (rows_of c col_arr)) 0) as [E|_]; [|reflexivity]. rewrite E. reflexivity. }
  assert (Hh : forall c, c < n -> length (values_of d c col_arr vals) <= height).
  { intros c Hc. rewrite values_of_length. apply list_max_le_in. apply in_map_iff. exists c. split; auto. apply in_seq. lia. }
  assert (G : forall j, j <= n -> let o := fold_left (fun out col => fold_left (fun o kv => mset o (fst kv) col (snd kv))
            (combine (seq 0 (length (values_of d col col_arr vals))) (values_of d col col_arr vals)) out) (seq 0 j) (mfull height n fv) in
    shaped height n o /\ forall k c, k < height -> c < n -> mget d o k c = if Nat.ltb c j then nth k (values_of d c col_arr vals) fv else fv).
  { induction j as [|j IH]; intros Hj o.
    - unfold o. cbn [seq fold_left]. split; [apply mfull_shaped|]. intros k c Hk Hc. rewrite mfull_get by auto. auto.
    - destruct IH as (I1 & I2); [lia|]. unfold o. rewrite seq_S, fold_left_app. cbn [fold_left Nat.add]. set (o0 := fold_left _ (seq 0 j) _) in *. clearbody o0.
      destruct (stack_col B height n (values_of d j col_arr vals) 0 j o0 d) as (A & B1); [auto|lia|apply Hh; lia|]. split; auto.
      intros k c Hk Hc. rewrite B1, I2 by auto. cbn [Nat.leb Nat.add]. rewrite andb_true_r, Nat.sub_0_r.
      destruct (Nat.eqb_spec c j) as [->|Hn]; cbn [andb].
      + destruct (Nat.ltb_spec j (S j)), (Nat.ltb_spec j j); try lia. destruct (Nat.ltb_spec k (length (values_of d j col_arr vals))) as [H1|H1].
        * apply nth_indep; auto.
        * rewrite nth_overflow; auto.
      + destruct (Nat.ltb_spec c j), (Nat.ltb_spec c (S j)); auto; lia. }
  destruct (G n (le_n _)) as (A & B1). split; auto. intros k c Hk Hc. rewrite B1 by auto. destruct (Nat.ltb_spec c n); auto. lia.
Qed.

Lemma count_col : forall nr nc codes rows col m, shaped nr nc m -> col < nc -> (forall r, In r rows -> nth r codes 0 < nr) ->
  let o := fold_left (fun o r => mset o (nth r codes 0) col (mget 0 o (nth r codes 0) col + 1)) rows m in
  shaped nr nc o /\ forall u c, mget 0 o u c = mget 0 m u c + (if Nat.eqb c col then count (fun r => Nat.eqb (nth r codes 0) u) rows else 0).
Proof.
  intros nr nc codes rows. induction rows as [|r rows IH]; intros col m Hs Hc Hr; cbn [fold_left].
  - split; auto. intros u c. destruct (Nat.eqb c col); cbn; lia.
  - destruct (IH col (mset m (nth r codes 0) col (mget 0 m (nth r codes 0) col + 1))) as (A & B).
    + apply mset_shaped; auto.
    + auto.
    + intros; apply Hr; right; auto.
    + split; auto. intros u c. cbn zeta. rewrite B. rewrite (mget_mset _ nr nc) by (auto; apply Hr; left; auto).
      destruct (Nat.eqb_spec c col) as [->|Hn]; rewrite ?andb_false_r, ?andb_true_r; auto.
      unfold count. cbn [filter]. destruct (Nat.eqb_spec u (nth r codes 0)) as [->|Hn].
      * rewrite Nat.eqb_refl. cbn [length]. lia.
      * destruct (Nat.eqb_spec (nth r codes 0) u); [congruence|]. auto.
Qed.

Lemma value_counts_spec : forall mem codes col_arr n u_n, cols_below n col_arr -> length codes = length col_arr -> Forall (fun u => u < u_n) codes ->
  let out := mapped_value_counts_nb codes u_n (col_map_nb mem col_arr n) in
  shaped u_n n out /\ forall u c, u < u_n -> c < n -> mget 0 out u c = count_occ Nat.eq_dec (values_of 0 c col_arr codes) u.
Proof.
  intros mem codes col_arr n u_n Hb Hl Hu out. unfold out, mapped_value_counts_nb. rewrite col_map_ncols by auto.
  rewrite (fold_ext_seq _ _ (fun out col => fold_left (fun o r => mset o (nth r codes 0) col (mget 0 o (nth r codes 0) col + 1)) (rows_of col col_arr) out)).
  2:{ intros a c Hc. rewrite col_map_len, col_map_seg by auto. destruct (Nat.eqb_spec (length (rows_of c col_arr)) 0) as [E|_]; auto.
      apply length_zero_iff_nil in E. rewrite E. reflexivity. }
  assert (Hr : forall c r, In r (rows_of c col_arr) -> nth r codes 0 < u_n).
  { intros c r Hr. apply rows_of_in in Hr as (Hr & _). rewrite Forall_forall in Hu. apply Hu, nth_In. lia. }
  assert (G : forall j, j <= n -> let o := fold_left (fun out col => fold_left (fun o r => mset o (nth r codes 0) col (mget 0 o (nth r codes 0) col + 1)) (rows_of col col_arr) out) (seq 0 j) (mfull u_n n 0) in
    shaped u_n n o /\ forall u c, u < u_n -> c < n -> mget 0 o u c = if Nat.ltb c j then count (fun r => Nat.eqb (nth r codes 0) u) (rows_of c col_arr) else 0).
  { induction j as [|j IH]; intros Hj o.
    - unfold o. cbn [seq fold_left]. split; [apply mfull_shaped|]. intros u c H1 H2. rewrite mfull_get by auto. auto.
    - destruct IH as (I1 & I2); [lia|]. unfold o. rewrite seq_S, fold_left_app. cbn [fold_left Nat.add]. set (o0 := fold_left _ (seq 0 j) _) in *. clearbody o0.
      destruct (count_col u_n n codes (rows_of j col_arr) j o0) as (A & B1); [auto|lia|intros; eapply Hr; eauto|]. split; auto.
      intros u c H1 H2. rewrite B1, I2 by auto. destruct (Nat.eqb_spec c j) as [->|Hn].
      + destruct (Nat.ltb_spec j (S j)), (Nat.ltb_spec j j); lia.
      + destruct (Nat.ltb_spec c j), (Nat.ltb_spec c (S j)); lia. }
  destruct (G n (le_n _)) as (A & B1). split; auto. intros u c H1 H2. rewrite B1 by auto. destruct (Nat.ltb_spec c n); [|lia].
  unfold values_of. generalize (rows_of c col_arr). induction l as [|r l IH]; [reflexivity|]. cbn [map count_occ]. unfold count in *. cbn [filter].
  destruct (Nat.eqb_spec (nth r codes 0) u), (Nat.eq_dec (nth r codes 0) u); try congruence; cbn [length]; auto.
Qed.
