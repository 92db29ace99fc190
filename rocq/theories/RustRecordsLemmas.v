(** * The Rust kernels for records against the Numba ones: selection *)
From Coq Require Import String ZArith Bool List Arith Lia.
From Verif Require Import Base Num GenericNb RecordsNb RecordsSpec RecordsLemmas RecordsLemmas2 RustRecords.
Import ListNotations.
Open Scope list_scope.

(** ** Starts of columns *)
Lemma starts_run : forall lens m, m <= List.length lens - 1 ->
  fold_left (fun s i => upd s i (nth (i - 1) s 0 + nth (i - 1) lens 0)) (seq 1 m) (repeat 0 (List.length lens)) =
  map (fun k => if Nat.leb k m then sum_to lens k else 0) (seq 0 (List.length lens)).
Proof.
  intros lens m. induction m as [|m IH]; intros Hm.
  - cbn. rewrite repeat_map_seq. apply map_ext. intros [|k]; reflexivity.
  - rewrite seq_S, fold_left_app, IH by lia. cbn [fold_left Nat.add]. rewrite Nat.sub_succ, Nat.sub_0_r.
    rewrite (nth_map_seq _ (fun k => if Nat.leb k m then sum_to lens k else 0)) by lia. rewrite Nat.leb_refl.
    rewrite upd_map_seq. apply map_ext_in. intros k Hk. apply in_seq in Hk.
    destruct (Nat.eqb_spec k (S m)) as [->|Hne].
    + rewrite Nat.leb_refl. rewrite sum_to_S by lia. reflexivity.
    + destruct (Nat.leb_spec k m), (Nat.leb_spec k (S m)); auto; lia.
Qed.

Lemma r_starts : forall lens, r_start_idxs lens = start_idxs lens.
Proof.
  intros lens. unfold r_start_idxs. rewrite starts_run by lia. apply (nth_ext _ _ 0 0).
  - rewrite map_length, seq_length, start_idxs_length. reflexivity.
  - rewrite map_length, seq_length. intros k Hk. rewrite start_idxs_nth by auto.
    rewrite (nth_map_seq _ (fun k => if Nat.leb k (List.length lens - 1) then sum_to lens k else 0)) by auto.
    destruct (Nat.leb_spec k (List.length lens - 1)); auto; lia.
Qed.

(** ** Filling a range *)
Lemma combine_pos : forall (l : list nat), combine (seq 0 (List.length l)) l = map (fun r => (r, nth r l 0)) (seq 0 (List.length l)).
Proof.
  intros l. induction l as [|x l IH] using rev_ind; auto. rewrite app_length. cbn [List.length]. rewrite Nat.add_1_r, seq_S, map_app.
  assert (C : forall A B (a a' : list A) (b b' : list B), List.length a = List.length b -> combine (a ++ a') (b ++ b') = combine a b ++ combine a' b').
  { clear. induction a as [|x a IH]; intros a' [|y b] b' H; cbn in *; try lia; auto. f_equal. apply IH. lia. }
  rewrite C by apply seq_length. cbn [combine map Nat.add]. rewrite app_nth2, Nat.sub_diag by lia. f_equal. rewrite IH.
  apply map_ext_in. intros r Hr. apply in_seq in Hr. rewrite app_nth1 by lia. reflexivity.
Qed.

Lemma put_length : forall A (out : list A) j xs, j + List.length xs <= List.length out -> List.length (put out j xs) = List.length out.
Proof. intros A out j xs H. unfold put. rewrite !app_length, firstn_length, skipn_length. lia. Qed.

Lemma put_snoc : forall A (out : list A) j xs x, j + S (List.length xs) <= List.length out -> upd (put out j xs) (j + List.length xs) x = put out j (xs ++ [x]).
Proof.
  intros A out j xs x H. unfold put. rewrite app_length. cbn [List.length].
  assert (E : skipn (j + List.length xs) out = nth (j + List.length xs) out x :: skipn (j + (List.length xs + 1)) out).
  { assert (G : forall k (l : list A), k < List.length l -> skipn k l = nth k l x :: skipn (S k) l).
    { induction k as [|k IH]; intros [|y l] Hk; cbn in Hk |- *; try lia; auto. rewrite IH by lia. reflexivity. }
    replace (j + (List.length xs + 1)) with (S (j + List.length xs)) by lia. apply G. lia. }
  rewrite E, !app_assoc.
  assert (U : forall (a b : list A) y v, upd (a ++ y :: b) (List.length a) v = a ++ v :: b).
  { clear. induction a as [|z a IH]; intros b y v; cbn; auto. f_equal. apply IH. }
  pose proof (U (firstn j out ++ xs) (skipn (j + (List.length xs + 1)) out) (nth (j + List.length xs) out x) x) as U1.
  replace (List.length (firstn j out ++ xs)) with (j + List.length xs) in U1 by (rewrite app_length, firstn_length; lia).
  rewrite U1. rewrite <- !app_assoc. reflexivity.
Qed.

Lemma fill_put : forall A (f : nat -> A) count out j, j + count <= List.length out ->
  fold_left (fun o k => upd o (j + k) (f k)) (seq 0 count) out = put out j (map f (seq 0 count)).
Proof.
  intros A f count. induction count as [|n IH]; intros out j H.
  - cbn. rewrite put_nil. reflexivity.
  - rewrite seq_S, fold_left_app, map_app, IH by lia. cbn [fold_left map Nat.add].
    replace (j + n) with (j + List.length (map f (seq 0 n))) by (rewrite map_length, seq_length; lia). apply put_snoc. rewrite map_length, seq_length. lia.
Qed.

Lemma fold_pair : forall A B C (f : A -> C -> A) (g : B -> C -> B) l a b,
  fold_left (fun s k => (f (fst s) k, g (snd s) k)) l (a, b) = (fold_left f l a, fold_left g l b).
Proof. intros A B C f g l. induction l as [|x l IH]; intros a b; cbn; auto. Qed.

Lemma put_nth : forall A (out : list A) j xs k d, k < List.length xs -> j <= List.length out -> nth (j + k) (put out j xs) d = nth k xs d.
Proof.
  intros A out j xs k d H Hj. unfold put. rewrite app_nth2; rewrite firstn_length, Nat.min_l by lia; [|lia].
  replace (j + k - j) with k by lia. apply app_nth1. auto.
Qed.

Lemma put_put : forall A (out : list A) j xs ys, List.length xs = List.length ys -> j + List.length xs <= List.length out -> put (put out j xs) j ys = put out j ys.
Proof.
  intros A out j xs ys H Hj. unfold put. rewrite firstn_app, firstn_firstn, firstn_length, !Nat.min_l by lia. rewrite Nat.sub_diag. cbn [firstn]. rewrite app_nil_r.
  f_equal. f_equal. rewrite skipn_app, firstn_length, Nat.min_l by lia. rewrite (skipn_all2 (firstn j out)) by (rewrite firstn_length; lia).
  replace (j + List.length ys - j) with (List.length ys) by lia. rewrite <- H. rewrite skipn_app, skipn_all, Nat.sub_diag. reflexivity.
Qed.

Lemma patch_put : forall A set_col (d : A) v j xs out, j + List.length xs <= List.length out ->
  patch_cols set_col d v j (List.length xs) (put out j xs) = put out j (map (set_col v) xs).
Proof.
  intros A set_col d v j xs out H. unfold patch_cols.
  assert (G : forall m, m <= List.length xs ->
    fold_left (fun o k => upd o (j + k) (set_col v (nth (j + k) o d))) (seq 0 m) (put out j xs) =
    put out j (map (set_col v) (firstn m xs) ++ skipn m xs)).
  { induction m as [|m IH]; intros Hm; [reflexivity|]. rewrite seq_S, fold_left_app, IH by lia. cbn [fold_left Nat.add].
    set (ys := map (set_col v) (firstn m xs) ++ skipn m xs).
    assert (Ly : List.length ys = List.length xs) by (unfold ys; rewrite app_length, map_length, firstn_length, skipn_length; lia).
    rewrite put_nth by lia.
    assert (Ey : nth m ys d = nth m xs d).
    { unfold ys. rewrite app_nth2; rewrite map_length, firstn_length, Nat.min_l by lia; [|lia]. rewrite Nat.sub_diag.
      rewrite <- (firstn_skipn m xs) at 2. rewrite app_nth2; rewrite firstn_length, Nat.min_l by lia; [|lia]. rewrite Nat.sub_diag. reflexivity. }
    rewrite Ey.
    assert (Sk : skipn m xs = nth m xs d :: skipn (S m) xs).
    { clear -Hm. revert xs Hm. induction m as [|m IH]; intros [|y l] Hk; cbn in Hk |- *; try lia; auto. apply IH. lia. }
    assert (Fk : firstn (S m) xs = firstn m xs ++ [nth m xs d]).
    { clear -Hm. revert xs Hm. induction m as [|m IH]; intros [|y l] Hk; cbn in Hk |- *; try lia; auto. f_equal. apply IH. lia. }
    rewrite Fk, map_app. unfold ys. rewrite Sk. unfold put.
    rewrite <- app_assoc. cbn [map app].
    assert (U : forall (a b : list A) y w, upd (a ++ y :: b) (List.length a) w = a ++ w :: b).
    { clear. induction a as [|z a IHa]; intros b y w; cbn; auto. f_equal. apply IHa. }
    pose proof (U (firstn j out ++ map (set_col v) (firstn m xs)) (skipn (S m) xs ++ skipn (j + List.length (map (set_col v) (firstn m xs) ++ nth m xs d :: skipn (S m) xs)) out) (nth m xs d) (set_col v (nth m xs d))) as U1.
    replace (List.length (firstn j out ++ map (set_col v) (firstn m xs))) with (j + m) in U1 by (rewrite app_length, map_length, !firstn_length; lia).
    rewrite <- !app_assoc in U1. rewrite <- !app_assoc. cbn [app]. rewrite U1. do 3 f_equal. rewrite !app_length; reflexivity. }
  rewrite G by lia. rewrite firstn_all, skipn_all, app_nil_r. reflexivity.
Qed.

(** A fold may be rewritten step by step along an invariant. *)
Lemma fold_left_ext_inv : forall A B (P : A -> list B -> Prop) (f g : A -> B -> A) l a,
  (forall a b l, P a (b :: l) -> f a b = g a b /\ P (g a b) l) -> P a l -> fold_left f l a = fold_left g l a.
Proof.
  intros A B P f g l. induction l as [|x l IH]; intros a H HP; cbn; auto. destruct (H a x l HP) as (E & HP'). rewrite E. apply IH; auto.
Qed.

(** ** Column ranges *)
Lemma flat_upd0 : forall ps c v, upd (flat_pairs ps) (c * 2) v = flat_pairs (upd ps c (v, snd (nth c ps (-1, -1)%Z))).
Proof.
  intros ps. unfold flat_pairs. induction ps as [|[a b] ps IH]; intros [|c] v; try reflexivity.
  cbn [Nat.mul Nat.add map concat app upd nth fst snd]. rewrite IH. reflexivity.
Qed.
Lemma flat_upd1 : forall ps c v, upd (flat_pairs ps) (c * 2 + 1) v = flat_pairs (upd ps c (fst (nth c ps (-1, -1)%Z), v)).
Proof.
  intros ps. unfold flat_pairs. induction ps as [|[a b] ps IH]; intros [|c] v; try reflexivity.
  cbn [Nat.mul Nat.add map concat app upd nth fst snd]. rewrite IH. reflexivity.
Qed.
Lemma flat_nth0 : forall ps c, nth (c * 2) (flat_pairs ps) (-1)%Z = fst (nth c ps (-1, -1)%Z).
Proof. intros ps. unfold flat_pairs. induction ps as [|[a b] ps IH]; intros [|c]; try reflexivity. cbn [Nat.mul Nat.add map concat app nth]. apply IH. Qed.
Lemma flat_nth1 : forall ps c, nth (c * 2 + 1) (flat_pairs ps) (-1)%Z = snd (nth c ps (-1, -1)%Z).
Proof. intros ps. unfold flat_pairs. induction ps as [|[a b] ps IH]; intros [|c]; try reflexivity. cbn [Nat.mul Nat.add map concat app nth]. apply IH. Qed.

Lemma normal : forall c n, c < n -> normalize_col c n = c.
Proof. intros c n H. unfold normalize_col. destruct (Nat.ltb_spec c n); auto; lia. Qed.

Lemma range_sim : forall n n_cols rest r last ps, rest <> [] -> 1 <= r -> r + List.length rest = n -> cols_below n_cols (last :: rest) ->
  (let! s := foldM (col_range_step n) (Z.of_nat last, ps) (combine (seq r (List.length rest)) rest) in Ok (flat_pairs (snd s))) =
  (let! s := foldM (r_col_range_step n_cols) (last, flat_pairs ps) (combine (seq r (List.length rest)) rest) in
   Ok (upd (snd s) (normalize_col (fst s) n_cols * 2 + 1) (Z.of_nat n))).
Proof.
  intros n n_cols rest. induction rest as [|x rest IH]; intros r last ps Hne Hr Hn Hc; [contradiction|]. clear Hne.
  assert (Hl : last < n_cols) by (inversion Hc; auto). assert (Hx : x < n_cols) by (inversion Hc; inversion H2; auto).
  cbn [List.length seq combine foldM]. unfold col_range_step at 1, r_col_range_step at 1.
  cbv iota beta. unfold raise_if.
  replace (Z.of_nat x <? Z.of_nat last)%Z with (Nat.ltb x last) by (destruct (Nat.ltb_spec x last), (Z.ltb_spec (Z.of_nat x) (Z.of_nat last)); auto; lia).
  destruct (Nat.ltb x last); [reflexivity|].
  replace (Z.of_nat x =? Z.of_nat last)%Z with (Nat.eqb x last) by (destruct (Nat.eqb_spec x last), (Z.eqb_spec (Z.of_nat x) (Z.of_nat last)); auto; lia).
  replace (Z.of_nat last =? -1)%Z with false by (symmetry; apply Z.eqb_neq; lia). cbn [negb].
  rewrite Nat2Z.id, !normal by auto. rewrite flat_upd1, flat_upd0.
  set (ps1 := if negb (Nat.eqb x last) then _ else _).
  set (ps2 := upd (upd ps last _) x _).
  assert (E1 : ps1 = (Z.of_nat x, if negb (Nat.eqb x last) then ps2 else ps)).
  { unfold ps1. destruct (Nat.eqb_spec x last) as [->|_]; reflexivity. }
  rewrite E1. cbv iota.
  assert (E2 : (if negb (Nat.eqb x last) then Ok (x, flat_pairs ps2) else Ok (last, flat_pairs ps)) =
     Ok (x, flat_pairs (if negb (Nat.eqb x last) then ps2 else ps))).
  { destruct (Nat.eqb_spec x last) as [->|_]; reflexivity. }
  rewrite E2. clearbody ps1 ps2. clear E1 E2 ps1. set (qs := if negb (Nat.eqb x last) then ps2 else ps). clearbody qs. clear ps2.
  cbn [bind]. destruct rest as [|y rest].
  - cbn [List.length] in *. replace (Nat.eqb r (n - 1)) with true by (symmetry; apply Nat.eqb_eq; lia).
    cbn [seq combine foldM bind fst snd]. rewrite normal by auto. rewrite flat_upd1. repeat f_equal. lia.
  - replace (Nat.eqb r (n - 1)) with false by (symmetry; apply Nat.eqb_neq; cbn [List.length] in Hn; lia).
    apply IH; [discriminate|lia|cbn [List.length] in *; lia|]. inversion Hc; auto.
Qed.

Lemma r_col_range_eq : forall col_arr n, cols_below n col_arr ->
  r_col_range col_arr n = match col_range_nb col_arr n with Ok rg => Ok (flat_pairs rg) | Err e => Err e end.
Proof.
  intros col_arr n H. unfold r_col_range, col_range_nb.
  assert (F : repeat (-1)%Z (n * 2) = flat_pairs (repeat (-1, -1)%Z n)).
  { clear. unfold flat_pairs. induction n as [|n IH]; auto. cbn [Nat.mul Nat.add repeat map concat app fst snd]. rewrite IH. reflexivity. }
  rewrite F. destruct col_arr as [|c0 rest]; [reflexivity|].
  assert (H0 : c0 < n) by (inversion H; auto).
  cbn [List.length seq combine foldM]. unfold col_range_step at 1. cbv iota beta. unfold raise_if.
  replace (Z.of_nat c0 <? -1)%Z with false by (symmetry; apply Z.ltb_ge; lia).
  replace (Z.of_nat c0 =? -1)%Z with false by (symmetry; apply Z.eqb_neq; lia). cbn [negb]. rewrite Z.eqb_refl. cbn [negb]. cbv iota.
  rewrite !normal by auto. rewrite flat_upd0. set (ps := upd _ c0 _). change (0%Z, snd (nth c0 (repeat (-1, -1)%Z n) (-1, -1)%Z)) with (Z.of_nat 0, snd (nth c0 (repeat (-1, -1)%Z n) (-1, -1)%Z)). fold ps. clearbody ps.
  cbn [bind]. destruct rest as [|x rest].
  - cbn [List.length Nat.sub Nat.eqb seq combine foldM bind fst snd]. rewrite normal by auto. rewrite flat_upd1. reflexivity.
  - replace (Nat.eqb 0 (S (List.length (x :: rest)) - 1)) with false by reflexivity.
    rewrite <- range_sim; [|discriminate|lia|reflexivity|exact H].
    destruct (foldM _ _ _) as [s|e]; reflexivity.
Qed.

(** ** Selection through ranges *)
Lemma r_range_total : forall col_arr n rg new_cols, (forall c, c < n -> range_says col_arr c (nth c rg (-1, -1)%Z)) -> cols_below n new_cols ->
  r_range_count (flat_pairs rg) new_cols = list_sum (map (fun c => List.length (rows_of c col_arr)) new_cols).
Proof.
  intros col_arr n rg new_cols Hs Hn. unfold r_range_count.
  assert (G : forall a, fold_left (fun new_n c =>
     if negb (nth (c * 2) (flat_pairs rg) (-1) =? -1)%Z && negb (nth (c * 2 + 1) (flat_pairs rg) (-1) =? -1)%Z
     then new_n + Z.to_nat (nth (c * 2 + 1) (flat_pairs rg) (-1) - nth (c * 2) (flat_pairs rg) (-1))%Z else new_n) new_cols a =
     a + list_sum (map (fun c => List.length (rows_of c col_arr)) new_cols)).
  { induction Hn as [|c cs Hc Hcs IH]; intros a; cbn [map fold_left list_sum fold_right]; [lia|].
    change (fold_right Nat.add 0) with list_sum. rewrite IH. rewrite flat_nth0, flat_nth1.
    destruct (arange_says col_arr c _ (Hs c Hc)) as (E1 & E & _). rewrite <- negb_orb, E1, E, Nat2Z.id.
    destruct (Nat.eqb_spec (List.length (rows_of c col_arr)) 0) as [E0|E0]; cbn [negb]; [rewrite E0|]; lia. }
  apply G.
Qed.

Lemma seq_shift_map : forall a n, map (fun k => a + k) (seq 0 n) = seq a n.
Proof. intros a n. revert a. induction n as [|n IH]; intros a; cbn [seq map]; auto. rewrite Nat.add_0_r. f_equal. rewrite <- (IH (S a)), <- seq_shift, map_map. apply map_ext. intros; lia. Qed.

Lemma map_const_seq : forall A (v : A) a n, map (fun _ => v) (seq a n) = repeat v n.
Proof. intros A v a n. revert a. induction n as [|n IH]; intros a; cbn; auto. f_equal. apply IH. Qed.

Lemma r_range_select : forall col_arr n rg new_cols, (forall c, c < n -> range_says col_arr c (nth c rg (-1, -1)%Z)) -> cols_below n new_cols ->
  r_col_range_select (flat_pairs rg) new_cols =
  (concat (map (fun c => rows_of c col_arr) new_cols),
   concat (map (fun ic => repeat (fst ic) (List.length (rows_of (snd ic) col_arr))) (numbered_cols new_cols))).
Proof.
  intros col_arr n rg new_cols Hs Hn. unfold r_col_range_select. fold (numbered_cols new_cols).
  pose proof (r_range_total col_arr n rg new_cols Hs Hn) as Ht. cbv zeta. rewrite Ht.
  set (size := fun ic : nat * nat => List.length (rows_of (snd ic) col_arr)).
  assert (Hsz : list_sum (map (fun c => List.length (rows_of c col_arr)) new_cols) = list_sum (map size (numbered_cols new_cols))).
  { unfold size. rewrite (map_snd_numbered _ (fun c => List.length (rows_of c col_arr))). reflexivity. }
  rewrite Hsz.
  rewrite (fold_left_ext_inv _ _ (fun s l => let '(o, o', j) := s in List.length o = j + list_sum (map size l) /\ List.length o' = j + list_sum (map size l) /\
      Forall (fun ic => snd ic < n) l) _
    (fun s (ic : nat * nat) => let '(o, o', j) := s in
     (put o j (rows_of (snd ic) col_arr), put o' j (repeat (fst ic) (List.length (rows_of (snd ic) col_arr))), j + List.length (rows_of (snd ic) col_arr)))).
  - rewrite (put_run2 _ _ _ (fun ic => rows_of (snd ic) col_arr) (fun ic => repeat (fst ic) (List.length (rows_of (snd ic) col_arr)))).
    + cbn [firstn app]. rewrite (map_snd_numbered _ (fun c => rows_of c col_arr)). reflexivity.
    + intros. rewrite repeat_length. auto.
    + rewrite repeat_length. reflexivity.
    + rewrite repeat_length. reflexivity.
  - intros [[o o'] j] [i c] l (L1 & L2 & F). inversion F as [|? ? Hc F' E1]; subst. cbn [snd fst] in *.
    cbn [map list_sum fold_right] in L1, L2. change (fold_right Nat.add 0) with list_sum in L1, L2. unfold size at 1 in L1. unfold size at 1 in L2. cbn [snd] in L1, L2.
    split.
    + rewrite flat_nth0, flat_nth1. destruct (arange_says col_arr c _ (Hs c Hc)) as (A1 & A2 & A3). rewrite A1, A2, Nat2Z.id.
      destruct (Nat.eqb_spec (List.length (rows_of c col_arr)) 0) as [E0|E0].
      * apply length_zero_iff_nil in E0. rewrite E0. cbn [List.length repeat]. rewrite !put_nil, Nat.add_0_r. reflexivity.
      * rewrite (fold_pair _ _ _ (fun o k => upd o (j + k) (Z.to_nat (fst (nth c rg (-1, -1)%Z)) + k)) (fun o k => upd o (j + k) i)).
        rewrite (fill_put _ (fun k => Z.to_nat (fst (nth c rg (-1, -1)%Z)) + k)) by lia.
        rewrite (fill_put _ (fun _ => i)) by lia. rewrite seq_shift_map, map_const_seq. specialize (A3 E0). unfold arange in A3.
        rewrite A2, Nat2Z.id in A3. rewrite A3. reflexivity.
    + rewrite !put_length; rewrite ?repeat_length; try lia. split; [lia|]. split; [lia|]. auto.
  - rewrite !repeat_length. split; [reflexivity|]. split; [reflexivity|]. apply Forall_forall. intros [i c] Hic. apply in_numbered in Hic.
    unfold cols_below in Hn. rewrite Forall_forall in Hn. apply Hn. auto.
Qed.

(** ** Column maps *)
Lemma r_col_map_eq : forall mem col_arr n, cols_below n col_arr -> r_col_map col_arr n = col_map_nb mem col_arr n.
Proof.
  intros mem col_arr n H. transitivity (col_map_nb (fun _ => 0) col_arr n); [|rewrite !col_map_whole by auto; reflexivity].
  unfold r_col_map, col_map_nb. cbv zeta.
  assert (Hn : forall c, In c col_arr -> normalize_col c n = c) by (intros c Hc; unfold cols_below in H; rewrite Forall_forall in H; apply normal; auto).
  rewrite (fold_left_ext_in _ _ (fun lens col => upd lens (normalize_col col n) (nth (normalize_col col n) lens 0 + 1)) (fun lens col => upd lens col (nth col lens 0 + 1)))
    by (intros a b Hb; rewrite Hn by auto; reflexivity).
  rewrite r_starts. set (lens := fold_left _ col_arr (repeat 0 n)). rewrite combine_pos, fold_left_map.
  unfold np_empty. rewrite map_const_seq.
  erewrite fold_left_ext_in; [reflexivity|]. intros [out col_i] r Hr. apply in_seq in Hr. cbv beta iota.
  rewrite Hn by (apply nth_In; lia). reflexivity.
Qed.

Lemma r_map_total : forall lens new_cols, r_map_count lens new_cols = np_sum_nat (take 0 lens new_cols).
Proof. intros lens l. unfold r_map_count, np_sum_nat, take. rewrite fold_left_map. reflexivity. Qed.

Lemma r_map_select : forall mem mem' col_arr n new_cols, cols_below n col_arr -> cols_below n new_cols ->
  r_col_map_select (fst (col_map_nb mem col_arr n)) (snd (col_map_nb mem col_arr n)) new_cols = col_map_select_nb mem' (col_map_nb mem col_arr n) new_cols.
Proof.
  intros mem mem' col_arr n new_cols H Hn. transitivity (col_map_select_nb (fun _ => 0) (col_map_nb mem col_arr n) new_cols); [|rewrite !map_select_spec by auto; reflexivity].
  destruct (col_map_nb mem col_arr n) as [idxs lens]. cbn [fst snd]. unfold r_col_map_select, col_map_select_nb. cbv zeta. rewrite r_starts, r_map_total.
  unfold np_empty. rewrite map_const_seq. reflexivity.
Qed.

(** ** One column *)
Lemma normal_one : forall c, normalize_col c 1 = 0.
Proof. intros [|c]; reflexivity. Qed.
Lemma r_col_map_one : forall mem col_arr, r_col_map col_arr 1 = col_map_nb mem (repeat 0 (List.length col_arr)) 1.
Proof.
  intros mem col_arr. rewrite <- (r_col_map_eq mem).
  2: { unfold cols_below. apply Forall_forall. intros x Hx. apply repeat_spec in Hx. lia. }
  unfold r_col_map. rewrite repeat_length.
  assert (E : forall lens, fold_left (fun lens col => upd lens (normalize_col col 1) (nth (normalize_col col 1) lens 0 + 1)) col_arr lens =
    fold_left (fun lens col => upd lens (normalize_col col 1) (nth (normalize_col col 1) lens 0 + 1)) (repeat 0 (List.length col_arr)) lens).
  { induction col_arr as [|c l IH]; intros lens; [reflexivity|]. cbn [List.length repeat fold_left]. rewrite !normal_one. apply IH. }
  rewrite E. set (st := r_start_idxs _). clearbody st. clear E.
  assert (E : forall rows s, fold_left (fun s r => let '(out, col_i) := s in let col := normalize_col (nth r col_arr 0) 1 in
      (upd out (nth col st 0 + nth col col_i 0) r, upd col_i col (nth col col_i 0 + 1))) rows s =
    fold_left (fun s r => let '(out, col_i) := s in let col := normalize_col (nth r (repeat 0 (List.length col_arr)) 0) 1 in
      (upd out (nth col st 0 + nth col col_i 0) r, upd col_i col (nth col col_i 0 + 1))) rows s).
  { induction rows as [|r rows IH]; intros [o ci]; [reflexivity|]. cbn [fold_left]. rewrite !normal_one. apply IH. }
  rewrite E. reflexivity.
Qed.
