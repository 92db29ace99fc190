(** * Random entries and exits by number: Rust against Numba *)
From Coq Require Import String ZArith QArith Qround Bool List Arith Lia Permutation.
From Verif Require Import Base SignalsNb RandSignals RandSignalsSpec RandSignalsLemmas RandSignalsLemmas2 RustStops RustStopsLemmas RustRand RustRandLemmas RustRandEnex.
Import ListNotations.
Local Open Scope list_scope.
Local Open Scope nat_scope.

Lemma ok_inj : forall {A} (a b : A), Ok a = Ok b -> a = b.
Proof. congruence. Qed.
Lemma q_diff_nth : forall l, q_diff l = map (fun i => nth (i + 1) l 0 - nth i l 0)%Q (seq 0 (List.length l - 1)).
Proof.
  induction l as [|x l IH]; [reflexivity|]. destruct l as [|y l]; [reflexivity|]. change (q_diff (x :: y :: l)) with ((y - x)%Q :: q_diff (y :: l)). rewrite IH.
  replace (List.length (x :: y :: l) - 1) with (S (List.length (y :: l) - 1)) by (cbn; lia). cbn [seq map]. f_equal.
  rewrite <- seq_shift, map_map. apply map_ext. intros i. replace (S i + 1) with (S (i + 1)) by lia. reflexivity.
Qed.
Lemma summing_same : forall rg pos (n : nat) r, uniform_summing_to_one_nb rg pos (Z.of_nat n) = Ok r ->
  rs_uniform_summing_to_one rg pos n = Ok r /\ List.length (fst r) = n /\ 1 <= n.
Proof.
  intros rg pos n r. unfold uniform_summing_to_one_nb, rs_uniform_summing_to_one. destruct (Z.ltb_spec (Z.of_nat n) 1) as [|H]; cbn [raise_if]; [discriminate|].
  intros E. apply ok_inj in E. rewrite <- E. clear E. replace (Z.to_nat (Z.of_nat n - 1)) with (n - 1) by lia. rewrite (proj2 (Nat.ltb_ge _ _)) by lia.
  set (l := q_sort _). assert (Hl : List.length l = S n).
  { unfold l. rewrite (Permutation_length (q_sort_perm _)). cbn [List.length]. rewrite map_length, seq_length. lia. }
  rewrite q_diff_nth, Hl. replace (S n - 1) with n by lia. cbn [fst]. rewrite map_length, seq_length. repeat split. lia.
Qed.

Lemma bump_upd : forall l i, bump l i = upd l i (nth i l 0 + 1)%Z.
Proof. induction l as [|x l IH]; intros [|i]; cbn; try reflexivity. f_equal. apply IH. Qed.
Lemma bump_same : forall rg n pos l, rs_bump rg pos n l = bump_loop rg pos n l.
Proof. intros rg. induction n as [|n IH]; intros pos l; [reflexivity|]. cbn [rs_bump bump_loop]. cbv zeta. rewrite bump_upd. apply IH. Qed.
Lemma bump_len : forall rg n pos l, List.length (fst (bump_loop rg pos n l)) = List.length l.
Proof. intros rg. induction n as [|n IH]; intros pos l; [reflexivity|]. cbn [bump_loop]. rewrite IH, bump_upd. apply upd_length. Qed.
Lemma fold_sum : forall l a, fold_left Z.add l a = (a + z_sum l)%Z.
Proof. induction l as [|x l IH]; intros a; cbn; [lia|]. rewrite IH. unfold z_sum. lia. Qed.
Lemma rescale_same : forall rg pos fs lo hi total, 1 <= List.length fs ->
  rs_rescale_float_to_int rg pos fs lo hi total = rescale_float_to_int_nb rg pos fs lo hi total.
Proof.
  intros rg pos fs lo hi total H. unfold rs_rescale_float_to_int, rescale_float_to_int_nb.
  assert (E : map (fun f => Qfloor ((inject_Z hi - inject_Z lo) * f + inject_Z lo)) fs = map (fun f => Qfloor (renormalize f 0 1 (inject_Z lo) (inject_Z hi))) fs).
  { apply map_ext. intros f. apply Qfloor_comp. unfold renormalize. field. }
  rewrite E, fold_sum. set (ints := map (fun f => Qfloor (renormalize f 0 1 (inject_Z lo) (inject_Z hi))) fs).
  assert (L : List.length ints = List.length fs) by apply map_length. rewrite L. cbn [Z.add].
  destruct (Nat.eqb_spec (List.length fs) 0) as [C|_]; [lia|]. rewrite andb_true_r, bump_same. 
  destruct (Z.ltb_spec 0 (total - z_sum ints)) as [|Hle]; [reflexivity|]. replace (Z.to_nat (total - z_sum ints)) with 0 by lia. reflexivity.
Qed.

(** ** Writing *)
Lemma set_all_len : forall l a, List.length (set_all a l) = List.length a.
Proof. unfold set_all. induction l as [|x l IH]; intros a; [reflexivity|]. cbn [fold_left]. rewrite IH. apply upd_length. Qed.
Lemma set_in : forall a i, out_of 0 (Z.of_nat (List.length a)) i = false -> rs_set a i = Ok (upd a (Z.to_nat i) true).
Proof.
  intros a i H. unfold out_of in H. apply orb_false_iff in H as [H1 H2]. apply Z.ltb_ge in H1. apply Z.leb_gt in H2. unfold rs_set.
  rewrite (proj2 (Z.leb_le _ _)), (proj2 (Z.ltb_lt _ _)) by lia. reflexivity.
Qed.
Lemma mask_inv : forall rows idxs out, mask_of (Z.of_nat rows) idxs = Ok out ->
  existsb (out_of 0 (Z.of_nat rows)) idxs = false /\ out = set_all (repeat false rows) idxs /\ List.length out = rows.
Proof.
  intros rows idxs out. unfold mask_of. destruct (existsb _ _) eqn:E; cbn [raise_if]; [discriminate|]. rewrite Nat2Z.id. intros H. inversion H.
  repeat split. rewrite set_all_len. apply repeat_length.
Qed.
Lemma walk : forall l a s, existsb (out_of 0 (Z.of_nat (List.length a))) (cumsum_from s l) = false ->
  exists z, fold_left (fun (st : res (list bool * Z)) r => let! (entries, entry_idx) := st in
                         let! entries := rs_set entries (entry_idx + r)%Z in Ok (entries, (entry_idx + r)%Z)) l (Ok (a, s))
            = Ok (set_all a (cumsum_from s l), z).
Proof.
  induction l as [|r l IH]; intros a s H; [exists s; reflexivity|]. cbn [cumsum_from existsb] in H. apply orb_false_iff in H as [H1 H2].
  cbn [fold_left bind]. rewrite (set_in _ _ H1). cbn [bind]. rewrite <- (upd_length _ a (Z.to_nat (s + r)) true) in H2.
  destruct (IH _ _ H2) as [z E]. exists z. rewrite E. reflexivity.
Qed.

Lemma entries_same : forall rg rows n ew xw pos r,
  rand_entries rg (Z.of_nat rows) (Z.of_nat n) (Z.of_nat ew) (Z.of_nat xw) pos = Ok r ->
  rs_rand_entries rg rows ew xw pos n = Ok r /\ List.length (fst r) = rows.
Proof.
  intros rg rows n ew xw pos r H. unfold rand_entries in H. unfold rs_rand_entries.
  destruct (Z.eqb_spec (Z.of_nat n) 1) as [E1|E1].
  - rewrite (proj2 (Nat.eqb_eq n 1)) by lia. unfold randint in H. destruct (Z.leb_spec (Z.of_nat rows - Z.of_nat xw) 0) as [|C]; cbn [raise_if bind] in H; [discriminate|].
    rewrite (proj2 (Nat.leb_gt _ _)) by lia. replace (Z.of_nat (rows - xw)) with (Z.of_nat rows - Z.of_nat xw)%Z by lia.
    destruct (mask_of _ _) as [out|] eqn:Em; cbn [bind] in H; [|discriminate]. inversion H. subst r. apply mask_inv in Em as (O & -> & L).
    cbn [existsb] in O. apply orb_false_iff in O as [O _]. rewrite set_in by (rewrite repeat_length; exact O). split; [reflexivity|exact L].
  - rewrite (proj2 (Nat.eqb_neq n 1)) by lia.
    destruct (Z.ltb_spec (Z.of_nat rows) ((Z.of_nat ew + Z.of_nat xw) * (Z.of_nat n - 1) + Z.of_nat xw + 1)) as [|C]; cbn [raise_if] in H; [discriminate|].
    destruct (uniform_summing_to_one_nb rg pos 6) as [[fs p1]|] eqn:E6; cbn [bind] in H; [|discriminate].
    destruct (rescale_float_to_int_nb rg p1 fs 0 _ _) as [spaces p2] eqn:Es.
    destruct (uniform_summing_to_one_nb rg p2 (Z.of_nat n - 1)) as [[fs2 p3]|] eqn:En; cbn [bind] in H; [|discriminate].
    assert (Hn : 2 <= n). { unfold uniform_summing_to_one_nb in En. destruct (Z.ltb_spec (Z.of_nat n - 1) 1); cbn [raise_if] in En; [discriminate|lia]. }
    rewrite (proj2 (Nat.ltb_lt 1 n)) by lia. replace (Z.of_nat n - 1)%Z with (Z.of_nat (n - 1)) in En by lia.
    destruct (summing_same rg pos 6 _ E6) as (S1 & L1 & _). destruct (summing_same _ _ _ _ En) as (S2 & L2 & _). cbn [fst] in L1, L2.
    assert (Cn : (ew + xw) * (n - 1) + xw + 1 <= rows) by nia.
    rewrite (proj2 (Nat.ltb_ge _ _)) by exact Cn.
    assert (F : (Z.min (Z.of_nat rows - (Z.of_nat ew + Z.of_nat xw) * (Z.of_nat n - 1) - 1) (3 * Z.of_nat rows / (Z.of_nat n + 1)) - Z.of_nat xw)%Z
                = Z.of_nat (if Nat.ltb xw (Nat.min (rows - (ew + xw) * (n - 1) - 1) (3 * rows / (n + 1)))
                            then Nat.min (rows - (ew + xw) * (n - 1) - 1) (3 * rows / (n + 1)) - xw else 0)).
    { assert (D : (3 * Z.of_nat rows / (Z.of_nat n + 1))%Z = Z.of_nat (3 * rows / (n + 1)))
        by (rewrite Nat2Z.inj_div, Nat2Z.inj_mul, Nat2Z.inj_add; reflexivity).
      assert (X : xw <= 3 * rows / (n + 1)) by (apply Nat.div_le_lower_bound; nia).
      rewrite D. set (m := (ew + xw) * (n - 1)) in *.
      replace ((Z.of_nat ew + Z.of_nat xw) * (Z.of_nat n - 1))%Z with (Z.of_nat m) by (unfold m; rewrite Nat2Z.inj_mul, Nat2Z.inj_add, Nat2Z.inj_sub by lia; reflexivity).
      set (q := 3 * rows / (n + 1)) in *. destruct (Nat.ltb_spec xw (Nat.min (rows - m - 1) q)); lia. }
    rewrite F in Es. rewrite S1. cbn [bind]. rewrite rescale_same, Es by lia.
    assert (Ls : List.length spaces = 6). { unfold rescale_float_to_int_nb in Es. apply (f_equal fst) in Es. cbn [fst] in Es. rewrite <- Es, bump_len, map_length. exact L1. }
    destruct spaces as [|s0 [|s1 [|s2 [|s3 [|s4 [|s5 [|]]]]]]]; try discriminate Ls. clear Ls. cbn [List.length skipn Nat.sub fold_left nth] in *.
    rewrite S2. cbn [bind]. change (0 + s4 + s5)%Z with (s4 + s5)%Z. rewrite rescale_same by lia.
    replace (Z.of_nat (ew + xw)) with (Z.of_nat ew + Z.of_nat xw)%Z by lia.
    destruct (rescale_float_to_int_nb rg p3 fs2 _ _ _) as [ranges p4] eqn:Er.
    destruct (mask_of _ _) as [out|] eqn:Em; cbn [bind] in H; [|discriminate]. inversion H. subst r. apply mask_inv in Em as (O & Eo & L).
    cbn [cumsum_from existsb] in O. rewrite Z.add_0_l in O. apply orb_false_iff in O as [O1 O2].
    rewrite set_in by (rewrite repeat_length; exact O1). cbn [bind].
    destruct (walk ranges (upd (repeat false rows) (Z.to_nat s0) true) s0) as [z W]; [rewrite upd_length, repeat_length; exact O2|].
    rewrite W. cbn [bind]. split; [|exact L]. rewrite Eo. cbn [cumsum_from]. rewrite Z.add_0_l. reflexivity.
Qed.

Lemma exits_loop_same : forall rg entries ew xw fuel s pos exits xs p, List.length entries < fuel + s -> List.length exits = List.length entries ->
  rand_exit_idxs rg (Z.of_nat (List.length entries)) (Z.of_nat ew) (Z.of_nat xw) pos (idxs_from entries s) = Ok (xs, p) ->
  existsb (out_of 0 (Z.of_nat (List.length entries))) xs = false ->
  rs_rand_exits_loop fuel rg entries ew xw (rs_next_true entries s) exits pos = Ok (set_all exits xs, p).
Proof.
  intros rg entries ew xw. induction fuel as [|fuel IH]; intros s pos exits xs p Hf Hl H Ho.
  - unfold idxs_from in H. rewrite skipn_all2 in H by lia. inversion H. reflexivity.
  - destruct (idxs_step entries s) as [E [E2|[e [E2 Hs]]]]; rewrite E2 in H; rewrite E, E2; cbn [hd_error rand_exit_idxs rs_rand_exits_loop] in *; [inversion H; reflexivity|].
    replace (e + 1) with (S e) by lia. rewrite (proj1 (idxs_step entries (S e))).
    set (exit_i := match hd_error (idxs_from entries (S e)) with Some n => (Z.of_nat n - Z.of_nat ew)%Z | None => (Z.of_nat (List.length entries) - 1)%Z end).
    assert (Ex : match idxs_from entries (S e) with e' :: _ => (Z.of_nat e' - Z.of_nat ew)%Z | [] => (Z.of_nat (List.length entries) - 1)%Z end = exit_i)
      by (unfold exit_i; destruct (idxs_from entries (S e)); reflexivity).
    rewrite Ex in H. unfold randint in H. destruct (Z.leb_spec (exit_i - (Z.of_nat e + Z.of_nat xw) + 1) 0) as [|C]; cbn [raise_if bind] in H; [discriminate|].
    destruct (rand_exit_idxs _ _ _ _ _ _) as [[ys q]|] eqn:Ey; cbn [bind] in H; [|discriminate]. inversion H. subst xs q. clear H.
    cbn [existsb] in Ho. apply orb_false_iff in Ho as [O1 O2].
    rewrite (proj2 (Z.ltb_ge exit_i 0)), (proj2 (Z.ltb_ge exit_i _)) by lia. cbn [orb]. rewrite set_in by (rewrite Hl; exact O1). cbn [bind].
    rewrite <- (proj1 (idxs_step entries (S e))). erewrite IH; [reflexivity|lia|rewrite upd_length; exact Hl|exact Ey|exact O2].
Qed.
Lemma exits_same : forall rg rows ew xw pos entries r, List.length entries = rows ->
  rand_exits rg (Z.of_nat rows) (Z.of_nat ew) (Z.of_nat xw) pos entries = Ok r -> rs_rand_exits rg ew xw pos entries = Ok r.
Proof.
  intros rg rows ew xw pos entries r <- H. unfold rand_exits in H. rewrite <- idxs_zero in H. destruct (rand_exit_idxs _ _ _ _ _ _) as [[xs p]|] eqn:E; cbn [bind] in H; [|discriminate].
  destruct (mask_of _ _) as [out|] eqn:Em; cbn [bind] in H; [|discriminate]. inversion H. apply mask_inv in Em as (O & -> & _).
  unfold rs_rand_exits. apply exits_loop_same; auto; [lia|apply repeat_length].
Qed.

(** ** Both waits 1 *)
Definition turn_step (st : nat * list bool * list bool) (row : nat) : nat * list bool * list bool :=
  let '(k, en, ex) := st in if Nat.eqb (Nat.modulo k 2) 0 then (S k, upd en row true, ex) else (S k, en, upd ex row true).
Lemma split_fold : forall b pre st, fold_left (rs_split_step (pre ++ b)) (seq (List.length pre) (List.length b)) st = fold_left turn_step (true_idxs (List.length pre) b) st.
Proof.
  induction b as [|x b IH]; intros pre st; [reflexivity|]. cbn [List.length seq fold_left true_idxs].
  specialize (IH (pre ++ [x])). rewrite <- app_assoc, app_length in IH. cbn [app List.length] in IH. replace (List.length pre + 1) with (S (List.length pre)) in IH by lia.
  rewrite IH. destruct st as [[k en] ex]. unfold rs_split_step at 1. rewrite app_nth2, Nat.sub_diag by lia. cbn [nth]. destruct x; reflexivity.
Qed.
Lemma evens_cons : forall {A} (x : A) l, evens (x :: l) = x :: odds l.
Proof. intros A x [|y l]; reflexivity. Qed.
Lemma turns : forall m l k en ex, List.length l <= m -> Nat.modulo k 2 = 0 ->
  exists k', fold_left turn_step l (k, en, ex) = (k', rs_mark en (evens l), rs_mark ex (odds l)).
Proof.
  induction m as [|m IH]; intros l k en ex Hm Hk.
  - destruct l; [|cbn in Hm; lia]. exists k. reflexivity.
  - destruct l as [|x [|y l]]; [exists k; reflexivity| |].
    + exists (S k). cbn [fold_left turn_step]. rewrite Hk. reflexivity.
    + cbn [fold_left]. unfold turn_step at 2 3. rewrite Hk. cbn [Nat.eqb].
      assert (Hk1 : Nat.modulo (S k) 2 = 1) by (replace (S k) with (1 + k) by lia; rewrite <- Nat.add_mod_idemp_r, Hk by lia; reflexivity).
      rewrite Hk1. cbn [Nat.eqb]. destruct (IH l (S (S k)) (upd en x true) (upd ex y true)) as [k' E].
      * cbn in Hm. lia.
      * replace (S (S k)) with (k + 1 * 2) by lia. rewrite Nat.mod_add by lia. exact Hk.
      * exists k'. rewrite E. change (odds (x :: y :: l)) with (evens (y :: l)). rewrite (evens_cons y). reflexivity.
Qed.
Lemma split_same : forall both,
  rs_split both = (rs_mark (repeat false (List.length both)) (evens (flatnonzero both)), rs_mark (repeat false (List.length both)) (odds (flatnonzero both))).
Proof.
  intros both. unfold rs_split. pose proof (split_fold both [] (0, repeat false (List.length both), repeat false (List.length both))) as E. cbn [app List.length] in E. rewrite E.
  destruct (turns _ (true_idxs 0 both) 0 (repeat false (List.length both)) (repeat false (List.length both)) (le_n _) eq_refl) as [k' F]. rewrite F. reflexivity.
Qed.

Lemma map_evens : forall {A B} (f : A -> B) m l, List.length l <= m -> evens (map f l) = map f (evens l).
Proof.
  intros A B f. induction m as [|m IH]; intros [|x [|y l]] H; try reflexivity; cbn in H; try lia. cbn [map evens]. f_equal. apply IH. lia.
Qed.
Lemma map_odds : forall {A B} (f : A -> B) l, odds (map f l) = map f (odds l).
Proof. intros A B f [|x l]; [reflexivity|]. unfold odds. cbn [map tl]. apply (map_evens f _ l (le_n _)). Qed.
Lemma mark_len : forall l a, List.length (rs_mark a l) = List.length a.
Proof. intros. rewrite mark_set_all. apply set_all_len. Qed.
Lemma both_same : forall rg pos rows n r, generator rg -> rand_both rg pos rows n = Ok r -> r = rs_split (rs_generate_rand (rg_perm rg pos) rows (n * 2)).
Proof.
  intros rg pos rows n r Hg H. unfold rand_both in H. rewrite (rand_ok rg pos rows (n * 2) (proj2 (proj2 Hg))) in H. cbn [bind] in H.
  set (both := rs_generate_rand _ _ _) in *.
  assert (L : List.length both = rows) by (unfold both, rs_generate_rand; destruct (Nat.eqb _ 0); rewrite ?mark_len; apply repeat_length).
  destruct (mask_of _ (evens _)) as [en|] eqn:E1; cbn [bind] in H; [|discriminate]. destruct (mask_of _ (odds _)) as [ex|] eqn:E2; cbn [bind] in H; [|discriminate].
  apply mask_inv in E1 as (_ & -> & _). apply mask_inv in E2 as (_ & -> & _). apply ok_inj in H. rewrite <- H, split_same, L, !mark_set_all.
  rewrite (map_evens Z.of_nat _ _ (le_n _)), map_odds. reflexivity.
Qed.

(** ** All columns *)
Lemma columns_same : forall {A B} (f g : nat -> A -> res (B * nat)) (P : A -> Prop) l pos r, Forall P l ->
  (forall pos c r, P c -> f pos c = Ok r -> g pos c = Ok r) -> columns_loop f pos l = Ok r -> columns_loop g pos l = Ok r.
Proof.
  intros A B f g P l. induction l as [|c l IH]; intros pos r Hl Hs H; [exact H|]. apply Forall_cons_iff in Hl as [Hc Hl]. cbn [columns_loop] in *.
  destruct (f pos c) as [[b p1]|] eqn:E; cbn [bind] in H; [|discriminate]. rewrite (Hs _ _ _ Hc E). cbn [bind].
  destruct (columns_loop f p1 l) as [[bs p2]|] eqn:E2; cbn [bind] in H; [|discriminate]. rewrite (IH _ _ Hl Hs E2). exact H.
Qed.
Lemma columns_each : forall {A B} (f : nat -> A -> res (B * nat)) l pos bs p, columns_loop f pos l = Ok (bs, p) ->
  (forall c, In c l -> exists pos r, f pos c = Ok r) /\ (forall b, In b bs -> exists pos c p, In c l /\ f pos c = Ok (b, p)).
Proof.
  intros A B f. induction l as [|c l IH]; intros pos bs p H; cbn [columns_loop] in H.
  - inversion H. split; intros x [].
  - destruct (f pos c) as [[b p1]|] eqn:E; cbn [bind] in H; [|discriminate]. destruct (columns_loop f p1 l) as [[bs2 p2]|] eqn:E2; cbn [bind] in H; [|discriminate].
    inversion H. subst. destruct (IH _ _ _ E2) as [I1 I2]. split.
    + intros x [<-|Hx]; [eauto|auto].
    + intros x [<-|Hx]; [exists pos, c, p1; split; [left; reflexivity|exact E]|]. destruct (I2 x Hx) as (q & d & q' & Hd & Hq). exists q, d, q'. split; [right; exact Hd|exact Hq].
Qed.
Lemma both_columns : forall rg rows l pos bs p, generator rg ->
  columns_loop (fun pos n => let! r := rand_both rg pos rows n in Ok (r, S pos)) pos l = Ok (bs, p) ->
  exists cs, columns_loop (fun pos n => Ok (rs_generate_rand (rg_perm rg pos) rows (n * 2), S pos)) pos l = Ok (cs, p) /\ bs = map rs_split cs.
Proof.
  intros rg rows. induction l as [|n l IH]; intros pos bs p Hg H; cbn [columns_loop] in *.
  - inversion H. exists []. split; reflexivity.
  - destruct (rand_both rg pos rows n) as [r|] eqn:E; cbn [bind] in H; [|discriminate]. cbn [bind].
    destruct (columns_loop _ (S pos) l) as [[bs2 p2]|] eqn:E2 in H; cbn [bind] in H; [|discriminate]. inversion H. subst.
    destruct (IH _ _ _ Hg E2) as (cs & -> & ->). cbn [bind]. eexists. split; [reflexivity|]. cbn [map]. f_equal. apply both_same; auto.
Qed.

Lemma enex_same : forall rg rows ns ew xw r, generator rg ->
  generate_rand_enex_nb rg rows ns ew xw = Ok r -> rs_generate_rand_enex rg rows ns ew xw = Ok r.
Proof.
  intros rg rows ns ew xw r Hg H. unfold generate_rand_enex_nb in H. unfold rs_generate_rand_enex.
  destruct (Nat.eqb ew 0 && Nat.eqb xw 0); cbn [raise_if] in H; [discriminate|]. destruct (Nat.eqb ew 1 && Nat.eqb xw 1).
  - destruct (columns_loop _ 0 ns) as [[bs p]|] eqn:E in H; cbn [bind] in H; [|discriminate]. destruct (both_columns _ _ _ _ _ _ Hg E) as (cs & -> & ->). cbn [bind].
    rewrite !map_map in H. exact H.
  - destruct (columns_loop _ 0 ns) as [[en p]|] eqn:E in H; cbn [bind] in H; [|discriminate].
    assert (L : Forall (fun e => List.length e = rows) en).
    { apply Forall_forall. intros e He. destruct (proj2 (columns_each _ _ _ _ _ E) e He) as (q & n & q' & _ & Hq). apply entries_same in Hq as [_ Hq]. exact Hq. }
    rewrite (columns_same _ (rs_rand_entries rg rows ew xw) (fun _ => True) ns 0 _ ltac:(apply Forall_forall; auto) (fun pos c r _ Hc => proj1 (entries_same _ _ _ _ _ _ _ Hc)) E).
    cbn [bind]. destruct (columns_loop _ p en) as [[ex p2]|] eqn:E2 in H; cbn [bind] in H; [|discriminate].
    rewrite (columns_same _ (rs_rand_exits rg ew xw) _ en p _ L (fun pos c r Hl Hc => exits_same _ _ _ _ _ _ _ Hl Hc) E2). exact H.
Qed.

Lemma enex_refused : forall rg rows ns ew xw, ~ (ew = 1 /\ xw = 1) -> (exists n, In n ns /\ 1 <= n /\ rows < room_for n ew xw) ->
  exists e, rs_generate_rand_enex rg rows ns ew xw = Err e.
Proof.
  intros rg rows ns ew xw Hw (n & Hn & H1 & Hr). unfold rs_generate_rand_enex. destruct (Nat.eqb ew 0 && Nat.eqb xw 0); [eauto|].
  destruct (Nat.eqb_spec ew 1), (Nat.eqb_spec xw 1); cbn [andb]; try (exfalso; tauto);
  (destruct (columns_loop (rs_rand_entries rg rows ew xw) 0 ns) as [[en p]|] eqn:E; cbn [bind]; [|eauto];
   destruct (proj1 (columns_each _ _ _ _ _ E) n Hn) as (q & r & Hq); exfalso; unfold rs_rand_entries, room_for in *;
   destruct (Nat.eqb_spec n 1) as [->|]; [rewrite (proj2 (Nat.leb_le rows xw)) in Hq by lia; discriminate|];
   rewrite (proj2 (Nat.ltb_lt 1 n)), (proj2 (Nat.ltb_lt rows _)) in Hq by lia; discriminate).
Qed.

Lemma enex_iff : forall rg rows ns ew xw r, generator rg -> Forall (fun n => 1 <= n) ns ->
  (generate_rand_enex_nb rg rows ns ew xw = Ok r <-> rs_generate_rand_enex rg rows ns ew xw = Ok r).
Proof.
  intros rg rows ns ew xw r Hg Hn. split; [apply enex_same, Hg|]. intros H.
  assert (G : forall en ex, generate_rand_enex_nb rg rows ns ew xw = Ok (en, ex) -> generate_rand_enex_nb rg rows ns ew xw = Ok r)
    by (intros en ex E; pose proof (enex_same _ _ _ _ _ _ Hg E) as E'; rewrite H in E'; rewrite E; symmetry; exact E').
  destruct (Nat.eq_dec (ew + xw) 0) as [Z0|Z0].
  - assert (ew = 0) by lia. assert (xw = 0) by lia. subst. discriminate H.
  - destruct (Nat.eq_dec ew 1) as [E1|E1], (Nat.eq_dec xw 1) as [E2|E2];
      [subst; destruct (random_alternating rg rows ns Hg) as (en & ex & E & _); eapply G; exact E| | |];
      (destruct (random_pairs rg rows ns ew xw Hg ltac:(lia) ltac:(lia)) as (en & ex & E & _); [|eapply G; exact E];
       apply Forall_forall; intros n Hi; rewrite Forall_forall in Hn; split; [apply Hn, Hi|];
       destruct (le_lt_dec (room_for n ew xw) rows) as [|C]; [assumption|];
       destruct (enex_refused rg rows ns ew xw ltac:(lia)) as [e E]; [exists n; split; [exact Hi|split; [apply Hn, Hi|exact C]]|]; rewrite H in E; discriminate E).
Qed.
