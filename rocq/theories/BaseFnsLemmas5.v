(** * Dropping duplicate levels and aligning indexes: proofs *)
From Coq Require Import String ZArith Bool List Arith Lia.
From Verif Require Import Base Grouper IndexFns IndexSpec BaseFnsSpec BaseFnsLemmas BaseFnsLemmas2.
Import ListNotations.
Local Open Scope list_scope.
Local Open Scope nat_scope.

Lemma values_eqb_spec : forall a b, values_eqb a b = true <-> a = b.
Proof.
  induction a as [|x a IH]; intros [|y b]; cbn; try (split; discriminate); [tauto|].
  rewrite andb_true_iff, label_eqb_spec, IH. split; [intros [-> ->]; reflexivity|]. intros H. injection H. auto.
Qed.
Lemma name_eqb_spec : forall a b, name_eqb a b = true <-> a = b.
Proof.
  intros [x|] [y|]; cbn; try (split; discriminate); [|tauto]. rewrite String.eqb_eq. split; congruence.
Qed.
Lemma level_eqb_spec : forall a b, level_eqb a b = true <-> a = b.
Proof.
  intros [na va] [nb vb]. unfold level_eqb. cbn. rewrite andb_true_iff, name_eqb_spec, values_eqb_spec. split; [intros [-> ->]; reflexivity|].
  intros H. injection H. auto.
Qed.
Lemma existsb_level : forall l seen, existsb (level_eqb l) seen = true <-> In l seen.
Proof.
  intros l seen. rewrite existsb_exists. split.
  - intros [x [Hx He]]. apply level_eqb_spec in He. congruence.
  - intros H. exists l. split; [exact H|]. now apply level_eqb_spec.
Qed.

(** ** Duplicate levels *)
Lemma duplicate_positions_spec : forall ps seen, NoDup (map fst ps) -> let drop := duplicate_positions ps seen in
  (forall i, In i drop -> In i (map fst ps)) /\
  (forall i l, In (i, l) ps -> In l seen \/ exists j, In (j, l) ps /\ ~ In j drop) /\
  (forall i l, In (i, l) ps -> ~ In i drop -> ~ In l seen) /\
  (forall i j l, In (i, l) ps -> In (j, l) ps -> ~ In i drop -> ~ In j drop -> i = j).
Proof.
  induction ps as [|[i0 l0] ps IH]; intros seen Hnd; cbn [duplicate_positions map] in *.
  - cbn. repeat split; intros; contradiction.
  - inversion Hnd as [|? ? Hn0 Hnd']; subst. cbn [fst] in Hn0. destruct (existsb (level_eqb l0) seen) eqn:E.
    + apply existsb_level in E. destruct (IH seen Hnd') as [H1 [H2 [H3 H4]]]. cbn zeta. cbn [In]. repeat split.
      * intros i [<-|Hi]; [now left|]. right. now apply H1.
      * intros i l [He|Hi]; [injection He as <- <-; now left|]. destruct (H2 _ _ Hi) as [Hs|[j [Hj Hd]]]; [now left|].
        right. exists j. split; [now right|]. intros [<-|Hd']; [|contradiction]. apply Hn0. apply (in_map fst) in Hj. exact Hj.
      * intros i l [He|Hi] Hd Hs; [injection He as <- <-; apply Hd; now left|]. apply (H3 _ _ Hi); auto.
      * intros i j l [He|Hi] [He'|Hj] Hdi Hdj; try (injection He as <- <-; exfalso; apply Hdi; now left);
          try (injection He' as <- <-; exfalso; apply Hdj; now left). apply (H4 i j l); auto.
    + assert (Hns : ~ In l0 seen) by (intros H; apply existsb_level in H; congruence).
      destruct (IH (seen ++ [l0]) Hnd') as [H1 [H2 [H3 H4]]]. cbn zeta. cbn [In].
      assert (Hd0 : ~ In i0 (duplicate_positions ps (seen ++ [l0]))) by (intros H; apply H1 in H; contradiction). repeat split.
      * intros i Hi. right. now apply H1.
      * intros i l [He|Hi]; [injection He as <- <-; right; exists i0; split; [now left|exact Hd0]|].
        destruct (H2 _ _ Hi) as [Hs|[j [Hj Hd]]].
        -- apply in_app_or in Hs. destruct Hs as [Hs|[<-|[]]]; [now left|]. right. exists i0. split; [now left|exact Hd0].
        -- right. exists j. split; [now right|exact Hd].
      * intros i l [He|Hi] Hd; [injection He as <- <-; exact Hns|]. intros Hs. apply (H3 _ _ Hi Hd). apply in_or_app. now left.
      * intros i j l [He|Hi] [He'|Hj] Hdi Hdj.
        -- congruence.
        -- injection He as <- <-. exfalso. apply (H3 _ _ Hj Hdj). apply in_or_app. right. now left.
        -- injection He' as <- <-. exfalso. apply (H3 _ _ Hi Hdi). apply in_or_app. right. now left.
        -- apply (H4 i j l); auto.
Qed.

Lemma combine_seq_in : forall {A} (l : list A) k i x, In (i, x) (combine (seq k (length l)) l) <-> k <= i /\ nth_error l (i - k) = Some x.
Proof.
  induction l as [|y l IH]; intros k i x; cbn [length seq combine In].
  - split; [intros []|]. intros [_ H]. destruct (i - k); discriminate.
  - rewrite IH. split.
    + intros [H|[H1 H2]]; [injection H as <- <-; rewrite Nat.sub_diag; cbn; auto|]. split; [lia|].
      replace (i - k) with (S (i - S k)) by lia. exact H2.
    + intros [H1 H2]. destruct (Nat.eq_dec i k) as [->|Hne]; [rewrite Nat.sub_diag in H2; cbn in H2; left; congruence|].
      right. split; [lia|]. replace (i - k) with (S (i - S k)) in H2 by lia. exact H2.
Qed.
Lemma combine_seq_fst : forall {A} (l : list A) k, map fst (combine (seq k (length l)) l) = seq k (length l).
Proof. induction l as [|x l IH]; intros k; cbn; [reflexivity|]. f_equal. apply IH. Qed.

Lemma droplevel_levels : forall ls drop, exists kept, levels_of (droplevel ls drop) = kept /\
  forall l, In l kept <-> exists i, nth_error ls i = Some l /\ ~ In i drop.
Proof.
  intros ls drop. eexists. split; [reflexivity|]. intros l.
  assert (H : In l (map snd (filter (fun p => negb (existsb (Nat.eqb (fst p)) drop)) (combine (seq 0 (length ls)) ls))) <-> exists i, nth_error ls i = Some l /\ ~ In i drop).
  { rewrite in_map_iff. split.
    - intros [[i l'] [He Hf]]. cbn in He. subst l'. apply filter_In in Hf. destruct Hf as [Hi Hb]. apply combine_seq_in in Hi.
      rewrite Nat.sub_0_r in Hi. exists i. split; [apply Hi|]. intros Hin. cbn in Hb. apply negb_true_iff in Hb.
      assert (existsb (Nat.eqb i) drop = true) by (apply existsb_exists; exists i; split; [exact Hin|apply Nat.eqb_refl]). congruence.
    - intros [i [Hi Hd]]. exists (i, l). split; [reflexivity|]. apply filter_In. split; [apply combine_seq_in; rewrite Nat.sub_0_r; split; [lia|exact Hi]|].
      cbn. apply negb_true_iff. destruct (existsb (Nat.eqb i) drop) eqn:E; [|reflexivity]. apply existsb_exists in E. destruct E as [j [Hj He]].
      apply Nat.eqb_eq in He. subst. contradiction. }
  unfold droplevel. destruct drop as [|d0 drop].
  - cbn [levels_of]. split; [|intros [i [Hi _]]; eapply nth_error_In; eauto]. intros Hin. apply In_nth_error in Hin. destruct Hin as [i Hi]. exists i. split; [exact Hi|intros []].
  - rewrite <- H. set (k := map snd _). destruct k as [|a [|b k]]; reflexivity.
Qed.

Lemma drop_duplicates_spec : forall x keep, 
  (forall l, In l (levels_of (drop_duplicate_levels x keep)) <-> In l (levels_of x)).
Proof.
  intros [l0|ls] keep l; [reflexivity|]. cbn [drop_duplicate_levels levels_of].
  set (ps := combine (seq 0 (length ls)) ls). set (q := if keep then ps else rev ps).
  assert (Hq : forall i m, In (i, m) q <-> nth_error ls i = Some m).
  { intros i m. assert (Hp : In (i, m) ps <-> nth_error ls i = Some m).
    { unfold ps. rewrite combine_seq_in, Nat.sub_0_r. split; [tauto|intros; split; [lia|assumption]]. }
    unfold q. destruct keep; [exact Hp|]. rewrite <- in_rev. exact Hp. }
  assert (Hnd : NoDup (map fst q)).
  { assert (Hps : NoDup (map fst ps)) by (unfold ps; rewrite combine_seq_fst; apply seq_NoDup).
    unfold q. destruct keep; [exact Hps|]. rewrite map_rev. apply NoDup_rev. exact Hps. }
  destruct (duplicate_positions_spec q [] Hnd) as [_ [H2 _]]. cbn zeta in H2.
  destruct (droplevel_levels ls (duplicate_positions q [])) as [kept [-> Hk]]. rewrite Hk. split.
  - intros [i [Hi _]]. eapply nth_error_In; eauto.
  - intros Hin. apply In_nth_error in Hin. destruct Hin as [i Hi]. apply Hq in Hi. destruct (H2 _ _ Hi) as [[]|[j [Hj Hd]]].
    apply Hq in Hj. eauto.
Qed.

(** ** Aligning *)
Lemma subset_of_spec : forall a b, subset_of a b = true <-> forall v, In v a -> In v b.
Proof.
  intros a b. unfold subset_of. rewrite forallb_forall. split; intros H v Hv; specialize (H v Hv).
  - apply existsb_exists in H. destruct H as [w [Hw He]]. apply label_eqb_spec in He. congruence.
  - apply existsb_exists. exists v. split; [exact H|]. apply label_eqb_refl.
Qed.

Lemma match_level_ok : forall l1 i mapper j l2 mapper', match_level l1 i mapper (j, l2) = Ok mapper' ->
  (forall p, In p mapper' <-> In p mapper \/ (p = (i, j) /\ lv_name l1 = lv_name l2 /\ forall v, In v (lv_values l2) -> In v (lv_values l1))).
Proof.
  intros l1 i mapper j l2 mapper' H p. unfold match_level in H. destruct (name_eqb (lv_name l1) (lv_name l2)) eqn:En.
  - apply name_eqb_spec in En. destruct (subset_of (lv_values l2) (lv_values l1)) eqn:Es.
    + apply raise_if_inv in H. destruct H as [_ H]. injection H as <-. pose proof (proj1 (subset_of_spec _ _) Es). rewrite in_app_iff. cbn [In]. split.
      * intros [Hp|[<-|[]]]; [now left|]. right. auto.
      * intros [Hp|[-> _]]; [now left|]. right. now left.
    + apply raise_if_inv in H. destruct H as [_ H]. injection H as <-. split; [now left|]. intros [Hp|[_ [_ Hs]]]; [exact Hp|].
      apply subset_of_spec in Hs. congruence.
  - injection H as <-. split; [now left|]. intros [Hp|[_ [Hn _]]]; [exact Hp|]. apply name_eqb_spec in Hn. congruence.
Qed.

Lemma match_inner_ok : forall qs l1 i mapper mapper', foldM (match_level l1 i) mapper qs = Ok mapper' ->
  forall p, In p mapper' <-> In p mapper \/ exists j l2, In (j, l2) qs /\ p = (i, j) /\ lv_name l1 = lv_name l2 /\ forall v, In v (lv_values l2) -> In v (lv_values l1).
Proof.
  induction qs as [|[j l2] qs IH]; intros l1 i mapper mapper' H p; cbn [foldM] in H.
  - injection H as <-. split; [now left|]. intros [Hp|[j [l2 [[] _]]]]. exact Hp.
  - destruct (match_level l1 i mapper (j, l2)) as [m1|] eqn:E; [|discriminate]. cbn [bind] in H.
    rewrite (IH _ _ _ _ H p). rewrite (match_level_ok _ _ _ _ _ _ E p). split.
    + intros [[Hp|Hp]|[j' [l' [Hin Hp]]]]; [now left| |].
      * right. exists j, l2. split; [now left|exact Hp].
      * right. exists j', l'. split; [now right|exact Hp].
    + intros [Hp|[j' [l' [[He|Hin] Hp]]]]; [left; now left| |].
      * injection He as <- <-. left. now right.
      * right. exists j', l'. auto.
Qed.

Lemma match_outer_ok : forall ps qs mapper mapper',
  foldM (fun mapper p => foldM (match_level (snd p) (fst p)) mapper qs) mapper ps = Ok mapper' ->
  forall p, In p mapper' <-> In p mapper \/ exists i l1 j l2, In (i, l1) ps /\ In (j, l2) qs /\ p = (i, j) /\ lv_name l1 = lv_name l2 /\ forall v, In v (lv_values l2) -> In v (lv_values l1).
Proof.
  induction ps as [|[i l1] ps IH]; intros qs mapper mapper' H p; cbn [foldM] in H.
  - injection H as <-. split; [now left|]. intros [Hp|[i [l1 [j [l2 [[] _]]]]]]. exact Hp.
  - cbn [fst snd] in H. destruct (foldM (match_level l1 i) mapper qs) as [m1|] eqn:E; [|discriminate]. cbn [bind] in H.
    rewrite (IH _ _ _ H p), (match_inner_ok _ _ _ _ _ E p). split.
    + intros [[Hp|[j [l2 [Hin Hp]]]]|[i' [l' [j [l2 [Hin Hp]]]]]]; [now left| |].
      * right. exists i, l1, j, l2. split; [now left|]. auto.
      * right. exists i', l', j, l2. split; [now right|exact Hp].
    + intros [Hp|[i' [l' [j [l2 [[He|Hin] Hp]]]]]]; [left; now left| |].
      * injection He as <- <-. left. right. exists j, l2. exact Hp.
      * right. exists i', l', j, l2. auto.
Qed.

Lemma match_levels_ok : forall ls1 ls2 mapper, match_levels ls1 ls2 = Ok mapper ->
  forall i j, In (i, j) mapper <-> exists l1 l2, nth_error ls1 i = Some l1 /\ nth_error ls2 j = Some l2 /\
    lv_name l1 = lv_name l2 /\ forall v, In v (lv_values l2) -> In v (lv_values l1).
Proof.
  intros ls1 ls2 mapper H i j. unfold match_levels in H. rewrite (match_outer_ok _ _ _ _ H (i, j)). split.
  - intros [[]|[i' [l1 [j' [l2 [Hi [Hj [He Hp]]]]]]]]. injection He as <- <-. apply combine_seq_in in Hi, Hj.
    rewrite Nat.sub_0_r in *. exists l1, l2. tauto.
  - intros [l1 [l2 [Hi [Hj Hp]]]]. right. exists i, l1, j, l2. repeat split; try apply Hp.
    + apply combine_seq_in. rewrite Nat.sub_0_r. split; [lia|exact Hi].
    + apply combine_seq_in. rewrite Nat.sub_0_r. split; [lia|exact Hj].
Qed.

Lemma rows_of_nth : forall cols n i, i < n -> nth_error (rows_of cols n) i = Some (row_at cols i).
Proof.
  intros cols n i Hi. unfold rows_of. rewrite nth_error_map.
  assert (H : nth_error (seq 0 n) i = Some i) by (rewrite (nth_error_nth' _ 0) by (rewrite seq_length; exact Hi); rewrite seq_nth by exact Hi; reflexivity).
  rewrite H. reflexivity.
Qed.
Lemma rows_of_length : forall cols n, length (rows_of cols n) = n.
Proof. intros. unfold rows_of. rewrite map_length, seq_length. reflexivity. Qed.

Lemma map_eq_in : forall {A B} (f g : A -> B) l, map f l = map g l -> forall x, In x l -> f x = g x.
Proof. induction l as [|y l IH]; intros H x Hx; [destruct Hx|]. cbn in H. injection H as H1 H2. destruct Hx as [<-|Hx]; auto. Qed.

Lemma position_of_some : forall a x j, position_of x a = Some j -> nth_error a j = Some x.
Proof.
  induction a as [|y a IH]; intros x j H; cbn in H; [discriminate|]. destruct (values_eqb x y) eqn:E.
  - injection H as <-. apply values_eqb_spec in E. subst. reflexivity.
  - destruct (position_of x a) eqn:E'; [|discriminate]. injection H as <-. cbn. auto.
Qed.
Lemma position_of_in : forall a x, In x a -> exists j, position_of x a = Some j.
Proof.
  induction a as [|y a IH]; intros x H; [destruct H|]. cbn. destruct (values_eqb x y) eqn:E; [eauto|].
  destruct H as [->|H]; [rewrite (proj2 (values_eqb_spec x x) eq_refl) in E; discriminate|].
  destruct (IH _ H) as [j ->]. cbn. eauto.
Qed.

Lemma align_nb_found : forall a b junk, (forall x, In x b -> In x a) -> length junk = length b ->
  length (_align_index_to_nb a b junk) = length b /\
  forall k x, nth_error b k = Some x -> exists j, nth_error (_align_index_to_nb a b junk) k = Some j /\ nth_error a j = Some x.
Proof.
  intros a b junk Hin Hj. unfold _align_index_to_nb.
  set (found := flat_map (fun x => match position_of x a with Some j => [j] | None => [] end) b).
  assert (H : length found = length b /\ forall k x, nth_error b k = Some x -> exists j, nth_error found k = Some j /\ nth_error a j = Some x).
  { subst found. clear Hj. induction b as [|y b IH]; [cbn; split; [reflexivity|intros [|k]; discriminate]|].
    destruct (position_of_in a y (Hin y ltac:(now left))) as [j Hj]. cbn [flat_map]. rewrite Hj. cbn [app length].
    destruct IH as [H1 H2]; [intros x Hx; apply Hin; now right|]. split; [f_equal; exact H1|].
    intros [|k] x Hk; cbn in Hk |- *.
    - injection Hk as <-. exists j. split; [reflexivity|]. now apply position_of_some.
    - now apply H2. }
  destruct H as [H1 H2]. rewrite skipn_all2 by lia. rewrite app_nil_r. split; assumption.
Qed.

Lemma rows_eqb_spec : forall a b, rows_eqb a b = true <-> a = b.
Proof.
  induction a as [|x a IH]; intros [|y b]; cbn; try (split; discriminate); [tauto|].
  rewrite andb_true_iff, values_eqb_spec, IH. split; [intros [-> ->]; reflexivity|]. intros H. injection H. auto.
Qed.
Lemma levels_eqb_spec : forall a b, levels_eqb a b = true <-> map lv_values a = map lv_values b.
Proof.
  induction a as [|x a IH]; intros [|y b]; cbn; try (split; discriminate); [tauto|].
  rewrite andb_true_iff, values_eqb_spec, IH. split; [intros [-> ->]; reflexivity|]. intros H. injection H. auto.
Qed.

Lemma tile_nth : forall {A} (l : list A) m k, l <> [] -> k < m * length l -> nth_error (List.concat (repeat l m)) k = nth_error l (k mod length l).
Proof.
  intros A l m. induction m as [|m IH]; intros k Hl Hk; [cbn in Hk; lia|]. cbn [repeat List.concat].
  assert (Hn : length l <> 0) by (destruct l; [congruence|discriminate]).
  destruct (Nat.lt_ge_cases k (length l)) as [H|H].
  - rewrite nth_error_app1 by exact H. rewrite Nat.mod_small by exact H. reflexivity.
  - rewrite nth_error_app2 by exact H. rewrite IH by (auto; lia). f_equal.
    replace k with ((k - length l) + 1 * length l) at 2 by lia. rewrite Nat.mod_add by exact Hn. reflexivity.
Qed.

Lemma align_sound : forall x1 x2 junk idxs, well_formed x1 -> well_formed x2 -> length junk = index_len x2 ->
  map lv_values (levels_of x1) <> map lv_values (levels_of x2) ->
  align_index_to x1 x2 junk = Ok idxs ->
  (forall k, k < index_len x2 -> exists p, p < index_len x1 /\ agrees x1 x2 p k) ->
  length idxs = index_len x2 /\
  forall k, k < index_len x2 -> exists p, nth_error idxs k = Some p /\ p < index_len x1 /\ agrees x1 x2 p k.
Proof.
  intros x1 x2 junk idxs Hw1 Hw2 Hj Hne H Hall. unfold align_index_to in H.
  destruct (levels_eqb (levels_of x1) (levels_of x2)) eqn:El; [apply levels_eqb_spec in El; contradiction|].
  destruct (match_levels (levels_of x1) (levels_of x2)) as [mapper|] eqn:Em; [|discriminate]. cbn [bind] in H.
  destruct mapper as [|m0 mapper]; [discriminate|]. set (M := m0 :: mapper) in *.
  set (n1 := index_len x1) in *. set (n2 := index_len x2) in *.
  set (c1 := map (fun p => lv_values (nth (fst p) (levels_of x1) (mkLevel None []))) M) in *.
  set (c2 := map (fun p => lv_values (nth (snd p) (levels_of x2) (mkLevel None []))) M) in *.
  apply raise_if_inv in H. destruct H as [_ H]. apply raise_if_inv in H. destruct H as [Hn1 H]. apply Nat.eqb_neq in Hn1.
  (* rows agree exactly when positions agree on the common levels *)
  assert (Hrow : forall p k, p < n1 -> k < n2 -> (row_at c1 p = row_at c2 k <-> agrees x1 x2 p k)).
  { intros p k Hp Hk. unfold row_at, c1, c2. rewrite !map_map. split.
    - intros He l1 l2 [Hi1 [Hi2 [Hnm Hsub]]]. apply In_nth_error in Hi1, Hi2. destruct Hi1 as [i Hi]. destruct Hi2 as [j Hj'].
      assert (HM : In (i, j) M) by (apply (match_levels_ok _ _ _ Em); exists l1, l2; auto).
      pose proof (map_eq_in _ _ _ He (i, j) HM) as Heq. cbn [fst snd] in Heq.
      rewrite (nth_error_nth _ _ _ Hi), (nth_error_nth _ _ _ Hj') in Heq.
      assert (Hl1 : length (lv_values l1) = n1) by (eapply Forall_forall in Hw1; [exact Hw1|eapply nth_error_In; eauto]).
      assert (Hl2 : length (lv_values l2) = n2) by (eapply Forall_forall in Hw2; [exact Hw2|eapply nth_error_In; eauto]).
      rewrite (nth_error_nth' _ (LInt 0)) by lia. rewrite (nth_error_nth' _ (LInt 0)) by lia. congruence.
    - intros Ha. apply map_ext_in. intros [i j] HM. cbn [fst snd]. apply (match_levels_ok _ _ _ Em) in HM.
      destruct HM as [l1 [l2 [Hi [Hj' [Hnm Hsub]]]]]. rewrite (nth_error_nth _ _ _ Hi), (nth_error_nth _ _ _ Hj').
      assert (Hc : nth_error (lv_values l1) p = nth_error (lv_values l2) k).
      { apply Ha. split; [eapply nth_error_In; eauto|]. split; [eapply nth_error_In; eauto|]. auto. }
      assert (Hl1 : length (lv_values l1) = n1) by (eapply Forall_forall in Hw1; [exact Hw1|eapply nth_error_In; eauto]).
      destruct (nth_error_lt' (lv_values l1) p ltac:(lia)) as [v Hv]. rewrite Hv in Hc.
      rewrite (nth_error_nth _ _ _ Hv). symmetry. apply nth_error_nth. congruence. }
  destruct (Nat.eqb (n2 mod n1) 0 && rows_eqb (List.concat (repeat (rows_of c1 n1) (n2 / n1))) (rows_of c2 n2)) eqn:Et.
  - apply andb_true_iff in Et. destruct Et as [Ed Er]. apply Nat.eqb_eq in Ed. apply rows_eqb_spec in Er.
    injection H as <-. assert (Hmul : n2 / n1 * length (seq 0 n1) = n2) by (rewrite seq_length; pose proof (Nat.div_mod n2 n1 Hn1); lia).
    split.
    { assert (Hcl : forall {A} (l : list A) n, length (List.concat (repeat l n)) = n * length l) by (intros A l n; induction n; cbn; [reflexivity|]; rewrite app_length, IHn; reflexivity).
      rewrite Hcl. exact Hmul. }
    intros k Hk. exists (k mod n1). assert (Hm : k mod n1 < n1) by (now apply Nat.mod_upper_bound). split; [|split; [exact Hm|]].
    + rewrite tile_nth by (lia || (destruct n1; [congruence|discriminate])). rewrite seq_length.
      rewrite (nth_error_nth' _ 0) by (rewrite seq_length; exact Hm). rewrite seq_nth by exact Hm. reflexivity.
    + apply Hrow; [exact Hm|exact Hk|]. assert (Hnth := rows_of_nth c2 n2 k Hk). rewrite <- Er in Hnth.
      rewrite tile_nth in Hnth.
      * rewrite rows_of_length, rows_of_nth in Hnth by exact Hm. congruence.
      * intros Hnil. pose proof (rows_of_length c1 n1) as Hlen. rewrite Hnil in Hlen. cbn in Hlen. lia.
      * rewrite rows_of_length. rewrite seq_length in Hmul. lia.
  - injection H as <-.
    assert (Hin : forall x, In x (rows_of c2 n2) -> In x (rows_of c1 n1)).
    { intros x Hx. apply In_nth_error in Hx. destruct Hx as [k Hk]. assert (Hk' : k < n2) by (rewrite <- (rows_of_length c2 n2); apply nth_error_Some; congruence).
      rewrite rows_of_nth in Hk by exact Hk'. assert (Hx : x = row_at c2 k) by congruence. clear Hk. subst x. destruct (Hall k Hk') as [p [Hp Ha]].
      apply (Hrow p k Hp Hk') in Ha. rewrite <- Ha. eapply nth_error_In. apply rows_of_nth. exact Hp. }
    destruct (align_nb_found _ _ junk Hin ltac:(rewrite rows_of_length; exact Hj)) as [Hl Hf]. rewrite rows_of_length in Hl. split; [exact Hl|].
    intros k Hk. destruct (Hf k _ (rows_of_nth c2 n2 k Hk)) as [j [Hj1 Hj2]]. exists j. split; [exact Hj1|].
    assert (Hjn : j < n1) by (rewrite <- (rows_of_length c1 n1); apply nth_error_Some; congruence).
    rewrite rows_of_nth in Hj2 by exact Hjn. split; [exact Hjn|]. apply Hrow; [exact Hjn|exact Hk|]. congruence.
Qed.

Lemma align_equal : forall x1 x2 junk, map lv_values (levels_of x1) = map lv_values (levels_of x2) ->
  align_index_to x1 x2 junk = Ok (seq 0 (index_len x1)).
Proof. intros x1 x2 junk H. unfold align_index_to. rewrite (proj2 (levels_eqb_spec _ _) H). reflexivity. Qed.
