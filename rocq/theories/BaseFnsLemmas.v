(** * Flexible indexing and column groups: proofs *)
From Coq Require Import String ZArith Bool List Arith Lia Sorted.
From Verif Require Import Base Reshape Grouper BaseFnsSpec.
Import ListNotations.
Local Open Scope nat_scope.

(** ** Flexible indexing *)
Lemma all_some_nth : forall {A} (l : list (option A)) t, all_some l = Some t ->
  forall i, nth_error l i = option_map Some (nth_error t i).
Proof.
  induction l as [|[x|] l IH]; intros t H i; cbn in H; try discriminate.
  - injection H as <-. destruct i; reflexivity.
  - destruct (all_some l) as [t'|]; [|discriminate]. injection H as <-. destruct i; cbn; [reflexivity|]. apply IH. reflexivity.
Qed.
Lemma all_some_length : forall {A} (l : list (option A)) t, all_some l = Some t -> length t = length l.
Proof.
  induction l as [|[x|] l IH]; intros t H; cbn in H; try discriminate.
  - injection H as <-. reflexivity.
  - destruct (all_some l) as [t'|]; [|discriminate]. injection H as <-. cbn. f_equal. apply IH. reflexivity.
Qed.

Lemma nth_error_repeat' : forall {A} (x : A) n i, i < n -> nth_error (repeat x n) i = Some x.
Proof. induction n; intros [|i] H; cbn; try lia; auto. apply IHn. lia. Qed.

Lemma stretch_nth : forall {A} n (l t : list A) i, stretch n l = Some t -> i < n ->
  nth_error t i = nth_error l (if Nat.eqb (length l) 1 then 0 else i).
Proof.
  intros A n l t i H Hi. unfold stretch in H. destruct (Nat.eqb_spec (length l) n) as [E|E].
  - injection H as <-. destruct (Nat.eqb_spec (length l) 1); [|reflexivity]. f_equal. lia.
  - destruct l as [|x [|y l]]; try discriminate. injection H as <-. cbn. now apply nth_error_repeat'.
Qed.

Lemma flex_is_broadcast : forall {A} (a : Arr A) flex_2d R C m i col, is_array a ->
  np_broadcast_to flex_2d a R C = Some m -> i < R -> col < C ->
  flex_select_auto_nb a i col flex_2d = element m i col.
Proof.
  intros A a fx R C m i col Hwf H Hi Hc. unfold np_broadcast_to in H.
  destruct (all_some (map (stretch C) (as_matrix fx a))) as [rows|] eqn:Er; [|discriminate].
  pose proof (all_some_nth _ _ Er) as Hn. pose proof (all_some_length _ _ Er) as Hl. rewrite map_length in Hl.
  unfold element. rewrite (stretch_nth _ _ _ _ H Hi). rewrite Hl.
  set (k := if Nat.eqb (length (as_matrix fx a)) 1 then 0 else i).
  pose proof (Hn k) as Hk. rewrite nth_error_map in Hk.
  assert (Hkey : match nth_error rows k with Some r => nth_error r col | None => None end
    = match nth_error (as_matrix fx a) k with Some r => nth_error r (if Nat.eqb (length r) 1 then 0 else col) | None => None end).
  { destruct (nth_error (as_matrix fx a) k) as [r|]; destruct (nth_error rows k) as [r'|]; cbn in Hk; try discriminate; [|reflexivity].
    injection Hk as Hk. now apply (stretch_nth _ _ _ _ Hk). }
  fold k. rewrite Hkey. clear Hkey Hk Hn. subst k.
  destruct a as [x|l|nc rs]; unfold flex_select_auto_nb, flex_choose_i_and_col_nb, flex_select_nb.
  - reflexivity.
  - destruct fx; cbn [as_matrix].
    + cbn. destruct (Nat.eqb (length l) 1); reflexivity.
    + rewrite map_length, nth_error_map. destruct (Nat.eqb_spec (length l) 1) as [E|E].
      * destruct l as [|x [|y l]]; cbn in E; try lia. reflexivity.
      * destruct (nth_error l i); reflexivity.
  - cbn [as_matrix]. cbn in Hwf. destruct (Nat.eqb_spec (length rs) 1) as [E|E].
    + destruct (nth_error rs 0) as [r|] eqn:E0; [|reflexivity]. rewrite Forall_forall in Hwf.
      rewrite <- (Hwf r) by (eapply nth_error_In; eauto). destruct (Nat.eqb (length r) 1); reflexivity.
    + destruct (nth_error rs i) as [r|] eqn:E0; [|reflexivity]. rewrite Forall_forall in Hwf.
      rewrite <- (Hwf r) by (eapply nth_error_In; eauto). destruct (Nat.eqb (length r) 1); reflexivity.
Qed.

Lemma broadcast_element : forall {A} (a : Arr A) fx R C m i col, 
  np_broadcast_to fx a R C = Some m -> i < R -> col < C -> exists x, element m i col = Some x.
Proof.
  intros A a fx R C m i col H Hi Hc. unfold np_broadcast_to in H.
  destruct (all_some (map (stretch C) (as_matrix fx a))) as [rows|] eqn:Er; [|discriminate].
  assert (Hlen : forall n (B : Type) (l t : list B), stretch n l = Some t -> length t = n).
  { intros n B l t Hs. unfold stretch in Hs. destruct (Nat.eqb_spec (length l) n); [congruence|].
    destruct l as [|x [|y l]]; try discriminate. injection Hs as <-. apply repeat_length. }
  assert (Hrows : forall r, In r rows -> length r = C).
  { intros r Hr. apply In_nth_error in Hr. destruct Hr as [k Hk]. pose proof (all_some_nth _ _ Er k) as Hn.
    rewrite Hk, nth_error_map in Hn. destruct (nth_error (as_matrix fx a) k); [|discriminate]. cbn in Hn. injection Hn as Hn. eapply Hlen; eauto. }
  unfold element. destruct (nth_error m i) as [r|] eqn:E.
  2:{ apply nth_error_None in E. rewrite (Hlen _ _ _ _ H) in E. lia. }
  rewrite (stretch_nth _ _ _ _ H Hi) in E. apply nth_error_In in E. apply Hrows in E.
  destruct (nth_error r col) as [x|] eqn:E'; [eauto|]. apply nth_error_None in E'. lia.
Qed.

(** ** Group lengths *)
Lemma runs_cons : forall {A} (x : A) xs n ns, runs (x :: xs) (n :: ns) = repeat x n ++ runs xs ns.
Proof. reflexivity. Qed.
Lemma repeat_snoc : forall {A} (x : A) n l, repeat x n ++ x :: l = repeat x (S n) ++ l.
Proof. induction n; intros l; cbn; [reflexivity|]. f_equal. apply IHn. Qed.

Lemma raise_if_inv : forall {A} b e (k : res A) r, raise_if b e k = Ok r -> b = false /\ k = Ok r.
Proof. intros A [|] e k r H; cbn in H; [discriminate|auto]. Qed.

(** The loop in the middle of a group [g] of which [n] columns were seen *)
Lemma group_lens_loop_sound : forall groups g n acc r, (0 <= g)%Z -> groups <> [] ->
  group_lens_loop groups g n acc = Ok r ->
  exists gs ls, r = acc ++ ls /\ length (g :: gs) = length ls /\ StronglySorted Z.lt (g :: gs) /\
    repeat g n ++ groups = runs (g :: gs) ls /\ (1 <= n -> Forall (fun k => 1 <= k) ls).
Proof.
  induction groups as [|c rest IH]; intros g n acc r Hg Hne H; [congruence|].
  cbn [group_lens_loop] in H. apply raise_if_inv in H. destruct H as [Hlt H]. apply Z.ltb_ge in Hlt.
  destruct (Z.eqb_spec c g) as [->|Hneq].
  - cbn [negb] in H. cbv beta iota in H. replace (n + 1) with (S n) in H by lia. destruct rest as [|c' rest].
    + injection H as <-. exists [], [S n]. cbn. repeat split.
      * repeat constructor.
      * rewrite app_nil_r. rewrite repeat_snoc, app_nil_r. reflexivity.
      * intros _. constructor; [lia|constructor].
    + destruct (IH g (S n) acc r Hg ltac:(discriminate) H) as [gs [ls [-> [Hl [Hs [Hr Hp]]]]]].
      exists gs, ls. repeat split; auto. rewrite repeat_snoc. exact Hr.
  - cbn [negb] in H. destruct (Z.eqb_spec g (-1)) as [->|_]; [lia|]. cbn [negb] in H. cbv beta iota in H.
    assert (Hc : (g < c)%Z) by lia. destruct rest as [|c' rest].
    + injection H as <-. exists [c], [n; 0 + 1]. rewrite <- app_assoc. repeat split.
      * repeat constructor; auto.
      * intros Hn. repeat constructor; lia.
    + destruct (IH c (0 + 1) (acc ++ [n]) r ltac:(lia) ltac:(discriminate) H) as [gs [ls [-> [Hl [Hs [Hr Hp]]]]]].
      exists (c :: gs), (n :: ls). rewrite <- app_assoc. repeat split.
      * cbn in *. lia.
      * constructor; [exact Hs|]. constructor; [exact Hc|].
        apply StronglySorted_inv in Hs. destruct Hs as [_ Hs]. eapply Forall_impl; [|exact Hs]. intros. lia.
      * rewrite runs_cons. f_equal. exact Hr.
      * intros Hn. constructor; [exact Hn|]. apply Hp. lia.
Qed.

Lemma get_group_lens_nb_sound : forall groups lens, Forall (fun g => (0 <= g)%Z) groups ->
  get_group_lens_nb groups = Ok lens ->
  exists gs, length gs = length lens /\ StronglySorted Z.lt gs /\ groups = runs gs lens /\ Forall (fun k => 1 <= k) lens.
Proof.
  intros groups lens Hnn H. destruct groups as [|c rest].
  - injection H as <-. exists []. repeat split; constructor.
  - unfold get_group_lens_nb in H. inversion Hnn as [|? ? Hc Hrest]; subst. cbn [group_lens_loop] in H.
    apply raise_if_inv in H. destruct H as [_ H].
    destruct (Z.eqb_spec c (-1)) as [->|_]; [lia|]. cbn [negb Z.eqb] in H. rewrite Pos.eqb_refl in H. cbn [negb] in H. cbv beta iota in H.
    destruct rest as [|c' rest].
    + injection H as <-. exists [c]. repeat split; repeat constructor.
    + destruct (group_lens_loop_sound (c' :: rest) c (0 + 1) [] lens Hc ltac:(discriminate) H) as [gs [ls [-> [Hl [Hs [Hr Hp]]]]]].
      exists (c :: gs). repeat split; auto.
Qed.

Lemma group_lens_loop_complete : forall groups g n acc,
  (exists r, group_lens_loop groups g n acc = Ok r) <-> is_sorted (g :: groups) = true.
Proof.
  induction groups as [|c rest IH]; intros g n acc.
  - cbn. split; [reflexivity|eauto].
  - cbn [group_lens_loop]. change (is_sorted (g :: c :: rest)) with (Z.leb g c && is_sorted (c :: rest)).
    destruct (Z.leb_spec g c) as [Hle|Hlt].
    + replace (Z.ltb c g) with false by (symmetry; apply Z.ltb_ge; exact Hle). cbn [raise_if andb].
      destruct (negb (Z.eqb c g)); [destruct (negb (Z.eqb g (-1)))|]; cbv beta iota;
        (destruct rest as [|c' rest]; [cbn; split; eauto|apply IH]).
    + replace (Z.ltb c g) with true by (symmetry; apply Z.ltb_lt; exact Hlt). cbn. split; [intros [r Hr]; discriminate|discriminate].
Qed.

Lemma get_group_lens_nb_accepts : forall groups, Forall (fun g => (-1 <= g)%Z) groups ->
  ((exists r, get_group_lens_nb groups = Ok r) <-> is_sorted groups = true).
Proof.
  intros groups H. unfold get_group_lens_nb. rewrite group_lens_loop_complete. destruct groups as [|c rest]; [cbn; tauto|].
  change (is_sorted ((-1)%Z :: c :: rest)) with (Z.leb (-1) c && is_sorted (c :: rest)).
  inversion H; subst. replace (Z.leb (-1) c) with true by (symmetry; now apply Z.leb_le). tauto.
Qed.

Lemma is_sorted_spec : forall l, is_sorted l = true <-> StronglySorted Z.le l.
Proof.
  induction l as [|x l IH]; [cbn; split; [constructor|reflexivity]|]. destruct l as [|y t].
  - cbn. split; [intros _; repeat constructor|reflexivity].
  - change (is_sorted (x :: y :: t)) with (Z.leb x y && is_sorted (y :: t)). rewrite andb_true_iff, IH, Z.leb_le. split.
    + intros [H1 H2]. constructor; [exact H2|]. constructor; [exact H1|]. apply StronglySorted_inv in H2.
      destruct H2 as [_ H2]. eapply Forall_impl; [|exact H2]. intros. lia.
    + intros H. apply StronglySorted_inv in H. destruct H as [H1 H2]. inversion H2; subst. split; assumption.
Qed.

Lemma runs_length : forall {A} (xs : list A) ns, length xs = length ns -> length (runs xs ns) = total ns.
Proof.
  induction xs as [|x xs IH]; intros [|n ns] H; cbn in H; try lia; [reflexivity|].
  rewrite runs_cons, app_length, repeat_length. cbn. rewrite IH by lia. reflexivity.
Qed.

(** ** Factorization *)
Lemma label_eqb_spec : forall a b, label_eqb a b = true <-> a = b.
Proof.
  intros [x|x] [y|y]; cbn; try (split; discriminate).
  - rewrite Z.eqb_eq. split; congruence.
  - rewrite String.eqb_eq. split; congruence.
Qed.
Lemma label_eqb_refl : forall a, label_eqb a a = true.
Proof. intros. now apply label_eqb_spec. Qed.

Lemma index_of_some : forall l x k, index_of x l = Some k -> nth_error l k = Some x.
Proof.
  induction l as [|y l IH]; intros x k H; cbn in H; [discriminate|]. destruct (label_eqb x y) eqn:E.
  - injection H as <-. apply label_eqb_spec in E. subst. reflexivity.
  - destruct (index_of x l) eqn:E'; [|discriminate]. injection H as <-. cbn. now apply IH.
Qed.
Lemma index_of_none : forall l x, index_of x l = None <-> ~ In x l.
Proof.
  induction l as [|y l IH]; intros x; cbn; [tauto|]. destruct (label_eqb x y) eqn:E.
  - apply label_eqb_spec in E. subst. split; [discriminate|tauto].
  - assert (Hn : x <> y) by (intros ->; rewrite label_eqb_refl in E; discriminate).
    destruct (index_of x l) eqn:E'; cbn; split; try discriminate; try reflexivity.
    + intros H. exfalso. apply H. right. apply index_of_some in E'. eapply nth_error_In; eauto.
    + intros _ [H|H]; [congruence|]. apply IH in E'. contradiction.
Qed.

Lemma factorize_snoc : forall l x, factorize (l ++ [x]) = factorize_step (factorize l) x.
Proof. intros. unfold factorize. rewrite fold_left_app. reflexivity. Qed.

(** Codes point into the list of labels in order of first appearance. *)
Lemma factorize_inv : forall ls : list Label,
  let '(codes, us) := factorize (map Some ls) in
  length codes = length ls /\ NoDup us /\
  (forall i x, nth_error ls i = Some x -> exists k, nth_error codes i = Some (Z.of_nat k) /\ nth_error us k = Some x) /\
  (forall k, k < length us -> In (Z.of_nat k) codes).
Proof.
  intros ls. induction ls as [|x ls IH] using rev_ind.
  - cbn. repeat split; [constructor| |lia]. intros [|i] x H; discriminate.
  - rewrite map_app. cbn [map]. rewrite factorize_snoc. destruct (factorize (map Some ls)) as [codes us] eqn:E.
    destruct IH as [Hl [Hnd [Hc Hk]]]. unfold factorize_step. destruct (index_of x us) as [k|] eqn:Ei.
    + repeat split.
      * rewrite !app_length, Hl. reflexivity.
      * exact Hnd.
      * intros i y Hy. destruct (Nat.lt_ge_cases i (length ls)) as [Hi|Hi].
        -- rewrite nth_error_app1 in Hy by exact Hi. rewrite nth_error_app1 by lia. now apply Hc.
        -- rewrite nth_error_app2 in Hy by exact Hi. rewrite nth_error_app2 by lia. rewrite Hl.
           destruct (i - length ls) as [|[|m]]; cbn in Hy; try discriminate. injection Hy as <-.
           exists k. split; [reflexivity|]. now apply index_of_some.
      * intros j Hj. apply in_or_app. left. now apply Hk.
    + repeat split.
      * rewrite !app_length, Hl. reflexivity.
      * apply index_of_none in Ei. clear - Hnd Ei. induction us as [|u us IHu]; cbn.
        -- repeat constructor. intros [].
        -- inversion Hnd; subst. constructor.
           ++ rewrite in_app_iff. intros [H|[H|[]]]; [contradiction|]. apply Ei. left. congruence.
           ++ apply IHu; [assumption|]. intros H. apply Ei. now right.
      * intros i y Hy. destruct (Nat.lt_ge_cases i (length ls)) as [Hi|Hi].
        -- rewrite nth_error_app1 in Hy by exact Hi. rewrite nth_error_app1 by lia.
           destruct (Hc _ _ Hy) as [k [Hk1 Hk2]]. exists k. split; [exact Hk1|]. rewrite nth_error_app1; [exact Hk2|].
           apply nth_error_Some. congruence.
        -- rewrite nth_error_app2 in Hy by exact Hi. rewrite nth_error_app2 by lia. rewrite Hl.
           destruct (i - length ls) as [|[|m]]; cbn in Hy; try discriminate. injection Hy as <-.
           exists (length us). split; [reflexivity|]. rewrite nth_error_app2 by lia. rewrite Nat.sub_diag. reflexivity.
      * intros j Hj. rewrite app_length in Hj. cbn in Hj. apply in_or_app.
        destruct (Nat.lt_ge_cases j (length us)) as [Hj'|Hj']; [left; now apply Hk|]. right. left. f_equal. lia.
Qed.

Lemma nth_error_lt' : forall {A} (l : list A) i, i < length l -> exists x, nth_error l i = Some x.
Proof. intros A l i H. destruct (nth_error l i) eqn:E; [eauto|]. apply nth_error_None in E. lia. Qed.

Lemma factorize_partition : forall ls, same_partition ls (fst (factorize (map Some ls))).
Proof.
  intros ls. pose proof (factorize_inv ls) as H. destruct (factorize (map Some ls)) as [codes us]. cbn [fst].
  destruct H as [Hl [Hnd [Hc _]]]. split; [congruence|]. intros i j Hi Hj.
  destruct (nth_error_lt' ls i Hi) as [x Hx]. destruct (nth_error_lt' ls j Hj) as [y Hy].
  destruct (Hc _ _ Hx) as [k [Hk1 Hk2]]. destruct (Hc _ _ Hy) as [m [Hm1 Hm2]]. rewrite Hx, Hy, Hk1, Hm1. split.
  - intros H. injection H as ->. f_equal. f_equal. apply (proj1 (NoDup_nth_error us) Hnd); [|congruence].
    apply nth_error_Some. congruence.
  - intros H. injection H as H. apply Nat2Z.inj in H. subst. congruence.
Qed.

Lemma factorize_nonneg : forall ls, Forall (fun g => (0 <= g)%Z) (fst (factorize (map Some ls))).
Proof.
  intros ls. pose proof (factorize_inv ls) as H. destruct (factorize (map Some ls)) as [codes us]. cbn [fst].
  destruct H as [Hl [_ [Hc _]]]. rewrite Forall_forall. intros g Hg. apply In_nth_error in Hg. destruct Hg as [i Hi].
  destruct (nth_error_lt' ls i) as [x Hx]. { rewrite <- Hl. apply nth_error_Some. congruence. }
  destruct (Hc _ _ Hx) as [k [Hk _]]. rewrite Hk in Hi. injection Hi as <-. lia.
Qed.

Lemma same_partition_sym : forall {A B} (a : list A) (b : list B), same_partition a b -> same_partition b a.
Proof. intros A B a b [H1 H2]. split; [congruence|]. intros i j Hi Hj. rewrite H2 by lia. tauto. Qed.
Lemma same_partition_trans : forall {A B C} (a : list A) (b : list B) (c : list C),
  same_partition a b -> same_partition b c -> same_partition a c.
Proof. intros A B C a b c [H1 H2] [H3 H4]. split; [congruence|]. intros i j Hi Hj. rewrite H2, H4 by lia. tauto. Qed.
Lemma same_partition_prefix : forall {A B} (a : list A) x (b : list B) y,
  same_partition (a ++ [x]) (b ++ [y]) -> same_partition a b.
Proof.
  intros A B a x b y [H1 H2]. rewrite !app_length in H1. cbn in H1. split; [lia|]. intros i j Hi Hj.
  specialize (H2 i j). rewrite app_length in H2. rewrite !nth_error_app1 in H2 by lia. apply H2; lia.
Qed.

Lemma nth_error_end : forall {A} (l : list A) x, nth_error (l ++ [x]) (length l) = Some x.
Proof. intros. rewrite nth_error_app2 by lia. rewrite Nat.sub_diag. reflexivity. Qed.

(** Codes only depend on which columns are together. *)
Lemma factorize_canonical : forall a b, same_partition a b ->
  fst (factorize (map Some a)) = fst (factorize (map Some b)) /\
  length (snd (factorize (map Some a))) = length (snd (factorize (map Some b))).
Proof.
  intros a. induction a as [|x a IH] using rev_ind; intros b Hp.
  - destruct Hp as [H _]. destruct b; [split; reflexivity|discriminate].
  - destruct b as [|y b _] using rev_ind; [destruct Hp as [H _]; rewrite app_length in H; cbn in H; lia|].
    pose proof (IH b (same_partition_prefix _ _ _ _ Hp)) as [Hc Hu].
    rewrite !map_app. cbn [map]. rewrite !factorize_snoc.
    pose proof (factorize_inv a) as Ha. pose proof (factorize_inv b) as Hb.
    destruct (factorize (map Some a)) as [ca ua]. destruct (factorize (map Some b)) as [cb ub]. cbn [fst snd] in Hc, Hu. subst cb.
    destruct Ha as [Hla [Hna [Hca Hka]]]. destruct Hb as [Hlb [Hnb [Hcb Hkb]]].
    destruct Hp as [Hpl Hpp]. rewrite !app_length in Hpl. cbn in Hpl.
    assert (Hlab : length a = length b) by lia.
    assert (Hseen : forall (k : nat), nth_error ua k = Some x -> nth_error ub k = Some y).
    { intros k Hk. assert (Hin : In (Z.of_nat k) ca) by (apply Hka; apply nth_error_Some; congruence).
      apply In_nth_error in Hin. destruct Hin as [i Hi]. assert (Hil : i < length a) by (rewrite <- Hla; apply nth_error_Some; congruence).
      destruct (nth_error_lt' a i Hil) as [x' Hx']. destruct (Hca _ _ Hx') as [k' [Hk1 Hk2]]. rewrite Hi in Hk1. injection Hk1 as Hk1.
      apply Nat2Z.inj in Hk1. subst k'. assert (x' = x) by congruence. subst x'.
      specialize (Hpp i (length a)). rewrite app_length in Hpp. cbn in Hpp.
      assert (He : nth_error (b ++ [y]) i = nth_error (b ++ [y]) (length a)).
      { apply Hpp; try lia. rewrite nth_error_end, nth_error_app1 by lia. exact Hx'. }
      rewrite Hlab, nth_error_end, nth_error_app1 in He by lia.
      destruct (Hcb _ _ He) as [k' [Hk1' Hk2']]. rewrite Hi in Hk1'. injection Hk1' as Hk1'. apply Nat2Z.inj in Hk1'. subst k'. exact Hk2'. }
    assert (Hseen' : forall (k : nat), nth_error ub k = Some y -> nth_error ua k = Some x).
    { intros k Hk. assert (Hin : In (Z.of_nat k) ca) by (apply Hkb; apply nth_error_Some; congruence).
      apply In_nth_error in Hin. destruct Hin as [i Hi]. assert (Hil : i < length b) by (rewrite <- Hlb; apply nth_error_Some; congruence).
      destruct (nth_error_lt' b i Hil) as [y' Hy']. destruct (Hcb _ _ Hy') as [k' [Hk1 Hk2]]. rewrite Hi in Hk1. injection Hk1 as Hk1.
      apply Nat2Z.inj in Hk1. subst k'. assert (y' = y) by congruence. subst y'.
      specialize (Hpp i (length a)). rewrite app_length in Hpp. cbn in Hpp.
      assert (He : nth_error (a ++ [x]) i = nth_error (a ++ [x]) (length a)).
      { apply Hpp; try lia. rewrite Hlab, nth_error_end, nth_error_app1 by lia. exact Hy'. }
      rewrite nth_error_end, nth_error_app1 in He by lia.
      destruct (Hca _ _ He) as [k' [Hk1' Hk2']]. rewrite Hi in Hk1'. injection Hk1' as Hk1'. apply Nat2Z.inj in Hk1'. subst k'. exact Hk2'. }
    unfold factorize_step. destruct (index_of x ua) as [k|] eqn:Ea; destruct (index_of y ub) as [m|] eqn:Eb; cbn [fst snd].
    + apply index_of_some in Ea, Eb. apply Hseen in Ea. split; [|exact Hu]. f_equal. f_equal. f_equal.
      apply (proj1 (NoDup_nth_error ub) Hnb); [apply nth_error_Some; congruence|congruence].
    + apply index_of_some in Ea. apply Hseen in Ea. apply index_of_none in Eb. exfalso. apply Eb. eapply nth_error_In; eauto.
    + apply index_of_some in Eb. apply Hseen' in Eb. apply index_of_none in Ea. exfalso. apply Ea. eapply nth_error_In; eauto.
    + rewrite !app_length, Hu. split; [reflexivity|reflexivity].
Qed.

Lemma codes_eqb_spec : forall a b, codes_eqb a b = true <-> a = b.
Proof.
  induction a as [|x a IH]; intros [|y b]; cbn; try (split; discriminate); [tauto|].
  rewrite andb_true_iff, Z.eqb_eq, IH. split; [intros [-> ->]; reflexivity|]. intros H. injection H. auto.
Qed.
Lemma labels_eqb_spec : forall a b, labels_eqb a b = true <-> a = b.
Proof.
  induction a as [|x a IH]; intros [|y b]; cbn; try (split; discriminate); [tauto|].
  rewrite andb_true_iff, IH. assert (H : olabel_eqb x y = true <-> x = y).
  { destruct x, y; cbn; try (split; discriminate); [|tauto]. rewrite label_eqb_spec. split; congruence. }
  rewrite H. split; [intros [-> ->]; reflexivity|]. intros E. injection E. auto.
Qed.

Lemma same_codes_iff : forall a b, fst (factorize (map Some a)) = fst (factorize (map Some b)) <-> same_partition a b.
Proof.
  intros a b. split.
  - intros H. eapply same_partition_trans; [apply factorize_partition|]. rewrite H. apply same_partition_sym, factorize_partition.
  - intros H. apply factorize_canonical. exact H.
Qed.
