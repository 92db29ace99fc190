(** * Shapes and values of broadcast arrays *)
From Coq Require Import String ZArith Bool List Arith Lia.
From Verif Require Import Base Grouper Reshape IndexFns IndexSpec Broadcast BroadcastSpec BaseFnsLemmas BaseFnsLemmas4 BaseFnsLemmas5.
Import ListNotations.
Local Open Scope nat_scope.

(** ** Shapes *)
Lemma broadcast_dim_ok : forall a b d, broadcast_dim a b = Ok d -> (a = d \/ a = 1) /\ (b = d \/ b = 1) /\ (d = a \/ d = b).
Proof.
  intros a b d H. unfold broadcast_dim in H. destruct (Nat.eqb_spec a b); [inversion H; subst; auto|].
  destruct (Nat.eqb_spec a 1); [inversion H; subst; auto|]. destruct (Nat.eqb_spec b 1); inversion H; subst; auto.
Qed.
Lemma broadcast_dim_total : forall a b d, a = d \/ a = 1 -> b = d \/ b = 1 -> exists r, broadcast_dim a b = Ok r /\ (r = d \/ r = 1).
Proof.
  intros a b d Ha Hb. unfold broadcast_dim. destruct (Nat.eqb_spec a b); [eauto|].
  destruct (Nat.eqb_spec a 1); [eauto|]. destruct (Nat.eqb_spec b 1); [eauto|]. lia.
Qed.

Lemma nth_nil1 : forall k, nth k (@nil nat) 1 = 1.
Proof. destruct k; reflexivity. Qed.

Lemma broadcast_rev_ok : forall a b r, broadcast_rev a b = Ok r ->
  length r = Nat.max (length a) (length b) /\
  forall k, (nth k a 1 = nth k r 1 \/ nth k a 1 = 1) /\ (nth k b 1 = nth k r 1 \/ nth k b 1 = 1) /\
            (nth k r 1 = nth k a 1 \/ nth k r 1 = nth k b 1).
Proof.
  induction a as [|x a IH]; intros b r H.
  - cbn [broadcast_rev] in H. inversion H; subst. split; [reflexivity|]. intros k. rewrite nth_nil1. auto.
  - destruct b as [|y b]; cbn [broadcast_rev] in H.
    + inversion H; subst. split; [cbn; lia|]. intros k. rewrite nth_nil1. auto.
    + apply bind_ok in H. destruct H as [d [Hd H]]. apply bind_ok in H. destruct H as [r' [Hr H]]. inversion H; subst.
      apply IH in Hr. destruct Hr as [Hl Hr]. split; [cbn [length]; lia|]. intros [|k]; cbn [nth]; [|apply Hr].
      apply broadcast_dim_ok in Hd. tauto.
Qed.
Lemma broadcast_rev_total : forall a b (d : nat -> nat), (forall k, nth k a 1 = d k \/ nth k a 1 = 1) -> (forall k, nth k b 1 = d k \/ nth k b 1 = 1) ->
  exists r, broadcast_rev a b = Ok r /\ forall k, nth k r 1 = d k \/ nth k r 1 = 1.
Proof.
  induction a as [|x a IH]; intros b d Ha Hb; [exists b; auto|]. destruct b as [|y b]; [exists (x :: a); auto|].
  cbn [broadcast_rev]. destruct (broadcast_dim_total x y (d 0) (Ha 0) (Hb 0)) as [r0 [-> Hr0]]. cbn [bind].
  destruct (IH b (fun k => d (S k)) (fun k => Ha (S k)) (fun k => Hb (S k))) as [r [-> Hr]]. cbn [bind].
  exists (r0 :: r). split; [reflexivity|]. intros [|k]; [exact Hr0|apply Hr].
Qed.

Lemma fold_shapes_ok : forall l acc r, foldM broadcast_rev acc l = Ok r ->
  length r = fold_left Nat.max (map (@length nat) l) (length acc) /\
  forall k, (forall s, In s (acc :: l) -> nth k s 1 = nth k r 1 \/ nth k s 1 = 1) /\
            (exists s, In s (acc :: l) /\ nth k r 1 = nth k s 1).
Proof.
  induction l as [|s l IH]; intros acc r H; cbn [foldM] in H.
  - inversion H; subst. split; [reflexivity|]. intros k. split; [intros s [<-|[]]; auto|]. exists r. cbn; auto.
  - apply bind_ok in H. destruct H as [a [Ha H]]. apply broadcast_rev_ok in Ha. destruct Ha as [Hl Ha].
    apply IH in H. destruct H as [Hlr Hr]. split; [rewrite Hlr, Hl; reflexivity|]. intros k.
    specialize (Ha k). specialize (Hr k). destruct Hr as [Hr1 [w [Hw Hrw]]]. pose proof (Hr1 a (or_introl eq_refl)) as Hra. split.
    + intros t [<-|[<-|Ht]]; [| |apply Hr1; right; exact Ht]; lia.
    + destruct Hw as [<-|Hw]; [|exists w; cbn; auto]. destruct Ha as [_ [_ [H|H]]]; [exists acc|exists s]; cbn; split; auto; congruence.
Qed.
Lemma fold_shapes_total : forall l acc (d : nat -> nat), (forall s, In s (acc :: l) -> forall k, nth k s 1 = d k \/ nth k s 1 = 1) ->
  exists r, foldM broadcast_rev acc l = Ok r.
Proof.
  induction l as [|s l IH]; intros acc d H; [exists acc; reflexivity|]. cbn [foldM].
  destruct (broadcast_rev_total acc s d) as [a [-> Ha]]; [apply H; cbn; auto|apply H; cbn; auto|]. cbn [bind].
  apply (IH a d). intros t [<-|Ht]; [exact Ha|apply H; cbn; auto].
Qed.

(** ** The axes of the arrays *)
Definition arr_height {A} (two : bool) (a : Arr A) : nat := height two (Raw a).
Definition arr_width {A} (two : bool) (a : Arr A) : nat := width two (Raw a).

Lemma array_axes : forall {A} two (x : BArg A), (two = false -> length (axes x) <= 1) ->
  let s := rev (shape_of (array_of two x)) in
  height two x = nth (if two then 1 else 0) s 1 /\ width two x = (if two then nth 0 s 1 else 1) /\ length s <= (if two then 2 else 1).
Proof.
  intros A two x Ht. destruct x as [[v|l|c rows]|i nm l|i c rows]; destruct two; cbn in *; try (split; [|split]); try reflexivity; try lia;
    rewrite ?map_length; auto; specialize (Ht eq_refl); lia.
Qed.

Lemma two_axes_has : forall {A} (x : BArg A), has_2d x = Nat.ltb 1 (length (axes x)).
Proof. intros A [[v|l|c rows]|i nm l|i c rows]; reflexivity. Qed.
Lemma two_axes_model : forall {A} shape (args : list (BArg A)),
  existsb has_2d args || match shape with Some s => Nat.ltb 1 (length s) | None => false end = two_axes shape args.
Proof.
  intros A shape args. unfold two_axes. f_equal. induction args as [|x args IH]; [reflexivity|]. cbn [existsb]. rewrite IH, two_axes_has. reflexivity.
Qed.
Lemma two_axes_false : forall {A} shape (args : list (BArg A)) x, two_axes shape args = false -> In x args -> length (axes x) <= 1.
Proof.
  intros A shape args x H Hin. unfold two_axes in H. apply orb_false_iff in H. destruct H as [H _].
  destruct (Nat.ltb_spec 1 (length (axes x))); [|lia]. exfalso. rewrite <- not_true_iff_false in H. apply H. apply existsb_exists.
  exists x. split; [exact Hin|]. now apply Nat.ltb_lt.
Qed.

(** ** Values *)
Lemma nth_error_repeat_lt : forall {A} (v : A) n i, i < n -> nth_error (repeat v n) i = Some v.
Proof. induction n; intros [|i] H; cbn; try lia; auto. apply IHn. lia. Qed.

Lemma stretch_ok : forall {A} n (l l' : list A), stretch n l = Ok l' ->
  length l' = n /\ (length l = n \/ length l = 1) /\ forall i, i < n -> nth_error l' i = nth_error l (pick (length l) i) /\ nth_error l' i <> None.
Proof.
  intros A n l l' H. unfold stretch in H. destruct (Nat.eqb_spec (length l) n) as [E|E].
  - inversion H; subst. split; [reflexivity|]. split; [auto|]. intros i Hi. unfold pick. split.
    + destruct (Nat.eqb_spec (length l') 1); [|reflexivity]. replace i with 0 by lia. reflexivity.
    + apply nth_error_Some. exact Hi.
  - destruct (Nat.eqb_spec (length l) 1) as [E1|]; [|discriminate]. inversion H; subst. destruct l as [|v [|]]; cbn in E1; try lia.
    rewrite concat_repeat_one, repeat_length. split; [reflexivity|]. split; [auto|]. intros i Hi. rewrite nth_error_repeat_lt by exact Hi.
    cbn. split; [reflexivity|discriminate].
Qed.
Lemma stretch_total : forall {A} n (l : list A), length l = n \/ length l = 1 -> exists l', stretch n l = Ok l'.
Proof.
  intros A n l H. unfold stretch. destruct (Nat.eqb_spec (length l) n); [eauto|]. destruct (Nat.eqb_spec (length l) 1); [eauto|lia].
Qed.
Lemma stretch_row_ok : forall {A} c m (row : list A), length row = c -> c = m \/ c = 1 ->
  length (stretch_row c m row) = m /\ forall j, j < m -> nth_error (stretch_row c m row) j = nth_error row (pick c j) /\ nth_error (stretch_row c m row) j <> None.
Proof.
  intros A c m row Hl Hc. unfold stretch_row. destruct (Nat.eqb_spec c m) as [E|E].
  - subst m. split; [exact Hl|]. intros j Hj. split; [|apply nth_error_Some; lia].
    unfold pick. destruct (Nat.eqb_spec c 1); [|reflexivity]. replace j with 0 by lia. reflexivity.
  - destruct Hc as [|Hc]; [contradiction|]. rewrite Hc in Hl. destruct row as [|v [|]]; cbn in Hl; try lia.
    rewrite concat_repeat_one, repeat_length. split; [reflexivity|]. intros j Hj. rewrite nth_error_repeat_lt by exact Hj. rewrite Hc. cbn.
    split; [reflexivity|discriminate].
Qed.

Lemma np_broadcast_ok : forall {A} two (a b : Arr A) shape, consistent (Raw a) -> (two = true -> length shape = 2) -> (two = false -> length shape <= 1) ->
  np_broadcast_to a shape = Ok b ->
  shape_of b = shape /\ consistent (Raw b) /\
  (arr_height two a = rows_in shape \/ arr_height two a = 1) /\ (arr_width two a = columns_in shape \/ arr_width two a = 1) /\
  length (shape_of a) <= length shape /\
  forall i j, i < rows_in shape -> j < columns_in shape -> seen two (Raw b) i j = seen two (Raw a) i j /\ seen two (Raw b) i j <> None.
Proof.
  intros A two a b shape Hc H2 H1 H.
  destruct a as [v|l|c rows]; destruct shape as [|n [|m [|]]]; cbn [np_broadcast_to] in H; try discriminate;
    destruct two; try (specialize (H2 eq_refl); cbn in H2; lia); try (specialize (H1 eq_refl); cbn in H1; lia); unfold rows_in, columns_in, arr_height, arr_width; cbn [nth length shape_of height width].
  - inversion H; subst. cbn. repeat split; auto; discriminate.
  - inversion H; subst. cbn [shape_of seen consistent]. rewrite repeat_length. repeat split; auto.
    + unfold pick. destruct (Nat.eqb_spec n 1); rewrite nth_error_repeat_lt; auto; lia.
    + unfold pick. destruct (Nat.eqb_spec n 1); rewrite nth_error_repeat_lt; try discriminate; lia.
  - inversion H; subst. cbn [shape_of seen consistent]. rewrite repeat_length. repeat split; auto.
    + apply Forall_forall. intros r Hr. apply repeat_spec in Hr. subst. apply repeat_length.
    + unfold pick. destruct (Nat.eqb_spec n 1), (Nat.eqb_spec m 1); rewrite !nth_error_repeat_lt; auto; lia.
    + unfold pick. destruct (Nat.eqb_spec n 1), (Nat.eqb_spec m 1); rewrite !nth_error_repeat_lt; try discriminate; lia.
  - apply bind_ok in H. destruct H as [l' [Hl H]]. inversion H; subst. apply stretch_ok in Hl. destruct Hl as [Hn [Ho Hl]].
    cbn [shape_of seen consistent]. rewrite Hn. repeat split; auto; try (apply Hl; unfold pick; destruct (Nat.eqb_spec n 1); lia).
    transitivity (nth_error l' i); [unfold pick; destruct (Nat.eqb_spec n 1); [f_equal; lia|reflexivity]|]. apply Hl. assumption.
  - apply bind_ok in H. destruct H as [l' [Hl H]]. inversion H; subst. apply stretch_ok in Hl. destruct Hl as [Hn [Ho Hl]].
    cbn [shape_of seen consistent]. rewrite repeat_length. repeat split; auto.
    + apply Forall_forall. intros r Hr. apply repeat_spec in Hr. subst. auto.
    + rewrite nth_error_repeat_lt by (unfold pick; destruct (Nat.eqb_spec n 1); lia).
      transitivity (nth_error l' j); [unfold pick; destruct (Nat.eqb_spec m 1); [f_equal; lia|reflexivity]|]. apply Hl. assumption.
    + rewrite nth_error_repeat_lt by (unfold pick; destruct (Nat.eqb_spec n 1); lia). apply Hl. unfold pick. destruct (Nat.eqb_spec m 1); lia.
  - apply raise_if_ok in H. destruct H as [Hcm H]. apply bind_ok in H. destruct H as [rows' [Hr H]]. inversion H; subst. apply stretch_ok in Hr.
    rewrite map_length in Hr. destruct Hr as [Hn [Ho Hr]]. apply negb_false_iff, orb_true_iff in Hcm. rewrite !Nat.eqb_eq in Hcm.
    cbn [consistent] in Hc. 
    assert (Hrow : forall i, i < n -> exists row, nth_error rows (pick (length rows) i) = Some row /\ length row = c /\ nth_error rows' i = Some (stretch_row c m row)).
    { intros i Hi. destruct (Hr i Hi) as [He Hne]. rewrite nth_error_map in He.
      destruct (nth_error rows (pick (length rows) i)) as [row|] eqn:E; [|cbn in He; congruence]. exists row. split; [reflexivity|]. split; [|exact He].
      eapply Forall_forall in Hc; [exact Hc|eapply nth_error_In; eauto]. }
    cbn [shape_of seen consistent]. rewrite Hn. repeat split; auto.
    + apply Forall_forall. intros r Hin. apply In_nth_error in Hin. destruct Hin as [i Hi].
      assert (Hi' : i < n) by (rewrite <- Hn; apply nth_error_Some; congruence). destruct (Hrow i Hi') as [row [_ [Hl Hs]]].
      rewrite Hs in Hi. inversion Hi; subst. apply stretch_row_ok; auto.
    + destruct (Hrow i) as [row [E1 [Hl E2]]]; [assumption|]. rewrite E1.
      assert (E2' : nth_error rows' (pick n i) = Some (stretch_row c m row)).
      { rewrite <- E2. unfold pick. destruct (Nat.eqb_spec n 1); [f_equal; lia|reflexivity]. }
      rewrite E2'. transitivity (nth_error (stretch_row c m row) j); [unfold pick; destruct (Nat.eqb_spec m 1); [f_equal; lia|reflexivity]|].
      apply stretch_row_ok; auto.
    + destruct (Hrow i) as [row [E1 [Hl E2]]]; [assumption|].
      assert (E2' : nth_error rows' (pick n i) = Some (stretch_row c m row)).
      { rewrite <- E2. unfold pick. destruct (Nat.eqb_spec n 1); [f_equal; lia|reflexivity]. }
      rewrite E2'. apply stretch_row_ok; auto. unfold pick. destruct (Nat.eqb_spec m 1); lia.
Qed.

Lemma np_broadcast_total : forall {A} two (a : Arr A) shape, (two = true -> length shape = 2) -> (two = false -> length shape <= 1) ->
  length (shape_of a) <= length shape ->
  arr_height two a = rows_in shape \/ arr_height two a = 1 -> arr_width two a = columns_in shape \/ arr_width two a = 1 ->
  exists b, np_broadcast_to a shape = Ok b.
Proof.
  intros A two a shape H2 H1 Hd Hh Hw. unfold rows_in, columns_in, arr_height, arr_width in *.
  destruct a as [v|l|c rows]; destruct shape as [|n [|m [|]]]; cbn [np_broadcast_to]; cbn [nth length shape_of height width] in *;
    try lia; destruct two; try (specialize (H2 eq_refl); lia); try (specialize (H1 eq_refl); lia); eauto.
  - destruct (stretch_total n l Hh) as [l' ->]. cbn. eauto.
  - destruct (stretch_total m l Hw) as [l' ->]. cbn. eauto.
  - unfold raise_if. replace (negb _) with false; [|symmetry; apply negb_false_iff, orb_true_iff; rewrite !Nat.eqb_eq; auto].
    destruct (stretch_total n (map (stretch_row c m) rows)) as [r ->]; [now rewrite map_length|]. cbn. eauto.
Qed.

Lemma array_consistent : forall {A} two (x : BArg A), consistent x -> consistent (Raw (array_of two x)).
Proof.
  intros A two [a|i nm l|i c rows] H; cbn [array_of]; [exact H| |].
  - destruct two; cbn; [|exact I]. apply Forall_forall. intros r Hr. apply in_map_iff in Hr. destruct Hr as [v [<- _]]. reflexivity.
  - cbn in *. apply H.
Qed.
Lemma array_seen : forall {A} two (x : BArg A) i j, (two = false -> length (axes x) <= 1) -> seen two (Raw (array_of two x)) i j = seen two x i j.
Proof.
  intros A two [a|ix nm l|ix c rows] i j Ht; cbn [array_of]; try reflexivity.
  destruct two; cbn [seen]; [|reflexivity]. rewrite map_length, nth_error_map. destruct (nth_error l (pick (length l) i)); reflexivity.
Qed.
Lemma array_height : forall {A} two (x : BArg A), (two = false -> length (axes x) <= 1) ->
  arr_height two (array_of two x) = height two x /\ arr_width two (array_of two x) = width two x.
Proof.
  intros A two [a|ix nm l|ix c rows] Ht; cbn [array_of]; try (split; reflexivity).
  destruct two; unfold arr_height, arr_width; cbn [height width]; rewrite ?map_length; auto.
Qed.

(** ** All arguments *)
Lemma broadcast_each_nth : forall {A} two keep shape (args : list (BArg A)) k arrs, broadcast_each two keep k args shape = Ok arrs ->
  length arrs = length args /\
  forall i x, nth_error args i = Some x -> exists b, np_broadcast_to (array_of two x) shape = Ok b /\
    nth_error arrs i = Some (if keep (k + i) then array_of two x else b).
Proof.
  induction args as [|x args IH]; intros k arrs H; cbn [broadcast_each] in H.
  - inversion H. split; [reflexivity|]. intros [|i] y Hy; discriminate.
  - apply bind_ok in H. destruct H as [b [Hb H]]. apply bind_ok in H. destruct H as [bs [Hbs H]]. inversion H; subst.
    apply IH in Hbs. destruct Hbs as [Hl Hn]. split; [cbn; now rewrite Hl|]. intros [|i] y Hy; cbn [nth_error] in *.
    + inversion Hy; subst. exists b. split; [exact Hb|]. now rewrite Nat.add_0_r.
    + destruct (Hn i y Hy) as [b' [Hb' Hi]]. exists b'. split; [exact Hb'|]. rewrite Nat.add_succ_r. exact Hi.
Qed.
Lemma broadcast_each_total : forall {A} two keep shape (args : list (BArg A)) k, 
  (forall x, In x args -> exists b, np_broadcast_to (array_of two x) shape = Ok b) -> exists arrs, broadcast_each two keep k args shape = Ok arrs.
Proof.
  induction args as [|x args IH]; intros k H; [eexists; reflexivity|]. cbn [broadcast_each].
  destruct (H x (or_introl eq_refl)) as [b ->]. cbn [bind]. destruct (IH (S k)) as [bs ->]; [intros y Hy; apply H; right; exact Hy|]. cbn. eauto.
Qed.

(** The shape that broadcasting chooses *)
Definition chosen_shape {A} (two : bool) (args : list (BArg A)) (shape : list nat) : Prop :=
  length shape = fold_left Nat.max (map (fun x => length (shape_of (array_of two x))) args) 0 /\
  common_size (map (height two) args) (rows_in shape) /\ common_size (map (width two) args) (columns_in shape).

Lemma fold_max_le : forall l a b, fold_left Nat.max l a <= b <-> a <= b /\ Forall (fun x => x <= b) l.
Proof.
  induction l as [|x l IH]; intros a b; cbn [fold_left]; [split; [auto|tauto]|]. rewrite IH. split.
  - intros [H1 H2]. split; [lia|]. constructor; [lia|exact H2].
  - intros [H1 H2]. inversion H2; subst. split; [lia|assumption].
Qed.
Lemma fold_max_ge : forall l a x, In x l -> x <= fold_left Nat.max l a.
Proof.
  intros l a x H. destruct (fold_max_le l a (fold_left Nat.max l a)) as [H1 _]. destruct (H1 (le_n _)) as [_ H2]. eapply Forall_forall in H2; eauto.
Qed.
Lemma fold_max_ge0 : forall l a, a <= fold_left Nat.max l a.
Proof. intros l a. destruct (fold_max_le l a (fold_left Nat.max l a)) as [H1 _]. apply (H1 (le_n _)). Qed.

Lemma nth_rev_shape : forall (s : list nat) two, (two = true -> length s = 2) -> (two = false -> length s <= 1) ->
  nth (if two then 1 else 0) (rev s) 1 = rows_in s /\ (if two then nth 0 (rev s) 1 else 1) = columns_in s.
Proof.
  intros s two H2 H1. unfold rows_in, columns_in. destruct s as [|n [|m [|]]]; destruct two; cbn; auto; try (specialize (H2 eq_refl); cbn in H2; lia);
   try (specialize (H1 eq_refl); cbn in H1; lia).
Qed.

Lemma shapes_length : forall {A} two (args : list (BArg A)), (two = true -> exists x, In x args /\ length (axes x) = 2) ->
  (two = false -> forall x, In x args -> length (axes x) <= 1) ->
  let n := fold_left Nat.max (map (fun x => length (shape_of (array_of two x))) args) 0 in
  (two = true -> n = 2) /\ (two = false -> n <= 1).
Proof.
  intros A two args H2 H1 n. assert (Hle : n <= if two then 2 else 1).
  { apply fold_max_le. split; [lia|]. apply Forall_forall. intros k Hk. apply in_map_iff in Hk. destruct Hk as [x [<- Hx]].
    destruct (array_axes two x) as [_ [_ Ha]]; [intros E; apply H1; auto|]. now rewrite rev_length in Ha. }
  split; intros ->; [|exact Hle]. destruct (H2 eq_refl) as [x [Hx Hx2]].
  assert (2 <= n); [|lia]. replace 2 with (length (shape_of (array_of true x))).
  - unfold n. apply fold_max_ge. apply in_map_iff. exists x. auto.
  - destruct x as [[v|l|c rows]|i nm l|i c rows]; cbn in *; auto; lia.
Qed.

Lemma broadcast_shapes_ok : forall {A} two (args : list (BArg A)) shape, (two = true -> exists x, In x args /\ length (axes x) = 2) ->
  (two = false -> forall x, In x args -> length (axes x) <= 1) ->
  broadcast_shapes (map (fun x => shape_of (array_of two x)) args) = Ok shape ->
  chosen_shape two args shape /\ (two = true -> length shape = 2) /\ (two = false -> length shape <= 1).
Proof.
  intros A two args shape H2 H1 H. unfold broadcast_shapes in H. apply bind_ok in H. destruct H as [r [Hr H]]. inversion H; subst shape. clear H.
  apply fold_shapes_ok in Hr. rewrite !map_map in Hr. destruct Hr as [Hl Hr].
  replace (map (fun x : BArg A => length (rev (shape_of (array_of two x)))) args) with (map (fun x : BArg A => length (shape_of (array_of two x))) args) in Hl
    by (apply map_ext; intros; now rewrite rev_length).
  pose proof (shapes_length two args H2 H1) as Hs. cbn zeta in Hs. cbn [length] in Hl. rewrite <- Hl in Hs.
  assert (Hl' : length (rev r) = length r) by apply rev_length.
  destruct (nth_rev_shape (rev r) two) as [Er Ec]; [rewrite Hl'; apply Hs|rewrite Hl'; apply Hs|]. rewrite rev_involutive in Er, Ec.
  split; [|rewrite Hl'; exact Hs]. split; [rewrite Hl'; exact Hl|].
  assert (Hax : forall x, In x args -> height two x = nth (if two then 1 else 0) (rev (shape_of (array_of two x))) 1 /\ width two x = (if two then nth 0 (rev (shape_of (array_of two x))) 1 else 1)).
  { intros x Hx. destruct (array_axes two x) as [Ha [Hb _]]; [intros E; apply H1; auto|]. auto. }
  split; split.
  - intros s Hs'. apply in_map_iff in Hs'. destruct Hs' as [x [<- Hx]]. destruct (Hax x Hx) as [-> _]. rewrite <- Er. apply Hr. right.
    apply in_map_iff. exists x. auto.
  - destruct (Hr (if two then 1 else 0)) as [_ [s [[<-|Hin] E]]]; [left; rewrite <- Er, E; apply nth_nil1|]. right.
    apply in_map_iff in Hin. destruct Hin as [x [<- Hx]]. apply in_map_iff. exists x. split; [|exact Hx]. destruct (Hax x Hx) as [-> _]. now rewrite <- Er.
  - intros s Hs'. apply in_map_iff in Hs'. destruct Hs' as [x [<- Hx]]. destruct (Hax x Hx) as [_ ->]. rewrite <- Ec. destruct two; [|auto]. apply Hr. right.
    apply in_map_iff. exists x. auto.
  - rewrite <- Ec. destruct two; [|auto]. destruct (Hr 0) as [_ [s [[<-|Hin] E]]]; [left; rewrite E; apply nth_nil1|]. right.
    apply in_map_iff in Hin. destruct Hin as [x [<- Hx]]. apply in_map_iff. exists x. split; [|exact Hx]. destruct (Hax x Hx) as [_ ->]. auto.
Qed.

Lemma broadcast_shapes_total : forall {A} two (args : list (BArg A)) n m, 
  (two = false -> forall x, In x args -> length (axes x) <= 1) ->
  common_size (map (height two) args) n -> common_size (map (width two) args) m ->
  exists shape, broadcast_shapes (map (fun x => shape_of (array_of two x)) args) = Ok shape.
Proof.
  intros A two args n m H1 Hn Hm. unfold broadcast_shapes. rewrite map_map.
  destruct (fold_shapes_total (map (fun x : BArg A => rev (shape_of (array_of two x))) args) [] (fun k => if two then match k with 0 => m | 1 => n | _ => 1 end else match k with 0 => n | _ => 1 end)) as [r ->]; [|cbn; eauto].
  intros s [<-|Hin] k; [right; apply nth_nil1|]. apply in_map_iff in Hin. destruct Hin as [x [<- Hx]].
  destruct (array_axes two x) as [Ha [Hb Hc]]; [intros E; apply H1; auto|].
  assert (Hh : height two x = n \/ height two x = 1) by (apply Hn; now apply in_map).
  assert (Hw : width two x = m \/ width two x = 1) by (apply Hm; now apply in_map).
  destruct two; [destruct k as [|[|k]]|destruct k as [|k]]; try (rewrite <- Ha; exact Hh); try (rewrite <- Hb; exact Hw); right; apply nth_overflow; lia.
Qed.
