(** * Sorting and building call sequences *)
From Coq Require Import String ZArith Bool List Arith Lia Permutation Sorting.
From Verif Require Import Base Num Order OrdLaws CallSeq.
Import ListNotations.
Open Scope list_scope.

Section Argsort.
  Context {T : Type} {N : Num T} {L : OrdLaws N}.
  Implicit Types (x y : T * nat) (r l : list (T * nat)).

  (** [y] may follow [x]: NaN comes last, numbers ascend. *)
  Definition may_follow x y : Prop := isnan (fst y) = true \/ leb (fst x) (fst y) = true.

  Lemma insert_back_perm : forall x r, Permutation (x :: r) (insert_back x r).
  Proof.
    intros x r. induction r as [|y r IH]; cbn; auto.
    destruct (goes_after _ _); auto. eapply perm_trans; [apply perm_swap|]. constructor; auto.
  Qed.

  Lemma fold_insert_perm : forall l r, Permutation (l ++ r) (fold_left (fun r x => insert_back x r) l r).
  Proof.
    induction l as [|x l IH]; intros r; cbn; auto.
    eapply perm_trans; [|apply IH]. eapply perm_trans; [apply Permutation_middle|].
    apply Permutation_app_head. apply insert_back_perm.
  Qed.

  Lemma argsort_perm : forall l, Permutation l (insert_argsort_nb l).
  Proof.
    intros l. unfold insert_argsort_nb. eapply perm_trans; [|apply Permutation_rev].
    eapply perm_trans; [|apply fold_insert_perm]. rewrite app_nil_r. auto.
  Qed.

  (** The processed part, last element first, is sorted backwards. *)
  Definition sorted_back r : Prop := ForallOrdPairs (fun y x => may_follow x y) r.

  Lemma goes_after_true : forall y x, goes_after (fst y) (fst x) = true -> may_follow x y.
  Proof.
    intros y x H. unfold goes_after in H. apply orb_true_iff in H as [H|H]; [right|left; auto].
    apply ltb_leb. exact H.
  Qed.

  Lemma goes_after_false : forall y x, goes_after (fst y) (fst x) = false -> may_follow y x.
  Proof.
    intros y x H. unfold goes_after in H. apply orb_false_iff in H as [H1 H2].
    destruct (isnan (fst x)) eqn:E; [left; auto|right]. apply ltb_false_leb; auto.
  Qed.

  Lemma may_follow_trans : forall x y z, may_follow x y -> may_follow y z -> may_follow x z.
  Proof.
    intros x y z [H1|H1] [H2|H2]; unfold may_follow; auto.
    - apply leb_notnan in H2 as [H2 _]. congruence.
    - right. eapply leb_trans; eauto.
  Qed.

  Lemma insert_back_sorted : forall x r, sorted_back r -> sorted_back (insert_back x r).
  Proof.
    intros x r H. induction H as [|y r Hy Hr IH]; cbn.
    - constructor; auto. constructor.
    - destruct (goes_after (fst y) (fst x)) eqn:E.
      + constructor; auto.
        assert (P := insert_back_perm x r). apply (Permutation_Forall P).
        constructor; auto. apply goes_after_true; auto.
      + constructor.
        * constructor; [apply goes_after_false; auto|].
          eapply Forall_impl; [|exact Hy]. intros z Hz. cbn in Hz.
          eapply may_follow_trans; [exact Hz|]. apply goes_after_false; auto.
        * constructor; auto.
  Qed.

  Lemma fop_app : forall A (R : A -> A -> Prop) (a b : list A),
    ForallOrdPairs R a -> ForallOrdPairs R b -> (forall (x y : A), In x a -> In y b -> R x y) ->
    ForallOrdPairs R (a ++ b).
  Proof.
    intros A R a b Ha Hb Hc. induction Ha as [|x a Hx Ha IH]; cbn; auto. constructor.
    - apply Forall_app. split; auto. apply Forall_forall. intros y Hy. apply Hc; auto. left; auto.
    - apply IH. intros; apply Hc; auto. right; auto.
  Qed.

  Lemma fop_rev : forall A (R : A -> A -> Prop) (l : list A), ForallOrdPairs (fun a b => R b a) l -> ForallOrdPairs R (rev l).
  Proof.
    intros A R l H. induction H as [|x l Hx Hl IH]; cbn; [constructor|].
    apply fop_app; auto; [constructor; constructor|].
    intros a b Ha [<-|[]]. rewrite Forall_forall in Hx. apply Hx. apply in_rev. auto.
  Qed.

  Lemma argsort_sorted : forall l, ForallOrdPairs may_follow (insert_argsort_nb l).
  Proof.
    intros l. unfold insert_argsort_nb. apply fop_rev.
    assert (G : forall l r, sorted_back r -> sorted_back (fold_left (fun r x => insert_back x r) l r)).
    { clear l. induction l as [|x l IH]; intros r Hr; cbn; auto. apply IH. apply insert_back_sorted; auto. }
    apply G. constructor.
  Qed.

  (** Ties keep their order. *)
  Lemma insert_back_stable : forall v x r, isnan v = false -> sorted_back r ->
    filter (fun y => eqb (fst y) v) (insert_back x r) =
    (if eqb (fst x) v then [x] else []) ++ filter (fun y => eqb (fst y) v) r.
  Proof.
    intros v x r Hv H. induction H as [|y r Hy Hr IH]; cbn; [destruct (eqb (fst x) v); auto|].
    destruct (goes_after (fst y) (fst x)) eqn:E; cbn.
    - rewrite IH. destruct (eqb (fst y) v) eqn:Ey, (eqb (fst x) v) eqn:Ex; cbn; auto.
      exfalso. rewrite ol_eqb in Ex, Ey. apply andb_true_iff in Ex as [X1 X2]. apply andb_true_iff in Ey as [Y1 Y2].
      unfold goes_after in E. apply orb_true_iff in E as [E|E].
      + apply ltb_true_leb_false in E. rewrite (leb_trans (fst y) v (fst x)) in E; auto. congruence.
      + apply leb_notnan in Y1 as [Y1 _]. congruence.
    - destruct (eqb (fst x) v); auto.
  Qed.

  Lemma fold_insert_stable : forall v l r, isnan v = false -> sorted_back r ->
    filter (fun y => eqb (fst y) v) (fold_left (fun r x => insert_back x r) l r) =
    rev (filter (fun y => eqb (fst y) v) l) ++ filter (fun y => eqb (fst y) v) r.
  Proof.
    intros v l. induction l as [|x l IH]; intros r Hv Hr; cbn; auto.
    rewrite IH; auto; [|apply insert_back_sorted; auto]. rewrite insert_back_stable by auto.
    destruct (eqb (fst x) v); cbn; auto. rewrite <- app_assoc. auto.
  Qed.

  Lemma filter_rev' : forall A (p : A -> bool) (l : list A), filter p (rev l) = rev (filter p l).
  Proof.
    intros A p l. induction l as [|x l IH]; cbn; auto. rewrite filter_app, IH. cbn.
    destruct (p x); cbn; auto. rewrite app_nil_r. auto.
  Qed.

  Lemma argsort_stable : forall v l, isnan v = false ->
    filter (fun y => eqb (fst y) v) (insert_argsort_nb l) = filter (fun y => eqb (fst y) v) l.
  Proof.
    intros v l Hv. unfold insert_argsort_nb. rewrite filter_rev', fold_insert_stable; auto; [|constructor].
    cbn. rewrite app_nil_r, rev_involutive. auto.
  Qed.
End Argsort.

(** ** Building *)
Local Open Scope Z_scope.

Definition zseq (g : nat) : list Z := map Z.of_nat (seq 0 g).

Lemma cumsum_from_app : forall a b c, cumsum_from c (a ++ b) = cumsum_from c a ++ cumsum_from (fold_left Z.add a c) b.
Proof. induction a as [|x a IH]; intros b c; cbn; auto. rewrite IH. auto. Qed.

Lemma cumsum_from_ones : forall n c, cumsum_from c (repeat 1 n) = map (fun k => c + 1 + Z.of_nat k) (seq 0 n).
Proof.
  induction n as [|n IH]; intros c; cbn -[Z.of_nat Z.sub Z.add]; auto. rewrite IH. f_equal; [lia|].
  rewrite <- seq_shift, map_map. apply map_ext. intros; lia.
Qed.

Lemma fold_add_ones : forall n c, fold_left Z.add (repeat 1 n) c = c + Z.of_nat n.
Proof. induction n as [|n IH]; intros c; cbn -[Z.of_nat Z.sub Z.add]; [lia|]. rewrite IH. lia. Qed.

(** The array after the boundary subtraction, default order: [g] is the
    length of the group before. *)
Fixpoint steps_after (g : Z) (lens : list nat) : list Z :=
  match lens with
  | [] => []
  | h :: hs => (1 - g) :: repeat 1 (h - 1) ++ steps_after (Z.of_nat h) hs
  end.

Lemma cumsum_steps : forall lens g, Forall (fun n => (0 < n)%nat) lens ->
  map (fun x => x - 1) (cumsum_from g (steps_after g lens)) = concat (map zseq lens).
Proof.
  induction lens as [|h hs IH]; intros g H; cbn -[Z.of_nat Z.sub Z.add]; auto. inversion H; subst.
  replace (g + (1 - g)) with 1 by lia.
  rewrite cumsum_from_app, cumsum_from_ones, fold_add_ones.
  replace (1 + Z.of_nat (h - 1)) with (Z.of_nat h) by lia.
  rewrite map_app.
  rewrite IH by auto. unfold zseq.
  destruct h as [|h]; [lia|]. replace (S h - 1)%nat with h by lia.
  cbn -[Z.of_nat Z.sub Z.add]. f_equal. f_equal.
  rewrite map_map, <- seq_shift, map_map. apply map_ext. intros; lia.
Qed.

Lemma upd_app : forall A (a b : list A) x v, upd (a ++ x :: b) (length a) v = a ++ v :: b.
Proof. induction a as [|y a IH]; intros; cbn; auto. rewrite IH. auto. Qed.

Lemma norm_index_ok : forall n k, (k < n)%nat -> norm_index n (Z.of_nat k) = Some k.
Proof.
  intros n k H. unfold norm_index.
  replace (0 <=? Z.of_nat k) with true by (symmetry; apply Z.leb_le; lia).
  replace (Z.of_nat k <? Z.of_nat n) with true by (symmetry; apply Z.ltb_lt; lia).
  cbn. rewrite Nat2Z.id. auto.
Qed.

Lemma sum_nat_pos : forall l, Forall (fun n => (0 < n)%nat) l -> l <> [] -> (0 < fold_right Nat.add 0 l)%nat.
Proof. intros l H Hn. destruct H; [congruence|]. cbn. lia. Qed.

Lemma nth_repeat_1 : forall n k, (k < n)%nat -> nth k (repeat 1 n) 0 = 1.
Proof. induction n as [|n IH]; intros [|k] H; cbn; auto; try lia. apply IH; lia. Qed.

Lemma sub_default : forall gs g P total c0,
  Forall (fun n => (0 < n)%nat) gs -> (length P = c0 + g)%nat ->
  (total = length P + fold_right Nat.add 0 gs)%nat ->
  foldM (fun o (iv : Z * Z) =>
    match norm_index (length (repeat 1 total)) (fst iv) with
    | Some k => Ok (upd o k (nth k (repeat 1 total) 0 - snd iv))
    | None => Err (IndexError "index out of bounds"%string)
    end) (P ++ repeat 1 (fold_right Nat.add 0 gs)%nat)
    (combine (removelast (cumsum_from (Z.of_nat c0) (map Z.of_nat (g :: gs)))) (removelast (map Z.of_nat (g :: gs))))
  = Ok (P ++ steps_after (Z.of_nat g) gs).
Proof.
  induction gs as [|h hs IH]; intros g P total c0 H HP Ht.
  - cbn. reflexivity.
  - inversion H; subst.
    change (map Z.of_nat (g :: h :: hs)) with (Z.of_nat g :: map Z.of_nat (h :: hs)).
    cbn [cumsum_from].
    assert (R1 : forall (x y : Z) l, removelast (x :: y :: l) = x :: removelast (y :: l)) by reflexivity.
    change (map Z.of_nat (h :: hs)) with (Z.of_nat h :: map Z.of_nat hs) at 1 2.
    cbn [cumsum_from]. rewrite !R1.
    change (Z.of_nat h :: map Z.of_nat hs) with (map Z.of_nat (h :: hs)).
    change ((Z.of_nat c0 + Z.of_nat g + Z.of_nat h) :: cumsum_from (Z.of_nat c0 + Z.of_nat g + Z.of_nat h) (map Z.of_nat hs))
      with (cumsum_from (Z.of_nat c0 + Z.of_nat g) (map Z.of_nat (h :: hs))).
    cbn [combine foldM fst snd].
    rewrite <- Nat2Z.inj_add, repeat_length.
    rewrite norm_index_ok by (rewrite HP; cbn in *; lia). cbn [bind].
    rewrite nth_repeat_1 by (cbn in *; lia).
    assert (Es : repeat 1 (fold_right Nat.add 0 (h :: hs))%nat = 1 :: repeat 1 (h - 1) ++ repeat 1 (fold_right Nat.add 0 hs)%nat).
    { cbn [fold_right]. rewrite <- repeat_app. destruct h; [lia|]. cbn. rewrite Nat.sub_0_r. auto. }
    rewrite Es.
    match goal with |- context[upd (P ++ 1 :: ?X) (c0 + g)%nat ?v] =>
      replace (upd (P ++ 1 :: X) (c0 + g)%nat v) with (P ++ v :: X) by (rewrite <- HP; symmetry; apply upd_app) end.
    change (1 - Z.of_nat g :: repeat 1 (h - 1) ++ repeat 1 (fold_right Nat.add 0 hs)%nat)
      with ([1 - Z.of_nat g] ++ repeat 1 (h - 1) ++ repeat 1 (fold_right Nat.add 0 hs)%nat).
    rewrite !app_assoc. rewrite <- (app_assoc P).
    specialize (IH h (P ++ [1 - Z.of_nat g] ++ repeat 1 (h - 1)) (length P + fold_right Nat.add 0 (h :: hs))%nat (c0 + g)%nat).
    rewrite repeat_length in IH. rewrite IH; auto.
    + cbn [steps_after]. rewrite <- !app_assoc. cbn. auto.
    + rewrite !app_length, repeat_length. cbn. lia.
    + rewrite !app_length, repeat_length. cbn. lia.
Qed.

Lemma build_default : forall lens ty, ty <> CSReversed -> Forall (fun n => (0 < n)%nat) lens ->
  build_call_seq_row (fold_right Nat.add 0%nat lens) lens ty = Ok (concat (map zseq lens)).
Proof.
  intros lens ty Hty H. unfold build_call_seq_row.
  assert (E : sub_at (repeat 1 (fold_right Nat.add 0%nat lens)) (removelast (cumsum (map Z.of_nat lens)))
                (removelast (map Z.of_nat lens)) = Ok (steps_after 0 lens)).
  { destruct lens as [|g gs]; [reflexivity|]. inversion H; subst.
    unfold sub_at, cumsum.
    pose proof (sub_default gs g (repeat 1 g) (fold_right Nat.add 0 (g :: gs))%nat 0%nat) as P.
    rewrite repeat_length in P.
    assert (E : repeat 1 (fold_right Nat.add 0 (g :: gs))%nat = repeat 1 g ++ repeat 1 (fold_right Nat.add 0 gs)%nat)
      by (rewrite <- repeat_app; reflexivity).
    rewrite repeat_length; rewrite E at 1. rewrite repeat_length in P. cbn [Z.of_nat] in P.
    rewrite P; auto. cbn [steps_after]. f_equal.
    destruct g; [lia|]. cbn. rewrite Nat.sub_0_r. auto. }
  destruct ty; try congruence; rewrite E; cbn [bind]; f_equal; apply (cumsum_steps lens 0); auto.
Qed.

(** Reversed order: the same steps seen from the right. *)
Fixpoint steps_before (lens : list nat) : list Z :=
  match lens with
  | [] => []
  | g :: gs =>
      match gs with
      | [] => repeat 1 g
      | h :: _ => repeat 1 (g - 1) ++ (1 - Z.of_nat h) :: steps_before gs
      end
  end.

Lemma sub_reversed : forall gs g P total c0,
  (0 < g)%nat -> Forall (fun n => (0 < n)%nat) gs -> (length P = c0)%nat ->
  (total = length P + fold_right Nat.add 0 (g :: gs))%nat ->
  foldM (fun o (iv : Z * Z) =>
    match norm_index (length (repeat 1 total)) (fst iv) with
    | Some k => Ok (upd o k (nth k (repeat 1 total) 0 - snd iv))
    | None => Err (IndexError "index out of bounds"%string)
    end) (P ++ repeat 1 (fold_right Nat.add 0 (g :: gs))%nat)
    (combine (map (fun p => fst p - snd p - 1) (combine (tl (cumsum_from (Z.of_nat c0) (map Z.of_nat (g :: gs)))) (map Z.of_nat gs)))
       (map Z.of_nat gs))
  = Ok (P ++ steps_before (g :: gs)).
Proof.
  induction gs as [|h hs IH]; intros g P total c0 Hg H HP Ht.
  - cbn. rewrite Nat.add_0_r. reflexivity.
  - inversion H; subst.
    cbn [map cumsum_from tl combine foldM fst snd].
    replace (Z.of_nat (length P) + Z.of_nat g + Z.of_nat h - Z.of_nat h - 1) with (Z.of_nat (length P + (g - 1))) by lia.
    rewrite repeat_length. rewrite norm_index_ok by (cbn in *; lia). cbn [bind].
    rewrite nth_repeat_1 by (cbn in *; lia).
    assert (Es : P ++ repeat 1 (fold_right Nat.add 0 (g :: h :: hs))%nat
               = (P ++ repeat 1 (g - 1)) ++ 1 :: repeat 1 (fold_right Nat.add 0 (h :: hs))%nat).
    { cbn [fold_right]. rewrite <- app_assoc. f_equal. rewrite (repeat_app 1 g).
      replace g with ((g - 1) + 1)%nat at 1 by lia. rewrite (repeat_app 1 (g - 1) 1).
      rewrite <- app_assoc. reflexivity. }
    rewrite Es.
    replace (length P + (g - 1))%nat with (length (P ++ repeat 1 (g - 1))) by (rewrite app_length, repeat_length; auto).
    rewrite upd_app.
    replace ((P ++ repeat 1 (g - 1)) ++ 1 - Z.of_nat h :: repeat 1 (fold_right Nat.add 0 (h :: hs))%nat)
      with (((P ++ repeat 1 (g - 1)) ++ [1 - Z.of_nat h]) ++ repeat 1 (fold_right Nat.add 0 (h :: hs))%nat)
      by (rewrite <- (app_assoc _ [_]); reflexivity).
    specialize (IH h ((P ++ repeat 1 (g - 1)) ++ [1 - Z.of_nat h]) (length P + fold_right Nat.add 0 (g :: h :: hs))%nat (length P + g)%nat).
    rewrite repeat_length in IH.
    replace (tl (cumsum_from (Z.of_nat (length P + g)) (map Z.of_nat (h :: hs))))
      with (cumsum_from (Z.of_nat (length P) + Z.of_nat g + Z.of_nat h) (map Z.of_nat hs)) in IH
      by (cbn; do 2 f_equal; lia).
    rewrite IH; auto.
    + cbn [steps_before]. rewrite <- !app_assoc. cbn. auto.
    + rewrite !app_length, repeat_length. cbn. lia.
    + rewrite !app_length, repeat_length. cbn. lia.
Qed.

Lemma rev_repeat : forall A (x : A) n, rev (repeat x n) = repeat x n.
Proof.
  intros A x n. induction n as [|n IH]; cbn; auto. rewrite IH.
  change [x] with (repeat x 1). rewrite <- repeat_app. replace (n + 1)%nat with (S n) by lia. auto.
Qed.

Lemma steps_before_rev : forall gs g, (0 < g)%nat -> Forall (fun n => (0 < n)%nat) gs ->
  exists s, rev (steps_before (g :: gs)) = s /\
  map (fun x => x - 1) (cumsum_from 0 s) = concat (map zseq (rev (g :: gs))) /\
  fold_left Z.add s 0 = Z.of_nat g.
Proof.
  induction gs as [|h hs IH]; intros g Hg H.
  - eexists. split; [reflexivity|]. cbn [steps_before rev app map concat].
    rewrite rev_repeat, fold_add_ones. split; [|lia].
    rewrite cumsum_from_ones, map_map, app_nil_r. unfold zseq. apply map_ext. intros; lia.
  - inversion H; subst. destruct (IH h) as (s & E1 & E2 & E3); auto.
    eexists. split; [reflexivity|].
    change (steps_before (g :: h :: hs)) with (repeat 1 (g - 1) ++ (1 - Z.of_nat h) :: steps_before (h :: hs)).
    rewrite rev_app_distr. cbn [rev]. change (rev (steps_before (h :: hs))) with (rev (steps_before (h :: hs))).
    rewrite E1, rev_repeat, <- app_assoc. cbn [app].
    rewrite cumsum_from_app, map_app, E2, E3. cbn [cumsum_from map].
    rewrite fold_left_app, E3. cbn [fold_left].
    replace (Z.of_nat h + (1 - Z.of_nat h)) with 1 by lia. rewrite fold_add_ones, cumsum_from_ones.
    split; [|lia].
    change (rev (g :: h :: hs)) with (rev (h :: hs) ++ [g]).
    rewrite map_app, concat_app. cbn [map concat]. rewrite app_nil_r. f_equal.
    unfold zseq. destruct g as [|g]; [lia|]. replace (S g - 1)%nat with g by lia.
    cbn -[Z.of_nat Z.sub Z.add]. f_equal. rewrite map_map, <- seq_shift, map_map. apply map_ext. intros; lia.
Qed.

Lemma rev_concat : forall A (l : list (list A)), rev (concat l) = concat (map (@rev A) (rev l)).
Proof.
  intros A l. induction l as [|x l IH]; cbn; auto.
  rewrite rev_app_distr, IH, map_app, concat_app. cbn. rewrite app_nil_r. auto.
Qed.

Lemma build_reversed : forall lens, Forall (fun n => (0 < n)%nat) lens ->
  build_call_seq_row (fold_right Nat.add 0%nat lens) lens CSReversed = Ok (concat (map (fun g => rev (zseq g)) lens)).
Proof.
  intros lens H. unfold build_call_seq_row.
  destruct lens as [|g gs]; [reflexivity|]. inversion H; subst.
  unfold sub_at, cumsum.
  pose proof (sub_reversed gs g [] (fold_right Nat.add 0 (g :: gs))%nat 0%nat) as P.
  cbn [app length Z.of_nat Nat.add] in P.
  change (tl (map Z.of_nat (g :: gs))) with (map Z.of_nat gs).
  rewrite P; auto. cbn [bind]. f_equal.
  destruct (steps_before_rev gs g) as (s & E1 & E2 & _); auto.
  rewrite E1, map_rev, E2, rev_concat. f_equal. rewrite <- map_rev, map_map, rev_involutive. auto.
Qed.

(** Shuffling *)
Fixpoint slices {A} (l : list A) (lens : list nat) : list (list A) :=
  match lens with
  | [] => []
  | g :: gs => firstn g l :: slices (skipn g l) gs
  end.

Lemma slices_concat : forall A (ls : list (list A)), slices (concat ls) (map (@length A) ls) = ls.
Proof.
  intros A ls. induction ls as [|x ls IH]; cbn; auto. f_equal.
  - rewrite firstn_app, Nat.sub_diag, firstn_all. cbn. apply app_nil_r.
  - rewrite skipn_app, Nat.sub_diag, skipn_all. cbn. auto.
Qed.

Lemma shuffle_slices : forall shuffle, (forall k l, Permutation l (shuffle k l)) ->
  forall lens row k, (length row = fold_right Nat.add 0 lens)%nat ->
  Forall2 (@Permutation Z) (slices row lens) (slices (fst (shuffle_row shuffle k row lens)) lens).
Proof.
  intros shuffle HS. induction lens as [|g gs IH]; intros row k Hl; cbn; auto.
  cbn in Hl.
  specialize (IH (skipn g row) (S k)). rewrite skipn_length in IH. specialize (IH ltac:(lia)).
  destruct (shuffle_row shuffle (S k) (skipn g row) gs) as [rest k'] eqn:E. cbn [fst] in *.
  assert (Hlen : length (shuffle k (firstn g row)) = g).
  { rewrite <- (Permutation_length (HS k (firstn g row))). apply firstn_length_le. lia. }
  constructor.
  - rewrite firstn_app, Hlen, Nat.sub_diag. cbn [firstn]. rewrite app_nil_r.
    rewrite (firstn_all2 (shuffle k (firstn g row))) by lia. apply HS.
  - rewrite skipn_app, Hlen, Nat.sub_diag. cbn [skipn]. rewrite (skipn_all2 (shuffle k (firstn g row))) by lia. cbn. auto.
Qed.
