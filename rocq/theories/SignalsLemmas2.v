(** * Lemmas on generated signals (C33, C34) *)
From Coq Require Import ZArith Bool List Arith Lia Sorting.
From Verif Require Import Base Num SignalsNb SignalsSpec SignalsLemmas.
Import ListNotations.
Open Scope list_scope.
Open Scope nat_scope.

Lemma tr_upd : forall l i j, tr (upd l i true) j <-> tr l j \/ (j = i /\ i < length l).
Proof.
  intros l i j. unfold tr. destruct (Nat.eq_dec i j) as [->|Hn].
  - destruct (Nat.lt_ge_cases j (length l)) as [H|H].
    + rewrite upd_nth_same by auto. intuition.
    + rewrite upd_out by auto. intuition lia.
  - rewrite upd_nth_other by auto. intuition.
Qed.

Lemma set_all_length : forall idxs l, length (set_all l idxs) = length l.
Proof. unfold set_all. induction idxs as [|i idxs IH]; intros l; cbn; auto. rewrite IH, upd_length. auto. Qed.

Lemma tr_set_all : forall idxs l j, tr (set_all l idxs) j <->
  tr l j \/ (j < length l /\ exists i, In i idxs /\ j = Z.to_nat i).
Proof.
  unfold set_all. induction idxs as [|i idxs IH]; intros l j; cbn.
  - split; auto. intros [H|(_ & i & [] & _)]; auto.
  - rewrite IH, tr_upd, upd_length. split.
    + intros [[H|[-> H]]|[H (i' & Hi & E)]]; eauto 7.
    + intros [H|(H & i' & [<-|Hi] & E)]; auto; [left; right; subst; auto|right; eauto].
Qed.

Lemma tr_repeat : forall n j, ~ tr (repeat false n) j.
Proof. intros n j H. unfold tr in H. rewrite nth_repeat in H. discriminate. Qed.

Lemma out_of_false : forall a b i, out_of a b i = false <-> (a <= i < b)%Z.
Proof. intros a b i. unfold out_of. rewrite orb_false_iff, Z.ltb_ge, Z.leb_gt. intuition. Qed.

Lemma Ok_inj : forall {A} (a b : A), Ok a = Ok b -> a = b.
Proof. intros A a b H. congruence. Qed.

(** ** generate_nb *)
Lemma generate_sound : forall n pf choice out, generate_nb n pf choice = Ok out ->
  length out = n /\
  forall i, tr out i <->
    exists z, i = Z.to_nat z /\ (0 <= z < Z.of_nat n)%Z /\
      if pf then hd_error (choice 0 0%Z (Z.of_nat n)) = Some z else In z (choice 0 0%Z (Z.of_nat n)).
Proof.
  intros n pf choice out H. unfold generate_nb in H.
  destruct (choice 0 0%Z (Z.of_nat n)) as [|z zs] eqn:E.
  - injection H as <-. split; [apply repeat_length|]. intros i. split; [intros C; apply tr_repeat in C as []|].
    intros (z & _ & _ & C). destruct pf; cbn in C; [discriminate|destruct C].
  - destruct pf; apply raise_if_ok in H as [Hc H]; apply Ok_inj in H; subst out.
    + apply out_of_false in Hc. split; [rewrite upd_length; apply repeat_length|].
      intros i. rewrite tr_upd, repeat_length. split.
      * intros [C|[-> Hi]]; [apply tr_repeat in C as []|]. exists z. cbn. auto.
      * intros (z' & -> & Hz & Ez). cbn in Ez. injection Ez as <-. right. split; auto. lia.
    + split; [rewrite set_all_length; apply repeat_length|]. intros i. rewrite tr_set_all, repeat_length. split.
      * intros [C|(Hi & z' & Hin & ->)]; [apply tr_repeat in C as []|]. exists z'. split; auto. split; auto.
        apply out_of_false. destruct (out_of 0 (Z.of_nat n) z') eqn:C; auto.
        rewrite <- Hc. symmetry. apply existsb_exists. eauto.
      * intros (z' & -> & Hz & Hin). right. split; [lia|eauto].
Qed.

Lemma generate_raises : forall n (pf : bool) (choice : Choice),
  (if pf then exists z, hd_error (choice 0 0%Z (Z.of_nat n)) = Some z /\ ~ (0 <= z < Z.of_nat n)%Z
   else exists z, In z (choice 0 0%Z (Z.of_nat n)) /\ ~ (0 <= z < Z.of_nat n)%Z) ->
  exists m, generate_nb n pf choice = Err (ValueError m).
Proof.
  intros n pf choice H. unfold generate_nb. destruct (choice 0 0%Z (Z.of_nat n)) as [|z zs].
  - destruct pf; destruct H as (z & C & _); [discriminate|destruct C].
  - destruct pf; destruct H as (z' & C & Hz).
    + injection C as <-. rewrite (proj1 (not_false_iff_true (out_of 0 (Z.of_nat n) z))); [eexists; reflexivity|].
      intros F; apply out_of_false in F; auto.
    + assert (E : existsb (out_of 0 (Z.of_nat n)) (z :: zs) = true).
      { apply existsb_exists. exists z'. split; auto. apply not_false_iff_true. intros F; apply out_of_false in F; auto. }
      rewrite E. eexists; reflexivity.
Qed.

(** ** generate_ex_nb *)

(** The indices that the choice function contributes for one entry *)
Definition picked (pf : bool) (idxs : list Z) (z : Z) : Prop :=
  if pf then hd_error idxs = Some z else In z idxs.

Lemma ex_step_ok : forall n wait un sk pf choice k e next ex la ex' la',
  (0 <= wait)%Z -> length ex = n -> (match next with Some e' => e' < n | None => True end) ->
  ex_step n wait un sk pf choice k e next (ex, la) = Ok (ex', la') ->
  let from := (Z.of_nat e + wait)%Z in
  let to := window_end n un next in
  length ex' = n /\
  (forall j, tr ex j -> tr ex' j) /\
  (forall j, tr ex' j -> tr ex j \/ exists z, j = Z.to_nat z /\ (from <= z < to)%Z /\ picked pf (choice k from to) z) /\
  (sk && (Z.of_nat e <=? la)%Z = false -> (from < to)%Z -> forall z, picked pf (choice k from to) z ->
     (from <= z < to)%Z /\ tr ex' (Z.to_nat z)).
Proof.
  intros n wait un sk pf choice k e next ex la ex' la' Hw Hl Hn H from to. unfold ex_step in H.
  fold (window_end n un next) in H. fold from in H. fold to in H.
  assert (Ht : (to <= Z.of_nat n)%Z).
  { unfold to, window_end. destruct next; [|lia]. destruct un; lia. }
  destruct (sk && (Z.of_nat e <=? la)%Z) eqn:Es.
  { injection H as <- <-. split; auto. split; auto. split; auto. discriminate. }
  destruct (Z.ltb_spec from to) as [Hft|Hft].
  2:{ injection H as <- <-. split; auto. split; auto. split; auto. lia. }
  destruct (choice k from to) as [|z zs] eqn:E.
  { injection H as <- <-. split; auto. split; auto. split; auto. intros _ _ z C. destruct pf; cbn in C; [discriminate|destruct C]. }
  destruct pf; apply raise_if_ok in H as [Hc H]; apply Ok_inj, pair_equal_spec in H as [<- <-].
  - apply out_of_false in Hc. split; [rewrite upd_length; auto|]. split; [intros j Hj; apply tr_upd; auto|]. split.
    + intros j Hj. apply tr_upd in Hj as [Hj|[-> Hj]]; auto. right. exists z. cbn. auto.
    + intros _ _ z' Hz. cbn in Hz. injection Hz as <-. split; auto. apply tr_upd. right. split; auto. lia.
  - assert (Hall : forall z', In z' (z :: zs) -> (from <= z' < to)%Z).
    { intros z' Hin. apply out_of_false. destruct (out_of from to z') eqn:C; auto.
      rewrite <- Hc. symmetry. apply existsb_exists. eauto. }
    split; [rewrite set_all_length; auto|]. split; [intros j Hj; apply tr_set_all; auto|]. split.
    + intros j Hj. apply tr_set_all in Hj as [Hj|(Hj & z' & Hin & ->)]; auto. right. exists z'. split; auto.
    + intros _ _ z' Hz. split; [apply Hall; auto|]. apply tr_set_all. right. specialize (Hall z' Hz). split; [lia|]. eauto.
Qed.

Lemma ex_loop_ok : forall n wait un sk pf choice es k ex la ex' la',
  (0 <= wait)%Z -> length ex = n -> Forall (fun e => e < n) es ->
  ex_loop n wait un sk pf choice k es (ex, la) = Ok (ex', la') ->
  length ex' = n /\
  (forall j, tr ex j -> tr ex' j) /\
  (forall j, tr ex' j -> tr ex j \/ exists m e z, nth_error es m = Some e /\ j = Z.to_nat z /\
      let from := (Z.of_nat e + wait)%Z in let to := window_end n un (nth_error es (S m)) in
      (from <= z < to)%Z /\ picked pf (choice (k + m) from to) z) /\
  (sk = false -> forall m e z, nth_error es m = Some e ->
      let from := (Z.of_nat e + wait)%Z in let to := window_end n un (nth_error es (S m)) in
      (from < to)%Z -> picked pf (choice (k + m) from to) z -> (from <= z < to)%Z /\ tr ex' (Z.to_nat z)).
Proof.
  intros n wait un sk pf choice es. induction es as [|e es IH]; intros k ex la ex' la' Hw Hl Hes H.
  - cbn in H. injection H as <- <-. split; auto. split; auto. split; auto. intros _ m e z C. destruct m; discriminate.
  - cbn [ex_loop] in H. apply bind_ok in H as ([ex1 la1] & H1 & H2). inversion Hes as [|? ? He Hes']; subst.
    destruct (ex_step_ok (length ex) wait un sk pf choice k e (hd_error es) ex la ex1 la1 Hw eq_refl) as (A1 & A2 & A3 & A4); auto.
    { destruct es as [|e' es]; cbn; auto. inversion Hes'; auto. }
    destruct (IH _ _ _ _ _ Hw A1 Hes' H2) as (B1 & B2 & B3 & B4).
    split; auto. split; auto. split.
    + intros j Hj. apply B3 in Hj as [Hj|(m & e' & z & M1 & M2 & M3)].
      * apply A3 in Hj as [Hj|(z & Z1 & Z2 & Z3)]; auto. right. exists 0, e, z. cbn [nth_error].
        rewrite Nat.add_0_r. replace (nth_error es 0) with (hd_error es) by (destruct es; auto). auto.
      * right. exists (S m), e', z. cbn [nth_error]. replace (k + S m) with (S k + m) by lia. auto.
    + intros Hsk m e' z Hm. cbn zeta. destruct m as [|m].
      * cbn in Hm. injection Hm as <-. cbn [nth_error]. rewrite Nat.add_0_r.
        replace (match es with [] => None | x :: _ => Some x end) with (hd_error es) by (destruct es; auto).
        replace (nth_error es 0) with (hd_error es) by (destruct es; auto).
        intros Hft Hz. rewrite Hsk in A4. destruct (A4 eq_refl Hft z Hz). split; auto.
      * cbn [nth_error] in *. replace (k + S m) with (S k + m) by lia. intros Hft Hz. apply (B4 Hsk m e' z); auto.
Qed.

Lemma sorted_nth : forall l, StronglySorted lt l -> forall i j a b, i < j -> nth_error l i = Some a -> nth_error l j = Some b -> a < b.
Proof.
  intros l H. induction H as [|x l Hl IH Hx]; intros i j a b Hij Ha Hb; [destruct i; discriminate|].
  destruct j as [|j]; [lia|]. destruct i as [|i]; cbn in *.
  - injection Ha as <-. rewrite Forall_forall in Hx. apply Hx. eapply nth_error_In; eauto.
  - eapply (IH i j); eauto. lia.
Qed.

Lemma flatnonzero_next : forall l m e, nth_error (flatnonzero l) m = Some e ->
  next_true l e (nth_error (flatnonzero l) (S m)).
Proof.
  intros l m e Hm. pose proof (flatnonzero_sorted l) as S.
  assert (G : forall j, e < j -> tr l j -> exists k, m < k /\ nth_error (flatnonzero l) k = Some j).
  { intros j Hj Ht. apply flatnonzero_in, In_nth_error in Ht as (k & Hk). exists k. split; auto.
    destruct (Nat.lt_trichotomy m k) as [|[->|C]]; auto; [rewrite Hm in Hk; injection Hk as ->; lia|].
    pose proof (sorted_nth _ S _ _ _ _ C Hk Hm). lia. }
  destruct (nth_error (flatnonzero l) (Datatypes.S m)) as [e'|] eqn:E; cbn.
  - split; [eapply (sorted_nth _ S m (Datatypes.S m)); eauto|]. split; [apply flatnonzero_in; eapply nth_error_In; eauto|].
    intros j Hj Ht. destruct (G j) as (k & K1 & K2); [lia|auto|].
    destruct (Nat.eq_dec k (Datatypes.S m)) as [->|]; [rewrite E in K2; injection K2 as ->; lia|].
    assert (Hk : Datatypes.S m < k) by lia. pose proof (sorted_nth _ S _ _ _ _ Hk E K2). lia.
  - intros j Hj Ht. destruct (G j) as (k & K1 & K2); auto. apply nth_error_None in E.
    assert (k < length (flatnonzero l)) by (apply nth_error_Some; congruence). lia.
Qed.

Lemma generate_ex_sound : forall entries wait un sk pf choice exits, (0 <= wait)%Z ->
  generate_ex_nb entries wait un sk pf choice = Ok exits ->
  length exits = length entries /\
  forall j, tr exits j -> exists e, tr entries e /\ (Z.of_nat e + wait <= Z.of_nat j)%Z /\ j < length entries /\
    (un = true -> forall e', e < e' <= j -> ~ tr entries e').
Proof.
  intros entries wait un sk pf choice exits Hw H. unfold generate_ex_nb in H.
  apply bind_ok in H as ([ex la] & H & E). injection E as <-.
  apply ex_loop_ok in H as (L & _ & S & _); auto; [|apply repeat_length|].
  2:{ apply Forall_forall. intros e He. apply flatnonzero_in, tr_lt in He. auto. }
  split; auto. intros j Hj. apply S in Hj as [C|(m & e & z & Hm & -> & Hz & _)]; [apply tr_repeat in C as []|].
  exists e. split; [apply flatnonzero_in; eapply nth_error_In; eauto|].
  pose proof (flatnonzero_next _ _ _ Hm) as Hn.
  destruct (nth_error (flatnonzero entries) (Datatypes.S m)) as [e'|]; cbn [window_end] in Hz.
  - destruct Hn as (N1 & N2 & N3). apply tr_lt in N2 as N2'. destruct un.
    + split; [lia|]. split; [lia|]. intros _ e2 He2. apply N3. lia.
    + split; [lia|]. split; [lia|]. discriminate.
  - split; [lia|]. split; [lia|]. intros _ e2 He2. apply Hn. lia.
Qed.

(** Without [skip_until_exit] the exits are exactly the indices picked. *)
Lemma generate_ex_exact : forall entries wait un (pf : bool) (choice : Choice) exits, (0 <= wait)%Z ->
  generate_ex_nb entries wait un false pf choice = Ok exits ->
  forall j, tr exits j <-> exists m e z next, nth_error (flatnonzero entries) m = Some e /\
    next_true entries e next /\
    let from := (Z.of_nat e + wait)%Z in let to := window_end (length entries) un next in
    (from < to)%Z /\ (if pf then hd_error (choice m from to) = Some z else In z (choice m from to)) /\ j = Z.to_nat z.
Proof.
  intros entries wait un pf choice exits Hw H j. unfold generate_ex_nb in H.
  apply bind_ok in H as ([ex la] & H & E). injection E as <-.
  apply ex_loop_ok in H as (L & _ & S & C); auto; [|apply repeat_length|].
  2:{ apply Forall_forall. intros e He. apply flatnonzero_in, tr_lt in He. auto. }
  split.
  - intros Hj. apply S in Hj as [F|(m & e & z & Hm & -> & Hz & Hp)]; [apply tr_repeat in F as []|].
    exists m, e, z, (nth_error (flatnonzero entries) (Datatypes.S m)). split; auto.
    split; [apply flatnonzero_next; auto|]. cbn zeta. split; [lia|]. split; auto.
  - intros (m & e & z & next & Hm & Hn & Hft & Hp & ->).
    assert (En : next = nth_error (flatnonzero entries) (Datatypes.S m)).
    { pose proof (flatnonzero_next _ _ _ Hm) as Hn'.
      destruct next as [a|], (nth_error (flatnonzero entries) (Datatypes.S m)) as [b|]; cbn in Hn, Hn'; auto.
      - destruct Hn as (A1 & A2 & A3), Hn' as (B1 & B2 & B3). f_equal.
        destruct (Nat.lt_trichotomy a b) as [F|[F|F]]; auto; exfalso; [eapply B3|eapply A3]; eauto.
      - exfalso. eapply Hn'; [|apply Hn]. lia.
      - exfalso. eapply Hn; [|apply Hn']. lia. }
    subst next. apply (C eq_refl m e z); auto.
Qed.

(** A choice outside of its window raises (shown for the first entry). *)
Lemma generate_ex_raises : forall entries wait un sk (pf : bool) (choice : Choice) e es z,
  flatnonzero entries = e :: es ->
  let from := (Z.of_nat e + wait)%Z in let to := window_end (length entries) un (hd_error es) in
  (from < to)%Z -> (if pf then hd_error (choice 0 from to) = Some z else In z (choice 0 from to)) ->
  ~ (from <= z < to)%Z ->
  exists m, generate_ex_nb entries wait un sk pf choice = Err (ValueError m).
Proof.
  intros entries wait un sk pf choice e es z Hf from to Hft Hp Hz.
  unfold generate_ex_nb. rewrite Hf. cbn [ex_loop].
  assert (E : exists m, ex_step (length entries) wait un sk pf choice 0 e (hd_error es) (repeat false (length entries), (-1)%Z) = Err (ValueError m)).
  { unfold ex_step. fold (window_end (length entries) un (hd_error es)). fold from. fold to.
    rewrite (proj2 (Z.leb_gt _ _)) by lia. rewrite andb_false_r. rewrite (proj2 (Z.ltb_lt from to)) by auto.
    destruct (choice 0 from to) as [|z0 zs]; [destruct pf; cbn in Hp; [discriminate|destruct Hp]|].
    destruct pf.
    - cbn in Hp. injection Hp as ->.
      rewrite (proj1 (not_false_iff_true (out_of from to z))); [eexists; reflexivity|]. intros F; apply out_of_false in F; auto.
    - assert (E : existsb (out_of from to) (z0 :: zs) = true).
      { apply existsb_exists. exists z. split; auto. apply not_false_iff_true. intros F; apply out_of_false in F; auto. }
      rewrite E. eexists; reflexivity. }
  destruct E as [m E]. exists m. rewrite E. reflexivity.
Qed.

(** No index outside of a window is ever accepted. *)
Lemma generate_ex_checked : forall entries wait un (pf : bool) (choice : Choice) exits, (0 <= wait)%Z ->
  generate_ex_nb entries wait un false pf choice = Ok exits ->
  forall m e next z, nth_error (flatnonzero entries) m = Some e -> next_true entries e next ->
    let from := (Z.of_nat e + wait)%Z in let to := window_end (length entries) un next in
    (from < to)%Z -> (if pf then hd_error (choice m from to) = Some z else In z (choice m from to)) ->
    (from <= z < to)%Z.
Proof.
  intros entries wait un pf choice exits Hw H m e next z Hm Hn from to Hft Hp. unfold generate_ex_nb in H.
  apply bind_ok in H as ([ex la] & H & E). injection E as <-.
  apply ex_loop_ok in H as (L & _ & S & C); auto; [|apply repeat_length|].
  2:{ apply Forall_forall. intros e' He. apply flatnonzero_in, tr_lt in He. auto. }
  assert (En : next = nth_error (flatnonzero entries) (Datatypes.S m)).
  { pose proof (flatnonzero_next _ _ _ Hm) as Hn'.
    destruct next as [a|], (nth_error (flatnonzero entries) (Datatypes.S m)) as [b|]; cbn in Hn, Hn'; auto.
    - destruct Hn as (A1 & A2 & A3), Hn' as (B1 & B2 & B3). f_equal.
      destruct (Nat.lt_trichotomy a b) as [F|[F|F]]; auto; exfalso; [eapply B3|eapply A3]; eauto.
    - exfalso. eapply Hn'; [|apply Hn]. lia.
    - exfalso. eapply Hn; [|apply Hn']. lia. }
  unfold to. subst next. apply (C eq_refl m e z); auto.
Qed.
