(** * Lemmas about crossovers *)
From Coq Require Import ZArith Bool List Arith Lia.
From Verif Require Import Base Num GenericNb XQFacts GenericSpec OrdLaws GenericLemmas GenericLemmas4.
Import ListNotations.
Local Open Scope nat_scope.

Section Crossed.
  Context {T : Type} {N : Num T} {L : OrdLaws N}.
  Variables a b : list T.

  Lemma combine_nth_error : forall i x y, nth_error (combine a b) i = Some (x, y) ->
    nth_error a i = Some x /\ nth_error b i = Some y.
  Proof.
    clear L. revert b. induction a as [|x0 a' IH]; intros [|y0 b'] [|i] x y H; cbn in H |- *; try discriminate.
    - injection H as -> ->. auto.
    - apply IH; auto.
  Qed.

  Lemma not_known_above : forall i, above a b i -> both_known a b i.
  Proof. intros i (x & y & Hx & Hy & _). split; eauto. Qed.
  Lemma above_not_below : forall i, above a b i -> below a b i -> False.
  Proof.
    intros i (x & y & [Hx _] & [Hy _] & H) (x' & y' & [Hx' _] & [Hy' _] & H').
    assert (x' = x) by congruence. assert (y' = y) by congruence. subst. rewrite (ol_asym _ _ H) in H'. discriminate.
  Qed.

  Definition seen_below (n : nat) : Prop := exists j, j < n /\ below a b j /\ forall m, j <= m < n -> both_known a b m.

  Definition cross_inv (n : nat) (s : bool * Z) : Prop :=
    let (wb, ago) := s in
    (wb = true <-> seen_below n) /\
    (if wb then exists c, ago = (Z.of_nat c - 1)%Z /\ c < n /\ (forall m, n - c <= m < n -> above a b m) /\
         both_known a b (n - c - 1) /\ ~ above a b (n - c - 1)
     else ago = (-1)%Z).

  Lemma cross_step : forall wait n s x y, nth_error a n = Some x -> nth_error b n = Some y -> cross_inv n s ->
    cross_inv (S n) (fst (crossed_step wait n s (x, y))).
  Proof.
    intros wait n [wb ago] x y Hx Hy [HB HC]. unfold crossed_step.
    destruct (isnan x || isnan y) eqn:En.
    - cbn [fst]. split; auto. split; [discriminate|]. intros (j & Hj & _ & Hk).
      destruct (Hk n ltac:(lia)) as [(x' & Hx' & Nx) (y' & Hy' & Ny)].
      assert (x' = x) by congruence. assert (y' = y) by congruence. subst. rewrite Nx, Ny in En. discriminate.
    - apply orb_false_elim in En as [Nx Ny].
      assert (Hxh : holds a n x) by (split; auto). assert (Hyh : holds b n y) by (split; auto).
      assert (Hkn : both_known a b n) by (split; eauto).
      assert (Hpush : seen_below n -> seen_below (S n)).
      { intros (j & Hj & Hb & Hk). exists j. split; [lia|]. split; auto. intros m Hm. destruct (Nat.eq_dec m n) as [->|]; auto. apply Hk. lia. }
      assert (Hpop : ~ below a b n -> seen_below (S n) -> seen_below n).
      { intros Hnb (j & Hj & Hb & Hk). destruct (Nat.eq_dec j n) as [->|]; [contradiction|]. exists j. split; [lia|]. split; auto. intros m Hm. apply Hk. lia. }
      destruct (gtb x y) eqn:Eg.
      + assert (Hab : above a b n) by (exists x, y; auto).
        assert (Hnb : ~ below a b n) by (intros Hb; eapply above_not_below; eauto).
        destruct wb; cbn [fst].
        * split; [split; auto; intros _; apply Hpush, HB; auto|].
          destruct HC as (c & -> & Hc & Hm & Hk & Hna). exists (S c). split; [lia|]. split; [lia|]. split.
          -- intros m Hm'. destruct (Nat.eq_dec m n) as [->|]; auto. apply Hm. lia.
          -- replace (S n - S c - 1) with (n - c - 1) by lia. auto.
        * split; auto. split; [discriminate|]. intros Hs. apply HB, Hpop; auto.
      + assert (Hna : ~ above a b n).
        { intros (x' & y' & [Hx' _] & [Hy' _] & H). assert (x' = x) by congruence. assert (y' = y) by congruence. subst.
          unfold gtb in Eg. congruence. }
        assert (Hend : exists c, (-1)%Z = (Z.of_nat c - 1)%Z /\ c < S n /\ (forall m, S n - c <= m < S n -> above a b m) /\
           both_known a b (S n - c - 1) /\ ~ above a b (S n - c - 1)).
        { exists 0. split; auto. split; [lia|]. split; [intros; lia|]. replace (S n - 0 - 1) with n by lia. auto. }
        destruct (eqb x y) eqn:Ee; cbn [fst].
        * assert (Hnb : ~ below a b n).
          { intros (x' & y' & [Hx' _] & [Hy' _] & H). assert (x' = x) by congruence. assert (y' = y) by congruence. subst.
            rewrite ol_eqb in Ee. apply andb_prop in Ee as [_ Ee]. rewrite (ltb_true_leb_false _ _ H) in Ee. discriminate. }
          destruct wb; split; auto.
          -- split; auto. intros _. apply Hpush, HB; auto.
          -- split; [discriminate|]. intros Hs. apply HB, Hpop; auto.
        * split; auto. split; auto. intros _. exists n. split; [lia|]. split.
          -- exists x, y. split; auto. split; auto. apply leb_false_ltb; auto.
             rewrite ol_eqb in Ee. unfold gtb in Eg. rewrite (ltb_false_leb y x) in Ee by auto. rewrite andb_true_l in Ee || rewrite andb_true_r in Ee. exact Ee.
          -- intros m Hm. replace m with n by lia. auto.
  Qed.

  Lemma crossed_run : forall wait i, i < length a -> length a = length b ->
    exists v, nth_error (crossed_above_1d_nb a b wait) i = Some v /\ (v = true <-> crosses a b wait i).
  Proof.
    intros wait i Hi HL. unfold crossed_above_1d_nb.
    destruct (nth_error (combine a b) i) as [[x y]|] eqn:E.
    2:{ apply nth_error_None in E. rewrite combine_length in E. lia. }
    destruct (scan_spec (crossed_step wait) cross_inv (combine a b) (false, (-1)%Z)) with (k := i) (x := (x, y)) as (s & HI & Ho); auto.
    - split; auto. split; [discriminate|]. intros (j & Hj & _). lia.
    - intros k s [x' y'] Hk HI. apply combine_nth_error in Hk as [H1 H2]. apply cross_step; auto.
    - eexists. split; [exact Ho|]. apply combine_nth_error in E as [Hx Hy].
      destruct s as [wb ago]. destruct HI as [HB HC]. unfold crossed_step.
      destruct (isnan x || isnan y) eqn:En.
      { cbn [snd]. split; [discriminate|]. intros (H1 & H2 & _). exfalso.
        destruct (H2 i ltac:(lia)) as (x' & y' & [Hx' Nx] & [Hy' Ny] & _). assert (x' = x) by congruence. assert (y' = y) by congruence. subst.
        rewrite Nx, Ny in En. discriminate. }
      apply orb_false_elim in En as [Nx Ny].
      assert (Hkn : both_known a b i) by (split; eexists; split; eauto).
      destruct (gtb x y) eqn:Eg.
      + assert (Hab : above a b i) by (exists x, y; repeat split; auto).
        destruct wb; cbn [snd].
        * destruct HC as (c & -> & Hc & Hm & Hk & Hna). destruct (proj1 HB eq_refl) as (j & Hj & Hbj & Hjk).
          replace (Z.of_nat c - 1 + 1)%Z with (Z.of_nat c) by lia. rewrite Z.eqb_eq. split.
          -- intros Ec. assert (c = wait) by lia. subst c. split; [lia|]. split; [|split; [|split]]; auto.
             ++ intros m Hm'. destruct (Nat.eq_dec m i) as [->|]; auto. apply Hm. lia.
             ++ exists j. split; [|split; auto].
                ** destruct (lt_dec j (i - wait)); auto. exfalso. apply (above_not_below j); auto. apply Hm. lia.
                ** intros m Hm'. destruct (Nat.eq_dec m i) as [->|]; auto. apply Hjk. lia.
          -- intros (H1 & H2 & H3 & H4 & _). destruct (lt_eq_lt_dec c wait) as [[Hl|He]|Hg]; [|lia|].
             ++ exfalso. apply Hna. apply H2. lia.
             ++ exfalso. apply H4. apply Hm. lia.
        * split; [discriminate|]. intros (H1 & H2 & H3 & H4 & j & Hj & Hb & Hk). assert (X : false = true); [|discriminate].
          apply HB. exists j. split; [lia|]. split; auto. intros m Hm. apply Hk. lia.
      + assert (Hna : ~ above a b i).
        { intros (x' & y' & [Hx' _] & [Hy' _] & H). assert (x' = x) by congruence. assert (y' = y) by congruence. subst.
          unfold gtb in Eg. congruence. }
        destruct (eqb x y); cbn [snd]; (split; [discriminate|]; intros (H1 & H2 & _); exfalso; apply Hna, H2; lia).
  Qed.
End Crossed.

Lemma crossed_length : forall {T} {N : Num T} (a b : list T) wait, length a = length b -> length (crossed_above_1d_nb a b wait) = length a.
Proof. intros T N a b wait H. unfold crossed_above_1d_nb. rewrite scan_length, combine_length. lia. Qed.

Lemma crossed_causal : forall {T} {N : Num T} (a b : list T) wait n,
  crossed_above_1d_nb (firstn n a) (firstn n b) wait = firstn n (crossed_above_1d_nb a b wait).
Proof.
  intros T N a b wait n. unfold crossed_above_1d_nb. rewrite <- combine_firstn, scan_firstn. reflexivity.
Qed.
