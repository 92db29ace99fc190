(** * Local extrema: what the loop maintains *)
From Coq Require Import String ZArith Bool List Arith Lia.
From Verif Require Import Base Num OrdLaws GenericNb ReturnsNb LabelsNb LabelsSpec.
Import ListNotations.
Local Open Scope string_scope.
Local Open Scope list_scope.
Local Open Scope nat_scope.

Lemma foldM_seq_inv : forall S (P : nat -> S -> Prop) (f : S -> nat -> res S) m a s s',
  P a s -> (forall k s s', a <= k < a + m -> P k s -> f s k = Ok s' -> P (Datatypes.S k) s') ->
  foldM f s (seq a m) = Ok s' -> P (a + m) s'.
Proof.
  intros S P f. induction m as [|m IH]; intros a s s' H0 Hs H; cbn [seq foldM] in H.
  - injection H as <-. rewrite Nat.add_0_r. auto.
  - apply bind_ok in H as (s1 & H1 & H2). replace (a + Datatypes.S m) with (Datatypes.S a + m) by lia.
    apply (IH (Datatypes.S a) s1); auto.
    + apply (Hs a s); auto. lia.
    + intros k s0 s0' Hk HP Hf. apply (Hs k s0); auto. lia.
Qed.

Lemma foldM_seq_ok : forall S (P : nat -> S -> Prop) (f : S -> nat -> res S) m a s,
  P a s -> (forall k s, a <= k < a + m -> P k s -> exists s', f s k = Ok s' /\ P (Datatypes.S k) s') ->
  exists s', foldM f s (seq a m) = Ok s'.
Proof.
  intros S P f. induction m as [|m IH]; intros a s H0 Hs; cbn [seq foldM]; [eauto|].
  destruct (Hs a s) as (s' & E & HP); [lia|auto|]. rewrite E. cbn [bind]. apply IH; auto.
  intros k s0 Hk. apply Hs. lia.
Qed.

Lemma nth_upd : forall A (l : list A) i v j d, nth j (upd l i v) d =
  if Nat.eqb i j && Nat.ltb i (length l) then v else nth j l d.
Proof.
  intros A l i v j d. destruct (Nat.eqb_spec i j) as [->|Hn]; cbn [andb].
  - destruct (Nat.ltb_spec j (length l)); [apply upd_nth_same; auto|rewrite upd_out; auto].
  - apply upd_nth_other. auto.
Qed.

Section Extrema.
  Context {T : Type} {N : Num T} {L : OrdLaws N}.
  Variables (close : list T) (pos_th neg_th : nat -> T).
  Notation pr := (price close).
  Let n := length close.

  Definition link (p q : nat) (lp lq : Z) : Prop :=
    lq = (- lp)%Z /\
    (lp = (-1)%Z -> up_by close (pos_th p) p q = true /\ forall i, p < i < q -> leb (pr q) (pr i) = false) /\
    (lp = 1%Z -> down_by close (neg_th p) p q = true /\ forall i, p < i < q -> leb (pr i) (pr q) = false).

  Definition pend (q : nat) (l : Z) (k : nat) : Prop :=
    forall i, q < i < k ->
      (l = 1%Z -> ltb (pr q) (pr i) = false /\ down_by close (neg_th q) q i = false) /\
      (l = (-1)%Z -> ltb (pr i) (pr q) = false /\ up_by close (pos_th q) q i = false).

  Record Marks (out : list Z) : Prop := {
    m_len : length out = n;
    m_vals : forall i, nth i out 0%Z = (-1)%Z \/ nth i out 0%Z = 0%Z \/ nth i out 0%Z = 1%Z;
    m_adj : forall p q, adjacent out p q -> link p q (nth p out 0%Z) (nth q out 0%Z);
    m_first : forall i, nth i out 0%Z <> 0%Z -> nth 0 out 0%Z <> 0%Z }.

  Definition quiet (k : nat) : Prop :=
    forall i, 0 < i < k -> up_by close (pos_th 0) 0 i = false /\ down_by close (neg_th 0) 0 i = false.

  Record Inv (k : nat) (s : Ext) : Prop := {
    i_marks : Marks (x_out s);
    i_prev : x_prev s < k;
    i_k : k <= n;
    i_zeros : forall i, x_prev s <= i -> nth i (x_out s) 0%Z = 0%Z;
    i_cases : (x_dir s = 0%Z /\ x_prev s = 0 /\ quiet k) \/
      ((x_dir s = 1 \/ x_dir s = -1)%Z /\ exists p, p < x_prev s /\ nth p (x_out s) 0%Z = x_dir s /\
         (forall i, p < i -> nth i (x_out s) 0%Z = 0%Z) /\
         link p (x_prev s) (x_dir s) (- x_dir s) /\ pend (x_prev s) (- x_dir s) k) }.

  Lemma commit : forall k s l, Inv k s -> (l = 1 \/ l = -1)%Z -> (x_dir s <> 0%Z -> l = (- x_dir s)%Z) ->
    let out := upd (x_out s) (x_prev s) l in
    Marks out /\ nth (x_prev s) out 0%Z = l /\ (forall i, x_prev s < i -> nth i out 0%Z = 0%Z).
  Proof.
    intros k s l [[M1 M2 M3 M4] Hp Hk Hz Hc] Hl Hd out.
    assert (Hlt : x_prev s < length (x_out s)) by lia.
    assert (Hn : forall j, nth j out 0%Z = if Nat.eqb (x_prev s) j then l else nth j (x_out s) 0%Z).
    { intros j. unfold out. rewrite nth_upd. apply Nat.ltb_lt in Hlt. rewrite Hlt, andb_true_r. auto. }
    assert (Hsame : nth (x_prev s) out 0%Z = l) by (rewrite Hn, Nat.eqb_refl; auto).
    assert (Hoth : forall j, j <> x_prev s -> nth j out 0%Z = nth j (x_out s) 0%Z).
    { intros j Hj. rewrite Hn. destruct (Nat.eqb_spec (x_prev s) j); congruence. }
    assert (Hafter : forall j, x_prev s < j -> nth j out 0%Z = 0%Z).
    { intros j Hj. rewrite Hoth by lia. apply Hz. lia. }
    assert (Hlen : length out = length (x_out s)) by (unfold out; apply upd_length).
    split; [|split]; auto. split.
    - congruence.
    - intros j. destruct (Nat.eq_dec j (x_prev s)) as [->|Hj]; [rewrite Hsame; tauto|rewrite Hoth; auto].
    - intros p q (Hpq & Hp0 & Hq0 & Hb).
      assert (Hqle : q <= x_prev s) by (destruct (le_lt_dec q (x_prev s)); auto; exfalso; apply Hq0, Hafter; auto).
      destruct (Nat.eq_dec q (x_prev s)) as [->|Hq].
      + rewrite Hsame. rewrite (Hoth p) in * by lia.
        destruct Hc as [(_ & E & _)|(Hdir & p0 & Hp1 & Hp2 & Hp3 & Hlk & _)]; [lia|].
        assert (p = p0).
        { destruct (lt_eq_lt_dec p p0) as [[Hlt'|]|Hlt']; auto; exfalso.
          - assert (E := Hb p0 ltac:(lia)). rewrite Hoth in E by lia. lia.
          - apply Hp0. auto. }
        subst p0. rewrite Hp2. rewrite Hd by lia. auto.
      + rewrite (Hoth p), (Hoth q) in * by lia. apply M3. repeat split; auto; try lia.
        intros i Hi. rewrite <- (Hoth i) by lia. auto.
    - intros i Hi. destruct (Nat.eq_dec (x_prev s) 0) as [E|E].
      + rewrite <- E, Hsame. lia.
      + destruct Hc as [(_ & E' & _)|(Hdir & p0 & Hp1 & Hp2 & _)]; [congruence|].
        rewrite (Hoth 0) by lia. apply (M4 p0). lia.
  Qed.

  (** The loop body without the final mark. *)
  Definition core (s : Ext) (i : nat) : Ext :=
    let prev := x_prev s in
    let c := nth i close nan in
    let p := nth prev close nan in
    let up := geb c (mul p (add one (abs (pos_th prev)))) in
    let down := leb c (mul p (sub one (abs (neg_th prev)))) in
    let trough := mkExt (upd (x_out s) prev (-1)%Z) i (-1)%Z in
    let peak := mkExt (upd (x_out s) prev 1%Z) i 1%Z in
    if Z.eqb (x_dir s) 1 then
      if ltb c p then mkExt (x_out s) i (x_dir s) else if up then trough else s
    else if Z.eqb (x_dir s) (-1) then
      if gtb c p then mkExt (x_out s) i (x_dir s) else if down then peak else s
    else if up then trough else if down then peak else s.

  Definition finish (s : Ext) (i : nat) : Ext :=
    if Nat.eqb i (n - 1) && negb (Z.eqb (x_dir s) 0)
    then mkExt (upd (x_out s) (x_prev s) (- x_dir s)%Z) (x_prev s) (x_dir s) else s.

  Lemma step_split : forall s i, local_extrema_step close pos_th neg_th s i =
    raise_if (eqb (abs (pos_th (x_prev s))) zero) (ValueError "Positive threshold cannot be 0")
    (raise_if (eqb (abs (neg_th (x_prev s))) zero) (ValueError "Negative threshold cannot be 0")
      (Ok (finish (core s i) i))).
  Proof. reflexivity. Qed.

  Lemma leb_ltb_false : forall a b c : T, leb a b = false -> ltb c b = true -> leb a c = false.
  Proof.
    intros a b c H1 H2. destruct (leb a c) eqn:E; auto.
    assert (F := ltb_leb _ _ (leb_ltb_trans _ _ _ E H2)). congruence.
  Qed.
  Lemma leb_gtb_false : forall a b c : T, leb b a = false -> ltb b c = true -> leb c a = false.
  Proof.
    intros a b c H1 H2. destruct (leb c a) eqn:E; auto.
    assert (F := ltb_leb _ _ (ltb_leb_trans _ _ _ H2 E)). congruence.
  Qed.
  Lemma not_below : forall a b c : T, ltb a b = false -> ltb c b = true -> leb a c = false.
  Proof.
    intros a b c H1 H2. destruct (leb a c) eqn:E; auto.
    assert (F := leb_ltb_trans _ _ _ E H2). congruence.
  Qed.
  Lemma not_above : forall a b c : T, ltb b a = false -> ltb b c = true -> leb c a = false.
  Proof.
    intros a b c H1 H2. destruct (leb c a) eqn:E; auto.
    assert (F := ltb_leb_trans _ _ _ H2 E). congruence.
  Qed.

  Lemma commit_inv : forall k s l, Inv k s -> k < n -> (l = 1 \/ l = -1)%Z -> (x_dir s <> 0%Z -> l = (- x_dir s)%Z) ->
    link (x_prev s) k l (- l) -> Inv (Datatypes.S k) (mkExt (upd (x_out s) (x_prev s) l) k l).
  Proof.
    intros k s l HI Hk Hl Hd Hlk. destruct (commit k s l HI Hl Hd) as (HM & H1 & H2).
    assert (Hp := i_prev _ _ HI). split; cbn [x_out x_prev x_dir]; auto; try lia.
    - intros i Hi. apply H2. lia.
    - right. split; [tauto|]. exists (x_prev s). repeat split; auto; try apply Hlk; intros; lia.
  Qed.

  Lemma up_link : forall k s, Inv k s -> (x_dir s <> -1)%Z -> up_by close (pos_th (x_prev s)) (x_prev s) k = true ->
    link (x_prev s) k (-1) (- -1).
  Proof.
    intros k s HI Hd Hup. split; auto. split; [|intros E; discriminate]. intros _. split; auto.
    intros i Hi. destruct (leb (pr k) (pr i)) eqn:E; auto.
    assert (F : up_by close (pos_th (x_prev s)) (x_prev s) i = true) by (exact (leb_trans _ _ _ Hup E)).
    destruct (i_cases _ _ HI) as [(_ & E0 & Hq)|(Hdir & p & _ & _ & _ & _ & Hpe)].
    - rewrite E0 in *. destruct (Hq i ltac:(lia)). congruence.
    - destruct Hdir as [Hdir|Hdir]; [|congruence]. rewrite Hdir in Hpe.
      destruct (Hpe i Hi) as [_ H]. destruct (H eq_refl). congruence.
  Qed.
  Lemma down_link : forall k s, Inv k s -> (x_dir s <> 1)%Z -> down_by close (neg_th (x_prev s)) (x_prev s) k = true ->
    link (x_prev s) k 1 (-(1)).
  Proof.
    intros k s HI Hd Hup. split; auto. split; [intros E; discriminate|]. intros _. split; auto.
    intros i Hi. destruct (leb (pr i) (pr k)) eqn:E; auto.
    assert (F : down_by close (neg_th (x_prev s)) (x_prev s) i = true) by (exact (leb_trans _ _ _ E Hup)).
    destruct (i_cases _ _ HI) as [(_ & E0 & Hq)|(Hdir & p & _ & _ & _ & _ & Hpe)].
    - rewrite E0 in *. destruct (Hq i ltac:(lia)). congruence.
    - destruct Hdir as [Hdir|Hdir]; [congruence|]. rewrite Hdir in Hpe.
      destruct (Hpe i Hi) as [H _]. destruct (H eq_refl). congruence.
  Qed.

  Lemma core_inv : forall k s, 1 <= k < n -> Inv k s -> Inv (Datatypes.S k) (core s k).
  Proof.
    intros k s Hk HI. unfold core.
    change (geb (nth k close nan) (mul (nth (x_prev s) close nan) (add one (abs (pos_th (x_prev s))))))
      with (up_by close (pos_th (x_prev s)) (x_prev s) k).
    change (leb (nth k close nan) (mul (nth (x_prev s) close nan) (sub one (abs (neg_th (x_prev s))))))
      with (down_by close (neg_th (x_prev s)) (x_prev s) k).
    change (nth k close nan) with (pr k). change (nth (x_prev s) close nan) with (pr (x_prev s)).
    unfold gtb.
    assert (Hp := i_prev _ _ HI).
    destruct (Z.eqb_spec (x_dir s) 1) as [E1|E1]; [|destruct (Z.eqb_spec (x_dir s) (-1)) as [E2|E2]].
    - destruct (i_cases _ _ HI) as [(E0 & _)|(Hdir & p & Hp1 & Hp2 & Hp3 & Hlk & Hpe)]; [lia|].
      rewrite E1 in *. destruct (ltb (pr k) (pr (x_prev s))) eqn:Ec;
        [|destruct (up_by close (pos_th (x_prev s)) (x_prev s) k) eqn:Eu].
      + destruct HI as [HM _ _ Hz _]. split; cbn [x_out x_prev x_dir]; auto; try lia.
        { intros i Hi. apply Hz. lia. }
        right. split; auto. exists p. repeat split; auto; try lia; try (intros; lia).
        * destruct Hlk as (_ & _ & HL). destruct (HL eq_refl) as [H1 _]. unfold down_by in *.
          apply (leb_trans _ (pr (x_prev s))); auto. apply ltb_leb; auto.
        * intros i Hi. destruct (lt_eq_lt_dec i (x_prev s)) as [[Hlt|Heq]|Hlt].
          -- destruct Hlk as (_ & _ & HL). destruct (HL eq_refl) as [_ H1].
             apply (leb_ltb_false _ (pr (x_prev s))); auto. apply H1. lia.
          -- subst i. apply ltb_true_leb_false. auto.
          -- destruct (Hpe i ltac:(lia)) as [_ HL]. destruct (HL eq_refl) as [H1 _].
             apply (not_below _ (pr (x_prev s))); auto.
      + apply commit_inv; auto; try lia. apply up_link; auto; lia.
      + destruct HI as [HM _ _ Hz _]. split; auto; try lia. right. split; auto.
        exists p. rewrite E1. repeat (split; [solve [auto]|]).
        intros i Hi. destruct (Nat.eq_dec i k) as [->|Hne]; [|apply Hpe; lia].
        split; intros E; try discriminate; auto.
    - destruct (i_cases _ _ HI) as [(E0 & _)|(Hdir & p & Hp1 & Hp2 & Hp3 & Hlk & Hpe)]; [lia|].
      rewrite E2 in *. destruct (ltb (pr (x_prev s)) (pr k)) eqn:Ec;
        [|destruct (down_by close (neg_th (x_prev s)) (x_prev s) k) eqn:Eu].
      + destruct HI as [HM _ _ Hz _]. split; cbn [x_out x_prev x_dir]; auto; try lia.
        { intros i Hi. apply Hz. lia. }
        right. split; auto. exists p. repeat split; auto; try lia; try (intros; lia).
        * destruct Hlk as (_ & HL & _). destruct (HL eq_refl) as [H1 _]. unfold up_by in *.
          apply (leb_trans _ (pr (x_prev s))); auto. apply ltb_leb; auto.
        * intros i Hi. destruct (lt_eq_lt_dec i (x_prev s)) as [[Hlt|Heq]|Hlt].
          -- destruct Hlk as (_ & HL & _). destruct (HL eq_refl) as [_ H1].
             apply (leb_gtb_false _ (pr (x_prev s))); auto. apply H1. lia.
          -- subst i. apply ltb_true_leb_false. auto.
          -- destruct (Hpe i ltac:(lia)) as [HL _]. destruct (HL eq_refl) as [H1 _].
             apply (not_above _ (pr (x_prev s))); auto.
      + apply commit_inv; auto; try lia. apply down_link; auto; lia.
      + destruct HI as [HM _ _ Hz _]. split; auto; try lia. right. split; auto.
        exists p. rewrite E2. repeat (split; [solve [auto]|]).
        intros i Hi. destruct (Nat.eq_dec i k) as [->|Hne]; [|apply Hpe; lia].
        split; intros E; try discriminate; auto.
    - destruct (i_cases _ _ HI) as [(E0 & E3 & Hq)|(Hdir & _)]; [|lia].
      destruct (up_by close (pos_th (x_prev s)) (x_prev s) k) eqn:Eu;
        [|destruct (down_by close (neg_th (x_prev s)) (x_prev s) k) eqn:Ed].
      + apply commit_inv; auto; try lia. apply up_link; auto; lia.
      + apply commit_inv; auto; try lia. apply down_link; auto; lia.
      + destruct HI as [HM _ _ Hz _]. split; auto; try lia. left. repeat split; auto.
        * destruct (Nat.eq_dec i k) as [->|]; [rewrite E3 in *; auto|]. apply (Hq i ltac:(lia)); auto.
        * destruct (Nat.eq_dec i k) as [->|]; [rewrite E3 in *; auto|]. apply (Hq i ltac:(lia)); auto.
  Qed.

  Record Final (out : list Z) : Prop := {
    f_marks : Marks out;
    f_none : (forall i, nth i out 0%Z = 0%Z) -> quiet n;
    f_last : forall q, last_label out q -> pend q (nth q out 0%Z) n }.

  Lemma finish_final : forall s, 1 < n -> Inv n s -> Final (x_out (finish s (n - 1))).
  Proof.
    intros s Hn HI. unfold finish. rewrite Nat.eqb_refl. cbn [andb].
    assert (Hp := i_prev _ _ HI). assert (Hl := m_len _ (i_marks _ _ HI)).
    destruct (Z.eqb_spec (x_dir s) 0) as [E|E]; cbn [negb x_out].
    - destruct (i_cases _ _ HI) as [(_ & E3 & Hq)|(Hdir & _)]; [|lia].
      split; auto; [apply HI|]. intros q (H1 & H2 & _). exfalso. apply H2. apply HI. lia.
    - destruct (commit n s (- x_dir s)%Z HI) as (HM & H1 & H2); auto.
      { destruct (i_cases _ _ HI) as [(E0 & _)|(Hdir & _)]; lia. }
      split; auto.
      + intros Hz. rewrite Hz in H1. lia.
      + intros q (Hq1 & Hq2 & Hq3).
        assert (q = x_prev s).
        { destruct (lt_eq_lt_dec q (x_prev s)) as [[Hlt|]|Hlt]; auto.
          - specialize (Hq3 _ Hlt). lia.
          - exfalso. apply Hq2. auto. }
        subst q. rewrite H1. destruct (i_cases _ _ HI) as [(E0 & _)|(_ & p & _ & _ & _ & _ & Hpe)]; [lia|auto].
  Qed.

  Lemma marks0 : Marks (repeat 0%Z n).
  Proof.
    assert (Hz : forall i, nth i (repeat 0%Z n) 0%Z = 0%Z) by (intros; apply nth_repeat).
    split; auto; try (apply repeat_length).
    intros p q (_ & H & _). rewrite Hz in H. lia.
  Qed.

  Lemma inv0 : 1 <= n -> Inv 1 (mkExt (repeat 0%Z n) 0 0%Z).
  Proof.
    intros Hn. split; cbn [x_out x_prev x_dir]; auto; try lia.
    - apply marks0.
    - intros. apply nth_repeat.
    - left. repeat split; auto; lia.
  Qed.

  Lemma finish_early : forall s i, i <> n - 1 -> finish s i = s.
  Proof. intros s i H. unfold finish. apply Nat.eqb_neq in H. rewrite H. auto. Qed.

  Lemma extrema_final : forall out, local_extrema_apply_nb close pos_th neg_th = Ok out -> Final out.
  Proof.
    intros out H. unfold local_extrema_apply_nb in H. apply bind_ok in H as (s & H & E). injection E as <-.
    unfold range in H. fold n in H. destruct (le_lt_dec n 1) as [Hn|Hn].
    - assert (E : n - 1 = 0) by lia. rewrite E in H. cbn [seq foldM] in H. injection H as <-. cbn [x_out].
      split; [apply marks0|intros _ i Hi; lia|]. intros q (Hq & Hq2 & _). exfalso. apply Hq2, nth_repeat.
    - pose (P := fun k s => (k < n -> Inv k s) /\ (k = n -> Final (x_out s))).
      assert (HP : P (1 + (n - 1)) s).
      { refine (foldM_seq_inv _ P _ _ _ _ _ _ _ H).
        - split; [intros _; apply inv0; lia|intros; lia].
        - intros k s0 s1 Hk [HP _] Hs. rewrite step_split in Hs. apply raise_if_ok in Hs as [_ Hs].
          apply raise_if_ok in Hs as [_ Hs]. injection Hs as <-. specialize (HP ltac:(lia)).
          assert (HI := core_inv k s0 ltac:(lia) HP). split; intros Hk'.
          + rewrite finish_early by lia. auto.
          + rewrite Hk' in HI. replace k with (n - 1) in * by lia. apply finish_final; auto. }
      destruct HP as [_ HP]. apply HP. lia.
  Qed.

  Lemma extrema_accepts : (forall i, i < n -> eqb (abs (pos_th i)) zero = false /\ eqb (abs (neg_th i)) zero = false) ->
    exists out, local_extrema_apply_nb close pos_th neg_th = Ok out.
  Proof.
    intros Hth. unfold local_extrema_apply_nb, range. fold n.
    destruct (foldM_seq_ok _ (fun _ s => x_prev s < n \/ n <= 1) (local_extrema_step close pos_th neg_th) (n - 1) 1
      (mkExt (repeat 0%Z n) 0 0%Z)) as [s' E].
    - cbn. lia.
    - intros k s Hk Hp. destruct Hp as [Hp|Hp]; [|lia]. rewrite step_split. destruct (Hth _ Hp) as [-> ->]. cbn [raise_if].
      eexists. split; [reflexivity|]. left. unfold finish.
      assert (Hc : x_prev (core s k) < n).
      { unfold core. repeat match goal with |- context [if ?c then _ else _] => destruct c end; cbn [x_prev]; lia. }
      destruct (_ && _); auto.
    - rewrite E. cbn [bind]. eauto.
  Qed.

  Lemma extrema_zero_pos : 1 < n -> eqb (abs (pos_th 0)) zero = true ->
    local_extrema_apply_nb close pos_th neg_th = Err (ValueError "Positive threshold cannot be 0").
  Proof.
    intros Hn H. unfold local_extrema_apply_nb, range. fold n. destruct (n - 1) as [|m] eqn:E; [lia|].
    cbn [seq foldM]. rewrite step_split. cbn [x_prev]. rewrite H. reflexivity.
  Qed.
  Lemma extrema_zero_neg : 1 < n -> eqb (abs (pos_th 0)) zero = false -> eqb (abs (neg_th 0)) zero = true ->
    local_extrema_apply_nb close pos_th neg_th = Err (ValueError "Negative threshold cannot be 0").
  Proof.
    intros Hn H H'. unfold local_extrema_apply_nb, range. fold n. destruct (n - 1) as [|m] eqn:E; [lia|].
    cbn [seq foldM]. rewrite step_split. cbn [x_prev]. rewrite H, H'. reflexivity.
  Qed.
End Extrema.
