(** * Lemmas about the drawdown of returns and rolling application *)
From Coq Require Import ZArith QArith Qabs Bool List Arith Lia Lqa.
From Verif Require Import Base Num XQFacts OrdLaws GenericNb GenericSpec GenericLemmas GenericLemmas2 GenericLemmas7
  ReturnsNb ReturnsSpec ReturnsLemmas.
Import ListNotations.
Local Open Scope nat_scope.

(** ** Drawdowns *)
Lemma compounded_nonneg : forall qs, (forall q, In q qs -> (-1 <= q)%Q) -> (0 <= compounded qs)%Q.
Proof.
  induction qs as [|q qs IH]; intros H; cbn [compounded]; [lra|].
  apply Qmult_le_0_compat; [|apply IH; intros; apply H; now right].
  assert (-1 <= q)%Q by (apply H; now left). lra.
Qed.
Lemma wealth_nonneg : forall rs i, solvent rs -> (0 <= wealth rs i)%Q.
Proof.
  intros rs i [H _]. apply compounded_nonneg. intros q Hq. apply H.
  rewrite <- (firstn_skipn (S i) rs), vals_app. apply in_or_app. auto.
Qed.

Lemma drawdown_length : forall {T} {N : Num T} (rs : list T), length (drawdown_1d_nb rs) = length rs.
Proof.
  intros. unfold drawdown_1d_nb. rewrite map_length, combine_length. unfold expanding_max_1d_nb.
  rewrite scan_length, cum_length. lia.
Qed.

Lemma nth_error_combine : forall A B (l1 : list A) (l2 : list B) i x y,
  nth_error l1 i = Some x -> nth_error l2 i = Some y -> nth_error (combine l1 l2) i = Some (x, y).
Proof.
  induction l1 as [|a l1 IH]; intros [|b l2] [|i] x y H1 H2; try discriminate; cbn in *; [congruence|auto].
Qed.

Lemma nth_error_firstn_lt : forall A (l : list A) n i, i < n -> nth_error (firstn n l) i = nth_error l i.
Proof. induction l as [|x l IH]; intros [|n] [|i] H; try lia; cbn; auto; [apply IH; lia]. Qed.

Lemma drawdown_run : forall rs i, no_infinity rs -> solvent rs -> i < length rs ->
  exists y j, nth_error (drawdown_1d_nb rs) i = Some y /\ j <= i /\
    is_number y (wealth rs i / wealth rs j - 1) /\ (0 < wealth rs j)%Q /\
    forall k, k <= i -> (wealth rs k <= wealth rs j)%Q.
Proof.
  intros rs i H HS Hi. set (cum := cum_returns_1d_nb rs (ofZ 100)).
  assert (Hc : forall k, k <= i -> exists y, nth_error cum k = Some y /\ is_number y (wealth rs k * 100)).
  { intros k Hk. destruct (nth_error rs k) as [x|] eqn:Ex; [|apply nth_error_None in Ex; lia].
    destruct (cum_run rs 100 k x H Ex) as (y & Hy & Hn). exists y. split; auto. }
  assert (Lc : length cum = length rs) by apply cum_length.
  destruct (expanding_max_run cum 1 i) as (m & Hm & _ & Hmax & _); [lia|].
  assert (En : forall x, In x (firstn (S i) cum) -> isnan x = false).
  { intros x Hx. apply In_nth_error in Hx as [k Hk]. pose proof (nth_error_lt _ _ _ Hk) as HL.
    rewrite firstn_length in HL. destruct (Hc k) as (y & Hy & q & -> & _); [lia|].
    assert (Ek : nth_error cum k = Some x).
    { rewrite <- Hk. symmetry. apply nth_error_firstn_lt. lia. }
    replace x with (Fin q) by congruence. reflexivity. }
  assert (El : numbers (firstn (S i) cum) = firstn (S i) cum).
  { clear - En. unfold numbers. induction (firstn (S i) cum) as [|z l IH]; cbn [filter]; auto.
    rewrite (En z) by now left. cbn [negb]. f_equal. apply IH. intros; apply En; now right. }
  assert (Hne : 1 <= length (firstn (S i) cum)) by (rewrite firstn_length; lia).
  rewrite El in Hmax. destruct Hmax as [Hin Hge]; auto.
  { intros E. rewrite E in Hne. cbn in Hne. lia. }
  apply In_nth_error in Hin as [j Hj]. pose proof (nth_error_lt _ _ _ Hj) as HLj. rewrite firstn_length in HLj.
  assert (Ejm : nth_error cum j = Some m).
  { rewrite <- Hj. symmetry. apply nth_error_firstn_lt. lia. }
  destruct (Hc j) as (y & Hy & qm & -> & Eqm); [lia|]. assert (m = Fin qm) as -> by congruence.
  assert (Hle : forall k, k <= i -> (wealth rs k <= wealth rs j)%Q).
  { intros k Hk. destruct (Hc k Hk) as (z & Hz & qz & -> & Ez).
    assert (Hl : leb (Fin qz) (Fin qm) = true).
    { apply Hge. apply nth_error_In with (n := k). rewrite nth_error_firstn_lt by lia. auto. }
    cbn [leb XQnum xq_leb] in Hl. apply qle_t in Hl. lra. }
  assert (Hpos : (0 < wealth rs j)%Q).
  { destruct HS as [_ H0]. specialize (Hle 0). assert (wealth rs 0 <= wealth rs j)%Q by (apply Hle; lia). lra. }
  destruct (Hc i) as (z & Hz & qz & -> & Ez); [lia|].
  exists (sub (div (Fin qz) (Fin qm)) one), j. split; [|split; [lia|split; [|split; auto]]].
  - unfold drawdown_1d_nb. fold cum. rewrite nth_error_map.
    rewrite (nth_error_combine _ _ _ _ _ _ _ Hz Hm). reflexivity.
  - rewrite div_fin by lra. cbn [sub XQnum xq_sub one ofZ]. eexists. split; [reflexivity|].
    rewrite !Qred_correct. change (inject_Z 1) with 1%Q. rewrite Ez, Eqm. field. lra.
Qed.

Lemma np_min_number : forall (l : list XQ), l <> [] -> (forall x, In x l -> exists q, x = Fin q) ->
  exists q, np_min l = Ok (Fin q) /\ In (Fin q) l /\ forall p, In (Fin p) l -> (q <= p)%Q.
Proof.
  intros [|x l] Hne Hl; [congruence|]. unfold np_min, np_extreme.
  replace (existsb isnan (x :: l)) with false.
  2:{ symmetry. apply not_true_is_false. intros E. apply existsb_exists in E as (z & Hz & Ez).
      destruct (Hl z Hz) as [q ->]. discriminate. }
  destruct (Hl x (or_introl eq_refl)) as [q0 ->].
  assert (H : forall l q0, (forall x, In x l -> exists q, x = Fin q) ->
    exists q, fold_left (fun m v => if ltb v m then v else m) l (Fin q0) = Fin q /\
      (Fin q = Fin q0 \/ In (Fin q) l) /\ (q <= q0)%Q /\ forall p, In (Fin p) l -> (q <= p)%Q).
  { clear. induction l as [|y l IH]; intros q0 Hl.
    - exists q0. cbn. repeat split; auto; try lra. contradiction.
    - destruct (Hl y (or_introl eq_refl)) as [p ->]. cbn [fold_left]. cbn [ltb XQnum xq_ltb].
      destruct (qlt_bool p q0) eqn:E; qb;
        match goal with |- context [fold_left _ l (Fin ?s)] => destruct (IH s) as (q & Eq & Hin & Hle & Hall) end;
        try (intros; apply Hl; now right); exists q; split; auto; split.
      + right. destruct Hin as [Hin|Hin]; [left; congruence|now right].
      + split; [lra|]. intros p' [Hp'|Hp']; [|auto]. injection Hp' as <-. lra.
      + destruct Hin as [Hin|Hin]; [now left|right; now right].
      + split; [lra|]. intros p' [Hp'|Hp']; [|auto]. injection Hp' as <-. lra. }
  destruct (H l q0) as (q & Eq & Hin & Hle & Hall); [intros; apply Hl; now right|].
  exists q. split; [now rewrite Eq|]. split.
  - destruct Hin as [Hin|Hin]; [left; congruence|now right].
  - intros p [Hp|Hp]; auto. injection Hp as <-. auto.
Qed.

Lemma max_drawdown_run : forall rs, no_infinity rs -> solvent rs -> rs <> [] ->
  exists y d, max_drawdown_1d_nb rs = Ok y /\ is_number y d /\ (-1 <= d <= 0)%Q /\
    (exists i j, j <= i < length rs /\ (0 < wealth rs j)%Q /\ (d == wealth rs i / wealth rs j - 1)%Q) /\
    forall i j, j <= i < length rs -> (0 < wealth rs j)%Q -> (d <= wealth rs i / wealth rs j - 1)%Q.
Proof.
  intros rs H HS Hne. unfold max_drawdown_1d_nb.
  assert (Hall : forall x, In x (drawdown_1d_nb rs) -> exists q i j, x = Fin q /\ j <= i < length rs /\
     (q == wealth rs i / wealth rs j - 1)%Q /\ (0 < wealth rs j)%Q /\ (wealth rs i <= wealth rs j)%Q).
  { intros x Hx. apply In_nth_error in Hx as [i Hi]. pose proof (nth_error_lt _ _ _ Hi) as HL.
    rewrite drawdown_length in HL. destruct (drawdown_run rs i H HS HL) as (y & j & Hy & Hj & (q & -> & Hq) & Hp & Hle).
    exists q, i, j. split; [congruence|]. split; [lia|]. split; auto. }
  destruct (np_min_number (drawdown_1d_nb rs)) as (q & Eq & Hin & Hmin).
  { intros E. apply Hne, length_zero_iff_nil. rewrite <- (drawdown_length rs), E. reflexivity. }
  { intros x Hx. destruct (Hall x Hx) as (q & ? & ? & -> & _). eauto. }
  exists (Fin q), q. split; auto. split; [exists q; split; [auto|reflexivity]|].
  destruct (Hall _ Hin) as (q' & i & j & E & Hij & Hq & Hp & Hle). injection E as <-.
  assert (Hi0 : (0 <= wealth rs i)%Q) by (apply wealth_nonneg; auto).
  assert (Hd0 : (0 <= wealth rs i / wealth rs j)%Q) by (apply Qle_shift_div_l; lra).
  assert (Hd1 : (wealth rs i / wealth rs j <= 1)%Q) by (apply Qle_shift_div_r; lra).
  split; [rewrite Hq; lra|]. split; [exists i, j; auto|].
  intros i' j' Hij' Hp'. destruct (drawdown_run rs i' H HS) as (y & j2 & Hy & Hj2 & (q2 & -> & Hq2) & Hp2 & Hle2); [lia|].
  apply nth_error_In in Hy. specialize (Hmin _ Hy).
  assert (Hw : (wealth rs j' <= wealth rs j2)%Q) by (apply Hle2; lia).
  assert (Hi'0 : (0 <= wealth rs i')%Q) by (apply wealth_nonneg; auto).
  assert (wealth rs i' / wealth rs j2 <= wealth rs i' / wealth rs j')%Q.
  { apply Qle_shift_div_l; auto.
    setoid_replace (wealth rs i' / wealth rs j2 * wealth rs j')%Q with (wealth rs i' * (wealth rs j' / wealth rs j2))%Q by (field; lra).
    assert (wealth rs j' / wealth rs j2 <= 1)%Q by (apply Qle_shift_div_r; lra).
    rewrite <- (Qmult_1_r (wealth rs i')) at 2. rewrite !(Qmult_comm (wealth rs i')). apply Qmult_le_compat_r; auto. }
  lra.
Qed.

(** ** Rolling application *)
Section Rolling.
  Context {T : Type} {N : Num T}.
  Implicit Types (a : list T).

  Definition nan_count (l : list T) : nat := length l - length (numbers l).

  Lemma numbers_le : forall l : list T, length (numbers l) <= length l.
  Proof. intros. unfold numbers. induction l as [|x l IH]; cbn; [lia|]. destruct (negb (isnan x)); cbn; lia. Qed.
  Lemma numbers_app : forall l1 l2 : list T, numbers (l1 ++ l2) = numbers l1 ++ numbers l2.
  Proof. intros. unfold numbers. apply filter_app. Qed.

  Definition roll_inv a (k : nat) (s : Z * list Z) : Prop :=
    fst s = (Z.of_nat k - Z.of_nat (length (numbers (firstn k a))))%Z /\ length (snd s) = k /\
    forall j, j < k -> nth j (snd s) 0%Z = (Z.of_nat (S j) - Z.of_nat (length (numbers (firstn (S j) a))))%Z.

  Lemma roll_step : forall a w m f k s x, nth_error a k = Some x -> roll_inv a k s ->
    exists s', roll_inv a (S k) s' /\
      rolling_apply_step w m f a k s x =
      let! y := (if Nat.ltb (length (numbers (window w k a))) m then Ok nan else f k (window w k a)) in Ok (s', y).
  Proof.
    intros a w m f k [nc arr] x Hx (Hn & HL & Harr). cbn [fst snd] in *.
    pose proof (nth_error_lt _ _ _ Hx) as Hk.
    set (nc' := if isnan x then (nc + 1)%Z else nc).
    assert (Hn' : nc' = (Z.of_nat (S k) - Z.of_nat (length (numbers (firstn (S k) a))))%Z).
    { unfold nc'. rewrite (firstn_snoc _ _ _ _ Hx), numbers_snoc, app_length. destruct (isnan x); cbn [length]; lia. }
    assert (Inv : roll_inv a (S k) (nc', arr ++ [nc'])).
    { split; [exact Hn'|]. split; [cbn [snd]; rewrite app_length; cbn [length]; lia|]. intros j Hj. cbn [snd].
      destruct (Nat.eq_dec j k) as [->|].
      - rewrite app_nth2 by lia. rewrite HL, Nat.sub_diag. exact Hn'.
      - rewrite app_nth1 by lia. apply Harr. lia. }
    exists (nc', arr ++ [nc']). split; auto.
    unfold rolling_apply_step. fold nc'.
    set (v := if Nat.ltb k w then (Z.of_nat k + 1 - nc')%Z else (Z.of_nat w - (nc' - nth (k - w) (arr ++ [nc']) 0))%Z).
    assert (Hv : v = Z.of_nat (length (numbers (window w k a)))).
    { assert (Hsplit : length (numbers (firstn (S k) a)) =
        length (numbers (firstn (S k - w) a)) + length (numbers (window w k a))).
      { rewrite <- app_length, <- numbers_app. do 2 f_equal. unfold window.
        rewrite <- (firstn_skipn (S k - w) (firstn (S k) a)) at 1. f_equal. rewrite firstn_firstn. f_equal. lia. }
      unfold v. destruct (Nat.ltb_spec k w).
      - replace (S k - w) with 0 in Hsplit by lia. change (length (numbers (firstn 0 a))) with 0 in Hsplit. lia.
      - destruct Inv as (_ & _ & I). cbn [snd] in I. rewrite I by lia. replace (S (k - w)) with (S k - w) by lia. lia. }
    rewrite Hv. change (slice (S k - w) (S k) a) with (window w k a).
    replace (Z.ltb (Z.of_nat (length (numbers (window w k a)))) (Z.of_nat m)) with (Nat.ltb (length (numbers (window w k a))) m).
    2:{ destruct (Nat.ltb_spec (length (numbers (window w k a))) m); symmetry; [apply Z.ltb_lt|apply Z.ltb_ge]; lia. }
    destruct (Nat.ltb (length (numbers (window w k a))) m); [reflexivity|]. destruct (f k (window w k a)); reflexivity.
  Qed.

  Lemma rolling_apply_run : forall a w mp f out, rolling_apply_nb a w mp f = Ok out ->
    length out = length a /\
    forall i, i < length a -> exists y, nth_error out i = Some y /\
      let m := match mp with None => w | Some m => m end in
      (length (numbers (window w i a)) < m -> y = nan) /\
      (m <= length (numbers (window w i a)) -> f i (window w i a) = Ok y).
  Proof.
    intros a w mp f out H. unfold rolling_apply_nb in H. set (m := match mp with None => w | Some m => m end) in *.
    split; [eapply scanM_length; eauto|]. intros i Hi.
    destruct (nth_error a i) as [x|] eqn:Ex; [|apply nth_error_None in Ex; lia].
    destruct (scanM_spec _ (roll_inv a) _ _ _ H) with (k := i) (x := x) as (s & s' & y & HP & E & Hn); auto.
    - split; [reflexivity|]. split; [reflexivity|]. intros; lia.
    - intros k s z s' b Hz HP E. destruct (roll_step a w m f k s z Hz HP) as (s2 & I2 & E2).
      rewrite E in E2. symmetry in E2. apply bind_ok in E2 as (y & _ & E2). injection E2 as <- <-. auto.
    - exists y. split; auto. cbv zeta. destruct (roll_step a w m f i s x Ex HP) as (s2 & I2 & E2).
      rewrite E in E2. symmetry in E2. apply bind_ok in E2 as (z & Ez & E2). injection E2 as _ ->.
      destruct (Nat.ltb_spec (length (numbers (window w i a))) m).
      + split; [intros; congruence|lia].
      + split; [lia|auto].
  Qed.

  Lemma rolling_apply_accepts : forall a w mp f,
    (forall i, i < length a -> exists y, f i (window w i a) = Ok y) ->
    exists out, rolling_apply_nb a w mp f = Ok out.
  Proof.
    intros a w mp f H. unfold rolling_apply_nb. apply (scanM_ok _ (roll_inv a)).
    - split; [reflexivity|]. split; [reflexivity|]. intros; lia.
    - intros k s x Hx HP. destruct (roll_step a w (match mp with None => w | Some m => m end) f k s x Hx HP) as (s' & I & E).
      rewrite E. pose proof (nth_error_lt _ _ _ Hx) as Hk. destruct (H k Hk) as (y & Ey).
      destruct (Nat.ltb _ _); [exists s', nan|rewrite Ey; exists s', y]; split; auto.
  Qed.

  Lemma window_firstn : forall (a : list T) w i n, i < n -> window w i (firstn n a) = window w i a.
  Proof. intros. unfold window. rewrite firstn_firstn. now replace (Nat.min (S i) n) with (S i) by lia. Qed.

  Lemma rolling_apply_causal : forall a w mp f n out, rolling_apply_nb a w mp f = Ok out ->
    rolling_apply_nb (firstn n a) w mp f = Ok (firstn n out).
  Proof.
    intros a w mp f n out H. unfold rolling_apply_nb in *.
    set (m := match mp with None => w | Some m => m end) in *.
    rewrite <- (scanM_firstn _ a n _ _ _ H).
    assert (E : forall l i s, i + length l <= n ->
      scanM (rolling_apply_step w m f (firstn n a)) i s l = scanM (rolling_apply_step w m f a) i s l).
    { induction l as [|x l IH]; intros i s Hi; cbn [scanM]; auto. cbn [length] in Hi.
      assert (Es : rolling_apply_step w m f (firstn n a) i s x = rolling_apply_step w m f a i s x).
      { unfold rolling_apply_step. change (slice (S i - w) (S i) (firstn n a)) with (window w i (firstn n a)).
        rewrite window_firstn by lia. reflexivity. }
      rewrite Es. destruct (rolling_apply_step w m f a i s x) as [[s' b]|]; cbn [bind]; auto. rewrite IH by lia. auto. }
    apply E. cbn. apply firstn_le_length.
  Qed.
End Rolling.
