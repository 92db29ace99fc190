(** * Lemmas about indicator caches and moving averages *)
From Coq Require Import String ZArith QArith Qabs Bool List Arith Lia Lqa.
From Verif Require Import Base Num GenericNb XQFacts GenericSpec GenericLemmas GenericLemmas2 GenericLemmas3
  ReturnsSpec NumFacts IndicatorsNb IndicatorsSpec.
Import ListNotations.
Local Open Scope list_scope.
Local Open Scope nat_scope.

(** ** Caches *)
Section Caches.
  Context {K V : Type} (hash : K -> Z) (f : K -> res V).

  Definition sound (d : Dict V) (done : list K) : Prop :=
    (forall k, In k done -> exists v, lookup (hash k) d = Some v) /\
    (forall h v, lookup h d = Some v -> exists k, In k done /\ hash k = h /\ f k = Ok v).

  Lemma fill_sound : forall ks d, fill_cache hash f ks = Ok d -> sound d ks.
  Proof.
    assert (G : forall ks done d0 d, sound d0 done ->
      foldM (fun d k => match lookup (hash k) d with Some _ => Ok d | None => bind (f k) (fun v => Ok ((hash k, v) :: d)) end) d0 ks = Ok d ->
      sound d (done ++ ks)).
    { intros ks. induction ks as [|k ks IH]; intros done d0 d S0 H.
      - cbn in H. injection H as <-. rewrite app_nil_r. auto.
      - cbn [foldM] in H. apply bind_ok in H as (d1 & E & H).
        replace (done ++ k :: ks) with ((done ++ [k]) ++ ks) by (rewrite <- app_assoc; reflexivity).
        apply (IH _ _ _) with (2 := H). destruct S0 as [S1 S2]. destruct (lookup (hash k) d0) as [v|] eqn:El.
        + injection E as <-. split.
          * intros k' Hk. apply in_app_or in Hk as [Hk|[<-|[]]]; eauto.
          * intros h w Hw. destruct (S2 h w Hw) as (k' & I & J). exists k'. split; auto. apply in_or_app; auto.
        + apply bind_ok in E as (v & Ev & E). injection E as <-. split.
          * intros k' Hk. cbn [lookup]. destruct (Z.eqb (hash k') (hash k)) eqn:Ez; [eauto|].
            apply in_app_or in Hk as [Hk|[<-|[]]]; auto. rewrite Z.eqb_refl in Ez. discriminate.
          * intros h w Hw. cbn [lookup] in Hw. destruct (Z.eqb h (hash k)) eqn:Ez.
            -- injection Hw as <-. apply Z.eqb_eq in Ez. exists k. split; [apply in_or_app; right; left; auto|]. auto.
            -- destruct (S2 h w Hw) as (k' & I & J). exists k'. split; auto. apply in_or_app; auto. }
    intros ks d H. apply (G ks [] [] d); auto. split; cbn; [tauto|discriminate].
  Qed.

  Lemma cached : forall ks d k, no_collision hash ks -> fill_cache hash f ks = Ok d -> In k ks ->
    exists v, f k = Ok v /\ getitem d (hash k) = Ok v.
  Proof.
    intros ks d k HC H Hk. destruct (fill_sound ks d H) as [S1 S2]. destruct (S1 k Hk) as (v & E).
    destruct (S2 _ _ E) as (k' & I & Eh & Ev). rewrite (HC k' k I Hk Eh) in Ev. exists v. split; auto.
    unfold getitem. rewrite E. auto.
  Qed.

  Lemma not_cached : forall ks d h, fill_cache hash f ks = Ok d -> (forall k, In k ks -> hash k <> h) ->
    getitem d h = Err (KeyError "cache"%string).
  Proof.
    intros ks d h H Hn. destruct (fill_sound ks d H) as [S1 S2]. unfold getitem.
    destruct (lookup h d) as [v|] eqn:E; auto. destruct (S2 _ _ E) as (k & I & J & _). destruct (Hn k I J).
  Qed.

  Lemma fill_accepts : forall ks, (forall k, In k ks -> exists v, f k = Ok v) -> exists d, fill_cache hash f ks = Ok d.
  Proof.
    unfold fill_cache. intros ks. generalize (@nil (Z * V)). induction ks as [|k ks IH]; intros d0 H; cbn [foldM]; [eauto|].
    destruct (lookup (hash k) d0); cbn [bind].
    - apply IH. intros; apply H; right; auto.
    - destruct (H k (or_introl eq_refl)) as (v & ->). cbn [bind]. apply IH. intros; apply H; right; auto.
  Qed.
End Caches.

Lemma in_combine_nth : forall {A B} (l : list A) (l' : list B) k x y,
  nth_error l k = Some x -> nth_error l' k = Some y -> In (x, y) (combine l l').
Proof.
  intros A B l. induction l as [|a l IH]; intros l' k x y H H'; destruct k, l'; try discriminate; cbn in *.
  - injection H as ->. injection H' as ->. auto.
  - right. eauto.
Qed.

(** ** Moving averages are averages *)
Local Open Scope Q_scope.
Definition convex (P : Q -> Prop) : Prop :=
  (forall x y, x == y -> P x -> P y) /\
  forall x y u v, 0 <= u -> 0 <= v -> 0 < u + v -> P x -> P y -> P ((u * x + v * y) / (u + v)).

Lemma convex_ge : forall lo, convex (fun q => lo <= q).
Proof.
  intros lo. split; [intros; lra|]. intros x y u v Hu Hv Hs Hx Hy. apply Qle_shift_div_l; auto.
  assert (u * lo <= u * x) by (rewrite 2!(Qmult_comm u); apply Qmult_le_compat_r; auto).
  assert (v * lo <= v * y) by (rewrite 2!(Qmult_comm v); apply Qmult_le_compat_r; auto). lra.
Qed.
Lemma convex_le : forall hi, convex (fun q => q <= hi).
Proof.
  intros hi. split; [intros; lra|]. intros x y u v Hu Hv Hs Hx Hy. apply Qle_shift_div_r; auto.
  assert (u * x <= u * hi) by (rewrite 2!(Qmult_comm u); apply Qmult_le_compat_r; auto).
  assert (v * y <= v * hi) by (rewrite 2!(Qmult_comm v); apply Qmult_le_compat_r; auto). lra.
Qed.
Lemma convex_and : forall P R, convex P -> convex R -> convex (fun q => P q /\ R q).
Proof.
  intros P R [P1 P2] [R1 R2]. split.
  - intros x y E [H H']. split; eauto.
  - intros x y u v Hu Hv Hs [Hx Hx'] [Hy Hy']. split; auto.
Qed.

Lemma convex_mean : forall P l, convex P -> l <> [] -> (forall x, In x l -> P x) -> P (mean l).
Proof.
  intros P l HP. induction l as [|x l IH]; [congruence|]. intros _ H.
  destruct l as [|y l].
  - apply (proj1 HP) with x; [|apply H; left; auto]. unfold mean, count. cbn. field.
  - assert (Hm : P (mean (y :: l))) by (apply IH; [discriminate|intros; apply H; right; auto]).
    pose proof (count_pos (y :: l) ltac:(discriminate)) as Hc.
    apply (proj1 HP) with ((1 * x + count (y :: l) * mean (y :: l)) / (1 + count (y :: l))).
    + unfold mean at 2. rewrite (count_cons (y :: l) x). unfold mean.
      change (sum (x :: y :: l)) with (x + sum (y :: l)). field. lra.
    + apply (proj2 HP); auto; try lra. apply H. left; auto.
Qed.

Definition all_known (P : Q -> Prop) (a : list XQ) : Prop := forall q, In (Fin q) a -> P q.
Definition nan_or (P : Q -> Prop) (y : XQ) : Prop := y = NaN \/ exists q, y = Fin q /\ P q.

Lemma in_vals : forall q l, In q (vals l) -> In (Fin q) l.
Proof. intros q l. induction l as [|[| | |p] l IH]; cbn; intros H; auto. destruct H as [->|H]; auto. Qed.

Lemma in_window : forall {A} (x : A) w i a, In x (skipn (S i - w) (firstn (S i) a)) -> In x a.
Proof.
  intros A x w i a H.
  assert (G : forall n (l : list A), In x (skipn n l) -> In x l).
  { intros n. induction n; intros [|y l]; cbn; auto. }
  apply G in H. rewrite <- (firstn_skipn (S i) a). apply in_or_app; auto.
Qed.

Lemma rolling_mean_convex : forall P a w mp out, convex P -> no_infinity a -> (1 <= w)%nat -> all_known P a ->
  rolling_mean_1d_nb a w mp = Ok out -> length out = length a /\ forall y, In y out -> nan_or P y.
Proof.
  intros P a w mp out HP HT Hw HA H. destruct (rolling_mean_run a w mp out HT Hw H) as [HL HR]. split; auto.
  intros y Hy. apply In_nth_error in Hy as (i & Hi). destruct (HR i) as (y' & E & H1 & H2).
  { rewrite <- HL. apply nth_error_Some. congruence. }
  rewrite Hi in E. injection E as <-. cbn zeta in *.
  destruct (Nat.lt_ge_cases (length (vals (window w i a))) (match mp with Some m => m | None => w end)) as [Hl|Hl].
  - left. auto.
  - destruct (H2 Hl) as (q & -> & Hn & Hq). right. exists q. split; auto. apply (proj1 HP) with (mean (vals (window w i a))); [lra|].
    apply convex_mean; auto. intros x Hx. apply HA. eapply in_window. apply in_vals. exact Hx.
Qed.

Definition ewm_conv (P : Q -> Prop) (s : XQ * nat * XQ) : Prop :=
  let '(avg, nobs, ow) := s in nan_or P avg /\ exists o, ow = Fin o /\ 0 <= o.

Lemma ewm_conv_step : forall P r nw adj m k s x s' b, convex P -> 0 <= r -> 0 <= nw -> (x = NaN \/ exists q, x = Fin q /\ P q) ->
  ewm_conv P s -> ewm_mean_step (Fin r) (Fin nw) adj m k s x = Ok (s', b) -> ewm_conv P s' /\ nan_or P b.
Proof.
  intros P r nw adj m k [[avg nobs] ow] x s' b HP Hr Hnw Hx (Ha & o & -> & Ho) H.
  unfold ewm_mean_step in H. apply bind_ok in H as ([wa ow'] & E & H). injection H as <- <-.
  assert (Hor : 0 <= Qred (o * r)) by (rewrite Qred_correct; apply Qmult_le_0_compat; auto).
  assert (G : nan_or P wa /\ exists o', ow' = Fin o' /\ 0 <= o').
  { destruct Ha as [->|(p & -> & Hp)].
    - cbn [eqb XQnum xq_eqb] in E. destruct Hx as [->|(q & -> & Hq)]; cbn [eqb XQnum xq_eqb] in E.
      + injection E as <- <-. split; [left; auto|eauto].
      + replace (Qeq_bool q q) with true in E by (symmetry; qbg; reflexivity). injection E as <- <-. split; [right; eauto|eauto].
    - cbn [eqb XQnum xq_eqb] in E. replace (Qeq_bool p p) with true in E by (symmetry; qbg; reflexivity).
      destruct Hx as [->|(q & -> & Hq)]; cbn [eqb XQnum xq_eqb] in E.
      + rewrite mul_fin in E. injection E as <- <-. split; [right; eauto|eauto].
      + replace (Qeq_bool q q) with true in E by (symmetry; qbg; reflexivity). apply bind_ok in E as (wa' & E1 & E2).
        injection E2 as <- <-.
        split.
        * destruct (neb (Fin p) (Fin q)).
          -- rewrite mul_fin in E1. unfold sdiv in E1. rewrite !mul_fin, !add_fin in E1.
             destruct (eqb _ zero) eqn:Ez; [discriminate|]. cbn [eqb XQnum xq_eqb zero ofZ] in Ez. change (inject_Z 0) with 0 in Ez.
             apply qeq_f in Ez. rewrite Qred_correct in Ez.
             rewrite div_fin in E1 by (rewrite Qred_correct; auto). injection E1 as <-. right. eexists. split; [reflexivity|].
             apply (proj1 HP) with ((Qred (o * r) * p + nw * q) / (Qred (o * r) + nw)).
             ++ rewrite !Qred_correct. reflexivity.
             ++ apply (proj2 HP); auto. lra.
          -- injection E1 as <-. right; eauto.
        * destruct adj; rewrite ?mul_fin, ?add_fin.
          -- eexists. split; [reflexivity|]. rewrite Qred_correct. lra.
          -- exists 1. split; [reflexivity|lra]. }
  split; [exact G|]. destruct (Nat.leb m _); [apply G|left; reflexivity].
Qed.

Lemma ewm_mean_convex : forall P a w mp adj out, convex P -> no_infinity a -> (1 <= w)%nat -> all_known P a ->
  ewm_mean_1d_nb a w mp adj = Ok out -> length out = length a /\ forall y, In y out -> nan_or P y.
Proof.
  intros P a w mp adj out HP HT Hw HA H. unfold ewm_mean_1d_nb in H. apply raise_if_ok in H as [Hm H].
  set (m := match mp with None => w | Some m => m end) in *.
  destruct a as [|a0 a']; [injection H as <-; cbn; split; [auto|tauto]|].
  destruct (alpha_fin w Hw) as (al & Eal & Hal & r & Er & Hr). rewrite Eal in H. cbn [bind] in H. rewrite Er in H.
  apply bind_ok in H as (out' & Hs & H). injection H as <-.
  pose proof (share_pos w Hw) as [Hs0 Hs1].
  split; [cbn [length]; f_equal; eapply scanM_length; eauto|].
  assert (Hx : forall x, In x (a0 :: a') -> x = NaN \/ exists q, x = Fin q /\ P q).
  { intros x Hx. destruct (HT x Hx). destruct x as [| | |q]; try congruence; auto. right. eauto. }
  assert (I0 : ewm_conv P (a0, if eqb a0 a0 then 1%nat else 0%nat, one)).
  { split; [apply Hx; left; auto|]. exists 1. split; [reflexivity|lra]. }
  intros y [<-|Hy].
  - destruct (Nat.leb _ _); [apply Hx; left; auto|left; reflexivity].
  - apply In_nth_error in Hy as (i & Hi).
    assert (Hnw : exists nw, (if adj then one else Fin al) = Fin nw /\ 0 <= nw).
    { destruct adj; [exists 1; split; [reflexivity|lra]|exists al; split; [reflexivity|lra]]. }
    destruct Hnw as (nw & Enw & Hnw). rewrite Enw in Hs.
    assert (HL : length out' = length a') by (eapply scanM_length; eauto).
    destruct (nth_error a' i) as [x|] eqn:Ex; [|apply nth_error_None in Ex; assert (i < length out')%nat by (apply nth_error_Some; congruence); lia].
    assert (Hin : forall j z, nth_error a' j = Some z -> z = NaN \/ exists q, z = Fin q /\ P q).
    { intros j z Hz. apply Hx. right. eapply nth_error_In; eauto. }
    destruct (scanM_spec_at _ (fun _ => ewm_conv P) a' 1 _ out' Hs I0) with (k := i) (x := x) as (s0 & s' & b & HI & Hst & Hb); auto.
    + intros k s z s' b Hz HI Hst. eapply ewm_conv_step in Hst; eauto; [tauto|lra].
    + rewrite Hb in Hi. injection Hi as <-. eapply ewm_conv_step in Hst; eauto; [tauto|lra].
Qed.

Lemma ma_convex : forall P a w ewm adj out, convex P -> no_infinity a -> (1 <= w)%nat -> all_known P a ->
  ma_nb a w ewm adj = Ok out -> length out = length a /\ forall y, In y out -> nan_or P y.
Proof.
  intros P a w ewm adj out HP HT Hw HA H. unfold ma_nb in H. destruct ewm.
  - eapply ewm_mean_convex; eauto.
  - eapply rolling_mean_convex; eauto.
Qed.

Lemma ma_accepts : forall a w ewm adj, no_infinity a -> (1 <= w)%nat -> exists out, ma_nb a w ewm adj = Ok out.
Proof.
  intros a w ewm adj HT Hw. unfold ma_nb. destruct ewm.
  - apply ewm_accepts; auto.
  - apply rolling_mean_accepts; auto.
Qed.
