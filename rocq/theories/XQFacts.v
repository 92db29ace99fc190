(** * Facts and tactics about the exact instance [XQ] *)
From Coq Require Import ZArith QArith Qabs Qround Qminmax Bool Lia Lqa List.
From Verif Require Import Base Num MathNb TolSpec.
Import ListNotations.

#[global] Existing Instance XQnum.

Arguments Qred : simpl never.
Arguments Qplus : simpl never.
Arguments Qminus : simpl never.
Arguments Qmult : simpl never.
Arguments Qdiv : simpl never.
Arguments Qopp : simpl never.
Arguments Qle_bool : simpl never.
Arguments Qeq_bool : simpl never.
Arguments qlt_bool : simpl never.
Arguments inject_Z : simpl never.
Arguments Qfloor : simpl never.

Lemma qle_t : forall a b, Qle_bool a b = true <-> a <= b.
Proof. intros; apply Qle_bool_iff. Qed.
Lemma qle_f : forall a b, Qle_bool a b = false <-> b < a.
Proof.
  intros a b; split; intros H.
  - apply Qnot_le_lt; intros C; apply Qle_bool_iff in C; congruence.
  - destruct (Qle_bool a b) eqn:E; auto. apply Qle_bool_iff in E. lra.
Qed.
Lemma qlt_t : forall a b, qlt_bool a b = true <-> a < b.
Proof. intros; unfold qlt_bool; rewrite negb_true_iff; apply qle_f. Qed.
Lemma qlt_f : forall a b, qlt_bool a b = false <-> b <= a.
Proof. intros; unfold qlt_bool; rewrite negb_false_iff; apply qle_t. Qed.
Lemma qeq_t : forall a b, Qeq_bool a b = true <-> a == b.
Proof. intros; apply Qeq_bool_iff. Qed.
Lemma qeq_f : forall a b, Qeq_bool a b = false <-> ~ a == b.
Proof.
  intros a b; split; intros H.
  - intros C; apply Qeq_bool_iff in C; congruence.
  - destruct (Qeq_bool a b) eqn:E; auto. apply Qeq_bool_iff in E. tauto.
Qed.

(** Turn boolean comparisons on Q into propositions. *)
Ltac qb :=
  repeat match goal with
  | H : Qle_bool _ _ = true |- _ => apply qle_t in H
  | H : Qle_bool _ _ = false |- _ => apply qle_f in H
  | H : qlt_bool _ _ = true |- _ => apply qlt_t in H
  | H : qlt_bool _ _ = false |- _ => apply qlt_f in H
  | H : Qeq_bool _ _ = true |- _ => apply qeq_t in H
  | H : Qeq_bool _ _ = false |- _ => apply qeq_f in H
  | H : negb _ = true |- _ => apply negb_true_iff in H
  | H : negb _ = false |- _ => apply negb_false_iff in H
  | H : (_ && _)%bool = true |- _ => apply andb_true_iff in H; destruct H
  | H : (_ || _)%bool = false |- _ => apply orb_false_iff in H; destruct H
  end.

Ltac qbg :=
  match goal with
  | |- Qle_bool _ _ = true => apply qle_t
  | |- Qle_bool _ _ = false => apply qle_f
  | |- qlt_bool _ _ = true => apply qlt_t
  | |- qlt_bool _ _ = false => apply qlt_f
  | |- Qeq_bool _ _ = true => apply qeq_t
  | |- Qeq_bool _ _ = false => apply qeq_f
  end.

(** Name every [Qred t] and record that it equals [t]. *)
Ltac qred :=
  repeat match goal with
  | |- context [Qred ?t] =>
      let v := fresh "v" in let H := fresh "Hv" in
      pose proof (Qred_correct t) as H; set (v := Qred t) in *; clearbody v
  | H0 : context [Qred ?t] |- _ =>
      let v := fresh "v" in let H := fresh "Hv" in
      pose proof (Qred_correct t) as H; set (v := Qred t) in *; clearbody v
  end.

Lemma inj0 : inject_Z 0 == 0. Proof. reflexivity. Qed.

(** Unfold the overloaded operations of the exact instance. *)
Ltac xn :=
  cbv [nan pinf ofZ add sub mul div fdiv neg abs ltb leb eqb isnan isinf rtol atol XQnum
       zero one two ninf isfinite gtb geb neb] in *.
Ltac xs := xn; cbn [xq_add xq_sub xq_mul xq_div xq_fdiv xq_neg xq_abs xq_ltb xq_leb xq_eqb
       xq_isnan xq_isinf negb andb orb fin] in *.

(** ** Tolerance *)

Lemma tolq_pos : forall a b, (1 # 1000000000000) <= tolq a b.
Proof. intros; unfold tolq. apply Q.le_max_r. Qed.

Lemma tolq_le_iff : forall x a b, x <= tolq a b <->
  (x <= (1 # 1000000000) * Qabs a \/ x <= (1 # 1000000000) * Qabs b
   \/ x <= (1 # 1000000000000)).
Proof.
  intros x a b; unfold tolq. rewrite Q.max_le_iff.
  split.
  - intros [H|H]; [|auto].
    destruct (Q.max_spec (Qabs a) (Qabs b)) as [[_ E]|[_ E]]; rewrite E in H; auto.
  - pose proof (Q.le_max_l (Qabs a) (Qabs b)). pose proof (Q.le_max_r (Qabs a) (Qabs b)).
    intros [H'|[H'|H']]; [left|left|right]; lra.
Qed.

Lemma tolq_lt_iff : forall x a b, tolq a b < x <->
  ((1 # 1000000000) * Qabs a < x /\ (1 # 1000000000) * Qabs b < x
   /\ (1 # 1000000000000) < x).
Proof.
  intros x a b. pose proof (tolq_le_iff x a b) as Hd. split.
  - intros H. repeat split; apply Qnot_le_lt; intros C.
    + assert (x <= tolq a b) by (apply Hd; auto). lra.
    + assert (x <= tolq a b) by (apply Hd; auto). lra.
    + assert (x <= tolq a b) by (apply Hd; auto). lra.
  - intros (H1 & H2 & H3). apply Qnot_le_lt; intros C. apply Hd in C.
    destruct C as [C|[C|C]]; lra.
Qed.

#[global] Instance tolq_proper : Proper (Qeq ==> Qeq ==> Qeq) tolq.
Proof. intros a a' Ha b b' Hb. unfold tolq. rewrite Ha, Hb. reflexivity. Qed.

Lemma Qabs_cases : forall x, (0 <= x /\ Qabs x == x) \/ (x < 0 /\ Qabs x == - x).
Proof.
  intros x. destruct (Qlt_le_dec x 0).
  - right; split; auto. apply Qabs_neg; lra.
  - left; split; auto. apply Qabs_pos; auto.
Qed.

Ltac qabs_all :=
  repeat match goal with
  | |- context [Qabs ?x] =>
      let v := fresh "w" in let H := fresh "Hw" in
      pose proof (Qabs_cases x) as H; set (v := Qabs x) in *; clearbody v
  | H0 : context [Qabs ?x] |- _ =>
      lazymatch type of H0 with
      | (_ /\ _) \/ (_ /\ _) => fail
      | _ => let v := fresh "w" in let H := fresh "Hw" in
             pose proof (Qabs_cases x) as H; set (v := Qabs x) in *; clearbody v
      end
  end.

(** [xq_abs] on finite numbers *)
Lemma xq_abs_fin : forall a, exists r, xq_abs (Fin a) = Fin r /\ r == Qabs a.
Proof.
  intros a. simpl. destruct (Qle_bool 0 a) eqn:E; qb.
  - exists a. split; auto. symmetry; apply Qabs_pos; auto.
  - exists (Qred (- a)). split; [reflexivity|]. rewrite Qred_correct.
    symmetry. apply Qabs_neg; lra.
Qed.

Lemma is_close_fin : forall a b, is_close_nb (Fin a) (Fin b) = true <-> Qabs (a - b) <= tolq a b.
Proof.
  intros a b. unfold is_close_nb, max2. xn.
  cbn [xq_isnan xq_isinf xq_eqb xq_sub orb].
  destruct (Qeq_bool a b) eqn:E; qb.
  - split; [intros _ | auto].
    assert (Hz : Qabs (a - b) == 0) by (rewrite E; unfold Qminus; rewrite Qplus_opp_r; reflexivity).
    pose proof (tolq_pos a b). lra.
  - destruct (xq_abs_fin a) as (ra & Ha & Hra). destruct (xq_abs_fin b) as (rb & Hb & Hrb).
    rewrite Ha, Hb.
    unfold fin. destruct (xq_abs_fin (Qred (a - b))) as (rd & Hd & Hrd).
    rewrite Hd. rewrite Qred_correct in Hrd.
    cbn [xq_ltb]. 
    set (m := if qlt_bool ra rb then Fin rb else Fin ra).
    assert (Hm : exists q, m = Fin q /\ (q == ra /\ rb <= ra \/ q == rb /\ ra < rb)).
    { unfold m. destruct (qlt_bool ra rb) eqn:E1; qb.
      - exists rb; split; auto. right; split; [reflexivity|auto].
      - exists ra; split; auto. left; split; [reflexivity|auto]. }
    destruct Hm as (q & -> & Hq). cbn [xq_mul xq_ltb]. unfold fin.
    set (z := Qred ((1 # 1000000000) * q)).
    assert (Hz : z == (1 # 1000000000) * q) by apply Qred_correct. clearbody z.
    cbn [xq_ltb].
    rewrite tolq_le_iff. rewrite <- Hra, <- Hrb, <- Hrd. 
    clear Ha Hb Hd E. clear Hrd Hra Hrb.
    destruct (qlt_bool z (1 # 1000000000000)) eqn:E; cbn [xq_leb]; rewrite qle_t; qb;
      split; intros H; destruct Hq as [[Hq1 Hq2]|[Hq1 Hq2]]; try lra.
Qed.

Lemma is_close_fin_f : forall a b, is_close_nb (Fin a) (Fin b) = false <-> tolq a b < Qabs (a - b).
Proof.
  intros a b. pose proof (is_close_fin a b) as H. destruct (is_close_nb (Fin a) (Fin b)).
  - split; [discriminate|]. intros C. destruct H as [H _]. specialize (H eq_refl). lra.
  - split; auto. intros _. apply Qnot_le_lt. intros C. apply H in C. discriminate.
Qed.

Lemma is_close_nonfin : forall a b, (xq_isnan a || xq_isinf a || xq_isnan b || xq_isinf b)%bool = true ->
  is_close_nb a b = false.
Proof.
  intros [| | |a] [| | |b] H; unfold is_close_nb; xs; auto; discriminate.
Qed.

Lemma tolq_0 : forall a, Qabs a <= tolq a 0 <-> Qabs a <= (1 # 1000000000000).
Proof.
  intros a. rewrite tolq_le_iff. change (Qabs 0) with 0.
  pose proof (Qabs_nonneg a). split; [|auto].
  intros [H'|[H'|H']]; lra.
Qed.

(** [is_close_nb x 0]: within 1e-12 of zero *)
Lemma is_close_zero : forall a, is_close_nb (Fin a) zero = true <-> Qabs a <= (1 # 1000000000000).
Proof.
  intros a. unfold zero. simpl. change (inject_Z 0) with 0%Q.
  rewrite is_close_fin. 
  assert (a - 0 == a) as -> by lra. apply tolq_0.
Qed.
Lemma is_close_zero_f : forall a, is_close_nb (Fin a) zero = false <-> (1 # 1000000000000) < Qabs a.
Proof.
  intros a. pose proof (is_close_zero a) as H. destruct (is_close_nb (Fin a) zero).
  - split; [discriminate|]. intros C. destruct H as [H _]. specialize (H eq_refl). lra.
  - split; auto. intros _. apply Qnot_le_lt. intros C. apply H in C. discriminate.
Qed.

Lemma sign_fin : forall a, sign (Fin a) = if qlt_bool 0 a then Fin 1 else if qlt_bool a 0 then Fin (-1) else Fin 0.
Proof.
  intros a. unfold sign. xs. change (inject_Z 0) with 0%Q.
  destruct (qlt_bool 0 a); [reflexivity|]. destruct (qlt_bool a 0); reflexivity.
Qed.

Lemma add_nb_fin : forall a b, exists r, add_nb (Fin a) (Fin b) = Fin r /\ approx_add a b r.
Proof.
  intros a b. unfold add_nb.
  assert (Hz : is_addition_zero_nb (Fin a) (Fin b) = true <-> Qabs (a + b) <= tolq a b).
  { unfold is_addition_zero_nb. rewrite !sign_fin.
    set (sa := if qlt_bool 0 a then _ else _). set (sb := if qlt_bool 0 b then _ else _).
    assert (Hs : neb sa sb = true /\ ((0 <= a /\ b <= 0) \/ (a <= 0 /\ 0 <= b)) \/
                 neb sa sb = false /\ ((0 < a /\ 0 < b) \/ (a < 0 /\ b < 0) \/ (a == 0 /\ b == 0))).
    { unfold sa, sb. destruct (qlt_bool 0 a) eqn:E1; [|destruct (qlt_bool a 0) eqn:E2];
      (destruct (qlt_bool 0 b) eqn:E3; [|destruct (qlt_bool b 0) eqn:E4]); qb; 
      cbn; try (left; split; [reflexivity|lra]); right; split; try reflexivity; lra. }
    destruct Hs as [[-> Hs]|[-> Hs]].
    - xn. destruct (xq_abs_fin a) as (ra & -> & Ha). destruct (xq_abs_fin b) as (rb & -> & Hb).
      rewrite is_close_fin. 
      assert (E1 : Qabs (ra - rb) == Qabs (a + b)).
      { rewrite Ha, Hb. qabs_all. lra. }
      assert (E2 : tolq ra rb == tolq a b).
      { unfold tolq. rewrite Ha, Hb. rewrite !(Qabs_pos (Qabs _)) by apply Qabs_nonneg. reflexivity. }
      rewrite E1, E2. reflexivity.
    - change (add (Fin a) (Fin b)) with (Fin (Qred (a + b))).
      rewrite is_close_zero. rewrite tolq_le_iff, Qred_correct.
      split; [auto|]. intros H. qabs_all. lra. }
  destruct (is_addition_zero_nb (Fin a) (Fin b)).
  - exists 0. split; [reflexivity|]. left. split; [reflexivity|]. apply Hz; auto.
  - exists (Qred (a + b)). split; [reflexivity|]. right. split; [apply Qred_correct|].
    apply Qnot_le_lt; intros C; apply Hz in C; discriminate.
Qed.

Lemma xq_abs_isinf : forall a, xq_isinf (xq_abs a) = xq_isinf a.
Proof. intros [| | |a]; auto. simpl. destruct (Qle_bool 0 a); auto. Qed.
Lemma xq_abs_isnan : forall a, xq_isnan (xq_abs a) = xq_isnan a.
Proof. intros [| | |a]; auto. simpl. destruct (Qle_bool 0 a); auto. Qed.

(** With a NaN or an infinity involved [add_nb] is plain addition. *)
Lemma add_nb_nonfin : forall a b, (forall p q, a = Fin p -> b = Fin q -> False) ->
  add_nb a b = xq_add a b.
Proof.
  intros a b H. unfold add_nb.
  assert (is_addition_zero_nb a b = false) as ->; [|reflexivity].
  unfold is_addition_zero_nb.
  destruct (neb (sign a) (sign b)).
  - apply is_close_nonfin. xn. rewrite !xq_abs_isnan, !xq_abs_isinf.
    destruct a, b; auto. exfalso; eapply H; eauto.
  - apply is_close_nonfin. xn. destruct a, b; auto. exfalso; eapply H; eauto.
Qed.

Lemma approx_add_bound : forall a b r, approx_add a b r -> Qabs (r - (a + b)) <= tolq a b.
Proof.
  intros a b r [[H1 H2]|[H1 H2]].
  - rewrite H1. qabs_all. lra.
  - rewrite H1. pose proof (tolq_pos a b). qabs_all. lra.
Qed.

Lemma approx_add_sgn : forall a b r, approx_add a b r -> 0 <= a + b -> 0 <= r.
Proof. intros a b r [[H1 H2]|[H1 H2]] H; lra. Qed.
Lemma approx_add_sgn_neg : forall a b r, approx_add a b r -> a + b <= 0 -> r <= 0.
Proof. intros a b r [[H1 H2]|[H1 H2]] H; lra. Qed.
(** Results are zero or not close to zero. *)
Lemma approx_add_gap : forall a b r, approx_add a b r -> r == 0 \/ (1 # 1000000000000) < Qabs r.
Proof.
  intros a b r [[H1 H2]|[H1 H2]]; [left; auto|right].
  rewrite H1. pose proof (tolq_pos a b). lra.
Qed.
