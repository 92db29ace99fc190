(** * The laws used to compare the engines hold of exact numbers *)
From Coq Require Import ZArith QArith Qabs Qround Bool List Lia Lqa.
From Verif Require Import Base Num MathNb Order XQFacts OrdLaws RustOrder RustLemmas.
Import ListNotations.

#[global] Existing Instance XQrust.

Ltac zz := change (inject_Z 0) with 0 in *; change (inject_Z 1) with 1 in *.

Lemma bool_eq : forall a b : bool, (a = true <-> b = true) -> a = b.
Proof. intros [] [] [H1 H2]; auto. symmetry; auto. Qed.

Lemma xq_abs_fin : forall a, exists b, abs (Fin a) = Fin b /\ b == Qabs a.
Proof.
  intros a. xs. destruct (Qle_bool 0 a) eqn:E; eexists; split; try reflexivity; qb.
  - rewrite Qabs_pos by auto. reflexivity.
  - rewrite Qred_correct, Qabs_neg by lra. reflexivity.
Qed.

Lemma xq_close_eq : forall x y, Qabs x == Qabs y ->
  is_close_nb (Fin x) zero = is_close_nb (Fin y) zero.
Proof. intros x y H. apply bool_eq. rewrite !is_close_zero, H. reflexivity. Qed.

Lemma xq_close_abs : forall x y a b, Qabs x == Qabs a -> a == 0 ->
  y == Qabs b -> x == 0 -> is_close_nb (Fin x) (Fin y) = is_close_nb (Fin b) zero.
Proof.
  intros x y a b _ _ Hy Hx. apply bool_eq. rewrite is_close_fin, is_close_zero.
  rewrite Hy, Hx. rewrite tolq_le_iff.
  assert (E : Qabs (0 - Qabs b) == Qabs b).
  { unfold Qminus. rewrite Qplus_0_l, Qabs_opp, Qabs_pos; [reflexivity|apply Qabs_nonneg]. }
  rewrite E, (Qabs_pos (Qabs b)) by apply Qabs_nonneg. change (Qabs 0) with 0.
  pose proof (Qabs_nonneg b). split; [intros [H1|[H1|H1]]; lra|auto].
Qed.

Lemma xq_close_l : forall a b, a == 0 ->
  is_close_nb (add (Fin a) (Fin b)) zero = is_close_nb (abs (Fin a)) (abs (Fin b)).
Proof.
  intros a b H. destruct (xq_abs_fin a) as (a' & -> & Ha). destruct (xq_abs_fin b) as (b' & -> & Hb).
  rewrite (xq_close_abs a' b' a b); auto.
  - change (add (Fin a) (Fin b)) with (Fin (Qred (a + b))). apply xq_close_eq.
    rewrite Qred_correct, H, Qplus_0_l. reflexivity.
  - rewrite Ha. apply Qabs_pos, Qabs_nonneg.
  - rewrite Ha, H. reflexivity.
Qed.

Lemma xq_close_sym : forall a b, is_close_nb (Fin a) (Fin b) = is_close_nb (Fin b) (Fin a).
Proof.
  intros a b. apply bool_eq. rewrite !is_close_fin, !tolq_le_iff, Qabs_Qminus. tauto.
Qed.

Lemma xq_close_r : forall a b, b == 0 ->
  is_close_nb (add (Fin a) (Fin b)) zero = is_close_nb (abs (Fin a)) (abs (Fin b)).
Proof.
  intros a b H.
  replace (is_close_nb (add (Fin a) (Fin b)) zero) with (is_close_nb (add (Fin b) (Fin a)) zero).
  - rewrite xq_close_l by auto. destruct (xq_abs_fin a) as (a' & -> & Ha).
    destruct (xq_abs_fin b) as (b' & -> & Hb). apply xq_close_sym.
  - change (add (Fin a) (Fin b)) with (Fin (Qred (a + b))).
    change (add (Fin b) (Fin a)) with (Fin (Qred (b + a))).
    apply xq_close_eq. rewrite !Qred_correct, Qplus_comm. reflexivity.
Qed.

#[global] Instance XQrustlaws : RustLaws XQnum XQrust.
Proof.
  constructor.
  - exact XQord.
  - intros [| | |a] H; xs; try discriminate; cbn [signbit XQrust xq_ltb]; auto. zz. qb. qbg. lra.
  - intros [| | |a] H; xs; try discriminate; cbn [signbit XQrust xq_ltb]; auto.
  - intros [| | |a] b H; try discriminate.
    assert (Ha : a == 0) by (revert H; xs; zz; intros H; qb; auto). clear H.
    destruct b as [| | |b]; [| | |apply xq_close_l; auto];
      destruct (xq_abs_fin a) as (a' & -> & _); reflexivity.
  - intros a [| | |b] H; try discriminate.
    assert (Hb : b == 0) by (revert H; xs; zz; intros H; qb; auto). clear H.
    destruct a as [| | |a]; [| | |apply xq_close_r; auto];
      destruct (xq_abs_fin b) as (b' & -> & _); reflexivity.
  - intros [| | |a] H1 H2; xs; try discriminate. destruct (Qle_bool 0 a); reflexivity.
  - reflexivity.
  - reflexivity.
  - intros [| | |a]; xs; auto. destruct (Qle_bool 0 a); reflexivity.
  - intros [| | |a] H; xs; try discriminate; auto.
  - intros [| | |a]; xs; auto.
  - intros [| | |a]; xs; auto.
  - intros [| | |a] [| | |b] H1 H2; xs; try discriminate; auto.
  - intros [| | |a]; xs; auto. split; [auto|split; auto].
    apply bool_eq. rewrite !qeq_t. rewrite Qred_correct.
    change (Qred (- inject_Z 1)) with (- (1)). change (inject_Z 0) with 0. split; intros H; lra.
  - intros [| | |a]; xs; auto. destruct (Qle_bool 0 a); reflexivity.
  - intros [| | |a]; xs; try discriminate; auto.
  - repeat split; reflexivity.
  - intros [| | |a] [| | |b] H1 H2 H3; xs; try discriminate; auto; unfold xq_sgn_inf; zz; qb.
    + destruct (Qeq_bool b 0) eqn:E; qb; [lra|]. destruct (Bool.eqb _ _); auto.
    + destruct (Qeq_bool b 0) eqn:E; qb; [lra|]. destruct (Bool.eqb _ _); auto.
    + destruct H3 as [?|H3]; [discriminate|]. rewrite H3. destruct (Bool.eqb _ _); auto.
  - intros [| | |a] [| | |b] H1 H2 H3; xs; try discriminate; auto; zz; qb.
    + destruct (Qle_bool 0 b); auto.
    + destruct (Qle_bool 0 b); auto.
    + destruct (Qeq_bool b 0) eqn:E; qb; [lra|]. reflexivity.
  - intros [| | |a] [| | |b] H1 H2; xs; try discriminate; auto.
  - intros [| | |a] H1 H2; xs; try discriminate; auto; zz.
    destruct (Qle_bool 0 a) eqn:E; cbn [xq_ltb fin]; qb; qbg.
    + apply Qle_lt_or_eq in E. destruct E as [E|E]; auto. symmetry in E. contradiction.
    + rewrite Qred_correct. lra.
  - repeat split; reflexivity.
Qed.
