(** * Laws of the comparisons, for exact numbers and IEEE doubles *)
From Coq Require Import ZArith QArith Bool Lia Lqa Reals Lra.
From Flocq Require Import BinarySingleNaN Core.
From Verif Require Import Base Num B64 XQFacts.

Class OrdLaws {T} (N : Num T) : Prop := mkOrd {
  ol_nan_l : forall a b : T, isnan a = true -> ltb a b = false;
  ol_nan_r : forall a b : T, isnan b = true -> ltb a b = false;
  ol_asym : forall a b : T, ltb a b = true -> ltb b a = false;
  ol_negtrans : forall a b c : T, isnan b = false -> ltb a b = false -> ltb b c = false -> ltb a c = false;
  ol_leb : forall a b : T, leb a b = negb (isnan a) && negb (isnan b) && negb (ltb b a);
  ol_eqb : forall a b : T, eqb a b = leb a b && leb b a;
  ol_nan : isnan nan = true }.

Section Derived.
  Context {T : Type} {N : Num T} {L : OrdLaws N}.

  Lemma ltb_irrefl : forall a : T, ltb a a = false.
  Proof. intros a. destruct (ltb a a) eqn:E; auto. rewrite <- E at 1. apply ol_asym. auto. Qed.

  Lemma ltb_notnan : forall a b : T, ltb a b = true -> isnan a = false /\ isnan b = false.
  Proof.
    intros a b H. split; [destruct (isnan a) eqn:E|destruct (isnan b) eqn:E]; auto.
    - rewrite ol_nan_l in H; auto.
    - rewrite ol_nan_r in H; auto.
  Qed.

  Lemma ltb_trans : forall a b c : T, ltb a b = true -> ltb b c = true -> ltb a c = true.
  Proof.
    intros a b c H1 H2. destruct (ltb a c) eqn:E; auto.
    assert (F : ltb a b = false); [|congruence].
    apply (ol_negtrans a c b); auto; [apply (ltb_notnan b c); auto|apply ol_asym; auto].
  Qed.

  Lemma leb_trans : forall a b c : T, leb a b = true -> leb b c = true -> leb a c = true.
  Proof.
    intros a b c. rewrite !ol_leb, !andb_true_iff, !negb_true_iff.
    intros [[H1 H2] H3] [[H4 H5] H6]. repeat split; auto. apply (ol_negtrans c b a); auto.
  Qed.

  Lemma leb_refl : forall a : T, isnan a = false -> leb a a = true.
  Proof. intros a H. rewrite ol_leb, H, ltb_irrefl. auto. Qed.

  Lemma leb_ltb_trans : forall a b c : T, leb a b = true -> ltb b c = true -> ltb a c = true.
  Proof.
    intros a b c. rewrite !ol_leb, !andb_true_iff, !negb_true_iff. intros [[H1 H2] H3] H4.
    destruct (ltb a c) eqn:E; auto. assert (F : ltb b c = false); [|congruence].
    apply (ol_negtrans b a c); auto.
  Qed.
  Lemma ltb_leb_trans : forall a b c : T, ltb a b = true -> leb b c = true -> ltb a c = true.
  Proof.
    intros a b c H4. rewrite !ol_leb, !andb_true_iff, !negb_true_iff. intros [[H1 H2] H3].
    destruct (ltb a c) eqn:E; auto. assert (F : ltb a b = false); [|congruence].
    apply (ol_negtrans a c b); auto.
  Qed.

  Lemma ltb_leb : forall a b : T, ltb a b = true -> leb a b = true.
  Proof.
    intros a b H. rewrite ol_leb. destruct (ltb_notnan _ _ H) as [-> ->]. rewrite ol_asym; auto.
  Qed.

  Lemma leb_total : forall a b : T, isnan a = false -> isnan b = false -> leb a b = true \/ ltb b a = true.
  Proof. intros a b H1 H2. rewrite ol_leb, H1, H2. destruct (ltb b a); auto. Qed.

  Lemma leb_notnan : forall a b : T, leb a b = true -> isnan a = false /\ isnan b = false.
  Proof. intros a b. rewrite ol_leb, !andb_true_iff, !negb_true_iff. tauto. Qed.

  Lemma leb_false_ltb : forall a b : T, isnan a = false -> isnan b = false -> leb a b = false -> ltb b a = true.
  Proof. intros a b H1 H2 H. destruct (leb_total a b H1 H2); congruence. Qed.

  Lemma ltb_false_leb : forall a b : T, isnan a = false -> isnan b = false -> ltb a b = false -> leb b a = true.
  Proof. intros a b H1 H2 H. rewrite ol_leb, H1, H2, H. auto. Qed.

  Lemma ltb_true_leb_false : forall a b : T, ltb a b = true -> leb b a = false.
  Proof. intros a b H. rewrite ol_leb, H. rewrite !andb_false_r. auto. Qed.
End Derived.

(** ** Exact numbers *)
#[global] Instance XQord : OrdLaws XQnum.
Proof.
  constructor.
  - intros [| | |a] [| | |b]; cbn; intros; auto; discriminate.
  - intros [| | |a] [| | |b]; cbn; intros; auto; discriminate.
  - intros [| | |a] [| | |b]; cbn; intros H; auto; try discriminate. qb. qbg. Lqa.lra.
  - intros [| | |a] [| | |b] [| | |c]; cbn; intros; auto; try discriminate; qb; qbg; Lqa.lra.
  - intros [| | |a] [| | |b]; cbn; auto. unfold qlt_bool. rewrite negb_involutive. auto.
  - intros [| | |a] [| | |b]; cbn; auto. destruct (Qeq_bool a b) eqn:E, (Qle_bool a b) eqn:E1, (Qle_bool b a) eqn:E2;
      auto; qb; exfalso; try Lqa.lra.
  - reflexivity.
Qed.

(** ** Doubles *)
Definition b64_key (a : f64) : option (Z * R) :=
  match a with
  | B754_nan => None
  | B754_infinity true => Some (-1, 0%R)%Z
  | B754_infinity false => Some (1, 0%R)%Z
  | _ => Some (0%Z, B2R a)
  end.

Definition key_lt (x y : option (Z * R)) : Prop :=
  match x, y with
  | Some (a, r), Some (b, s) => (a < b)%Z \/ (a = b /\ (r < s)%R)
  | _, _ => False
  end.
Definition key_eq (x y : option (Z * R)) : Prop :=
  match x, y with
  | Some (a, r), Some (b, s) => a = b /\ r = s
  | _, _ => False
  end.

Lemma b64_compare_key : forall a b : f64,
  match Bcompare a b with
  | None => b64_key a = None \/ b64_key b = None
  | Some Lt => key_lt (b64_key a) (b64_key b)
  | Some Gt => key_lt (b64_key b) (b64_key a)
  | Some Eq => key_eq (b64_key a) (b64_key b)
  end.
Proof.
  intros a b.
  destruct (is_finite a && is_finite b) eqn:F.
  - apply andb_true_iff in F as [Fa Fb]. rewrite Bcompare_correct by auto.
    assert (Ka : b64_key a = Some (0%Z, B2R a)) by (destruct a; cbn in *; auto; discriminate).
    assert (Kb : b64_key b = Some (0%Z, B2R b)) by (destruct b; cbn in *; auto; discriminate).
    rewrite Ka, Kb. cbn. destruct (Rcompare_spec (B2R a) (B2R b)); auto.
  - destruct a as [sa|[]| |sa ma ea Ha], b as [sb|[]| |sb mb eb Hb]; cbn in *; try discriminate; auto; lia.
Qed.

Lemma b64_ltb_key : forall a b, b64_ltb a b = true <-> key_lt (b64_key a) (b64_key b).
Proof.
  intros a b. unfold b64_ltb. pose proof (b64_compare_key a b) as H.
  destruct (Bcompare a b) as [[]|]; split; intros; auto; try discriminate; exfalso;
    destruct (b64_key a) as [[? ?]|], (b64_key b) as [[? ?]|]; cbn in *; intuition (try lia; try lra; try discriminate).
Qed.

Lemma b64_nan_key : forall a, b64_isnan a = true <-> b64_key a = None.
Proof. intros [?|[]| |? ? ? ?]; cbn; split; intros; auto; discriminate. Qed.

Lemma b64_ltb_key_f : forall a b, b64_ltb a b = false <-> ~ key_lt (b64_key a) (b64_key b).
Proof. intros a b. rewrite <- b64_ltb_key. destruct (b64_ltb a b); split; intros; auto; try congruence; tauto. Qed.

#[global] Instance B64ord : OrdLaws B64num.
Proof.
  constructor; cbn [isnan ltb leb eqb B64num nan].
  - intros a b H. apply b64_nan_key in H. apply b64_ltb_key_f. rewrite H. auto.
  - intros a b H. apply b64_nan_key in H. apply b64_ltb_key_f. rewrite H. destruct (b64_key a) as [[]|]; auto.
  - intros a b H. apply b64_ltb_key in H. apply b64_ltb_key_f.
    destruct (b64_key a) as [[]|], (b64_key b) as [[]|]; cbn in *; auto. intros ?. intuition (try lia; try lra).
  - intros a b c Hb H1 H2. apply b64_ltb_key_f in H1. apply b64_ltb_key_f in H2. apply b64_ltb_key_f.
    assert (Hk : b64_key b <> None).
    { intros C. apply b64_nan_key in C. congruence. }
    destruct (b64_key a) as [[x r]|], (b64_key b) as [[y s]|], (b64_key c) as [[z u]|]; cbn in *; auto.
    intros H. destruct (Ztrichotomy x y) as [|[]], (Ztrichotomy y z) as [|[]];
      try (exfalso; intuition lia). subst y z.
    destruct H as [|[_ H]]; [lia|].
    assert (~ (r < s)%R) by tauto. assert (~ (s < u)%R) by tauto. lra.
  - intros a b. pose proof (b64_compare_key a b) as H. pose proof (b64_compare_key b a) as H'.
    assert (Ha := b64_nan_key a). assert (Hb := b64_nan_key b).
    unfold b64_leb, b64_ltb.
    destruct (Bcompare a b) as [[]|], (Bcompare b a) as [[]|]; cbn;
      destruct (b64_isnan a), (b64_isnan b); cbn; auto;
      destruct (b64_key a) as [[x r]|], (b64_key b) as [[y s]|]; cbn in *;
      intuition (try discriminate; try congruence; try lia; try lra).
  - intros a b. pose proof (b64_compare_key a b) as H. pose proof (b64_compare_key b a) as H'.
    unfold b64_leb, b64_eqb.
    destruct (Bcompare a b) as [[]|], (Bcompare b a) as [[]|]; cbn; auto;
      destruct (b64_key a) as [[x r]|], (b64_key b) as [[y s]|]; cbn in *;
      intuition (try discriminate; try congruence; try lia; try lra).
  - reflexivity.
Qed.
