(** * Arithmetic on values known up to equality of rationals *)
From Coq Require Import ZArith QArith Qabs Bool List Lqa.
From Verif Require Import Base Num XQFacts GenericLemmas2 ReturnsSpec.
Import ListNotations.
Local Open Scope Q_scope.

Lemma in_fin : forall q, is_number (Fin q) q.
Proof. intros q. exists q. split; reflexivity. Qed.
Lemma in_eq : forall x a b, is_number x a -> a == b -> is_number x b.
Proof. intros x a b (p & -> & H) E. exists p. split; auto. rewrite H. auto. Qed.
Lemma in_inv : forall q a, is_number (Fin q) a -> q == a.
Proof. intros q a (p & H & E). injection H as ->. auto. Qed.
Lemma in_uniq : forall x a b, is_number x a -> is_number x b -> a == b.
Proof. intros x a b (p & -> & H) (q & E & H'). injection E as ->. rewrite <- H. auto. Qed.
Lemma in_ofZ : forall z, is_number (ofZ z) (inject_Z z).
Proof. intros z. exists (inject_Z z). split; reflexivity. Qed.
Lemma in_zero : is_number zero 0.
Proof. exact (in_ofZ 0). Qed.
Lemma in_one : is_number one 1.
Proof. exact (in_ofZ 1). Qed.
Lemma in_add : forall x y a b, is_number x a -> is_number y b -> is_number (add x y) (a + b).
Proof. intros x y a b (p & -> & H) (q & -> & H'). exists (Qred (p + q)). split; [reflexivity|]. rewrite Qred_correct, H, H'. reflexivity. Qed.
Lemma in_sub : forall x y a b, is_number x a -> is_number y b -> is_number (sub x y) (a - b).
Proof. intros x y a b (p & -> & H) (q & -> & H'). exists (Qred (p - q)). split; [reflexivity|]. rewrite Qred_correct, H, H'. reflexivity. Qed.
Lemma in_mul : forall x y a b, is_number x a -> is_number y b -> is_number (mul x y) (a * b).
Proof. intros x y a b (p & -> & H) (q & -> & H'). exists (Qred (p * q)). split; [reflexivity|]. rewrite Qred_correct, H, H'. reflexivity. Qed.
Lemma in_div : forall x y a b, is_number x a -> is_number y b -> ~ b == 0 -> is_number (div x y) (a / b).
Proof.
  intros x y a b (p & -> & H) (q & -> & H') Hb. rewrite div_fin by (rewrite H'; auto).
  eexists. split; [reflexivity|]. rewrite Qred_correct, H, H'. reflexivity.
Qed.
Lemma in_abs : forall x a, is_number x a -> is_number (abs x) (Qabs a).
Proof.
  intros x a (p & -> & H). destruct (xq_abs_fin p) as (r & E & Hr). exists r. split; [exact E|]. rewrite Hr, H. reflexivity.
Qed.
Lemma in_leb : forall x y a b, is_number x a -> is_number y b -> leb x y = Qle_bool a b.
Proof. intros x y a b (p & -> & H) (q & -> & H'). cbn. rewrite H, H'. reflexivity. Qed.
Lemma in_ltb : forall x y a b, is_number x a -> is_number y b -> ltb x y = qlt_bool a b.
Proof. intros x y a b (p & -> & H) (q & -> & H'). cbn. unfold qlt_bool. rewrite H, H'. reflexivity. Qed.
Lemma in_eqb : forall x y a b, is_number x a -> is_number y b -> eqb x y = Qeq_bool a b.
Proof. intros x y a b (p & -> & H) (q & -> & H'). cbn. rewrite H, H'. reflexivity. Qed.
Lemma in_sdiv : forall x y a b, is_number x a -> is_number y b -> ~ b == 0 -> exists z, sdiv x y = Ok z /\ is_number z (a / b).
Proof.
  intros x y a b H H' Hb. unfold sdiv. rewrite (in_eqb _ _ _ _ H' in_zero).
  apply qeq_f in Hb as Hb'. rewrite Hb'. eexists. split; [reflexivity|]. apply in_div; auto.
Qed.
Lemma in_isnan : forall x a, is_number x a -> isnan x = false.
Proof. intros x a (p & -> & _). reflexivity. Qed.
