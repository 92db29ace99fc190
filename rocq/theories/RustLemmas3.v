(** * Comparable orders on doubles *)
From Coq Require Import ZArith Bool.
From Flocq Require Import BinarySingleNaN.
From Verif Require Import Base Num B64 OrdLaws MathNb Order RustOrder RustLemmas RustLawsB64 RustSpec.

#[local] Existing Instance B64num.
#[local] Existing Instance B64rust.

Lemma snap64_inf : forall x : f64, isinf x = false -> isinf (snap x) = false.
Proof. intros x H. unfold snap. destruct (is_close_nb x zero); auto. Qed.

Lemma snap64_nonneg : forall x : f64, leb zero x = true -> geb (snap x) zero = true.
Proof. intros x H. unfold snap. destruct (is_close_nb x zero); auto. Qed.

Lemma order_ok_f64 : forall (s : ProcState f64) o, comparable_f64 s o -> order_ok s o.
Proof.
  intros s o [Hg Hl Hp Ht].
  assert (Hgn : isnan (o_size_granularity o) = true) by (rewrite Hg; reflexivity).
  constructor; auto.
  - split; [intros E; split; [apply Hp; auto|auto]|].
    intros E. destruct (Ht E) as [H|H]; auto. left. apply snap64_inf. exact H.
  - intros HS _ _ _ _ _ _ Hlk l Hlim. destruct Hl as [H|H]; [congruence|].
    unfold buy_lock_limit in Hlim. unfold snap_state in *. cbn [es_position es_free_cash] in *.
    rewrite (snap64_nonneg _ H) in Hlim. injection Hlim as <-. apply (sc_free _ HS).
Qed.
