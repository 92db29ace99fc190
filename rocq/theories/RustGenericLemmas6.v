(** * Integers up to 2^53 are exact in doubles and in rationals *)
From Coq Require Import ZArith Bool Reals Lra Lia QArith.
From Coq Require QArith.Qcanon.
From Flocq Require Import Core BinarySingleNaN.
From Verif Require Import Base Num B64 RustLawsB64 RustGenericSpec.
Open Scope Z_scope.

Lemma int_format : forall z, (Z.abs z < 2 ^ 53)%Z -> generic_format radix2 (SpecFloat.fexp 53 1024) (IZR z).
Proof.
  intros z Hz. apply generic_format_FLT. exists (Float radix2 z 0); [unfold F2R; cbn; lra|exact Hz|cbn; lia].
Qed.

Lemma int_bound : forall z, (Z.abs z < 2 ^ 53)%Z -> (Rabs (IZR z) < bpow radix2 1024)%R.
Proof.
  intros z Hz. rewrite <- abs_IZR. apply Rlt_trans with (bpow radix2 53); [|apply bpow_lt; lia].
  change (bpow radix2 53) with (IZR (2 ^ 53)). apply IZR_lt. exact Hz.
Qed.

Lemma ofZ_exact : forall z, (Z.abs z < 2 ^ 53)%Z ->
  B2R (b64_ofZ z) = IZR z /\ is_finite (b64_ofZ z) = true /\ Bsign (b64_ofZ z) = (z <? 0)%Z.
Proof.
  intros z Hz. pose proof (binary_normalize_correct 53 1024 prec53_gt_0 prec53_lt mode_NE z 0 false) as H. cbv zeta in H.
  assert (E1 : F2R (Float radix2 z 0) = IZR z) by (unfold F2R; cbn; lra).
  rewrite E1 in H. rewrite round_generic in H; [|apply valid_rnd_round_mode|apply int_format; exact Hz].
  rewrite Rlt_bool_true in H by (apply int_bound; exact Hz).
  destruct H as (A & B & C). split; [exact A|]. split; [exact B|]. unfold b64_ofZ. rewrite C.
  rewrite Rcompare_IZR. unfold Z.ltb. destruct (z ?= 0)%Z; reflexivity.
Qed.

Lemma exact_span_f64 : forall span, (Z.of_nat span < 2 ^ 53)%Z -> @exact_span f64 B64num span.
Proof.
  intros span H. unfold exact_span. change (@ofZ _ B64num) with b64_ofZ. change (@sub _ B64num) with b64_sub. change (@one _ B64num) with (b64_ofZ 1).
  destruct (ofZ_exact (Z.of_nat span - 1) ltac:(lia)) as (A1 & A2 & A3).
  destruct (ofZ_exact (Z.of_nat span) ltac:(lia)) as (B1 & B2 & B3).
  destruct (ofZ_exact 1 ltac:(lia)) as (C1 & C2 & C3).
  pose proof (Bminus_correct 53 1024 prec53_gt_0 prec53_lt mode_NE _ _ B2 C2) as D.
  rewrite B1, C1 in D. rewrite <- minus_IZR in D.
  rewrite round_generic in D; [|apply valid_rnd_round_mode|apply int_format; lia].
  rewrite Rlt_bool_true in D by (apply int_bound; lia).
  destruct D as (D1 & D2 & D3). fold (b64_sub (b64_ofZ (Z.of_nat span)) (b64_ofZ 1)) in D1, D2, D3.
  apply B2R_Bsign_inj; [exact A2|exact D2|congruence|].
  rewrite A3, D3, Rcompare_IZR, B3, C3. unfold Z.ltb at 1. destruct (Z.of_nat span - 1 ?= 0) eqn:E; try reflexivity.
  assert (Hz : (Z.of_nat span <? 0) = false) by (apply Z.ltb_ge; lia). rewrite Hz. reflexivity.
Qed.

Lemma exact_span_xq : forall span, @exact_span XQ XQnum span.
Proof.
  intros span. unfold exact_span. cbn. unfold fin. f_equal.
  assert (E : (inject_Z (Z.of_nat span) - inject_Z 1 == inject_Z (Z.of_nat span - 1))%Q) by (unfold Qeq, inject_Z, Qminus, Qplus, Qopp; cbn [Qnum Qden]; rewrite ?Pos2Z.inj_mul; lia).
  rewrite (Qred_complete _ _ E). symmetry. unfold inject_Z. apply Qcanon.Qred_identity. cbn. apply Z.gcd_1_r.
Qed.
