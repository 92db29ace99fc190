(** * Proofs for C103: the laws of IEEE doubles, and the places where the engines part *)
From Coq Require Import String ZArith QArith Reals Lra Bool List Arith Lia.
From Flocq Require Import Core BinarySingleNaN.
From Verif Require Import Base Num B64 OrdLaws MathNb RustLawsB64 RustReturnsSpec.
Local Open Scope nat_scope.

Lemma b64_add_fin : forall x y : f64, is_finite x = true -> is_finite y = true -> b64_isnan (b64_add x y) = false.
Proof.
  intros x y Hx Hy. pose proof (Bplus_correct 53 1024 prec53_gt_0 prec53_lt mode_NE x y Hx Hy) as H.
  destruct (Rlt_bool _ _).
  - destruct H as (_ & H & _). apply b64_finite_notnan. unfold b64_add. exact H.
  - destruct H as [H _]. rewrite b64_notnan_sf. unfold b64_add. rewrite H, overflow_inf. auto.
Qed.
Lemma b64_times_one : forall a : f64, b64_mul a (b64_ofZ 1) = a.
Proof.
  intros a. destruct a as [s|s| |s m e Hb]; [destruct s; reflexivity|destruct s; reflexivity|reflexivity|].
  set (a := (B754_finite s m e Hb : f64)). pose proof b64_one_R as [H1 F1].
  change (@one _ B64num) with (b64_ofZ 1) in *.
  pose proof (Bmult_correct 53 1024 prec53_gt_0 prec53_lt mode_NE a (b64_ofZ 1)) as H.
  rewrite H1 in H.
  assert (Ea : (B2R a * 1)%R = B2R a) by lra.
  change (RbaseSymbolsImpl.Rmult (B2R a) 1) with (B2R a * 1)%R in H.
  rewrite Ea in H. rewrite round_generic in H; [|apply valid_rnd_round_mode|apply generic_format_B2R].
  rewrite Rlt_bool_true in H by apply abs_B2R_lt_emax.
  destruct H as (HR & HF & HS). fold (b64_mul a (b64_ofZ 1)) in *.
  rewrite F1 in HF. cbn in HF.
  assert (Ff : is_finite (b64_mul a (b64_ofZ 1)) = true) by exact HF.
  apply B2R_Bsign_inj; auto.
  unfold b64_mul in *. rewrite HS; [|destruct (Bmult _ _ _); cbn in *; congruence].
  change (Bsign (b64_ofZ 1)) with false. cbn. destruct s; reflexivity.
Qed.

Lemma b64_ieee : ieee_like B64num.
Proof.
  constructor.
  - intros [s|s| |s m e H]; cbn; intros; auto; discriminate.
  - intros [s|s| |s m e H]; split; reflexivity.
  - intros [s|s| |s m e H]; split; reflexivity.
  - intros [s|s| |s m e H]; split; reflexivity.
  - intros [s|s| |s m e H]; split; reflexivity.
  - reflexivity.
  - intros x. change (b64_isnan (b64_add x (b64_ofZ 1)) = b64_isnan x).
    destruct x as [s|s| |s m e H]; [apply b64_add_fin; reflexivity|destruct s; reflexivity|reflexivity|].
    apply b64_add_fin; reflexivity.
  - intros x. change (b64_isnan (b64_mul x x) = b64_isnan x).
    destruct x as [s|s| |s m e H]; [apply b64_mul_fin; reflexivity|destruct s; reflexivity|reflexivity|].
    apply b64_mul_fin; reflexivity.
  - intros x y. apply b64_times_one.
  - apply b64_times_one.
  - reflexivity.
  - split; reflexivity.
Qed.
