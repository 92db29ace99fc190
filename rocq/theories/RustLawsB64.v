(** * The engine laws hold for IEEE doubles *)
From Coq Require Import ZArith Bool Reals Lra Lia.
From Flocq Require Import Core BinarySingleNaN.
From Verif Require Import Base Num B64 OrdLaws MathNb Order RustOrder RustLemmas.

Lemma b64_zero : (@zero _ B64num) = B754_zero false.
Proof. reflexivity. Qed.

Lemma overflow_inf : forall s, binary_overflow 53 1024 mode_NE s = SpecFloat.S754_infinity s.
Proof. intros []; reflexivity. Qed.

Lemma b64_notnan_sf : forall x : f64, b64_isnan x = match B2SF x with SpecFloat.S754_nan => true | _ => false end.
Proof. intros []; reflexivity. Qed.

Lemma b64_finite_notnan : forall x : f64, is_finite x = true -> b64_isnan x = false.
Proof. intros []; cbn; congruence. Qed.

Lemma b64_mul_fin : forall x y : f64, is_finite x = true -> is_finite y = true ->
  b64_isnan (b64_mul x y) = false.
Proof.
  intros x y Hx Hy. pose proof (Bmult_correct 53 1024 prec53_gt_0 prec53_lt mode_NE x y) as H.
  destruct (Rlt_bool _ _).
  - destruct H as (_ & H & _). apply b64_finite_notnan. unfold b64_mul. rewrite H, Hx, Hy. auto.
  - rewrite b64_notnan_sf. unfold b64_mul. rewrite H, overflow_inf. auto.
Qed.

Lemma b64_div_fin : forall x y : f64, is_finite x = true -> B2R y <> 0%R ->
  b64_isnan (b64_div x y) = false.
Proof.
  intros x y Hx Hy. pose proof (Bdiv_correct 53 1024 prec53_gt_0 prec53_lt mode_NE x y Hy) as H.
  destruct (Rlt_bool _ _).
  - destruct H as (_ & H & _). apply b64_finite_notnan. unfold b64_div. rewrite H, Hx. auto.
  - rewrite b64_notnan_sf. unfold b64_div. rewrite H, overflow_inf. auto.
Qed.

Lemma b64_sub_fin : forall x y : f64, is_finite x = true -> is_finite y = true ->
  b64_isnan (b64_sub x y) = false.
Proof.
  intros x y Hx Hy. pose proof (Bminus_correct 53 1024 prec53_gt_0 prec53_lt mode_NE x y Hx Hy) as H.
  destruct (Rlt_bool _ _).
  - destruct H as (_ & H & _). apply b64_finite_notnan. unfold b64_sub. rewrite H. auto.
  - destruct H as [H _]. rewrite b64_notnan_sf. unfold b64_sub. rewrite H, overflow_inf. auto.
Qed.

Lemma b64_one_R : B2R (@one _ B64num) = 1%R /\ is_finite (@one _ B64num) = true.
Proof.
  split; [|reflexivity].
  change (@one _ B64num) with (b64_ofZ 1).
  pose proof (binary_normalize_correct 53 1024 prec53_gt_0 prec53_lt mode_NE 1 0 false) as H. cbv zeta in H.
  assert (E : Generic_fmt.round radix2 (SpecFloat.fexp 53 1024) (round_mode mode_NE)
             (F2R (Float radix2 1 0)) = 1%R).
  { assert (E1 : F2R (Float radix2 1 0) = 1%R) by (unfold F2R; cbn; lra).
    rewrite E1 in *. apply round_generic; [apply valid_rnd_round_mode|].
    replace 1%R with (bpow radix2 0) by reflexivity. apply generic_format_bpow. cbn. lia. }
  rewrite E in H.
  rewrite Rlt_bool_true in H; [apply H|].
  rewrite Rabs_R1. replace 1%R with (bpow radix2 0) by reflexivity. apply bpow_lt. lia.
Qed.

Lemma b64_flip_R : forall s m e (Hb : SpecFloat.bounded 53 1024 m e = true),
  let a := (B754_finite s m e Hb : f64) in
  b64_mul a (Bopp (b64_ofZ 1)) = Bopp a.
Proof.
  intros s m e Hb a. pose proof b64_one_R as [H1 F1].
  change (@one _ B64num) with (b64_ofZ 1) in *.
  pose proof (Bmult_correct 53 1024 prec53_gt_0 prec53_lt mode_NE a (Bopp (b64_ofZ 1))) as H.
  rewrite B2R_Bopp, H1 in H.
  assert (Ea : (B2R a * - (1))%R = B2R (Bopp a)) by (rewrite B2R_Bopp; lra).
  change (RbaseSymbolsImpl.Rmult (B2R a) (- (1))) with (B2R a * - (1))%R in H.
  rewrite Ea in H. rewrite round_generic in H; [|apply valid_rnd_round_mode|apply generic_format_B2R].
  rewrite Rlt_bool_true in H by apply abs_B2R_lt_emax.
  destruct H as (HR & HF & HS). fold (b64_mul a (Bopp (b64_ofZ 1))) in *.
  rewrite is_finite_Bopp, F1 in HF. cbn in HF.
  assert (Ff : is_finite (b64_mul a (Bopp (b64_ofZ 1))) = true) by exact HF.
  apply B2R_Bsign_inj; auto.
  unfold b64_mul in *. rewrite HS; [|destruct (Bmult _ _ _); cbn in *; congruence].
  rewrite !Bsign_Bopp by reflexivity. change (Bsign (b64_ofZ 1)) with false. cbn. destruct s; reflexivity.
Qed.

Lemma b64_pos_R : forall s m e (Hb : SpecFloat.bounded 53 1024 m e = true),
  B2R (B754_finite s m e Hb : f64) <> 0%R.
Proof.
  intros s m e Hb. cbn. intros H. apply eq_0_F2R in H. destruct s; discriminate.
Qed.

Definition zf : f64 := B754_zero false.

(** Closeness to zero does not depend on the side or the sign. *)
Lemma b64_close_fin : forall s m e (Hb : SpecFloat.bounded 53 1024 m e = true),
  let b := (B754_finite s m e Hb : f64) in
  @is_close_nb _ B64num b zf = @is_close_nb _ B64num zf (Babs b) /\
  @is_close_nb _ B64num b zf = @is_close_nb _ B64num (Babs b) zf.
Proof.
  intros s m e Hb b. unfold is_close_nb. cbn [isnan isinf eqb B64num].
  destruct s; split; reflexivity.
Qed.

#[global] Instance B64rustlaws : RustLaws B64num B64rust.
Proof.
  constructor.
  - exact B64ord.
  - intros [[]|[]| |[] m e H]; cbn; intros; auto; discriminate.
  - intros [[]|[]| |[] m e H]; cbn; intros; auto; discriminate.
  - intros [s|[]| |[] m e H] b; rewrite ?b64_zero; cbn [eqb B64num b64_eqb Bcompare]; intros E; try discriminate.
    destruct b as [s'|s'| |s' m e H]; [destruct s, s'; reflexivity|destruct s, s'; reflexivity|destruct s; reflexivity|].
    destruct (b64_close_fin s' m e H) as [E1 _]. exact E1.
  - intros a [s|[]| |[] m e H]; rewrite ?b64_zero; cbn [eqb B64num b64_eqb Bcompare]; intros E; try discriminate.
    destruct a as [s'|s'| |s' m e H]; [destruct s, s'; reflexivity|destruct s, s'; reflexivity|destruct s; reflexivity|].
    destruct (b64_close_fin s' m e H) as [_ E1]. exact E1.
  - intros a H1 H2. cbn [isnan mul abs B64num]. apply b64_mul_fin; [reflexivity|].
    destruct a; cbn in *; auto; discriminate.
  - reflexivity.
  - reflexivity.
  - intros []; reflexivity.
  - intros [] H; try discriminate; reflexivity.
  - intros []; reflexivity.
  - intros []; reflexivity.
  - intros [[]|[]| |[] m e H] [[]|[]| |[] m' e' H']; cbn; intros; auto; discriminate.
  - intros [s|s| |s m e H]; try (destruct s); try (repeat split; reflexivity);
      cbn [isnan isinf eqb mul neg B64num];
      match goal with |- context [b64_mul (B754_finite ?s ?m ?e ?H) _] =>
        change (Bopp (@one _ B64num)) with (Bopp (b64_ofZ 1)); rewrite (b64_flip_R s m e H) end;
      repeat split; reflexivity.
  - intros []; reflexivity.
  - intros [[]|[]| |[] m e H]; cbn; intros; auto; discriminate.
  - repeat split; reflexivity.
  - intros a b H1 H2 H3. cbn [isnan mul B64num] in *.
    destruct a as [sa|sa| |sa m e H]; try discriminate; destruct b as [sb|sb| |sb m' e' H']; try discriminate;
      try (apply b64_mul_fin; reflexivity); try (destruct sa, sb; try reflexivity; try discriminate).
    all: destruct H3; discriminate.
  - intros a b H1 H2 H3. cbn [isnan div B64num] in *.
    destruct b as [sb|sb| |sb m' e' H']; try discriminate; destruct a as [sa|sa| |sa m e H]; try discriminate;
      try (apply b64_div_fin; [reflexivity|apply b64_pos_R]); try (destruct sa, sb; reflexivity).
    all: destruct sb; discriminate.
  - intros a b H1 H2. unfold isfinite in H2. cbn [isnan isinf sub B64num] in *.
    destruct b as [sb|sb| |sb m' e' H']; try discriminate; destruct a as [sa|sa| |sa m e H]; try discriminate;
      try (apply b64_sub_fin; reflexivity); destruct sa; try reflexivity; destruct sb; reflexivity.
  - intros [[]|[]| |[] m e H]; cbn; intros; auto; discriminate.
  - repeat split; reflexivity.
Qed.
