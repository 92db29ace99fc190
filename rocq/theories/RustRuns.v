(** * Agreement of the engines, in the form of the properties, and witnesses *)
From Coq Require Import String ZArith QArith List Bool.
From Flocq Require Import BinarySingleNaN.
From Verif Require Import Base Num B64 OrdLaws MathNb Order Records OrderRuns CallSeq RustOrder RustSpec RustLemmas
  RustLawsXQ RustLemmas2 RustLawsB64 RustLemmas3.
Import ListNotations.
Open Scope list_scope.

Lemma agrees_same : forall A (x y : res A), agrees x y -> x <> Err ZeroDivision -> y = x.
Proof. intros A x y [H|H] H0; congruence. Qed.

Lemma execute_same : forall draws rng (s : ProcState XQ) o,
  comparable s o ->
  execute_order_nb draws rng s o <> Err ZeroDivision ->
  rs_execute_order draws rng s o = execute_order_nb draws rng s o.
Proof. intros. apply agrees_same; auto. apply execute_agrees, order_ok_xq; auto. Qed.

Lemma process_same : forall draws i col group (s : ProcState XQ) uv o rc,
  comparable s o ->
  process_order_nb draws i col group s uv o rc <> Err ZeroDivision ->
  rs_process_order draws i col group s uv o rc = process_order_nb draws i col group s uv o rc.
Proof. intros. apply agrees_same; auto. apply process_agrees, order_ok_xq; auto. Qed.

Lemma process_same_f64 : forall draws i col group (s : ProcState f64) uv o rc,
  comparable_f64 s o ->
  @process_order_nb _ B64num draws i col group s uv o rc <> Err ZeroDivision ->
  @rs_process_order _ B64num B64rust draws i col group s uv o rc =
  @process_order_nb _ B64num draws i col group s uv o rc.
Proof. intros. apply agrees_same; auto. apply process_agrees, order_ok_f64; auto. Qed.

Lemma tolerant_same_f64 : forall a b : f64,
  @rs_is_close _ B64num a b = @is_close_nb _ B64num a b /\
  @rs_is_less _ B64num a b = @is_less_nb _ B64num a b /\
  @rs_is_close_or_less _ B64num a b = @is_close_or_less_nb _ B64num a b /\
  @rs_add _ B64num B64rust a b = @add_nb _ B64num a b.
Proof.
  intros. split; [apply (rs_is_close_eq (L := B64rustlaws))|]. split; [apply (rs_is_less_eq (L := B64rustlaws))|].
  split; [apply (rs_is_close_or_less_eq (L := B64rustlaws))|]. apply (rs_add_eq (L := B64rustlaws)).
Qed.

Lemma order_value_same : forall size st dir (cash pos free vp value : XQ),
  st <> Percent \/ (mul pos vp <> NaN /\ free <> NaN) ->
  rs_approx_order_value size st dir cash pos free vp value =
  approx_order_value_nb size st dir cash pos free vp value.
Proof.
  intros size st dir cash pos free vp value H. apply approx_agrees.
  destruct H as [H|[H1 H2]]; auto. right. split.
  - destruct (mul pos vp); auto; congruence.
  - destruct free; auto; congruence.
Qed.

(** ** Concrete values *)
Definition rs_short_state : ProcState XQ :=
  mkProc (Fin 150) (Fin (- (5))) (Fin 50) (Fin 50) (Fin 10) (Fin 100).
Definition rs_cover_order : Order XQ :=
  mkOrder (Fin (7 # 2)) (Fin 10) Amount BothDir (Fin (1 # 100)) (Fin 1) (Fin (1 # 10)) (Fin 0) PInf (Fin 1)
    (Fin 0) true true false true.

Definition z64 : f64 := b64_ofZ 0.
Definition rs_state64 : ProcState f64 :=
  mkProc (b64_ofZ 100) z64 z64 (b64_ofZ 100) (b64_ofZ 10) (b64_ofZ 100).
Definition tenth : f64 := b64_div (b64_ofZ 1) (b64_ofZ 10).
Definition rs_order64 : Order f64 :=
  mkOrder (b64_ofZ 50) (b64_ofZ 10) Percent BothDir tenth (b64_ofZ 1) tenth z64 (B754_infinity false) B754_nan
    z64 true true false true.
Definition rs_gran64 : Order f64 :=
  mkOrder (b64_ofZ 1) (b64_ofZ 10) Amount BothDir z64 z64 z64 z64 (B754_infinity false) tenth
    z64 false true false false.
Definition recs64 : Recs f64 := mkRecs [] [] 10 10 0.
Definition rs_recs0 : Recs XQ := mkRecs [] [] 10 10 0.

Lemma rust_runs :
  comparable rs_short_state rs_cover_order /\
  (match process_order_nb no_draws 0 0 0 rs_short_state true rs_cover_order rs_recs0 with
   | Ok (r, s', _) => r_status r = Filled /\ ps_position s' = Fin (- (2)) /\ r_size r = Fin 3
   | Err _ => False
   end) /\
  comparable_f64 rs_state64 rs_order64 /\
  (match @process_order_nb _ B64num (fun _ => B754_zero false) 0 0 0 rs_state64 true rs_order64 recs64 with
   | Ok (r, s', _) => r_status r = Filled
   | Err _ => False
   end).
Proof.
  split; [|split; [vm_compute; auto|split]].
  - constructor; [discriminate|discriminate|discriminate].
  - constructor; auto; intros; try discriminate; reflexivity.
  - vm_compute. reflexivity.
Qed.

Lemma zero_percent_differs : exists (s : ProcState XQ) o,
  o_size_type o = Percent /\ o_size o = Fin 0 /\
  (match execute_order_nb no_draws 0 s o with
   | Ok (_, r, _) => r_status r = Ignored /\ r_info r = Some SizeZero | Err _ => False end) /\
  (match rs_execute_order no_draws 0 s o with
   | Ok (_, r, _) => r_status r = Rejected /\ r_info r = Some NoCashLong | Err _ => False end).
Proof.
  exists (mkProc (Fin 50) (Fin 5) (Fin 0) (Fin 50) (Fin 10) (Fin 100)), (base_order (Fin 0) (Fin 10) Percent LongOnly).
  split; [reflexivity|]. split; [reflexivity|]. split; vm_compute; auto.
Qed.

Lemma minus_one_fees_differ : exists (s : ProcState XQ) o,
  comparable s o /\
  execute_order_nb no_draws 0 s o = Err ZeroDivision /\
  rs_execute_order no_draws 0 s o <> Err ZeroDivision.
Proof.
  exists (mkProc (Fin 50) (Fin 0) (Fin 0) (Fin 50) (Fin 10) (Fin 50)),
    (mkOrder (Fin 5) (Fin 10) Amount BothDir (Fin (- (1))) (Fin 60) (Fin 0) (Fin 0) PInf NaN
    (Fin 0) false true false false).
  split; [constructor; discriminate|]. split; [vm_compute; reflexivity|vm_compute; discriminate].
Qed.

Lemma granularity_differs :
  (match @execute_order_nb _ B64num (fun _ => B754_zero false) 0 rs_state64 rs_gran64 with
   | Ok (_, r, _) => b64_ltb (r_size r) (b64_ofZ 1) = true | Err _ => False end) /\
  (match @rs_execute_order _ B64num B64rust (fun _ => B754_zero false) 0 rs_state64 rs_gran64 with
   | Ok (_, r, _) => b64_eqb (r_size r) (b64_ofZ 1) = true | Err _ => False end).
Proof. split; vm_compute; reflexivity. Qed.

Lemma order_value_differs :
  approx_order_value_nb (Fin (- (1))) Percent BothDir (Fin 100) (Fin 0) (Fin 100) NaN (Fin 100) = NaN /\
  rs_approx_order_value (Fin (- (1))) Percent BothDir (Fin 100) (Fin 0) (Fin 100) NaN (Fin 100) = Fin (- (100)).
Proof. split; vm_compute; reflexivity. Qed.
