(** * Choice between the Numba and the Rust engine (C83) *)
From Coq Require Import String ZArith List Bool Lia.
From Flocq Require Import BinarySingleNaN.
From Verif Require Import Base Engine EngineSpec EngineLemmas B64.
Import ListNotations.
Open Scope list_scope.

(** Numba if Numba is asked for, whatever is installed *)
Theorem C83_numba_means_numba : forall F A w (x : arg F) d s (nb : arg F -> res A) rs,
  dispatch w (Some "numba"%string) x d s nb rs = Answer (nb x).
Proof. reflexivity. Qed.
Print Assumptions C83_numba_means_numba.

(** Rust if Rust is asked for, otherwise an exception that says why; never Numba *)
Theorem C83_rust_means_rust : forall w s,
  fst (resolve_engine w (Some "rust"%string) s) =
    (if fst (is_rust_available w) then
       if supported s then Use Rust else RaiseUnsupported (reason s ++ " Use engine='numba'.")%string
     else RaiseImport).
Proof. exact rust_choice. Qed.
Print Assumptions C83_rust_means_rust.

(** Automatic: Rust exactly if it is available and supports the call; never an exception *)
Theorem C83_auto : forall w s,
  fst (resolve_engine w (Some "auto"%string) s) =
    (if supported s && fst (is_rust_available w) then Use Rust else Use Numba).
Proof. exact auto_choice. Qed.
Print Assumptions C83_auto.

(** No argument means the global setting; any other name is refused. *)
Theorem C83_setting_and_names : forall w s,
  resolve_engine w None s = resolve_engine w (Some (engine_setting w)) s /\
  (forall name, ~ In name ["numba"; "rust"; "auto"]%string ->
     fst (resolve_engine w (Some name) s) = RaiseInvalid).
Proof.
  exact (fun w s => conj (setting_used w s) (fun name H =>
    f_equal fst (invalid_choice w s name (fun E => H (or_introl (eq_sym E)))
      (fun E => H (or_intror (or_introl (eq_sym E))))
      (fun E => H (or_intror (or_intror (or_introl (eq_sym E)))))))).
Qed.
Print Assumptions C83_setting_and_names.

(** Randomized functions use Rust only if the call asks for it by name. *)
Theorem C83_random : forall F A w e (x : arg F) d s (nb : arg F -> res A) rs,
  e = None \/ e = Some "auto"%string \/ e = Some "numba"%string ->
  dispatch_random w e x d s nb rs = Answer (nb x).
Proof. exact random_numba. Qed.
Print Assumptions C83_random.

(** A call is supported exactly if all its arguments are; otherwise the reason is that
    of the first one that is not. *)
Theorem C83_support_of_arguments : forall l,
  (supported (combine_support l) = true <-> Forall (fun s => supported s = true) l) /\
  (supported (combine_support l) = false ->
     exists before s behind, l = before ++ s :: behind /\ Forall (fun s => supported s = true) before /\
       supported s = false /\ combine_support l = s).
Proof. exact (fun l => conj (combine_all l) (combine_reason l)). Qed.
Print Assumptions C83_support_of_arguments.

(** Of whole numbers exactly the negative ones are not supported. *)
Theorem C83_support_of_numbers : forall F (x : arg F) window minp,
  supported (rolling_support x window minp) = true <->
  supported (array_support x float64) = true /\ (0 <= window)%Z /\ (forall m, minp = Some m -> (0 <= m)%Z).
Proof. exact @rolling_supported. Qed.
Print Assumptions C83_support_of_numbers.

(** Arrays reach Rust with the type that it expects and every value unchanged. *)
Theorem C83_values_kept : forall F (a : array F) d, well_typed a ->
  supported (array_support (AArray a) d) = true ->
  exists b, prepare_array (AArray a) d = Ok (Some b) /\ a_shape b = a_shape a /\ a_data b = a_data a /\
    dtype_eqb (a_dtype b) d = true.
Proof. exact @prepared_same. Qed.
Print Assumptions C83_values_kept.

(** Arrays to be written into are supported only in the exact type (and not copied). *)
Theorem C83_written_arrays_exact : forall F (a : array F) d,
  supported (exact_array_support (AArray a) d) = true <->
  dtype_eqb (a_dtype a) d = true /\ (length (a_shape a) = 1 \/ length (a_shape a) = 2)%nat.
Proof.
  intros F a d. rewrite exact_support. unfold bad_ndim.
  rewrite negb_false_iff, orb_true_iff, !PeanoNat.Nat.eqb_eq. reflexivity.
Qed.
Print Assumptions C83_written_arrays_exact.

(** If both engines agree on the values, the choice cannot be seen: every call that is
    not refused answers what Numba answers. *)
Theorem C83_choice_cannot_be_seen : forall F A w e (a : array F) d s (nb : arg F -> res A) rs r,
  well_typed a ->
  (supported s = true -> supported (array_support (AArray a) d) = true) ->
  (forall b, a_shape b = a_shape a -> a_data b = a_data a -> supported s = true -> rs b = nb (AArray a)) ->
  dispatch w e (AArray a) d s nb rs = Answer r -> r = nb (AArray a).
Proof. exact @dispatch_same. Qed.
Print Assumptions C83_choice_cannot_be_seen.

(** Rust is available if it is installed in a version that differs in the last component
    at most - as found when first asked after the start or the last clearing of the
    cache; packages that come and go later do not matter. *)
Theorem C83_availability : forall w l1 l2 l3,
  ~ In Ask l2 -> ~ In Clear l3 ->
  let asked := after w (l1 ++ Clear :: l2) in
  dotted (vbt_version asked) -> (forall v, rust_version asked = Some v -> dotted v) ->
  (fst (is_rust_available (after asked (Ask :: l3))) = true <-> compatible asked).
Proof.
  intros w l1 l2 l3 H2 H3 asked Hv Hr. rewrite (answer_stays asked l3 H3).
  exact (available_fresh asked (cleared_anew w l1 l2 H2) Hv Hr).
Qed.
Print Assumptions C83_availability.

(** Single precision: an array of it is supported and converted, so the choice can be
    seen: Numba subtracts in single, Rust in double precision
    (generic/nb.py:374-381 diff_1d_nb). *)
Definition f32 := binary_float 24 128.
Definition f32_sub : f32 -> f32 -> f32 := @Bminus 24 128 eq_refl eq_refl mode_NE.
Definition f32_ofZ (z : Z) : f32 := binary_normalize 24 128 eq_refl eq_refl mode_NE z 0 false.
Definition widen (x : f32) : f64 :=
  match x with
  | B754_nan => B754_nan
  | B754_infinity s => B754_infinity s
  | B754_zero s => B754_zero s
  | B754_finite s m e _ =>
      binary_normalize 53 1024 prec53_gt_0 prec53_lt mode_NE (if s then Z.neg m else Z.pos m) e s
  end.
Theorem C83_single_precision_refuted :
  let x := f32_ofZ 16777216 in let y := f32_ofZ (-1) in
  supported (array_support (AArray (mkArray float32 [2%nat] [VF (widen y); VF (widen x)])) float64) = true /\
  b64_eqb (widen (f32_sub x y)) (b64_ofZ 16777216) = true /\
  b64_eqb (b64_sub (widen x) (widen y)) (b64_ofZ 16777217) = true.
Proof. cbv zeta. split; [reflexivity|]. split; vm_compute; reflexivity. Qed.
Print Assumptions C83_single_precision_refuted.

(** Versions 1.0.0 and 1.0.3 fit, an array of 32-bit integers is converted, one of
    unsigned 64-bit integers or a negative window is not supported. *)
Example C83_nonvacuous :
  let w := mkWorld ["1"; "0"; "0"]%string (Some ["1"; "0"; "3"]%string) "auto" (Some false) in
  let a := mkArray (F := f64) int32 [3%nat] [VZ 5; VZ (-7); VZ (2 ^ 31 - 1)] in
  let b := mkArray (F := f64) uint64 [1%nat] [VZ (2 ^ 63)] in
  compatible (after w [Clear]) /\
  fst (resolve_engine (after w [Ask]) None yes) = Use Numba /\
  fst (resolve_engine (after w [Clear; Install None]) (Some "rust"%string) yes) = RaiseImport /\
  fst (resolve_engine (after w [Clear; Ask; Install None]) None yes) = Use Rust /\
  well_typed a /\ prepare_array (AArray a) int64 = Ok (Some (mkArray int64 [3%nat] [VZ 5; VZ (-7); VZ (2 ^ 31 - 1)])) /\
  supported (array_support (AArray b) int64) = false /\
  supported (rolling_support (F := f64) (AArray (mkArray float64 [1%nat] [VF (b64_ofZ 1)])) (-1) None) = false.
Proof.
  cbv zeta. split; [exists ["1"; "0"]%string, "3"%string, "0"%string; split; reflexivity|].
  split; [vm_compute; reflexivity|]. split; [vm_compute; reflexivity|]. split; [vm_compute; reflexivity|].
  split; [|split; [vm_compute; reflexivity|split; vm_compute; reflexivity]].
  split; [vm_compute; reflexivity|]. apply Forall_forall. intros v Hv. cbn [a_data] in Hv.
  destruct Hv as [<-|[<-|[<-|[]]]]; unfold fits; cbn [a_dtype int32 dt_kind dt_bits]; lia.
Qed.
