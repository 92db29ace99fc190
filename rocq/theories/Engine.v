(** * Choice between the Numba and the Rust engine (vectorbt/_engine.py)

    Arrays carry their data type, shape and values. Strings of reasons and of
    versions are kept; a version is the list of its dot-separated components. *)
From Coq Require Import String ZArith List Bool Arith.
From Verif Require Import Base.
Import ListNotations.
Open Scope string_scope.
Open Scope list_scope.

(** NumPy's [dtype.kind] "b", "i", "u", "f" and every other; sizes in bits *)
Inductive kind := KBool | KInt | KUInt | KFloat | KOther.
Record dtype := mkDtype { dt_kind : kind; dt_bits : Z; dt_name : string }.

Definition kind_eqb (a b : kind) : bool :=
  match a, b with
  | KBool, KBool | KInt, KInt | KUInt, KUInt | KFloat, KFloat | KOther, KOther => true
  | _, _ => false
  end.
(** Two types of kind "other" are compared by name. *)
Definition dtype_eqb (a b : dtype) : bool :=
  kind_eqb (dt_kind a) (dt_kind b) && Z.eqb (dt_bits a) (dt_bits b) &&
  (negb (kind_eqb (dt_kind a) KOther) || String.eqb (dt_name a) (dt_name b)).

Definition float64 := mkDtype KFloat 64 "float64".
Definition float32 := mkDtype KFloat 32 "float32".
Definition int64 := mkDtype KInt 64 "int64".
Definition int32 := mkDtype KInt 32 "int32".
Definition uint64 := mkDtype KUInt 64 "uint64".
Definition bool_ := mkDtype KBool 8 "bool".

(** An array: values of integers and booleans are integers; floating-point values are
    of any type [F] in which those of the wider types include those of the narrower. *)
Inductive value (F : Type) := VZ (z : Z) | VF (x : F) | VOther.
Arguments VZ {F} z.  Arguments VF {F} x.  Arguments VOther {F}.
Record array (F : Type) := mkArray { a_dtype : dtype; a_shape : list nat; a_data : list (value F) }.
Arguments mkArray {F}.  Arguments a_dtype {F}.  Arguments a_shape {F}.  Arguments a_data {F}.

(** What a user can pass: an array or another object *)
Inductive arg (F : Type) := AArray (a : array F) | AOther.
Arguments AArray {F} a.  Arguments AOther {F}.

(** NumPy's [can_cast(from, to, casting="safe")] between types of one kind, or of
    kinds "i" and "u"; the other pairs are not asked for by the modelled code. *)
Definition can_cast_safe (from to : dtype) : bool :=
  match dt_kind from, dt_kind to with
  | KBool, KBool => true
  | KInt, KInt | KUInt, KUInt | KFloat, KFloat => (dt_bits from <=? dt_bits to)%Z
  | KUInt, KInt => (dt_bits from <? dt_bits to)%Z
  | _, _ => false
  end.

(** _engine.py:18-48 RustConversion, RustSupport *)
Record conversion := mkConversion { cv_dtype : dtype; cv_n : nat }.
Record support := mkSupport { supported : bool; reason : string; conversions : list conversion }.
Definition yes : support := mkSupport true "" [].
Definition no (r : string) : support := mkSupport false r [].

(** _engine.py:83-85 callback_unsupported_with_rust *)
Definition callback_unsupported : support :=
  no "Rust engine is not implemented for callback-accepting functions.".

(** _engine.py:88-97 combine_rust_support *)
Fixpoint combine_from (acc : list conversion) (l : list support) : support :=
  match l with
  | [] => mkSupport true "" acc
  | s :: l' => if supported s then combine_from (acc ++ conversions s) l' else s
  end.
Definition combine_support (l : list support) : support := combine_from [] l.

(** _engine.py:100-104 non_neg_int_compatible_with_rust *)
Definition non_neg_int (name : string) (v : option Z) : support :=
  match v with
  | Some z => if (z <? 0)%Z then no ("Rust engine requires `" ++ name ++ "` to be non-negative.") else yes
  | None => yes
  end.

Section Arrays.
  Context {F : Type}.

  Definition size_of (a : array F) : nat := fold_left Nat.mul (a_shape a) 1.
  Definition bad_ndim (a : array F) : bool :=
    negb (Nat.eqb (length (a_shape a)) 1 || Nat.eqb (length (a_shape a)) 2).

  (** _engine.py:107-124 array_compatible_with_rust *)
  Definition array_support (x : arg F) (d : dtype) : support :=
    match x with
    | AOther => no "Rust engine requires a NumPy array."
    | AArray a =>
        if negb (dtype_eqb (a_dtype a) d) then
          let iu k := match k with KInt | KUInt => true | _ => false end in
          let same_kind := kind_eqb (dt_kind (a_dtype a)) (dt_kind d) ||
            (iu (dt_kind (a_dtype a)) && iu (dt_kind d)) in
          if negb same_kind || negb (can_cast_safe (a_dtype a) d) then
            no ("Rust engine requires " ++ dt_name d ++ " arrays and `" ++ dt_name (a_dtype a) ++
                "` cannot be safely cast.")
          else if bad_ndim a then no "Rust engine requires 1D or 2D arrays."
          else mkSupport true "" [mkConversion d (size_of a)]
        else if bad_ndim a then no "Rust engine requires 1D or 2D arrays."
        else yes
    end.

  (** _engine.py:127-135 exact_array_compatible_with_rust *)
  Definition exact_array_support (x : arg F) (d : dtype) : support :=
    let s := array_support x d in
    if supported s then
      match conversions s with
      | [] => s
      | _ :: _ => no ("Rust engine requires exact " ++ dt_name d ++ " arrays for mutable arguments.")
      end
    else s.

  (** NumPy's [np.asarray(a, dtype)], element by element: integers are taken modulo the
      size of the type, floating-point values to a wider type are kept. Narrower floats
      are not modelled (no value). *)
  Definition wrap (d : dtype) (z : Z) : Z :=
    match dt_kind d with
    | KInt => ((z + 2 ^ (dt_bits d - 1)) mod 2 ^ dt_bits d - 2 ^ (dt_bits d - 1))%Z
    | KUInt => (z mod 2 ^ dt_bits d)%Z
    | _ => if (z =? 0)%Z then 0%Z else 1%Z
    end.
  Definition cast_value (from to : dtype) (v : value F) : option (value F) :=
    match v, dt_kind to with
    | VZ z, (KInt | KUInt | KBool) => Some (VZ (wrap to z))
    | VF x, KFloat => if (dt_bits from <=? dt_bits to)%Z then Some (VF x) else None
    | _, _ => None
    end.
  Definition asarray (a : array F) (d : dtype) : option (array F) :=
    let step v r := match cast_value (a_dtype a) d v, r with
                    | Some w, Some l => Some (w :: l) | _, _ => None end in
    match fold_right step (Some []) (a_data a) with
    | Some l => Some (mkArray d (a_shape a) l)
    | None => None
    end.

  (** _engine.py:138-150 prepare_array_for_rust; [None] inside: a cast that is not modelled *)
  Definition prepare_array (x : arg F) (d : dtype) : res (option (array F)) :=
    let s := array_support x d in
    if supported s then
      match x with
      | AArray a => if dtype_eqb (a_dtype a) d then Ok (Some a) else Ok (asarray a d)
      | AOther => Err (ValueError (reason s))
      end
    else Err (ValueError (reason s)).

  (** _engine.py:171-177 matching_shape_compatible_with_rust *)
  Definition same_shape_support (name : string) (x y : arg F) : support :=
    match x, y with
    | AArray a, AArray b =>
        if list_eq_dec Nat.eq_dec (a_shape a) (a_shape b) then yes
        else no ("Rust engine requires `" ++ name ++ "` to have the same shape as input.")
    | _, _ => no ("Rust engine requires `" ++ name ++ "` to be a NumPy array.")
    end.

  (** _engine.py:247-254 non_neg_array_compatible_with_rust *)
  Definition non_neg_array (name : string) (x : arg F) : support :=
    let s := array_support x int64 in
    if supported s then
      match x with
      | AArray a =>
          if existsb (fun v => match v with VZ z => (z <? 0)%Z | _ => false end) (a_data a)
          then no ("Rust engine requires `" ++ name ++ "` to contain non-negative values.")
          else yes
      | AOther => yes
      end
    else s.

  (** _engine.py:257-259 array_and_non_neg_int_compatible_with_rust *)
  Definition array_and_non_neg_int (x : arg F) (name : string) (v : option Z) : support :=
    combine_support [array_support x float64; non_neg_int name v].
  (** _engine.py:262-268 mask_and_array_compatible_with_rust *)
  Definition mask_and_array (x mask : arg F) : support :=
    combine_support [array_support x float64; array_support mask bool_; same_shape_support "mask" x mask].
  (** _engine.py:271-277 mask_and_values_compatible_with_rust *)
  Definition mask_and_values (x mask values : arg F) : support :=
    combine_support [mask_and_array x mask; array_support values float64;
                     same_shape_support "values" x values].
  (** _engine.py:301-307 rolling_compatible_with_rust *)
  Definition rolling_support (x : arg F) (window : Z) (minp : option Z) : support :=
    combine_support [array_support x float64; non_neg_int "window" (Some window); non_neg_int "minp" minp].
End Arrays.

(** The process: the version of vectorbt, that of vectorbt-rust if it can be imported,
    the setting [settings["engine"]] and _engine.py:14 [_rust_status] *)
Record world := mkWorld {
  vbt_version : list string;
  rust_version : option (list string);
  engine_setting : string;
  rust_status : option bool;
}.

(** [v.rsplit(".", 1)[0]]: without the last component, the whole if there is no dot *)
Definition without_patch (v : list string) : list string :=
  match v with [x] => [x] | _ => removelast v end.

(** _engine.py:51-74 is_rust_available: the answer and the process afterwards. The
    warning about versions is not modelled. *)
Definition is_rust_available (w : world) : bool * world :=
  match rust_status w with
  | Some b => (b, w)
  | None =>
      let b := match rust_version w with
               | None => false
               | Some v => if list_eq_dec string_dec (without_patch (vbt_version w)) (without_patch v)
                           then true else false
               end in
      (b, mkWorld (vbt_version w) (rust_version w) (engine_setting w) (Some b))
  end.

(** _engine.py:77-80 clear_engine_cache *)
Definition clear_engine_cache (w : world) : world :=
  mkWorld (vbt_version w) (rust_version w) (engine_setting w) None.

Inductive engine := Numba | Rust.
Inductive choice :=
| Use (e : engine)
| RaiseImport
| RaiseUnsupported (why : string)
| RaiseInvalid.

(** _engine.py:341-370 resolve_engine *)
Definition resolve_engine (w : world) (e : option string) (s : support) : choice * world :=
  let name := match e with Some n => n | None => engine_setting w end in
  if String.eqb name "numba" then (Use Numba, w)
  else if String.eqb name "rust" then
    let (av, w') := is_rust_available w in
    if negb av then (RaiseImport, w')
    else if negb (supported s) then (RaiseUnsupported (reason s ++ " Use engine='numba'."), w')
    else (Use Rust, w')
  else if negb (String.eqb name "auto") then (RaiseInvalid, w)
  else if supported s then
    let (av, w') := is_rust_available w in
    if av then (Use Rust, w') else (Use Numba, w')
  else (Use Numba, w).

(** _engine.py:323-331 resolve_random_engine *)
Definition resolve_random_engine (e : option string) : string :=
  match e with
  | None => "numba"
  | Some n => if String.eqb n "auto" then "numba" else n
  end.

(** _engine.py:334-338 seed_for_rust: [None] outside is an exception *)
Definition seed_for_rust (w : world) (seed : option Z) (e : option string) (s : support)
  : option (option Z) :=
  match fst (resolve_engine w e s) with
  | Use Rust => Some seed
  | Use Numba => Some None
  | _ => None
  end.

(** How every function of the dispatch modules continues (such as
    generic/dispatch.py:301-311 diff_1d): Rust with the prepared array or Numba with
    the array as it is. Results of both and exceptions of the choice. *)
Inductive answer (A : Type) := Answer (r : res A) | Refused (c : choice).
Arguments Answer {A}.  Arguments Refused {A}.
Definition dispatch {F A} (w : world) (e : option string) (x : arg F) (d : dtype) (s : support)
    (nb : arg F -> res A) (rs : array F -> res A) : answer A :=
  match fst (resolve_engine w e s) with
  | Use Numba => Answer (nb x)
  | Use Rust =>
      match prepare_array x d with
      | Ok (Some a) => Answer (rs a)
      | Ok None => Answer (Err (TypeError "cast"))
      | Err er => Answer (Err er)
      end
  | c => Refused c
  end.

(** generic/dispatch.py:29-50 shuffle_1d: the choice of a randomized function *)
Definition dispatch_random {F A} (w : world) (e : option string) (x : arg F) (d : dtype) (s : support)
    (nb : arg F -> res A) (rs : array F -> res A) : answer A :=
  if String.eqb (resolve_random_engine e) "numba" then Answer (nb x)
  else dispatch w e x d s nb rs.
