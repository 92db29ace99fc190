(** * Vocabulary about arrays and installations for the choice of an engine *)
From Coq Require Import String ZArith List Bool Arith.
From Verif Require Import Base Engine.
Import ListNotations.

(** An integer fits its type *)
Definition fits (d : dtype) (z : Z) : Prop :=
  match dt_kind d with
  | KInt => (- 2 ^ (dt_bits d - 1) <= z < 2 ^ (dt_bits d - 1))%Z
  | KUInt => (0 <= z < 2 ^ dt_bits d)%Z
  | KBool => (z = 0 \/ z = 1)%Z
  | _ => False
  end.

(** The values of an array are of its type *)
Definition well_typed {F} (a : array F) : Prop :=
  (0 < dt_bits (a_dtype a))%Z /\
  Forall (fun v => match v with
                   | VZ z => fits (a_dtype a) z
                   | VF _ => dt_kind (a_dtype a) = KFloat
                   | VOther => dt_kind (a_dtype a) = KOther
                   end) (a_data a).

(** Rust can be used: it is installed in a version that differs from that of vectorbt in
    the last component at most *)
Definition compatible (w : world) : Prop :=
  exists front x y, rust_version w = Some (front ++ [x]) /\ vbt_version w = front ++ [y].

(** Versions have a dot, as 1.0.0 has *)
Definition dotted (v : list string) : Prop := 2 <= length v.

(** What can happen to a process: it asks whether Rust is there, it clears what it
    knows, a package is installed or removed, the setting is changed *)
Inductive event := Ask | Clear | Install (v : option (list string)) | Set_ (s : string).
Definition happen (w : world) (e : event) : world :=
  match e with
  | Ask => snd (is_rust_available w)
  | Clear => clear_engine_cache w
  | Install v => mkWorld (vbt_version w) v (engine_setting w) (rust_status w)
  | Set_ s => mkWorld (vbt_version w) (rust_version w) s (rust_status w)
  end.
Definition after (w : world) (l : list event) : world := fold_left happen l w.
