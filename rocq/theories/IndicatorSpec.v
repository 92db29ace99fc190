(** * What a user sees of an indicator *)
From Coq Require Import String ZArith Bool List Arith.
From Verif Require Import Base Grouper IndexFns BroadcastLemmas2 Indicator.
Import ListNotations.
Local Open Scope nat_scope.

(** The combination at a position of the parameter lists *)
Definition row {P} (params : list (list P)) (p : nat) : list P :=
  flat_map (fun l => match nth_error l p with Some x => [x] | None => [] end) params.
(** The column at a position of every array *)
Definition columns_at {V} (fs : list (Frame V)) (c : nat) : list (list V) := map (fun f => nth c f []) fs.
(** One-column arrays, of the column at a position *)
Definition only_column {V} (fs : list (Frame V)) (c : nat) : list (Frame V) := map (fun f => [nth c f []]) fs.

(** One column: its labels in all levels, the columns of inputs and outputs, and the parameters *)
Record View (V : Type) := mkView {
  v_labels : list (option string * Label);
  v_inputs : list (list V); v_in_outputs : list (list V); v_outputs : list (list V);
  v_params : list Label
}.
Arguments mkView {V}. Arguments v_labels {V}. Arguments v_inputs {V}.
Arguments v_in_outputs {V}. Arguments v_outputs {V}. Arguments v_params {V}.

Definition labels_at (x : Index) (i : nat) : list (option string * Label) :=
  map (fun l => (lv_name l, nth i (lv_values l) (LInt 0))) (levels_of x).
Definition number_of_columns {V P} (x : @Indicator V P) : nat := index_len (in_columns x).
Definition view {V P} (x : @Indicator V P) (i : nat) : View V :=
  mkView (labels_at (in_columns x) i)
    (map (fun k => nth i (input_shown x k) []) (seq 0 (length (in_inputs x))))
    (columns_at (in_in_outputs x) i) (columns_at (in_outputs x) i)
    (map (fun m => nth i (mapper_values m) (LInt 0)) (in_mappers x)).

Definition has_shape {V} (rows cols : nat) (f : Frame V) : Prop :=
  length f = cols /\ forall c, In c f -> length c = rows.

(** A calculation that fills its in-place outputs and returns [m] arrays, all in the given shape *)
Definition keeps_shape {V P} (m : nat) (apply : @Apply V P) (inputs : list (Frame V)) (rows cols : nat) : Prop :=
  forall io ps io' outs, Forall (has_shape rows cols) io -> apply inputs io ps = Ok (io', outs) ->
    length io' = length io /\ length outs = m /\ Forall (has_shape rows cols) io' /\ Forall (has_shape rows cols) outs.

(** In-place outputs: the caller gives all of them, or none *)
Definition all_given {V P} (a : @Args V P) : Prop := Forall (fun x => x <> None) (a_in_outputs a).
Definition none_given {V P} (a : @Args V P) : Prop := Forall (fun x => x = None) (a_in_outputs a).
(** What the in-place outputs hold before the calculation of combination [p] out of [n]:
    what was given, or whatever is in new memory *)
Definition before {V P} (new : nat -> nat -> Frame V) (a : @Args V P) (n cols p : nat) : list (Frame V) :=
  map (fun q => match snd q with Some f => f | None => chunk (new (fst q) (cols * n)) cols p end)
    (combine (seq 0 (length (a_in_outputs a))) (a_in_outputs a)).

(** The labels a column should have: parameters that are not hidden, then those of the input *)
Definition param_labels {P} (label_of : P -> Label) (nm : Naming) (params : list (list P)) (p : nat) : list (option string * Label) :=
  flat_map (fun q => if existsb (Nat.eqb (fst q)) (nm_hidden nm) then []
                     else [(nth (fst q) (nm_levels nm) None, nth p (map label_of (snd q)) (LInt 0))])
    (combine (seq 0 (length params)) params).
Definition input_labels (nm : Naming) (cols c : nat) : list (option string * Label) :=
  labels_at (match nm_columns nm with Some x => x | None => Plain (range_level cols) end) c.
Definition columns_fit (nm : Naming) (cols : nat) : Prop :=
  nm_ignore_default nm = false /\
  match nm_columns nm with Some x => of_length cols x | None => True end.

(** Positions of the columns that were computed with a parameter value *)
Definition chosen {V P} (x : @Indicator V P) (j : nat) (key : Label) (i : nat) : Prop :=
  i < number_of_columns x /\ nth_error (v_params (view x i)) j = Some key.

(** Indicators that came out of a run or out of selecting columns of such by a parameter *)
Inductive made {V P} (peq : P -> P -> bool) (hashable : P -> bool) (label_of : P -> Label) : @Indicator V P -> Prop :=
| made_run : forall m custom new nm a x, run peq hashable label_of m custom new nm a = Ok x -> made peq hashable label_of x
| made_use : forall nm a raw x, run_use_raw peq label_of nm a raw = Ok x -> made peq hashable label_of x
| made_key : forall x j key y, made peq hashable label_of x -> param_loc x j key = Ok y -> made peq hashable label_of y
| made_keys : forall x j keys y, made peq hashable label_of x -> param_loc_list x j keys = Ok y -> made peq hashable label_of y.

(** The labels that are left when a level is dropped by its name *)
Definition without (name : option string) (labels : list (option string * Label)) : list (option string * Label) :=
  filter (fun q => negb (name_eqb (fst q) name)) labels.

(** Combinations whose parameters are equal in Python *)
Definition alike {P} (peq : P -> P -> bool) (t u : list P) : Prop := Forall2 (fun x y => peq x y = true) t u.
(** A calculation that depends on nothing but the values of parameters *)
Definition respects {V P} (peq : P -> P -> bool) (apply : @Apply V P) : Prop :=
  forall inputs io t u, alike peq t u -> apply inputs io t = apply inputs io u.
(** The same call with [run_unique] *)
Definition set_unique {V P} (a : @Args V P) (u : bool) : Args :=
  mkArgs (a_inputs a) (a_shape a) (a_in_outputs a) (a_params a) (a_product a) (a_per_column a) u.

(** In-place outputs are in the shape of the inputs *)
Definition given_shapes {V P} (rows cols : nat) (a : @Args V P) : Prop :=
  forall f, In (Some f) (a_in_outputs a) -> has_shape rows cols f.
(** New arrays have the rows and columns that were asked for *)
Definition new_shapes {V} (rows : nat) (new : nat -> nat -> Frame V) : Prop := forall i k, has_shape rows k (new i k).
(** A call on inputs with [rows] and [cols] *)
Record setting {V P} (m : nat) (apply : @Apply V P) (new : nat -> nat -> Frame V) (nm : Naming) (a : @Args V P) (rows cols : nat) : Prop := mkSetting {
  st_new : new_shapes rows new;
  st_pc : a_per_column a = false; st_shape : a_shape a = Some (rows, cols);
  st_inputs : Forall (has_shape rows cols) (a_inputs a);
  st_given : all_given a \/ none_given a; st_given_shapes : given_shapes rows cols a;
  st_keeps : keeps_shape m apply (a_inputs a) rows cols; st_fit : columns_fit nm cols
}.

(** [r] is what the calculation gives for combination [p]; with [run_unique], for one like it *)
Definition calculated {V P} (peq : P -> P -> bool) (apply : @Apply V P) new (a : @Args V P) (cols : nat) (params : list (list P)) (p : nat)
    (r : list (Frame V) * list (Frame V)) : Prop :=
  exists n' p' t, p' < n' /\ apply (a_inputs a) (before new a n' cols p') t = Ok r /\
    ((t = row params p /\ n' = n_values params /\ p' = p) \/ (a_unique a = true /\ alike peq t (row params p))).
