(** * Model of broadcasting (base/reshape_fns.py, base/index_fns.py) *)
From Coq Require Import String ZArith Bool List Arith.
From Verif Require Import Base Grouper Reshape IndexFns.
Import ListNotations.
Local Open Scope string_scope.
Local Open Scope list_scope.
Local Open Scope nat_scope.

(** ** NumPy *)
(** The shape of an array, outermost axis first *)
Definition shape_of {A} (a : Arr A) : list nat :=
  match a with A0 _ => [] | A1 l => [List.length l] | A2 ncols rows => [List.length rows; ncols] end.

(** np.broadcast_shapes: axes are compared from the last one *)
Definition broadcast_dim (a b : nat) : res nat :=
  if Nat.eqb a b then Ok a else if Nat.eqb a 1 then Ok b else if Nat.eqb b 1 then Ok a
  else Err (ValueError "shape mismatch: objects cannot be broadcast to a single shape").
Fixpoint broadcast_rev (a b : list nat) : res (list nat) :=
  match a, b with
  | [], _ => Ok b
  | _, [] => Ok a
  | x :: a', y :: b' => let! d := broadcast_dim x y in let! r := broadcast_rev a' b' in Ok (d :: r)
  end.
Definition broadcast_shapes (shapes : list (list nat)) : res (list nat) :=
  let! r := foldM broadcast_rev [] (map (@rev nat) shapes) in Ok (rev r).

(** np.broadcast_to for at most two axes; larger shapes are not modelled *)
Definition stretch {A} (n : nat) (l : list A) : res (list A) :=
  if Nat.eqb (List.length l) n then Ok l
  else if Nat.eqb (List.length l) 1 then Ok (List.concat (repeat l n))
  else Err (ValueError "operands could not be broadcast together with remapped shapes").
Definition stretch_row {A} (ncols m : nat) (row : list A) : list A :=
  if Nat.eqb ncols m then row else List.concat (repeat row m).
Definition np_broadcast_to {A} (a : Arr A) (shape : list nat) : res (Arr A) :=
  match a, shape with
  | A0 x, [] => Ok (A0 x)
  | A0 x, [n] => Ok (A1 (repeat x n))
  | A0 x, [n; m] => Ok (A2 m (repeat (repeat x m) n))
  | A1 l, [n] => let! l' := stretch n l in Ok (A1 l')
  | A1 l, [n; m] => let! l' := stretch m l in Ok (A2 m (repeat l' n))
  | A2 ncols rows, [n; m] =>
      raise_if (negb (Nat.eqb ncols m || Nat.eqb ncols 1))
        (ValueError "operands could not be broadcast together with remapped shapes") (
      let! rows' := stretch n (map (stretch_row ncols m) rows) in Ok (A2 m rows'))
  | _, _ => Err (ValueError "input operand has more dimensions than allowed by the axis remapping")
  end.

(** ** Arguments *)
(** A NumPy array, a Series or a DataFrame. The name of a Series is a label,
    or the labels of a tuple. *)
Inductive BArg (A : Type) :=
| Raw (a : Arr A)
| Ser (index : Index) (name : option (list Label)) (values : list A)
| Frame (index columns : Index) (rows : list (list A)).
Arguments Raw {A} a.
Arguments Ser {A} index name values.
Arguments Frame {A} index columns rows.

Definition is_pandas {A} (x : BArg A) : bool := match x with Raw _ => false | _ => true end.
Definition is_series {A} (x : BArg A) : bool := match x with Ser _ _ _ => true | _ => false end.
Definition has_2d {A} (x : BArg A) : bool :=
  match x with Raw (A2 _ _) | Frame _ _ _ => true | _ => false end.

(** The array of an argument; a Series becomes a column on 2-dim data
    (base/reshape_fns.py:580-581) *)
Definition array_of {A} (is_2d : bool) (x : BArg A) : Arr A :=
  match x with
  | Raw a => a
  | Ser _ _ l => if is_2d then A2 1 (map (fun v => [v]) l) else A1 l
  | Frame _ columns rows => A2 (index_len columns) rows
  end.

(** base/index_fns.py:28-41 get_index, along columns: pandas makes a
    multi-index of a tuple *)
Definition name_index (name : option (list Label)) : Index :=
  match name with
  | None => Plain (mkLevel None [LInt 0])
  | Some [x] => Plain (mkLevel None [x])
  | Some xs => Multi (map (fun x => mkLevel None [x]) xs)
  end.
Definition get_index {A} (x : BArg A) (columns : bool) : option Index :=
  match x with
  | Raw _ => None
  | Ser index name _ => Some (if columns then name_index name else index)
  | Frame index cols _ => Some (if columns then cols else index)
  end.

(** utils/checks.py:157-171 is_index_equal *)
Fixpoint same_levels (a b : list Level) : bool :=
  match a, b with [], [] => true | x :: a', y :: b' => level_eqb x y && same_levels a' b' | _, _ => false end.
Definition is_index_equal (a b : Index) : bool :=
  match a, b with
  | Plain x, Plain y => level_eqb x y
  | Multi xs, Multi ys => same_levels xs ys
  | _, _ => false
  end.

(** ** Index and columns *)
(** Rules for an index; names other than the ones below raise a ValueError
    and are not modelled. *)
Inductive IndexFrom := FromKeep | FromStack | FromStrict | FromReset | FromArg (k : nat) | FromIndex (x : Index).
(** ignore_sr_names, drop_duplicates, keep='first', drop_redundant,
    ignore_default *)
Record StackOpts := mkStackOpts {
  so_ignore_names : bool; so_drop_dup : bool; so_keep_first : bool; so_drop_red : bool; so_ignore_default : bool }.

Definition pick_indexes {A} (args : list (BArg A)) (columns : bool) : list Index :=
  flat_map (fun x => match get_index x columns with Some i => [i] | None => [] end) args.

(** base/reshape_fns.py:242-251 *)
Fixpoint index_conflict (last : option Index) (xs : list Index) : bool :=
  match xs with
  | [] => false
  | x :: xs' =>
      (match last with Some y => negb (is_index_equal x y) | None => false end) || index_conflict (Some x) xs'
  end.

(** base/reshape_fns.py:264-284 *)
Definition stack_one (o : StackOpts) (strict : bool) (acc : option Index) (index : Index) : res (option Index) :=
  match acc with
  | None => Ok (Some index)
  | Some new =>
      if is_index_equal index new then Ok acc
      else
        raise_if strict (ValueError "Broadcasting is not allowed when strict") (
        let n := index_len index in let m := index_len new in
        raise_if (negb (Nat.eqb n m) && (Nat.ltb 1 n && Nat.ltb 1 m))
          (ValueError "Indexes could not be broadcast together") (
        let new' := if Nat.ltb m n then repeat_index new n (so_ignore_default o) else new in
        let index' := if Nat.ltb n m then repeat_index index m (so_ignore_default o) else index in
        let! s := stack_indexes [new'; index'] (so_drop_dup o) (so_keep_first o) (so_drop_red o) in
        Ok (Some s)))
  end.

(** base/reshape_fns.py:256-263: what is stacked *)
Definition stackable {A} (o : StackOpts) (args : list (BArg A)) (columns : bool) : list Index :=
  filter (fun x => negb (is_default_index x))
    (pick_indexes (filter (fun x => negb (columns && is_series x && so_ignore_names o)) args) columns).

Definition range_index (n : nat) : Index := Plain (range_level n).

(** base/reshape_fns.py:176-302 broadcast_index *)
Definition broadcast_index {A} (o : StackOpts) (args : list (BArg A)) (shape : list nat) (from : IndexFrom) (columns : bool)
  : res (option Index) :=
  let! maxlen := match shape with
                 | [] => Err (IndexError "tuple index out of range")
                 | [n] => Ok (if columns then 1 else n)
                 | n :: m :: _ => Ok (if columns then m else n)
                 end in
  let finish (strict : bool) (new : option Index) : res (option Index) :=
    match new with
    | None => Ok (Some (range_index maxlen))
    | Some x =>
        if Nat.ltb (index_len x) maxlen then
          raise_if strict (ValueError "Broadcasting is not allowed when strict") (
          raise_if (Nat.ltb 1 maxlen && Nat.ltb 1 (index_len x)) (ValueError "Indexes could not be broadcast together") (
          Ok (Some (repeat_index x maxlen (so_ignore_default o)))))
        else Ok (Some x)
    end in
  let stack (strict : bool) : res (option Index) :=
    let xs := pick_indexes args columns in
    if negb (index_conflict None xs) then finish strict (last (map Some xs) None)
    else let! new := foldM (stack_one o strict) None (stackable o args columns) in finish strict new in
  match from with
  | FromKeep => Ok None
  | FromArg k =>
      match nth_error args k with
      | None => Err (IndexError "list index out of range")
      | Some x => match get_index x columns with
                  | None => Err (TypeError "Argument must be a pandas object")
                  | Some i => finish false (Some i)
                  end
      end
  | FromReset => finish false (Some (range_index maxlen))
  | FromStack => stack false
  | FromStrict => stack true
  | FromIndex x => finish false (Some x)
  end.

(** ** Back to pandas *)
(** The label of the only column: base/reshape_fns.py:334-340. A tuple of
    one label is not told apart from that label. *)
Definition series_name (columns : option Index) : option (list Label) :=
  match columns with
  | None => None
  | Some x =>
      if Nat.eqb (index_len x) 1 then
        match map (fun l => nth 0 (lv_values l) (LInt 0)) (levels_of x) with
        | [LInt 0%Z] => None
        | name => Some name
        end
      else None
  end.

(** pandas: the index must be as long as the axis; without one it is a range *)
Definition fit_index (x : option Index) (n : nat) : res Index :=
  match x with
  | None => Ok (range_index n)
  | Some i => raise_if (negb (Nat.eqb (index_len i) n)) (ValueError "Length of values does not match length of index") (Ok i)
  end.

(** base/reshape_fns.py:305-340 wrap_broadcasted *)
Definition wrap_broadcasted {A} (o : StackOpts) (old : BArg A) (new : Arr A) (is_pd : bool) (new_index new_columns : option Index)
  : res (BArg A) :=
  if is_pd then
    match new with
    | A0 _ => Err (IndexError "tuple index out of range")
    | _ =>
      let n := nth 0 (shape_of new) 0 in
      let m := nth 1 (shape_of new) 1 in
      let keep (given : option Index) (own : option Index) (len : nat) : option Index :=
        match given, own with
        | Some x, _ => Some x
        | None, Some x => Some (if Nat.eqb (index_len x) len then x else repeat_index x len (so_ignore_default o))
        | None, None => None
        end in
      let index := keep new_index (get_index old false) n in
      let columns := keep new_columns (get_index old true) m in
      match new with
      | A2 _ rows => let! i := fit_index index n in let! c := fit_index columns m in Ok (Frame i c rows)
      | A1 l => let! i := fit_index index n in Ok (Ser i (series_name columns) l)
      | A0 _ => Err (IndexError "tuple index out of range")
      end
    end
  else Ok (Raw new).

(** ** Aligning columns and rows *)
(** base/index_fns.py:321-340 align_indexes: [None] takes everything *)
Fixpoint first_aligned (x : Index) (targets : list Index) (junk : list nat) : res (option (list nat)) :=
  match targets with
  | [] => Ok None
  | t :: ts =>
      match align_index_to x t junk with
      | Ok idxs => Ok (Some idxs)
      | Err (ValueError _) => first_aligned x ts junk
      | Err e => Err e
      end
  end.
Definition max_len (xs : list Index) : nat := fold_left Nat.max (map index_len xs) 0.
Fixpoint align_each (xs : list Index) (longest : nat) (targets : list Index) (junk : list nat) : res (list (option (list nat))) :=
  match xs with
  | [] => Ok []
  | x :: xs' =>
      let! p := if Nat.eqb (index_len x) longest then Ok None
                else let! p := first_aligned x targets junk in
                     match p with
                     | None => Err (ValueError "Index could not be aligned")
                     | Some _ => Ok p
                     end in
      let! ps := align_each xs' longest targets junk in Ok (p :: ps)
  end.
(** [junk] is what the memory allocated for the positions held *)
Definition align_indexes (xs : list Index) (junk : nat -> nat) : res (list (option (list nat))) :=
  let longest := max_len xs in
  align_each xs longest (filter (fun x => Nat.eqb (index_len x) longest) xs) (map junk (seq 0 longest)).

(** iloc with a list of positions; positions outside raise *)
Fixpoint take {A} (idxs : list nat) (l : list A) : res (list A) :=
  match idxs with
  | [] => Ok []
  | k :: ks => match nth_error l k with
               | None => Err (IndexError "positional indexers are out-of-bounds")
               | Some x => let! r := take ks l in Ok (x :: r)
               end
  end.
Fixpoint take_levels (idxs : list nat) (ls : list Level) : res (list Level) :=
  match ls with
  | [] => Ok []
  | l :: ls' => let! v := take idxs (lv_values l) in let! r := take_levels idxs ls' in Ok (mkLevel (lv_name l) v :: r)
  end.
Definition take_index (idxs : list nat) (x : Index) : res Index :=
  match x with
  | Plain l => let! v := take idxs (lv_values l) in Ok (Plain (mkLevel (lv_name l) v))
  | Multi ls => let! r := take_levels idxs ls in Ok (Multi r)
  end.
Fixpoint take_rows {A} (idxs : list nat) (rows : list (list A)) : res (list (list A)) :=
  match rows with
  | [] => Ok []
  | r :: rows' => let! v := take idxs r in let! vs := take_rows idxs rows' in Ok (v :: vs)
  end.

Definition select {A} (columns : bool) (idxs : option (list nat)) (x : BArg A) : res (BArg A) :=
  match idxs with
  | None => Ok x
  | Some ks =>
      match x with
      | Raw a => Ok (Raw a)
      | Ser index name l => let! i := take_index ks index in let! v := take ks l in Ok (Ser i name v)
      | Frame index cols rows =>
          if columns then let! c := take_index ks cols in let! r := take_rows ks rows in Ok (Frame index c r)
          else let! i := take_index ks index in let! r := take ks rows in Ok (Frame i cols r)
      end
  end.

(** base/reshape_fns.py:553-577: which arguments are aligned *)
Definition to_align {A} (columns : bool) (x : BArg A) : option Index :=
  match x with
  | Frame index cols _ => let i := if columns then cols else index in if Nat.ltb 1 (index_len i) then Some i else None
  | Ser index _ _ => if columns then None else if Nat.ltb 1 (index_len index) then Some index else None
  | Raw _ => None
  end.
Fixpoint select_each {A} (columns : bool) (args : list (BArg A)) (ps : list (option (list nat))) : res (list (BArg A)) :=
  match args with
  | [] => Ok []
  | x :: args' =>
      match to_align columns x, ps with
      | Some _, p :: ps' => let! y := select columns p x in let! ys := select_each columns args' ps' in Ok (y :: ys)
      | Some _, [] => Err (IndexError "list index out of range")
      | None, _ => let! ys := select_each columns args' ps in Ok (x :: ys)
      end
  end.
Definition align_args {A} (columns : bool) (args : list (BArg A)) (junk : nat -> nat) : res (list (BArg A)) :=
  let xs := flat_map (fun x => match to_align columns x with Some i => [i] | None => [] end) args in
  if Nat.ltb 1 (List.length xs) &&
     negb (forallb (fun x => Nat.eqb (index_len x) (max_len xs)) xs)
  then let! ps := align_indexes xs junk in select_each columns args ps
  else Ok args.

(** ** Broadcasting *)
(** [to_pd]: for every argument if given; [keep_raw]: for every argument *)
Record BOpts := mkBOpts {
  bo_shape : option (list nat); bo_to_pd : option (nat -> bool); bo_to_frame : option bool;
  bo_align_index : bool; bo_align_columns : bool; bo_index_from : IndexFrom; bo_columns_from : IndexFrom;
  bo_keep_raw : nat -> bool; bo_stack : StackOpts }.

Fixpoint broadcast_each {A} (is_2d : bool) (keep_raw : nat -> bool) (k : nat) (args : list (BArg A)) (shape : list nat) : res (list (Arr A)) :=
  match args with
  | [] => Ok []
  | x :: args' =>
      let a := array_of is_2d x in
      let! b := np_broadcast_to a shape in
      let! bs := broadcast_each is_2d keep_raw (S k) args' shape in
      Ok ((if keep_raw k then a else b) :: bs)
  end.
Fixpoint wrap_each {A} (o : BOpts) (is_pd : nat -> bool) (k : nat) (args : list (BArg A)) (arrs : list (Arr A)) (new_index new_columns : option Index)
  : res (list (BArg A)) :=
  match args, arrs with
  | x :: args', a :: arrs' =>
      let! y := if bo_keep_raw o k then Ok (Raw a)
                else wrap_broadcasted (bo_stack o) x a (is_pd k) new_index new_columns in
      let! ys := wrap_each o is_pd (S k) args' arrs' new_index new_columns in Ok (y :: ys)
  | _, _ => Ok []
  end.

(** base/reshape_fns.py:349-651 broadcast. [require_kwargs] is not modelled:
    results have the data type and layout NumPy gives them. *)
Definition broadcast {A} (o : BOpts) (args : list (BArg A)) (junk : nat -> nat)
  : res (list (BArg A) * (list nat * (option Index * option Index))) :=
  let is_2d := match bo_to_frame o with
               | Some b => b
               | None => existsb has_2d args || match bo_shape o with Some s => Nat.ltb 1 (List.length s) | None => false end
               end in
  let ks := seq 0 (List.length args) in
  let is_pd := match bo_to_pd o with Some f => existsb f ks | None => existsb is_pandas args end in
  let! args1 := if bo_align_index o then align_args false args junk else Ok args in
  let! args2 := if bo_align_columns o then align_args true args1 junk else Ok args1 in
  let! shape := match bo_shape o with
                | Some s => Ok s
                | None => broadcast_shapes (map (fun x => shape_of (array_of is_2d x)) args2)
                end in
  let! arrs := broadcast_each is_2d (bo_keep_raw o) 0 args2 shape in
  let! (new_index, new_columns) :=
    if is_pd then
      let! i := broadcast_index (bo_stack o) args2 shape (bo_index_from o) false in
      let! c := broadcast_index (bo_stack o) args2 shape (bo_columns_from o) true in Ok (i, c)
    else Ok (None, None) in
  let! ys := wrap_each o (fun k => match bo_to_pd o with Some f => f k | None => is_pd end) 0 args2 arrs new_index new_columns in
  Ok (ys, (shape, (new_index, new_columns))).

(** base/reshape_fns.py:654-697 broadcast_to *)
Definition broadcast_to {A} (o : BOpts) (x y : BArg A) (junk : nat -> nat) : res (BArg A) :=
  let to_pd := match bo_to_pd o with Some f => f 0 | None => is_pandas y end in
  let! (from_i, from_c) :=
    if to_pd then
      match get_index y false, get_index y true with
      | Some i, Some c => Ok (FromIndex i, FromIndex c)
      | _, _ => Err (TypeError "arg2 must be a pandas object")
      end
    else Ok (bo_index_from o, bo_columns_from o) in
  let! (ys, _) := broadcast (mkBOpts (Some (shape_of (array_of false y))) (Some (fun _ => to_pd)) (bo_to_frame o) (bo_align_index o)
                     (bo_align_columns o) from_i from_c (bo_keep_raw o) (bo_stack o)) [x] junk in
  match ys with [z] => Ok z | _ => Err (IndexError "list index out of range") end.
