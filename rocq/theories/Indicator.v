(** * Model of running an indicator over parameters
    (indicators/factory.py, base/combine_fns.py, base/indexing.py)

    A two-dimensional array is the list of its columns. Inputs come as they are after
    broadcasting (see Broadcast.v); parameters are values of any type, after casting to
    lists; [keep_pd], [bc_to_input], parameters per column of one combination, caches,
    additional outputs and warnings are left out. *)
From Coq Require Import String ZArith Bool List Arith.
From Verif Require Import Base Grouper IndexFns.
Import ListNotations.
Local Open Scope string_scope.
Local Open Scope list_scope.
Local Open Scope nat_scope.

Notation Frame V := (list (list V)) (only parsing).

(** for i in range(n), stopping at the first exception *)
Fixpoint mapM {A B} (f : A -> res B) (l : list A) : res (list B) :=
  match l with
  | [] => Ok []
  | x :: l' => let! y := f x in let! ys := mapM f l' in Ok (y :: ys)
  end.

Definition same_length {V} (cols : Frame V) : bool :=
  match cols with [] => true | c :: rest => forallb (fun d => Nat.eqb (List.length d) (List.length c)) rest end.
(** np.hstack / np.column_stack of two-dimensional arrays *)
Definition hstack {V} (fs : list (Frame V)) : res (Frame V) :=
  match fs with
  | [] => Err (ValueError "need at least one array to concatenate")
  | _ => if same_length (List.concat fs) then Ok (List.concat fs)
         else Err (ValueError "all the input array dimensions except for the concatenation axis must match exactly")
  end.
Definition rows_of_frame {V} (f : Frame V) : nat := match f with [] => 0 | c :: _ => List.length c end.
Definition shape_eqb {V} (f : Frame V) (rows cols : nat) : bool :=
  Nat.eqb (rows_of_frame f) rows && Nat.eqb (List.length f) cols.
(** a[:, i * w : (i + 1) * w] *)
Definition chunk {V} (f : Frame V) (w i : nat) : Frame V := firstn w (skipn (i * w) f).

(** base/combine_fns.py:103-119 apply_and_concat_multiple, and 50-69
    apply_and_concat_one for functions of one output *)
Definition apply_and_concat_multiple {V} (n : nat) (apply_func : nat -> res (list (Frame V))) : res (list (Frame V)) :=
  let! outputs := mapM apply_func (seq 0 n) in
  mapM hstack (zip_star outputs).

(** base/combine_fns.py:99 and 155, output[:, i * w : (i + 1) * w] = outputs_i: slices are cut at the
    last column, and the shapes must then agree *)
Definition write_chunk {V} (output : Frame V) (rows i : nat) (x : Frame V) : res (Frame V) :=
  let w := List.length x in
  let hi := Nat.min (S i * w) (List.length output) in
  let lo := Nat.min (i * w) (List.length output) in
  raise_if (negb (Nat.eqb (hi - lo) w && Nat.eqb (rows_of_frame x) rows)) (ValueError "cannot assign slice from input of different size")
    (Ok (firstn lo output ++ x ++ skipn hi output)).
Fixpoint write_chunks {V} (outputs : list (Frame V)) (rows : list nat) (i : nat) (xs : list (Frame V)) : res (list (Frame V)) :=
  match xs, outputs, rows with
  | [], _, _ => Ok outputs
  | x :: xs', o :: outputs', r :: rows' =>
      let! o' := write_chunk o r i x in let! os := write_chunks outputs' rows' i xs' in Ok (o' :: os)
  | _, _, _ => Err (IndexError "list index out of range")
  end.
(** base/combine_fns.py:136-156 apply_and_concat_multiple_nb (and 84-100, apply_and_concat_one_nb);
    [junk] is what np.empty finds in memory *)
Definition apply_and_concat_multiple_nb {V} (junk : V) (n : nat) (apply_func : nat -> res (list (Frame V))) : res (list (Frame V)) :=
  let! outputs_0 := apply_func 0 in
  let empty := map (fun o => repeat (repeat junk (rows_of_frame o)) (n * List.length o)) outputs_0 in
  let rows := map rows_of_frame outputs_0 in
  foldM (fun outputs i =>
    let! outputs_i := (if Nat.eqb i 0 then Ok outputs_0 else apply_func i) in
    write_chunks outputs rows i outputs_i) empty (seq 0 n).

Section Pipeline.
Context {V P : Type}.
(** Python equality and hashability of parameters, and their labels in the columns
    (base/index_fns.py:44-67 index_from_values) *)
Variable peq : P -> P -> bool.
Variable hashable : P -> bool.
Variable label_of : P -> Label.

Fixpoint tuple_eqb (a b : list P) : bool :=
  match a, b with [], [] => true | x :: a', y :: b' => peq x y && tuple_eqb a' b' | _, _ => false end.

(** A calculation: inputs, in-place outputs (for each a list of chunks) and parameter lists to the
    chunks after writing into them, and the outputs *)
Definition Custom := list (Frame V) -> list (list (Frame V)) -> list (list P) -> res (list (list (Frame V)) * list (Frame V)).
(** A calculation of one combination: inputs, one array for each in-place output, parameters *)
Definition Apply := list (Frame V) -> list (Frame V) -> list P -> res (list (Frame V) * list (Frame V)).

(** indicators/factory.py:3300-3413 custom_func made by from_apply_func out of apply_func,
    without Numba. For functions of one output see apply_and_concat_one; of no output,
    apply_and_concat_none. *)
Definition n_values (param_list : list (list P)) : nat := match param_list with [] => 1 | p :: _ => List.length p end.
Definition from_apply_func (num_ret_outputs : nat) (apply_func : Apply) : Custom := fun inputs in_outputs param_list =>
  let n := n_values param_list in
  let in_output_tuples := zip_star in_outputs in
  let param_tuples := zip_star param_list in
  let! results := mapM (fun i => apply_func inputs (nth i in_output_tuples []) (nth i param_tuples [])) (seq 0 n) in
  let! outputs := (match num_ret_outputs with 0 => Ok [] | _ => mapM hstack (zip_star (map snd results)) end) in
  Ok (match in_outputs with [] => [] | _ => zip_star (map fst results) end, outputs).

(** indicators/factory.py:1660-1678, parameters: product and broadcasting *)
Definition expand_params (param_list : list (list P)) (param_product per_column : bool) (n_cols : nat) : res (list (list P)) :=
  let param_list := if Nat.ltb 1 (List.length param_list) && param_product then create_param_product param_list else param_list in
  match param_list with
  | [] => Ok []
  | _ => broadcast_params param_list (if per_column then Some n_cols else None)
  end.

(** OrderedDict.fromkeys(tuples): first occurrences in order *)
Fixpoint dedupe (seen ts : list (list P)) : list (list P) :=
  match ts with
  | [] => []
  | t :: ts' => if existsb (tuple_eqb t) seen then dedupe seen ts' else t :: dedupe (seen ++ [t]) ts'
  end.
(** indicators/factory.py:1680-1691, unique combinations; unhashable parameters are passed over silently *)
Definition unique_params (run_unique : bool) (param_list : list (list P)) : list (list P) * bool :=
  let param_tuples := zip_star param_list in
  let unique := dedupe [] param_tuples in
  if run_unique && forallb (forallb hashable) param_tuples && Nat.ltb (List.length unique) (List.length param_tuples)
  then (zip_star unique, true) else (param_list, false).

(** list.index *)
Fixpoint tuple_index (t : list P) (ts : list (list P)) : res nat :=
  match ts with
  | [] => Err (ValueError "is not in list")
  | u :: ts' => if tuple_eqb u t then Ok 0 else let! i := tuple_index t ts' in Ok (S i)
  end.

(** Raw results: outputs (in-place ones first), parameter tuples, columns per combination *)
Record Raw := mkRaw { raw_outputs : list (Frame V); raw_params : list (list P); raw_cols : nat }.
(** indicators/factory.py:1764-1771 _use_raw *)
Definition _use_raw (param_list : list (list P)) (raw : Raw) : res (list (Frame V)) :=
  let! idxs := mapM (fun t => tuple_index t (raw_params raw)) (zip_star param_list) in
  mapM (fun o => hstack (map (chunk o (raw_cols raw)) idxs)) (raw_outputs raw).

(** indicators/factory.py:1885-1911 _split_output *)
Definition _split_output (num_ret_outputs : nat) (outputs : list (Frame V)) : res (list (Frame V)) :=
  let kept := firstn num_ret_outputs outputs in
  raise_if (negb (Nat.eqb (List.length kept) num_ret_outputs)) (ValueError "Number of returned outputs other than expected") (Ok kept).

(** indicators/factory.py:1602-1605, 1630-1633: those in-place outputs that are given are broadcast with
    the inputs, and what is left afterwards is the list of just those, unless there are none *)
Definition given_idxs (in_outputs : list (option (Frame V))) : list nat :=
  map fst (filter (fun p => match snd p with Some _ => true | None => false end) (combine (seq 0 (List.length in_outputs)) in_outputs)).
Definition given (in_outputs : list (option (Frame V))) : list (Frame V) :=
  flat_map (fun x => match x with Some f => [f] | None => [] end) in_outputs.
(** indicators/factory.py:1728-1759, the wide array of every in-place output. [new i cols] is the array that
    np.empty makes for output [i]. *)
Fixpoint wide_in_outputs (new : nat -> nat -> Frame V) (idxs : list nat) (in_outputs : list (Frame V)) (per_column : bool)
    (n_unique cols_2d : nat) (i j left : nat) : res (list (Frame V)) :=
  match left with
  | 0 => Ok []
  | S left' =>
    if existsb (Nat.eqb i) idxs then
      match nth_error in_outputs j with
      | None => Err (IndexError "list index out of range")
      | Some f =>
          let wide := if per_column then f else List.concat (repeat f n_unique) in
          let! rest := wide_in_outputs new idxs in_outputs per_column n_unique cols_2d (S i) (S j) left' in
          Ok (wide :: rest)
      end
    else
      let! rest := wide_in_outputs new idxs in_outputs per_column n_unique cols_2d (S i) j left' in
      Ok (new i (cols_2d * n_unique) :: rest)
  end.

Definition column {V'} (f : Frame V') (i : nat) : res (Frame V') :=
  match nth_error f i with Some c => Ok [c] | None => Err (IndexError "index is out of bounds for axis 1") end.
Definition item {A} (l : list A) (i : nat) : res A :=
  match nth_error l i with Some x => Ok x | None => Err (IndexError "list index out of range") end.

(** What the caller passes *)
Record Args := mkArgs {
  a_inputs : list (Frame V);            (* after broadcasting *)
  a_shape : option (nat * nat);         (* rows and columns of the inputs; None if there are none and no shape is given *)
  a_in_outputs : list (option (Frame V));
  a_params : list (list P);
  a_product : bool;
  a_per_column : bool;
  a_unique : bool
}.

(** indicators/factory.py:1697-1759, 1821-1874, 1913-1945: parameters, in-place outputs, the calls
    and the raw results. The second result tells whether the combinations were made unique. *)
Definition run_raw (num_ret_outputs : nat) (custom_func : Custom) (new : nat -> nat -> Frame V) (a : Args)
    (param_list : list (list P)) : res (Raw * nat * bool) :=
  let '(unique, used) := unique_params (a_unique a && negb (a_per_column a)) param_list in
  let n_unique := n_values unique in
  let idxs := given_idxs (a_in_outputs a) in
  let n_in := match idxs with [] => List.length (a_in_outputs a) | _ => List.length idxs end in
  raise_if (Nat.ltb 0 n_in && match a_shape a with None => true | _ => false end)
    (ValueError "input_shape is required when using in-place outputs") (
  let cols := match a_shape a with Some (_, c) => c | None => 1 end in
  let cols_2d := if a_per_column a then 1 else cols in
  let! wide := wide_in_outputs new idxs (given (a_in_outputs a)) (a_per_column a) n_unique cols_2d 0 0 n_in in
  let ready := map (fun f => map (chunk f cols_2d) (seq 0 n_unique)) wide in
  let! result :=
    (if a_per_column a then
      let! per := mapM (fun col =>
        let! inputs := mapM (fun f => column f col) (a_inputs a) in
        let! in_outputs := mapM (fun chunks => let! x := item chunks col in Ok [x]) ready in
        let! params := mapM (fun ps => let! x := item ps col in Ok [x]) unique in
        let! r := custom_func inputs in_outputs params in
        let! outputs := _split_output num_ret_outputs (snd r) in
        Ok (fst r, outputs)) (seq 0 cols) in
      let! outputs := mapM hstack (zip_star (map snd per)) in
      (* a column that no call has written into keeps what it had *)
      let written := map (@List.concat (list (list V))) (zip_star (map fst per)) in
      Ok (map (fun p => List.concat (fst p) ++ skipn (List.length (List.concat (fst p))) (snd p)) (combine written wide), outputs)
    else
      let! r := custom_func (a_inputs a) ready unique in
      let! outputs := _split_output num_ret_outputs (snd r) in
      Ok (map (@List.concat (list V)) (fst r), outputs)) in
  let output_list := fst result ++ snd result in
  match output_list with
  | [] => Err (IndexError "list index out of range")
  | o :: _ =>
    raise_if (negb (forallb (fun x => shape_eqb x (rows_of_frame o) (List.length o)) output_list))
      (ValueError "All outputs must have the same shape") (
    raise_if (negb (a_per_column a) && Nat.eqb n_unique 0) ZeroDivision (
    let n_input_cols := if a_per_column a then 1 else List.length o / n_unique in
    raise_if (match a_shape a with Some _ => negb (Nat.eqb n_input_cols cols_2d) | None => false end)
      (ValueError "All outputs must have the number of columns = #input columns x #parameters")
      (Ok (mkRaw output_list (zip_star unique) n_input_cols, n_in, used))))
  end).

(** How the column levels are built: names, hidden levels, and the options of stacking *)
Record Naming := mkNaming {
  nm_columns : option Index;           (* columns of the inputs *)
  nm_levels : list (option string);
  nm_hidden : list nat;
  nm_ignore_default : bool;
  nm_drop_duplicates : bool; nm_keep_first : bool; nm_drop_redundant : bool
}.
(** indicators/factory.py:1270-1326 build_columns *)
Definition param_level (nm : Naming) (n_cols : nat) (per_column : bool) (i : nat) (params : list P) : Index :=
  let x := Plain (mkLevel (nth i (nm_levels nm) None) (map label_of params)) in
  if per_column then x else repeat_index x n_cols (nm_ignore_default nm).
Definition build_columns (nm : Naming) (param_list : list (list P)) (input_columns : Index) (per_column : bool) : res (list Index * Index) :=
  let indexes := map (fun p => param_level nm (index_len input_columns) per_column (fst p) (snd p)) (combine (seq 0 (List.length param_list)) param_list) in
  let shown := map snd (filter (fun p => negb (existsb (Nat.eqb (fst p)) (nm_hidden nm))) (combine (seq 0 (List.length indexes)) indexes)) in
  match shown with
  | [] => Ok (indexes, input_columns)
  | _ =>
    let columns := if per_column then input_columns else tile_index input_columns (n_values param_list) (nm_ignore_default nm) in
    let! stacked := stack_indexes (shown ++ [columns]) (nm_drop_duplicates nm) (nm_keep_first nm) (nm_drop_redundant nm) in
    Ok (indexes, stacked)
  end.

(** An indicator *)
Record Indicator := mkIndicator {
  in_columns : Index; in_rows : nat;
  in_inputs : list (Frame V); in_mapper : option (list nat);
  in_in_outputs : list (Frame V); in_outputs : list (Frame V);
  in_params : list (list P); in_mappers : list Index;
  in_names : list (option string)
}.

(** indicators/factory.py:2117-2129 IndicatorBase.__init__, what is checked *)
Definition make_indicator (x : Indicator) : res Indicator :=
  let n := index_len (in_columns x) in
  raise_if (match in_mapper x with Some m => negb (Nat.eqb (List.length m) n) | None => false end) (AssertionError "expected to be equal") (
  raise_if (negb (forallb (fun f => Nat.eqb (rows_of_frame f) (in_rows x)) (in_inputs x))) (AssertionError "expected to be equal") (
  raise_if (negb (forallb (fun f => shape_eqb f (in_rows x) n) (in_in_outputs x ++ in_outputs x))) (AssertionError "expected to be equal") (
  raise_if (negb (forallb (fun p => Nat.eqb (List.length p) (n_values (in_params x))) (in_params x))) (AssertionError "expected to be equal") (
  raise_if (negb (forallb (fun m => Nat.eqb (index_len m) n) (in_mappers x))) (AssertionError "expected to be equal") (
  raise_if (negb (Nat.eqb (List.length (in_names x)) (List.length (in_params x)))) (AssertionError "expected to be equal") (Ok x)))))).

(** indicators/factory.py:1956-2011, columns and mappers, and 2896-2929, the new instance *)
Definition finish (nm : Naming) (a : Args) (param_list : list (list P)) (n_in n_input_cols : nat) (output_list : list (Frame V)) : res Indicator :=
  match output_list with
  | [] => Err (IndexError "list index out of range")
  | o :: _ =>
    let rows := match a_shape a with Some (r, _) => r | None => rows_of_frame o end in
    let cols := match a_shape a with Some (_, c) => c | None => n_input_cols end in
    let input_columns := match nm_columns nm with Some x => x | None => Plain (range_level cols) end in
    let! built := (match param_list with [] => Ok ([], input_columns) | _ => build_columns nm param_list input_columns (a_per_column a) end) in
    let mapper := match param_list, a_inputs a with
      | [], _ | _, [] => None
      | _, _ => let r := seq 0 (index_len input_columns) in
                Some (if a_per_column a then r else List.concat (repeat r (n_values param_list)))
      end in
    make_indicator (mkIndicator (snd built) rows (a_inputs a) mapper (firstn n_in output_list) (skipn n_in output_list)
      param_list (fst built) (nm_levels nm))
  end.

Definition number_of_in_outputs (a : Args) : nat :=
  match given_idxs (a_in_outputs a) with [] => List.length (a_in_outputs a) | idxs => List.length idxs end.
Definition columns_of_shape (a : Args) : nat := match a_shape a with Some (_, c) => c | None => 1 end.
(** indicators/factory.py:1643-1646 *)
Definition shape_given (a : Args) : bool := match a_shape a with None => a_per_column a | _ => false end.

(** indicators/factory.py:1343-2011 run_pipeline with 2854-2929 _run *)
Definition run (num_ret_outputs : nat) (custom_func : Custom) (new : nat -> nat -> Frame V) (nm : Naming) (a : Args) : res Indicator :=
  raise_if (shape_given a) (ValueError "input_shape is required when per_column=True") (
  let! param_list := expand_params (a_params a) (a_product a) (a_per_column a) (columns_of_shape a) in
  let! r := run_raw num_ret_outputs custom_func new a param_list in
  let '(raw, n_in, used) := r in
  let! output_list := (if used then _use_raw param_list raw else Ok (raw_outputs raw)) in
  finish nm a param_list n_in (raw_cols raw) output_list).

(** The same with return_raw=True *)
Definition run_return_raw (num_ret_outputs : nat) (custom_func : Custom) (new : nat -> nat -> Frame V) (a : Args) : res Raw :=
  raise_if (shape_given a) (ValueError "input_shape is required when per_column=True") (
  let! param_list := expand_params (a_params a) (a_product a) (a_per_column a) (columns_of_shape a) in
  let! r := run_raw num_ret_outputs custom_func new a param_list in Ok (fst (fst r))).

(** The same with use_raw=raw *)
Definition run_use_raw (nm : Naming) (a : Args) (raw : Raw) : res Indicator :=
  raise_if (shape_given a) (ValueError "input_shape is required when per_column=True") (
  let! param_list := expand_params (a_params a) (a_product a) (a_per_column a) (columns_of_shape a) in
  let! output_list := _use_raw param_list raw in
  finish nm a param_list (number_of_in_outputs a) (raw_cols raw) output_list).

(** itertools.combinations(l, r) *)
Fixpoint combinations_of {A} (r : nat) (l : list A) : list (list A) :=
  match r, l with
  | 0, _ => [[]]
  | _, [] => []
  | S r', x :: l' => map (cons x) (combinations_of r' l') ++ combinations_of r l'
  end.

Definition with_params (a : Args) (ps : list (list P)) (product unique : bool) : Args :=
  mkArgs (a_inputs a) (a_shape a) (a_in_outputs a) ps product (a_per_column a) unique.
(** indicators/factory.py:3018-3094 _run_combs; [comb_func] is given the parameter tuples and [naming i]
    names the levels of instance [i]. The runs inside do not make products or unique combinations. *)
Definition run_combs (num_ret_outputs : nat) (custom_func : Custom) (new : nat -> nat -> Frame V) (naming : nat -> Naming)
    (comb_func : list (list P) -> list (list (list P))) (a : Args) : res (list Indicator) :=
  let! param_list := (if a_product a then Ok (create_param_product (a_params a)) else broadcast_params (a_params a) None) in
  let param_lists := zip_star (comb_func (zip_star param_list)) in
  let instances (one : Naming -> Args -> res Indicator) :=
    mapM (fun p => one (naming (fst p)) (with_params a (zip_star (snd p)) false false)) (combine (seq 0 (List.length param_lists)) param_lists) in
  if a_unique a then
    let! raw := run_return_raw num_ret_outputs custom_func new (with_params a param_list false false) in
    instances (fun nm b => run_use_raw nm b raw)
  else instances (run num_ret_outputs custom_func new).

(** ** Selecting columns *)
Definition take {A} (d : A) (idxs : list nat) (l : list A) : list A := map (fun i => nth i l d) idxs.
Definition take_level (idxs : list nat) (l : Level) : Level := mkLevel (lv_name l) (take (LInt 0) idxs (lv_values l)).

(** indicators/factory.py:2150-2188 IndicatorBase.indexing_func for a selection of columns, with the columns
    that the wrapper has after it *)
Definition select_columns (x : Indicator) (idxs : list nat) (columns : Index) : res Indicator :=
  make_indicator (mkIndicator columns (in_rows x) (in_inputs x) (option_map (take 0 idxs) (in_mapper x))
    (map (take [] idxs) (in_in_outputs x)) (map (take [] idxs) (in_outputs x)) (in_params x)
    (map (map_levels (take_level idxs)) (in_mappers x)) (in_names x)).

(** The labels of a plain mapper *)
Definition mapper_values (m : Index) : list Label := match m with Plain l => lv_values l | Multi _ => [] end.
Definition positions (key : Label) (values : list Label) : list nat :=
  map fst (filter (fun p => label_eqb (snd p) key) (combine (seq 0 (List.length values)) values)).
(** base/indexing.py:189-211 ParamLoc.get_indices for a key or a list of keys; parameters that are
    numbers or strings *)
Definition indices_of (values : list Label) (key : Label) : res (list nat) :=
  match positions key values with [] => Err (KeyError "key") | idxs => Ok idxs end.
Definition indices_of_all (values : list Label) (keys : list Label) : res (list nat) :=
  let! l := mapM (indices_of values) keys in Ok (List.concat l).

(** base/index_fns.py:156-174 drop_levels with strict, pandas MultiIndex.droplevel by name *)
Definition drop_level_strict (x : Index) (name : option string) : res Index :=
  match x with
  | Plain l => Ok (Plain l)
  | Multi ls =>
      let ps := filter (fun p => name_eqb (lv_name (snd p)) name) (combine (seq 0 (List.length ls)) ls) in
      match ps with
      | [] => Err (KeyError "key")
      | [(i, _)] => raise_if (Nat.eqb (List.length ls) 1) (ValueError "Cannot remove all levels") (Ok (droplevel ls [i]))
      | _ => Err (ValueError "The name occurs multiple times, use a level number")
      end
  end.
(** base/indexing.py:213-227 ParamLoc.__getitem__ for one key and for a list of keys *)
Definition param_loc (x : Indicator) (j : nat) (key : Label) : res Indicator :=
  match nth_error (in_mappers x) j with
  | None => Err (IndexError "list index out of range")
  | Some m =>
    let! idxs := indices_of (mapper_values m) key in
    let columns := map_levels (take_level idxs) (in_columns x) in
    let! columns := (match nth j (in_names x) None with None => Ok columns | name => drop_level_strict columns name end) in
    select_columns x idxs columns
  end.
Definition param_loc_list (x : Indicator) (j : nat) (keys : list Label) : res Indicator :=
  match nth_error (in_mappers x) j with
  | None => Err (IndexError "list index out of range")
  | Some m =>
    let! idxs := indices_of_all (mapper_values m) keys in
    select_columns x idxs (map_levels (take_level idxs) (in_columns x))
  end.

(** indicators/factory.py:2388-2394 input_prop: an input, in the shape of the outputs *)
Definition input_shown (x : Indicator) (i : nat) : Frame V :=
  let f := nth i (in_inputs x) [] in
  match in_mapper x with None => f | Some m => take [] m f end.

End Pipeline.
