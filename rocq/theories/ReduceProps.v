(** * C90-C93: functions of the user applied to windows, columns, groups and cells *)
From Coq Require Import String ZArith QArith Bool List Arith.
From Verif Require Import Base Num B64 OrdLaws Reduce ReduceSpec ReduceLemmas ReduceLemmas2 ReduceLemmas3 ReduceLemmas4.
Import ListNotations.
Local Open Scope string_scope.
Local Open Scope list_scope.
Local Open Scope nat_scope.

(** ** C90 *)
Theorem C90_rolling_apply : forall (T : Type) (N : Num T) (f : nat -> nat -> list T -> res T) (a : mat T) window minp out,
  rolling_apply_nb a window minp f = Ok out ->
  shaped (nrows a) (ncols a) out /\
  forall i c, i < nrows a -> c < ncols a ->
    (asked window minp <= present (last_values a window i c) -> f i c (last_values a window i c) = Ok (val nan out i c)) /\
    (present (last_values a window i c) < asked window minp -> val nan out i c = nan).
Proof. exact (fun T N => @rolling_ok T N). Qed.
Print Assumptions C90_rolling_apply.

Theorem C90_refused_only_by_the_function : forall (T : Type) (N : Num T) (f : nat -> nat -> list T -> res T) (a : mat T) window minp e,
  rolling_apply_nb a window minp f = Err e ->
  exists i c, i < nrows a /\ c < ncols a /\ asked window minp <= present (last_values a window i c) /\
    f i c (last_values a window i c) = Err e.
Proof. exact (fun T N => @rolling_err T N). Qed.
Print Assumptions C90_refused_only_by_the_function.

Theorem C90_no_look_ahead : forall (T : Type) (N : Num T) (f : nat -> nat -> list T -> res T) (a b : mat T) window minp k outa outb,
  same_until k a b -> rolling_apply_nb a window minp f = Ok outa -> rolling_apply_nb b window minp f = Ok outb ->
  same_until k outa outb.
Proof. exact (fun T N => @rolling_no_look_ahead T N). Qed.
Print Assumptions C90_no_look_ahead.

Theorem C90_expanding_apply : forall (T : Type) (N : Num T) (f : nat -> nat -> list T -> res T) (a : mat T) minp out,
  expanding_apply_nb a minp f = Ok out ->
  shaped (nrows a) (ncols a) out /\
  forall i c, i < nrows a -> c < ncols a ->
    let seen := map (fun j => val nan a j c) (seq 0 (i + 1)) in
    (asked (nrows a) minp <= present seen -> f i c seen = Ok (val nan out i c)) /\
    (present seen < asked (nrows a) minp -> val nan out i c = nan).
Proof. exact (fun T N => @expanding_ok T N). Qed.
Print Assumptions C90_expanding_apply.

(** With all columns at once, as long as no value is missing. *)
Theorem C90_on_all_columns : forall (T : Type) (N : Num T) (f : nat -> mat T -> res (out_of T)) (a : mat T) window minp out,
  rectangular a -> complete a -> rolling_matrix_apply_nb a window minp f = Ok out ->
  shaped (nrows a) (ncols a) out /\
  forall i, i < nrows a ->
    (asked window minp <= Nat.min window (i + 1) ->
       exists o, f i (last_rows a window i) = Ok o /\ stands_for (ncols a) o (nth i (rows out) [])) /\
    (Nat.min window (i + 1) < asked window minp -> forall c, c < ncols a -> val nan out i c = nan).
Proof. exact (fun T N => @matrix_ok T N). Qed.
Print Assumptions C90_on_all_columns.

(** Missing values are not counted over the window: with one column, where the two
    functions should agree, the function is called on a window with too few values. *)
Theorem C90_on_all_columns_missing_refuted :
  exists (a : mat XQ) (f : nat -> nat -> list XQ -> res XQ) out out',
    rectangular a /\ ncols a = 1 /\
    rolling_apply_nb a 2 None f = Ok out /\
    rolling_matrix_apply_nb a 2 None (fun i m => let! x := f i 0 (map (fun r => nth 0 r NaN) (rows m)) in Ok (Single x)) = Ok out' /\
    val NaN out 2 0 = NaN /\ val NaN out' 2 0 = Fin 3.
Proof.
  exists (Mat 1 [[Fin 1]; [NaN]; [Fin 3]; [Fin 4]]), (fun _ _ w => Ok (last w NaN)). eexists. eexists.
  split; [repeat constructor|]. split; [reflexivity|]. split; [vm_compute; reflexivity|]. split; [vm_compute; reflexivity|].
  vm_compute. auto.
Qed.
Print Assumptions C90_on_all_columns_missing_refuted.

Example C90_nonvacuous :
  let a := Mat 2 [[Fin 1; NaN]; [Fin 2; Fin 5]; [NaN; Fin 6]; [Fin 4; Fin 7]] in
  rolling_apply_nb a 2 (Some 1) (fun i c w => Ok (nth 0 w NaN)) =
    Ok (Mat 2 [[Fin 1; NaN]; [Fin 1; NaN]; [Fin 2; Fin 5]; [NaN; Fin 6]]) /\
  expanding_apply_nb a (Some 2) (fun i c w => Ok (last w NaN)) =
    Ok (Mat 2 [[NaN; NaN]; [Fin 2; NaN]; [NaN; Fin 6]; [Fin 4; Fin 7]]) /\
  rolling_matrix_apply_nb (Mat 2 [[Fin 1; Fin 2]; [Fin 3; Fin 4]; [Fin 5; Fin 6]]) 2 None (fun i m => Ok (Several (nth 0 (rows m) []))) =
    Ok (Mat 2 [[NaN; NaN]; [Fin 1; Fin 2]; [Fin 3; Fin 4]]).
Proof. vm_compute. auto. Qed.

(** ** C91 *)
Theorem C91_reduce_columns : forall (T : Type) (N : Num T),
  (forall U (a : mat T) (f : nat -> list T -> res U) out, reduce_nb a f = Ok out ->
     length out = ncols a /\ forall c, c < ncols a -> exists y, nth_error out c = Some y /\ f c (column a c) = Ok y) /\
  (forall U (d : U) (a : mat T) (f : nat -> list T -> res (list U)) out, reduce_to_array_nb d a f = Ok out ->
     ncols out = ncols a /\ rectangular out /\
     forall c, c < ncols a -> exists o, f c (column a c) = Ok o /\ length o = nrows out /\ forall j, j < nrows out -> val d out j c = nth j o d) /\
  (forall V U (a : mat T) (f : nat -> list T -> res V) (g : nat -> V -> res U) out, apply_and_reduce_nb a f g = Ok out ->
     length out = ncols a /\ forall c, c < ncols a -> exists m y, f c (column a c) = Ok m /\ g c m = Ok y /\ nth_error out c = Some y).
Proof. exact (fun T N => @reduce_columns_all T N). Qed.
Print Assumptions C91_reduce_columns.

Theorem C91_reduce_groups : forall (T : Type) (N : Num T) (a : mat T) lens, rectangular a -> groups_of a lens ->
  (forall U (f : nat -> mat T -> res U) out, reduce_grouped_nb a lens f = Ok out ->
     length out = length lens /\
     forall g, g < length lens -> exists m y, is_group nan a lens g m /\ nth_error out g = Some y /\ f g m = Ok y) /\
  (forall U by_rows (f : nat -> list T -> res U) out, flat_reduce_grouped_nb a lens by_rows f = Ok out ->
     length out = length lens /\
     forall g, g < length lens -> exists xs y, is_flat_group nan by_rows a lens g xs /\ nth_error out g = Some y /\ f g xs = Ok y) /\
  (forall U (f : nat -> mat T -> res U) e, reduce_grouped_nb a lens f = Err e ->
     exists g m, g < length lens /\ is_group nan a lens g m /\ f g m = Err e) /\
  (forall U by_rows (f : nat -> list T -> res U) e, flat_reduce_grouped_nb a lens by_rows f = Err e ->
     exists g xs, g < length lens /\ is_flat_group nan by_rows a lens g xs /\ f g xs = Err e).
Proof. exact (fun T N => @reduce_groups_all T N). Qed.
Print Assumptions C91_reduce_groups.

Theorem C91_reduce_groups_to_arrays : forall (T : Type) (N : Num T) (a : mat T) lens U (d : U), rectangular a -> groups_of a lens ->
  (forall (f : nat -> mat T -> res (list U)) out, reduce_grouped_to_array_nb d a lens f = Ok out ->
     ncols out = length lens /\ rectangular out /\
     forall g, g < length lens -> exists m o, is_group nan a lens g m /\ f g m = Ok o /\ length o = nrows out /\
       forall j, j < nrows out -> val d out j g = nth j o d) /\
  (forall by_rows (f : nat -> list T -> res (list U)) out, flat_reduce_grouped_to_array_nb d a lens by_rows f = Ok out ->
     ncols out = length lens /\ rectangular out /\
     forall g, g < length lens -> exists xs o, is_flat_group nan by_rows a lens g xs /\ f g xs = Ok o /\ length o = nrows out /\
       forall j, j < nrows out -> val d out j g = nth j o d).
Proof. exact (fun T N => @reduce_arrays_all T N). Qed.
Print Assumptions C91_reduce_groups_to_arrays.

(** The position of a value among the values of a group names the row of the value. *)
Theorem C91_positions_name_rows : forall (T : Type) (N : Num T) (a : mat T) lens by_rows f out, rectangular a -> groups_of a lens ->
  reduce_flat_to_rows a lens by_rows f = Ok out ->
  length out = length lens /\
  forall g, g < length lens -> exists xs p, is_flat_group nan by_rows a lens g xs /\ f g xs = Ok p /\
    (p < length xs -> exists i k, nth_error out g = Some i /\ i < nrows a /\ k < nth g lens 0 /\
       p = (if by_rows then i * nth g lens 0 + k else k * nrows a + i) /\ nth p xs nan = val nan a i (first_col lens g + k)).
Proof. exact (fun T N => @to_rows_cell T N). Qed.
Print Assumptions C91_positions_name_rows.

Theorem C91_idxmin_idxmax_of_groups : forall (T : Type) (N : Num T), OrdLaws N -> infinity_on_top N ->
  forall (a : mat T) lens by_rows, rectangular a -> groups_of a lens ->
  (forall out, idxmin a (Some lens) by_rows = Ok out -> length out = length lens /\
     forall g, g < length lens -> exists i, nth_error out g = Some (Some i) /\
       (has_better ltb pinf a (first_col lens g) (nth g lens 0) -> exists c, first_best ltb by_rows a (first_col lens g) (nth g lens 0) i c)) /\
  (forall out, idxmax a (Some lens) by_rows = Ok out -> length out = length lens /\
     forall g, g < length lens -> exists i, nth_error out g = Some (Some i) /\
       (has_better gtb ninf a (first_col lens g) (nth g lens 0) -> exists c, first_best gtb by_rows a (first_col lens g) (nth g lens 0) i c)) /\
  (forall e, idxmin a (Some lens) by_rows = Err e \/ idxmax a (Some lens) by_rows = Err e ->
     exists g, g < length lens /\ all_missing a (first_col lens g) (nth g lens 0)).
Proof. exact (fun T N L => @idx_groups_all T N L). Qed.
Print Assumptions C91_idxmin_idxmax_of_groups.

Theorem C91_idxmin_idxmax_of_columns : forall (T : Type) (N : Num T), OrdLaws N -> infinity_on_top N ->
  forall (a : mat T) by_rows,
  exists least greatest, idxmin a None by_rows = Ok least /\ idxmax a None by_rows = Ok greatest /\
    length least = ncols a /\ length greatest = ncols a /\
    forall c, c < ncols a ->
      (all_missing a c 1 -> nth_error least c = Some None /\ nth_error greatest c = Some None) /\
      (~ all_missing a c 1 -> exists i j, nth_error least c = Some (Some i) /\ nth_error greatest c = Some (Some j) /\
         (has_better ltb pinf a c 1 -> first_best ltb by_rows a c 1 i c) /\
         (has_better gtb ninf a c 1 -> first_best gtb by_rows a c 1 j c)).
Proof. exact (fun T N L => @idx_columns_all T N L). Qed.
Print Assumptions C91_idxmin_idxmax_of_columns.

(** The laws hold for IEEE doubles and for exact numbers. *)
Theorem C91_doubles : (OrdLaws B64num /\ infinity_on_top B64num) /\ (OrdLaws XQnum /\ infinity_on_top XQnum).
Proof. exact (conj (conj B64ord b64_infinity) (conj XQord xq_infinity)). Qed.
Print Assumptions C91_doubles.

(** If every number of a column is infinite, the row of a missing value can be given. *)
Theorem C91_only_infinite_values_refuted :
  exists (a : mat XQ) i, idxmin a None true = Ok [Some i] /\ val NaN a i 0 = NaN /\ ~ all_missing a 0 1.
Proof.
  exists (Mat 1 [[NaN]; [PInf]]), 0. split; [vm_compute; reflexivity|]. split; [vm_compute; reflexivity|].
  intros H. specialize (H 1 0 ltac:(vm_compute; auto) ltac:(auto)). discriminate.
Qed.
Print Assumptions C91_only_infinite_values_refuted.

(** A column without numbers gives NaN, but as a group of its own it is refused. *)
Theorem C91_group_without_numbers_refuted :
  exists a : mat XQ, idxmin a None true = Ok [Some 1; None] /\ idxmin a (Some [1; 1]) true = Err (ValueError "All-NaN slice encountered").
Proof. exists (Mat 2 [[Fin 2; NaN]; [Fin 1; NaN]]). vm_compute. auto. Qed.
Print Assumptions C91_group_without_numbers_refuted.

Theorem C91_reducers : forall (T : Type) (N : Num T), OrdLaws N -> forall c (l : list T),
  (l <> [] ->
   (exists m, min_reduce_nb c l = Ok m /\ In m l /\ (isnan m = true -> forall y, In y l -> isnan y = true) /\ forall y, In y l -> ltb y m = false) /\
   (exists m, max_reduce_nb c l = Ok m /\ In m l /\ (isnan m = true -> forall y, In y l -> isnan y = true) /\ forall y, In y l -> ltb m y = false)) /\
  count_reduce_nb c l = Ok (present l) /\
  (forall n, let len := Z.of_nat (length l) in
     ((0 <= n < len)%Z -> nth_reduce_nb n c l = Ok (nth (Z.to_nat n) l nan) /\ nth_index_reduce_nb n c l = Ok (Z.to_nat n)) /\
     ((- len <= n < 0)%Z -> nth_reduce_nb n c l = Ok (nth (Z.to_nat (len + n)) l nan) /\ nth_index_reduce_nb n c l = Ok (Z.to_nat (len + n))) /\
     ((n < - len \/ len <= n)%Z -> nth_reduce_nb n c l = Err (ValueError "index is out of bounds") /\
                                   nth_index_reduce_nb n c l = Err (ValueError "index is out of bounds"))).
Proof. exact (fun T N L => @reducers_all T N L). Qed.
Print Assumptions C91_reducers.

Example C91_nonvacuous :
  let a := Mat 3 [[Fin 4; Fin 9; NaN]; [NaN; Fin 2; Fin 7]; [Fin 6; Fin 3; Fin 1]] in
  idxmin a (Some [2; 1]) true = Ok [Some 1; Some 2] /\ idxmax a (Some [2; 1]) false = Ok [Some 0; Some 1] /\
  flat_reduce_grouped_nb a [2; 1] true count_reduce_nb = Ok [5; 2] /\
  flat_reduce_grouped_nb a [2; 1] false (nth_reduce_nb 3) = Err (ValueError "index is out of bounds") /\
  flat_reduce_grouped_nb a [2; 1] false (nth_reduce_nb (-1)) = Ok [Fin 3; Fin 1] /\
  reduce_nb a min_reduce_nb = Ok [Fin 4; Fin 2; Fin 1] /\
  reduce_grouped_to_array_nb NaN a [2; 1] (fun g m => Ok (map (fun r => nth 0 r NaN) (rows m))) =
    Ok (Mat 2 [[Fin 4; NaN]; [NaN; Fin 7]; [Fin 6; Fin 1]]).
Proof. vm_compute. repeat split; auto. Qed.

(** ** C92 *)
Theorem C92_squeeze : forall (T : Type) (N : Num T) U (d : U) (a : mat T) lens (f : nat -> nat -> list T -> res U) out,
  rectangular a -> groups_of a lens -> squeeze_grouped_nb d a lens f = Ok out ->
  shaped (nrows a) (length lens) out /\
  forall i g, i < nrows a -> g < length lens ->
    f i g (map (fun k => val nan a i (first_col lens g + k)) (seq 0 (nth g lens 0))) = Ok (val d out i g).
Proof. exact (fun T N => @squeeze_ok T N). Qed.
Print Assumptions C92_squeeze.

(** Whatever was in memory before ([garbage]), each value of a group stands under the
    label of its row, and the cells a shorter group does not fill are NaN. *)
Theorem C92_flatten : forall A (nan_ garbage : A) (a : mat A) lens by_rows, rectangular a -> groups_of a lens ->
  exists out labels, flatten_grouped nan_ garbage a lens by_rows = Ok (out, labels) /\
    shaped (nrows a * longest lens) (length lens) out /\ length labels = nrows a * longest lens /\
    forall g i k, g < length lens -> i < nrows a -> k < longest lens ->
      let r := if by_rows then i * longest lens + k else k * nrows a + i in
      nth r labels 0 = i /\ val nan_ out r g = (if Nat.ltb k (nth g lens 0) then val nan_ a i (first_col lens g + k) else nan_).
Proof. exact flatten_grouped_ok. Qed.
Print Assumptions C92_flatten.

Theorem C92_value_counts : forall (codes : mat nat) n_uniques lens, rectangular codes -> groups_of codes lens ->
  exists out, value_counts_nb codes n_uniques lens = Ok out /\ shaped n_uniques (length lens) out /\
    forall u g, u < n_uniques -> g < length lens -> val 0 out u g = times_in_group codes lens g u.
Proof. exact value_counts_ok. Qed.
Print Assumptions C92_value_counts.

Example C92_nonvacuous :
  let a := Mat 3 [[Fin 1; Fin 2; Fin 3]; [Fin 4; Fin 5; Fin 6]] in
  flatten_grouped NaN (Fin 99) a [2; 1] true =
    Ok (Mat 2 [[Fin 1; Fin 3]; [Fin 2; NaN]; [Fin 4; Fin 6]; [Fin 5; NaN]], [0; 0; 1; 1]) /\
  flatten_grouped NaN (Fin 99) a [2; 1] false =
    Ok (Mat 2 [[Fin 1; Fin 3]; [Fin 4; Fin 6]; [Fin 2; NaN]; [Fin 5; NaN]], [0; 1; 0; 1]) /\
  squeeze_grouped_nb 0 a [2; 1] (fun i g xs => Ok (length xs + i)) = Ok (Mat 2 [[2; 1]; [3; 2]]) /\
  value_counts_nb (Mat 3 [[0; 1; 1]; [1; 1; 2]]) 3 [2; 1] = Ok (Mat 2 [[1; 0]; [3; 1]; [0; 1]]).
Proof. vm_compute. auto. Qed.

(** ** C93 *)
Theorem C93_applymap : forall (T : Type) (N : Num T) (a : mat T) f,
  (forall out, applymap_nb a f = Ok out ->
     shaped (nrows a) (ncols a) out /\ forall i c, i < nrows a -> c < ncols a ->
       if isnan (val nan a i c) then val nan out i c = nan else f i c (val nan a i c) = Ok (val nan out i c)) /\
  (forall e, applymap_nb a f = Err e ->
     exists i c, i < nrows a /\ c < ncols a /\ isnan (val nan a i c) = false /\ f i c (val nan a i c) = Err e).
Proof. exact (fun T N a f => conj (@applymap_ok T N a f) (@applymap_err T N a f)). Qed.
Print Assumptions C93_applymap.

Theorem C93_filter : forall (T : Type) (N : Num T) (a : mat T) f,
  (forall out, filter_nb a f = Ok out ->
     shaped (nrows a) (ncols a) out /\ forall i c, i < nrows a -> c < ncols a ->
       if isnan (val nan a i c) then val nan out i c = val nan a i c
       else exists keep, f i c (val nan a i c) = Ok keep /\ val nan out i c = (if keep : bool then val nan a i c else nan)) /\
  (forall e, filter_nb a f = Err e ->
     exists i c, i < nrows a /\ c < ncols a /\ isnan (val nan a i c) = false /\ f i c (val nan a i c) = Err e).
Proof. exact (fun T N a f => conj (@filter_ok T N a f) (@filter_err T N a f)). Qed.
Print Assumptions C93_filter.

Theorem C93_groups_of_rows : forall (T : Type) (N : Num T) (a : mat T) groups, (forall g i, In g groups -> In i g -> i < nrows a) ->
  (forall U (d : U) f out, groupby_apply_nb d a groups f = Ok out ->
     shaped (length groups) (ncols a) out /\ forall g idxs c, nth_error groups g = Some idxs -> c < ncols a ->
       f idxs c (map (fun i => val nan a i c) idxs) = Ok (val d out g c)) /\
  (forall U (f : list nat -> mat T -> res (out_of U)) out, groupby_matrix_apply_nb a groups f = Ok out ->
     shaped (length groups) (ncols a) out /\ forall g idxs, nth_error groups g = Some idxs ->
       exists o, f idxs (Mat (ncols a) (map (fun i => nth i (rows a) []) idxs)) = Ok o /\ stands_for (ncols a) o (nth g (rows out) [])).
Proof. exact (fun T N => @groupby_all T N). Qed.
Print Assumptions C93_groups_of_rows.

Theorem C93_columns_and_rows : forall (T : Type) (N : Num T) (a : mat T),
  (forall U (d : U) f out, apply_nb d a f = Ok out ->
     shaped (nrows a) (ncols a) out /\ forall c, c < ncols a ->
       exists o, f c (column a c) = Ok o /\ stands_for (nrows a) o (map (fun i => val d out i c) (seq 0 (nrows a)))) /\
  (forall U f out, row_apply_nb (U := U) a f = Ok out ->
     shaped (nrows a) (ncols a) out /\ forall i, i < nrows a ->
       exists o, f i (nth i (rows a) []) = Ok o /\ stands_for (ncols a) o (nth i (rows out) [])).
Proof. exact (fun T N => @columns_rows_all T N). Qed.
Print Assumptions C93_columns_and_rows.

Example C93_nonvacuous :
  let a := Mat 2 [[Fin 1; NaN]; [Fin 3; Fin 4]; [Fin 5; Fin 6]] in
  applymap_nb a (fun i c x => Ok (add x (Fin (Z.of_nat (i + 10 * c) # 1)))) = Ok (Mat 2 [[Fin 1; NaN]; [Fin 4; Fin 15]; [Fin 7; Fin 18]]) /\
  filter_nb a (fun i c x => Ok (ltb (Fin 3) x)) = Ok (Mat 2 [[NaN; NaN]; [NaN; Fin 4]; [Fin 5; Fin 6]]) /\
  groupby_apply_nb NaN a [[0; 2]; [1]] (fun idxs c xs => Ok (last xs NaN)) = Ok (Mat 2 [[Fin 5; Fin 6]; [Fin 3; Fin 4]]) /\
  groupby_matrix_apply_nb a [[0; 2]; [1]] (fun idxs m => Ok (Several (nth 0 (rows m) []))) = Ok (Mat 2 [[Fin 1; NaN]; [Fin 3; Fin 4]]) /\
  apply_nb NaN a (fun c xs => Ok (Several (rev xs))) = Ok (Mat 2 [[Fin 5; Fin 6]; [Fin 3; Fin 4]; [Fin 1; NaN]]) /\
  row_apply_nb a (fun i xs => Ok (Single (hd NaN xs))) = Ok (Mat 2 [[Fin 1; Fin 1]; [Fin 3; Fin 3]; [Fin 5; Fin 5]]).
Proof. vm_compute. repeat split; auto. Qed.
