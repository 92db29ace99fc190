(** * C94: indexing wrapped arrays selects the same cells, labels and groups *)
From Coq Require Import String ZArith Bool List Arith.
From Verif Require Import Base Grouper Reduce BaseFnsSpec Wrapper WrapperSpec WrapperLemmas WrapperLemmas2.
Import ListNotations.
Local Open Scope nat_scope.

(** Whatever cells an operation picks out of an object, the wrapper it leads to
    wraps the same cells of any other array of that shape under the same labels. *)
Theorem C94_keeps_cells_and_labels : forall w f p w' rs gs cs group_select, proper w -> group_select = false \/ ungrouped w ->
  f (w_index w) (w_columns w) (w_ndim w) = Ok p -> fits (length (w_index w)) (length (w_columns w)) p ->
  indexing_func_meta w group_select (OnBoth f) = Ok (w', rs, gs, cs) ->
  (forall V (a : nat -> nat -> V), wrap w' (sub_array a rs cs) = Ok (taken a p)) /\ gs = cs /\ proper w'.
Proof. exact keeps_cells. Qed.
Print Assumptions C94_keeps_cells_and_labels.

(** What is refused: single cells, nothing at all, cells of different rows and
    columns, and in a grouped object a row as a Series *)
Theorem C94_accepts_exactly : forall w f p group_select, proper w -> group_select = false \/ ungrouped w ->
  f (w_index w) (w_columns w) (w_ndim w) = Ok p -> fits (length (w_index w)) (length (w_columns w)) p ->
  ((exists r, indexing_func_meta w group_select (OnBoth f) = Ok r) <-> allowed (w_ndim w) p /\ (~ ungrouped w -> ~ turns p)).
Proof. exact accepts. Qed.
Print Assumptions C94_accepts_exactly.

(** Selecting columns only gives whole columns. *)
Theorem C94_columns_only : forall V (a : nat -> nat -> V) w f p w' rs gs cs, proper w -> w_ndim w = 2 ->
  f (w_columns w) = Ok p -> col_fits (length (w_columns w)) p ->
  indexing_func_meta w false (OnColumns f) = Ok (w', rs, gs, cs) ->
  wrap w' (sub_array a rs cs) = Ok (taken a (whole_columns (w_index w) (w_columns w) p)).
Proof. intros V a. exact (wrap_columns a). Qed.
Print Assumptions C94_columns_only.

Theorem C94_columns_only_accepts : forall w f p, proper w -> f (w_columns w) = Ok p -> col_fits (length (w_columns w)) p ->
  ((exists r, indexing_func_meta w false (OnColumns f) = Ok r) <-> w_ndim w = 2).
Proof. exact columns_accepted. Qed.
Print Assumptions C94_columns_only_accepts.

(** A selected column stays in its group. *)
Theorem C94_columns_keep_groups : forall w i p w' rs gs cs own k c, proper w -> grouping w = Some own ->
  indexing_func_meta w false i = Ok (w', rs, gs, cs) ->
  match i with
  | OnBoth f => f (w_index w) (w_columns w) (w_ndim w) = Ok p /\ fits (length (w_index w)) (length (w_columns w)) p
  | OnColumns f => exists q, f (w_columns w) = Ok q /\ col_fits (length (w_columns w)) q
  end ->
  exists own', grouping w' = Some own' /\ length own' = length (to_1d cs) /\ (nth_error (to_1d cs) k = Some c -> nth_error own' k = nth_error own c).
Proof. exact keeps_groups. Qed.
Print Assumptions C94_columns_keep_groups.

(** Selecting groups selects exactly their columns; with one or two groups these
    form the selected groups, and with three or more different ones never. *)
Theorem C94_groups : forall w us lens f p, proper w -> in_groups w us lens -> grouped_ndim w = Ok 2 ->
  f us = Ok p -> col_fits (length us) p -> picked p <> [] ->
  let cols := columns_of_groups lens (picked p) in
  let lens' := map (fun g => nth g lens 0) (picked p) in
  exists w' rs gs cs, indexing_func_meta w true (OnColumns f) = Ok (w', rs, gs, cs) /\
    to_1d rs = seq 0 (length (w_index w)) /\ to_1d gs = picked p /\ to_1d cs = cols /\
    w_index w' = w_index w /\ w_columns w' = map (label_at (w_columns w)) cols /\
    (length (picked p) <= 2 -> grouping w' = Some (map Some (runs (picked_labels us p) lens'))) /\
    (3 <= length (picked p) -> NoDup (picked_labels us p) -> grouping w' <> Some (map Some (runs (picked_labels us p) lens'))).
Proof. exact select_groups. Qed.
Print Assumptions C94_groups.

Theorem C94_groups_and_rows : forall w us lens f rs gs index labels, proper w -> in_groups w us lens -> grouped_ndim w = Ok 2 ->
  f (w_index w) us 2 = Ok (PFrame rs gs index labels) -> fits (length (w_index w)) (length us) (PFrame rs gs index labels) -> rs <> [] -> gs <> [] ->
  let cols := columns_of_groups lens gs in
  let lens' := map (fun g => nth g lens 0) gs in
  exists w' cs, indexing_func_meta w true (OnBoth f) = Ok (w', Many rs, Many gs, cs) /\
    (forall V (a : nat -> nat -> V), wrap w' (sub_array a (Many rs) cs) = Ok (taken a (PFrame rs cols index (map (label_at (w_columns w)) cols)))) /\
    (length gs <= 2 -> grouping w' = Some (map Some (runs labels lens'))) /\
    (3 <= length gs -> NoDup labels -> grouping w' <> Some (map Some (runs labels lens'))).
Proof. exact select_groups_and_rows. Qed.
Print Assumptions C94_groups_and_rows.

(** The positions of several ranges, one after another *)
Theorem C94_ranges : forall rs, rs <> [] -> Forall (fun p => 1 <= snd p) rs ->
  get_ranges_arr (map fst rs) (map (fun p => fst p + snd p) rs) = Ok (concat (map (fun p => seq (fst p) (snd p)) rs)).
Proof. exact ranges_ok. Qed.
Print Assumptions C94_ranges.

(** An empty range among them spoils the others. *)
Theorem C94_empty_range_refuted : get_ranges_arr [0; 3] [0; 5] <> Ok (seq 0 0 ++ seq 3 2) /\ exists s, get_ranges_arr [0; 3] [2; 3] = Err (IndexError s).
Proof. split; [vm_compute; discriminate|eexists; vm_compute; reflexivity]. Qed.
Print Assumptions C94_empty_range_refuted.

(** ** Cases *)
Definition ex_labels (l : list string) : list Label := map LStr l.
Definition ex_frame (g : option (list (option Label))) : Wrapper :=
  mkWrapper (map LInt [10; 11; 12]%Z) (ex_labels ["a"; "b"; "c"; "d"; "e"]%string) 2 None (mkGrouper 5 g true true true).
Definition ex_groups := Some (map Some (ex_labels ["x"; "x"; "y"; "z"; "z"]%string)).
Lemma ex_proper : proper (ex_frame None) /\ proper (ex_frame ex_groups).
Proof.
  split; (split; [|split; [right; reflexivity|discriminate]]).
  - exists GNone, true, true, true. reflexivity.
  - exists (GIndex (map Some (ex_labels ["x"; "x"; "y"; "z"; "z"]%string))), true, true, true. reflexivity.
Qed.
Definition ex_pick : IndexingFunc := fun index columns _ => Ok (PFrame [2; 0] [3; 1] [label_at index 2; label_at index 0] [label_at columns 3; label_at columns 1]).
Definition ex_row : IndexingFunc := fun index columns _ => Ok (PSeries [(1, 0); (1, 4)] [label_at columns 0; label_at columns 4]).

Example C94_keeps_cells_and_labels_nonvacuous : exists w' rs gs cs, indexing_func_meta (ex_frame None) false (OnBoth ex_pick) = Ok (w', rs, gs, cs) /\
  wrap w' (sub_array (fun r c => 10 * r + c) rs cs) = Ok (DataFrame (Mat 2 [[23; 21]; [3; 1]]) (map LInt [12; 10]%Z) (ex_labels ["d"; "b"]%string)).
Proof. do 4 eexists. split; vm_compute; reflexivity. Qed.
Example C94_accepts_exactly_nonvacuous :
  (exists r, indexing_func_meta (ex_frame None) false (OnBoth ex_row) = Ok r) /\ (exists s, indexing_func_meta (ex_frame ex_groups) false (OnBoth ex_row) = Err (IndexError s)).
Proof. split; eexists; vm_compute; reflexivity. Qed.
Example C94_columns_keep_groups_nonvacuous : exists w' rs gs cs, indexing_func_meta (ex_frame ex_groups) false (OnBoth ex_pick) = Ok (w', rs, gs, cs) /\
  grouping w' = Some (map Some (ex_labels ["z"; "x"]%string)).
Proof. do 4 eexists. split; vm_compute; reflexivity. Qed.
Example C94_columns_only_nonvacuous : exists w' rs gs cs, indexing_func_meta (ex_frame None) false (OnColumns (fun _ => Ok (CScalar 2))) = Ok (w', rs, gs, cs) /\
  wrap w' (sub_array (fun r c => 10 * r + c) rs cs) = Ok (Series [2; 12; 22] (map LInt [10; 11; 12]%Z)).
Proof. do 4 eexists. split; vm_compute; reflexivity. Qed.
(** Groups z and x, in that order *)
Example C94_groups_nonvacuous : in_groups (ex_frame ex_groups) (ex_labels ["x"; "y"; "z"]%string) [2; 1; 2] /\ grouped_ndim (ex_frame ex_groups) = Ok 2 /\
  exists w' rs gs cs, indexing_func_meta (ex_frame ex_groups) true (OnColumns (fun us => Ok (CSeries [2; 0] [label_at us 2; label_at us 0]))) = Ok (w', rs, gs, cs) /\
  w_columns w' = ex_labels ["d"; "e"; "a"; "b"]%string /\ grouping w' = Some (map Some (ex_labels ["z"; "z"; "x"; "x"]%string)).
Proof.
  split; [|split; [vm_compute; reflexivity|do 4 eexists; repeat split; vm_compute; reflexivity]].
  split; [|split; [reflexivity|split; [repeat constructor|vm_compute; reflexivity]]].
  repeat constructor; cbn; intuition discriminate.
Qed.
(** All three groups: column b moves to group y and column c to group z. *)
Theorem C94_three_groups_refuted : exists w' rs gs cs,
  indexing_func_meta (ex_frame ex_groups) true (OnColumns (fun us => Ok (CSeries [0; 1; 2] us))) = Ok (w', rs, gs, cs) /\
  w_columns w' = ex_labels ["a"; "b"; "c"; "d"; "e"]%string /\ grouping w' = Some (map Some (ex_labels ["x"; "y"; "z"; "z"; "z"]%string)).
Proof. do 4 eexists. repeat split; vm_compute; reflexivity. Qed.
Print Assumptions C94_three_groups_refuted.
