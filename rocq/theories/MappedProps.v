(** * C95, C96: mapped arrays by column and by group, to pandas and back *)
From Coq Require Import String ZArith QArith Bool List Arith Sorting.Sorted.
From Verif Require Import Base Num OrdLaws XQFacts Grouper Reduce RecordsNb RecordsSpec BaseFnsSpec Wrapper WrapperSpec Mapped MappedSpec MappedLemmas MappedLemmas2 MappedLemmas3.
Import ListNotations.
Local Open Scope nat_scope.

(** ** C95 *)
(** An array is made only from as many columns (and rows, if given) as values;
    without ids the positions are the ids. *)
Theorem C95_construct : forall V w (values : list V) cols ids idx,
  (length cols = length values /\ (forall l, idx = Some l -> length l = length values) ->
     exists a, make_mapped w values cols ids idx = Ok a /\ ma_wrapper a = w /\ ma_values a = values /\ ma_cols a = cols /\ ma_idx a = idx /\
       (forall l, ids = Some l -> ma_ids a = l) /\ (ids = None -> ma_ids a = seq 0 (length values))) /\
  (length cols <> length values \/ (exists l, idx = Some l /\ length l <> length values) ->
     exists s, make_mapped w values cols ids idx = Err (AssertionError s)).
Proof. exact @construct_ok. Qed.
Print Assumptions C95_construct.

(** Selecting columns takes their entries, column after column, with the new numbers of the columns. *)
Theorem C95_select : forall V (d : V) mem (a : Mapped V) group_select f w' rs gs cs, well_made a ->
  indexing_func_meta (ma_wrapper a) group_select (OnColumns f) = Ok (w', rs, gs, cs) -> cols_below (length (w_columns (ma_wrapper a))) (to_1d cs) ->
  exists b, indexing d mem a group_select f = Ok b /\ ma_wrapper b = w' /\ entries d b = of_columns (entries d a) (to_1d cs).
Proof. intros V d. exact (select_ok d). Qed.
Print Assumptions C95_select.

(** Sorting orders by column, or by column and identifier; entries of the same key stay in their order and none is lost. *)
Theorem C95_sort : forall V (d : V) (a : Mapped V) incl_id g w, well_made a -> regroup (ma_wrapper a) g = Ok w ->
  exists b, sort d a incl_id g = Ok b /\ ma_wrapper b = w /\ StronglySorted (not_after incl_id) (entries d b) /\
    forall c i, filter (same_key incl_id c i) (entries d b) = filter (same_key incl_id c i) (entries d a).
Proof. intros V d. exact (sort_ok d). Qed.
Print Assumptions C95_sort.

(** A mask keeps exactly the entries it marks, in order. *)
Theorem C95_mask : forall V (d : V) (a : Mapped V) mask g w, length mask = length (ma_values a) -> regroup (ma_wrapper a) g = Ok w ->
  exists b, apply_mask d a mask g = Ok b /\ ma_wrapper b = w /\ entries d b = kept mask (entries d a).
Proof. intros V d. exact (mask_ok d). Qed.
Print Assumptions C95_mask.

(** top_n and bottom_n keep the n best values of every column, or of every group of a grouped array. *)
Theorem C95_top_n : forall T (N : Num T), OrdLaws N -> forall mem (a : Mapped T) n g w labels nos d, well_made a ->
  places (ma_wrapper a) labels nos -> shown (ma_wrapper a) d -> regroup (ma_wrapper a) g = Ok w ->
  exists b mask, top_n mem a n g = Ok b /\ ma_wrapper b = w /\ entries nan b = kept mask (entries nan a) /\
    keeps_best gtb true n (length labels) (map (place_of nos) (ma_cols a)) (ma_values a) mask.
Proof. intros T N L. exact (best_ok true). Qed.
Print Assumptions C95_top_n.
Theorem C95_bottom_n : forall T (N : Num T), OrdLaws N -> forall mem (a : Mapped T) n g w labels nos d, well_made a ->
  places (ma_wrapper a) labels nos -> shown (ma_wrapper a) d -> regroup (ma_wrapper a) g = Ok w ->
  exists b mask, bottom_n mem a n g = Ok b /\ ma_wrapper b = w /\ entries nan b = kept mask (entries nan a) /\
    keeps_best ltb false n (length labels) (map (place_of nos) (ma_cols a)) (ma_values a) mask.
Proof. intros T N L. exact (best_ok false). Qed.
Print Assumptions C95_bottom_n.

(** A reducer gets the values of one column or group at a time, in order, and its
    result is shown under the label of that column or group; empty ones get the fill value. *)
Theorem C95_reduce : forall V C (d0 : V) mem (a : Mapped V) (fill : C) f labels nos d, well_made a ->
  places (ma_wrapper a) labels nos -> shown (ma_wrapper a) d -> (d = 1 \/ d = 2) -> (d = 1 -> length labels = 1) ->
  exists r, reduce d0 mem a fill f GNone = Ok r /\
    one_each d labels (map (fun p => match values_at d0 a nos p with [] => fill | l => f p l end) (seq 0 (length labels))) r.
Proof. intros V C d0. exact (reduce_ok d0). Qed.
Print Assumptions C95_reduce.

(** A reducer that picks one of the values gives the label of the row of the picked value. *)
Theorem C95_reduce_to_label : forall V (d0 : V) mem (a : Mapped V) no_row f labels nos d idx, well_made a -> ma_idx a = Some idx ->
  places (ma_wrapper a) labels nos -> shown (ma_wrapper a) d -> (d = 1 \/ d = 2) -> (d = 1 -> length labels = 1) -> ~ In no_row idx ->
  (forall p l, l <> [] -> f p l < length l) ->
  exists r, reduce_to_index d0 mem a no_row f GNone = Ok r /\
    one_each d labels (map (fun p => match values_at d0 a nos p with
                                     | [] => None
                                     | l => option_map (label_at (w_index (ma_wrapper a))) (nth (f p l) (rows_at d0 a nos p) None)
                                     end) (seq 0 (length labels))) r.
Proof. intros V d0. exact (reduce_to_index_ok d0). Qed.
Print Assumptions C95_reduce_to_label.

Theorem C95_count : forall V (d0 : V) mem (a : Mapped V) labels nos d, well_made a ->
  places (ma_wrapper a) labels nos -> shown (ma_wrapper a) d -> (d = 1 \/ d = 2) -> (d = 1 -> length labels = 1) ->
  exists r, count mem a GNone = Ok r /\ one_each d labels (map (fun p => length (values_at d0 a nos p)) (seq 0 (length labels))) r.
Proof. intros V d0. exact (count_ok d0). Qed.
Print Assumptions C95_count.

(** ** C96 *)
(** As a Series or DataFrame every value is in its row under its column or group,
    the other cells are filled; two values of one cell are refused. *)
Theorem C96_to_pandas : forall V (d0 fill : V) (a : Mapped V) labels nos d idx, well_made a -> ma_idx a = Some idx ->
  places (ma_wrapper a) labels nos -> shown (ma_wrapper a) d -> (d = 1 \/ d = 2) -> (d = 1 -> length labels = 1) ->
  Forall (fun r => r < length (w_index (ma_wrapper a))) idx ->
  ((clash d0 a nos -> exists s, to_pd fill a GNone = Err (ValueError s)) /\
   (~ clash d0 a nos -> exists m, to_pd fill a GNone = Ok (framed d (w_index (ma_wrapper a)) labels m) /\
      shaped (length (w_index (ma_wrapper a))) (length labels) m /\
      (forall e r, In e (entries d0 a) -> e_row e = Some r -> cell d0 m r (place_of nos (e_col e)) = e_value e) /\
      (forall r p, r < length (w_index (ma_wrapper a)) -> p < length labels ->
         (forall e, In e (entries d0 a) -> ~ (e_row e = Some r /\ place_of nos (e_col e) = p)) -> cell d0 m r p = fill))).
Proof. intros V d0. exact (to_pd_ok d0). Qed.
Print Assumptions C96_to_pandas.

(** An array as a mapped array: its cells column by column, without NaN if asked *)
Theorem C96_to_mapped : forall T (N : Num T) w (a : mat T) dropna, nrows a = length (w_index w) -> ncols a = length (w_columns w) -> proper w ->
  exists b, to_mapped w a dropna GNone = Ok b /\ ma_wrapper b = w /\ well_made b /\
    let cells := filter (fun q => negb (dropna && isnan (cell nan (rows a) (fst q) (snd q)))) (by_column (length (w_index w)) (length (w_columns w))) in
    ma_idx b = Some (map fst cells) /\
    map (fun e => (e_value e, e_row e, e_col e, e_id e)) (entries nan b) =
      map (fun iq => let '(i, (r, c)) := iq in (cell nan (rows a) r c, Some r, c, i)) (combine (seq 0 (length cells)) cells).
Proof. intros T N. exact to_mapped_ok. Qed.
Print Assumptions C96_to_mapped.

(** There and back: every cell holds what it held. *)
Theorem C96_round_trip : forall T (N : Num T) w (a : mat T) dropna, nrows a = length (w_index w) -> ncols a = length (w_columns w) -> proper w -> ungrouped w ->
  exists b m, to_mapped w a dropna GNone = Ok b /\ to_pd nan b GNone = Ok (framed (w_ndim w) (w_index w) (w_columns w) m) /\
    shaped (nrows a) (ncols a) m /\
    forall r c, r < nrows a -> c < ncols a ->
      cell nan m r c = cell nan (rows a) r c \/ (dropna = true /\ isnan (cell nan (rows a) r c) = true /\ cell nan m r c = nan).
Proof. intros T N. exact round_trip. Qed.
Print Assumptions C96_round_trip.

(** ** Cases *)
Definition ex_labels (l : list string) : list Label := map LStr l.
Definition ex_wrap (g : option (list (option Label))) : Wrapper :=
  mkWrapper (map LInt [10; 11; 12]%Z) (ex_labels ["a"; "b"; "c"]%string) 2 None (mkGrouper 3 g true true true).
Definition ex_groups := Some (map Some (ex_labels ["x"; "x"; "y"]%string)).
Definition ex_mapped (g : option (list (option Label))) : Mapped XQ :=
  mkMapped (ex_wrap g) [Fin 4; Fin 1; NaN; Fin 9]%Q [1; 0; 2; 0] [3; 2; 1; 0] (Some [2; 0; 1; 1]).
Example C95_nonvacuous : well_made (ex_mapped None) /\ well_made (ex_mapped ex_groups) /\
  places (ex_wrap None) (ex_labels ["a"; "b"; "c"]%string) [0; 1; 2] /\ shown (ex_wrap None) 2 /\
  places (ex_wrap ex_groups) (ex_labels ["x"; "y"]%string) [0; 0; 1] /\ shown (ex_wrap ex_groups) 2.
Proof.
  assert (W : forall g, proper (ex_wrap g) -> well_made (ex_mapped g)).
  { intros g H. split; [exact H|]. split; [reflexivity|]. split; [reflexivity|]. split; [intros l E; injection E as <-; reflexivity|]. repeat constructor. }
  split; [apply W; split; [exists GNone, true, true, true; reflexivity|split; [right; reflexivity|discriminate]]|].
  split; [apply W; split; [exists (GIndex (map Some (ex_labels ["x"; "x"; "y"]%string))), true, true, true; reflexivity|split; [right; reflexivity|discriminate]]|].
  split; [left; repeat split|]. split; [left; split; reflexivity|].
  split; [right; exists [2; 1]; split; [|reflexivity]; split; [repeat constructor; cbn; intuition discriminate|split; [reflexivity|split; [repeat constructor|reflexivity]]]|].
  right. split; [discriminate|reflexivity].
Qed.
Example C95_values_nonvacuous :
  reduce NaN (fun _ => 0) (ex_mapped ex_groups) (Fin 0) (fun _ l => fold_left add l (Fin 0)) GNone = Ok (Series [Fin 14; NaN]%Q (ex_labels ["x"; "y"]%string)) /\
  count (fun _ => 0) (ex_mapped None) GNone = Ok (Series [2; 1; 1] (ex_labels ["a"; "b"; "c"]%string)) /\
  (exists b, top_n (fun _ => 0) (ex_mapped ex_groups) 2 GNone = Ok b /\ ma_ids b = [3; 1; 0]) /\
  (exists b, sort NaN (ex_mapped None) true GNone = Ok b /\ ma_ids b = [0; 2; 3; 1]).
Proof. repeat split; try (eexists; split); vm_compute; reflexivity. Qed.

(** The grouping passed to top_n decides how the result is grouped, not what is
    kept: here the best value of every column is kept, not of every group. *)
Theorem C95_top_n_group_by_refuted : exists b, top_n (fun _ => 0) (ex_mapped None) 1 (GIndex (map Some (ex_labels ["x"; "x"; "y"]%string))) = Ok b /\
  grouping (ma_wrapper b) = ex_groups /\ ma_cols b = [1; 2; 0] /\ places (ma_wrapper b) (ex_labels ["x"; "y"]%string) [0; 0; 1] /\
  length (values_at NaN b [0; 0; 1] 0) = 2.
Proof.
  eexists. split; [vm_compute; reflexivity|]. split; [reflexivity|]. split; [reflexivity|]. split; [|vm_compute; reflexivity].
  right. exists [2; 1]. split; [|reflexivity]. split; [repeat constructor; cbn; intuition discriminate|split; [reflexivity|split; [repeat constructor|reflexivity]]].
Qed.
Print Assumptions C95_top_n_group_by_refuted.

Definition ex_mat : mat XQ := Mat 3 [[Fin 1; NaN; Fin 3]; [NaN; Fin 5; Fin 6]; [Fin 7; Fin 8; NaN]]%Q.
Example C96_nonvacuous : proper (ex_wrap None) /\ ungrouped (ex_wrap None) /\
  exists b, to_mapped (ex_wrap None) ex_mat true GNone = Ok b /\ ma_cols b = [0; 0; 1; 1; 2; 2] /\ ma_idx b = Some [0; 2; 1; 2; 0; 1] /\
  to_pd NaN b GNone = Ok (DataFrame ex_mat (map LInt [10; 11; 12]%Z) (ex_labels ["a"; "b"; "c"]%string)) /\
  clash NaN (ex_mapped ex_groups) [0; 0; 0].
Proof.
  split; [split; [exists GNone, true, true, true; reflexivity|split; [right; reflexivity|discriminate]]|]. split; [reflexivity|].
  eexists. split; [vm_compute; reflexivity|]. split; [reflexivity|]. split; [reflexivity|]. split; [vm_compute; reflexivity|].
  exists 2, 3. split; [cbn; auto|]. intros e e' E E'. vm_compute in E, E'. injection E as <-. injection E' as <-. split; reflexivity.
Qed.
