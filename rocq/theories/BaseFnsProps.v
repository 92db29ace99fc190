(** * Array shapes, column groups, splits and indexes: the properties *)
From Coq Require Import String ZArith QArith Bool List Arith Lia Sorted.
From Verif Require Import Base Reshape Grouper Splitters IndexFns BaseFnsSpec IndexSpec
  BaseFnsLemmas BaseFnsLemmas2 BaseFnsLemmas3 BaseFnsLemmas4 BaseFnsLemmas5 BaseFnsLemmas6.
Import ListNotations.
Local Open Scope string_scope.
Local Open Scope list_scope.
Local Open Scope nat_scope.

(** ** C49: flexible indexing equals broadcasting *)
Theorem C49_flexible_indexing_is_broadcasting : forall {A} (a : Arr A) flex_2d R C m i col, is_array a ->
  np_broadcast_to flex_2d a R C = Some m -> i < R -> col < C ->
  exists x, flex_select_auto_nb a i col flex_2d = Some x /\ element m i col = Some x.
Proof.
  intros A a fx R C m i col Ha Hm Hi Hc. destruct (broadcast_element a fx R C m i col Hm Hi Hc) as [x Hx].
  exists x. rewrite (flex_is_broadcast a fx R C m i col Ha Hm Hi Hc). auto.
Qed.
Print Assumptions C49_flexible_indexing_is_broadcasting.

Example C49_nonvacuous :
  let a := A1 [10; 20; 30] in
  np_broadcast_to true a 2 3 = Some [[10; 20; 30]; [10; 20; 30]] /\ flex_select_auto_nb a 1 2 true = Some 30 /\
  np_broadcast_to false a 3 2 = Some [[10; 10]; [20; 20]; [30; 30]] /\ flex_select_auto_nb a 1 1 false = Some 20 /\
  np_broadcast_to true (A2 1 [[7]; [8]]) 2 3 = Some [[7; 7; 7]; [8; 8; 8]] /\ np_broadcast_to true a 2 4 = None.
Proof. repeat split. Qed.

(** ** C50: group lengths *)
(** For codes that are not negative, an accepted array is a sequence of runs of
    increasing codes, and the result is the lengths of the runs. *)
Theorem C50_lengths_of_runs : forall groups lens, Forall (fun g => (0 <= g)%Z) groups ->
  get_group_lens_nb groups = Ok lens ->
  exists gs, length gs = length lens /\ StronglySorted Z.lt gs /\ groups = runs gs lens /\
    Forall (fun k => 1 <= k) lens /\ total lens = length groups.
Proof.
  intros groups lens H He. destruct (get_group_lens_nb_sound groups lens H He) as [gs [H1 [H2 [H3 H4]]]].
  exists gs. rewrite H3, runs_length by exact H1. auto.
Qed.
Print Assumptions C50_lengths_of_runs.

Theorem C50_unsorted_rejected : forall groups, Forall (fun g => (0 <= g)%Z) groups ->
  ((exists lens, get_group_lens_nb groups = Ok lens) <-> StronglySorted Z.le groups).
Proof.
  intros groups H. rewrite <- is_sorted_spec. apply get_group_lens_nb_accepts. eapply Forall_impl; [|exact H]. cbn. intros. lia.
Qed.
Print Assumptions C50_unsorted_rejected.

(** A grouper accepts exactly the labels whose groups are contiguous, in any
    order of labels, and reports the size of every group. *)
Theorem C50_grouper_lengths : forall n g enable disable modify s ls lens, make_grouper n g enable disable modify = Ok s ->
  g_group_by s = Some (map Some ls) ->
  (get_group_lens s GNone = Ok lens <->
   exists us, NoDup us /\ length us = length lens /\ ls = runs us lens /\ Forall (fun k => 1 <= k) lens).
Proof. exact grouper_lens_iff. Qed.
Print Assumptions C50_grouper_lengths.

Theorem C50_grouper_rejects : forall n g enable disable modify s ls, make_grouper n g enable disable modify = Ok s ->
  g_group_by s = Some (map Some ls) ->
  (exists lens, get_group_lens s GNone = Ok lens) \/ (exists msg, get_group_lens s GNone = Err (ValueError msg)).
Proof. exact grouper_lens_rejects. Qed.
Print Assumptions C50_grouper_rejects.

Theorem C50_ungrouped_lengths : forall n g enable disable modify s, make_grouper n g enable disable modify = Ok s ->
  g_group_by s = None -> get_group_lens s GNone = Ok (repeat 1 n).
Proof. exact grouper_lens_none. Qed.
Print Assumptions C50_ungrouped_lengths.

(** The k-th group is exactly the columns from its start to before its end. *)
Theorem C50_start_and_end : forall {A} (us : list A) lens k x s e i, NoDup us -> length us = length lens ->
  nth_error us k = Some x -> nth_error (get_group_start_idxs lens) k = Some s -> nth_error (get_group_end_idxs lens) k = Some e ->
  (nth_error (runs us lens) i = Some x <-> s <= i < e).
Proof. exact @group_columns. Qed.
Print Assumptions C50_start_and_end.

(** Columns without a label get the code -1, which the loop takes for "no
    group yet": they are merged into the next group. *)
Theorem C50_missing_label_refuted : exists labels s,
  make_grouper 4 (GIndex labels) true true true = Ok s /\
  labels = [None; None; Some (LStr "a"); Some (LStr "a")] /\ get_group_lens s GNone = Ok [4].
Proof. eexists. eexists. split; [|split; [reflexivity|]]; vm_compute; reflexivity. Qed.
Print Assumptions C50_missing_label_refuted.

Example C50_nonvacuous :
  let labels := [Some (LStr "b"); Some (LStr "b"); Some (LStr "a")] in
  match make_grouper 3 (GSeq labels) true true true with
  | Ok s => get_group_lens s GNone = Ok [2; 1] /\ get_group_start_idxs [2; 1] = [0; 2] /\ get_group_end_idxs [2; 1] = [2; 3]
  | Err _ => False
  end /\
  match make_grouper 3 (GSeq [Some (LStr "b"); Some (LStr "a"); Some (LStr "b")]) true true true with
  | Ok s => exists msg, get_group_lens s GNone = Err (ValueError msg)
  | Err _ => False
  end /\ get_group_lens_nb [0; 0; 1; 3]%Z = Ok [2; 1; 1] /\ exists msg, get_group_lens_nb [1; 0]%Z = Err (ValueError msg).
Proof. vm_compute. repeat split; eexists; reflexivity. Qed.

(** ** C67: restrictions on changing groups *)
Theorem C67_enabling : forall n g0 enable disable modify s g l, make_grouper n g0 enable disable modify = Ok s ->
  g_group_by s = None -> labels_of n g = Some l -> (check_group_by s g = Ok tt <-> enable = true).
Proof. exact enable_check. Qed.
Print Assumptions C67_enabling.

Theorem C67_disabling : forall n g0 enable disable modify s own, make_grouper n g0 enable disable modify = Ok s ->
  g_group_by s = Some own -> (check_group_by s GFalse = Ok tt <-> disable = true).
Proof. exact disable_check. Qed.
Print Assumptions C67_disabling.

(** Labels may always be changed as long as the same columns stay together. *)
Theorem C67_modifying : forall n g0 enable disable modify s own g l, make_grouper n g0 enable disable modify = Ok s ->
  g_group_by s = Some (map Some own) -> labels_of n g = Some (map Some l) -> length l = n ->
  (check_group_by s g = Ok tt <-> modify = true \/ same_partition l own).
Proof. exact modify_check. Qed.
Print Assumptions C67_modifying.

Theorem C67_keeping : forall n g0 enable disable modify s, make_grouper n g0 enable disable modify = Ok s ->
  check_group_by s GNone = Ok tt /\ (g_group_by s = None -> check_group_by s GFalse = Ok tt).
Proof. exact keep_check. Qed.
Print Assumptions C67_keeping.

(** The groups put together exactly the columns with equal labels. *)
Theorem C67_groups_follow_labels : forall n g0 enable disable modify s g l codes, make_grouper n g0 enable disable modify = Ok s ->
  labels_of n g = Some (map Some l) -> grouper_groups s g = Ok codes -> same_partition l codes.
Proof. exact groups_partition. Qed.
Print Assumptions C67_groups_follow_labels.

(** "Has the number of groups changed" compares numbers of columns, and says
    yes to anything that is not a pandas index. *)
Theorem C67_group_count_refuted : exists s l,
  make_grouper 3 (GIndex [Some (LStr "a"); Some (LStr "a"); Some (LStr "b")]) true true true = Ok s /\
  get_group_lens s GNone = Ok [2; 1] /\ get_group_lens s (GIndex l) = Ok [1; 1; 1] /\
  is_group_count_changed s (GIndex l) = false /\
  is_group_count_changed s (GSeq [Some (LStr "a"); Some (LStr "a"); Some (LStr "b")]) = true.
Proof.
  eexists. exists [Some (LStr "a"); Some (LStr "b"); Some (LStr "c")].
  split; [|split; [|split; [|split]]]; vm_compute; reflexivity.
Qed.
Print Assumptions C67_group_count_refuted.

Example C67_nonvacuous :
  match make_grouper 3 (GIndex [Some (LStr "a"); Some (LStr "a"); Some (LStr "b")]) true true false with
  | Ok s => check_group_by s (GSeq [Some (LInt 7); Some (LInt 7); Some (LInt 3)]) = Ok tt /\
      (exists msg, check_group_by s (GSeq [Some (LInt 7); Some (LInt 3); Some (LInt 3)]) = Err (ValueError msg)) /\
      (exists msg, check_group_by s GTrue = Err (ValueError msg)) /\ check_group_by s GFalse = Ok tt
  | Err _ => False
  end.
Proof. vm_compute. repeat split; eexists; reflexivity. Qed.

(** ** C51: splitters partition ranges *)
Theorem C51_sets_cover_every_range : forall starts ends lens ltr tuples, split_ranges_into_sets starts ends lens ltr = Ok tuples ->
  length starts = length ends /\ length tuples = length starts /\
  forall i s e sets, nth_error starts i = Some s -> nth_error ends i = Some e -> nth_error tuples i = Some sets ->
    (s <= e)%Z -> Forall valid_length (sets_for lens i) ->
    cuts (sets_for lens i) (left_to_right_for ltr i) s e sets.
Proof. exact split_ranges_sound. Qed.
Print Assumptions C51_sets_cover_every_range.

(** A range is refused exactly when an asked set would be empty or nothing is
    left for the last one. *)
Theorem C51_accepted_exactly : forall s e q qs ltr, Forall valid_length (q :: qs) ->
  ((exists sets, split_ranges_into_sets [s] [e] (Same (q :: qs)) (Same ltr) = Ok [sets]) <->
   exists zs, Forall2 (fun q z => asked_length q (e - s + 1) z) (q :: qs) zs /\ Forall (fun z => z <> 0%Z) zs /\ (sum_of zs < e - s + 1)%Z).
Proof.
  intros s e q qs ltr Hv. rewrite <- (split_range_accepts s e (q :: qs) ltr Hv). split.
  - intros [sets H]. cbn [split_ranges_into_sets List.length Nat.eqb negb raise_if combine split_loop no_sets at_range bind] in H.
    destruct (split_range s e (q :: qs) ltr); [eauto|discriminate].
  - intros [sets H]. exists sets. cbn [split_ranges_into_sets List.length Nat.eqb negb raise_if combine split_loop no_sets at_range bind].
    rewrite H. reflexivity.
Qed.
Print Assumptions C51_accepted_exactly.

(** Rolling windows: all of the asked length, inside the data, in order;
    [n] of them are spread from the first to the last. *)
Theorem C51_rolling_windows : forall len n window_len min_len lens ltr tuples, (1 <= min_len)%Z -> valid_sets lens ->
  (forall q, window_len = Some q -> valid_length q) ->
  rolling_split len n window_len min_len lens ltr = Ok tuples ->
  exists w starts, window_asked len n window_len w /\ (1 <= w <= Z.of_nat len)%Z /\
    chosen_from Z.lt n (positions 0 (Z.of_nat len - w)) starts /\
    yields lens ltr (map (fun s => (s, s + w - 1)%Z) starts) tuples.
Proof. exact rolling_split_sound. Qed.
Print Assumptions C51_rolling_windows.

Theorem C51_range_windows : forall len n range_len min_len lens ltr tuples, (1 <= min_len)%Z -> valid_sets lens ->
  (forall q, range_len = Some q -> valid_length q) ->
  range_split len n range_len min_len None None lens ltr = Ok tuples ->
  exists w starts, window_asked len n range_len w /\ (1 <= w <= Z.of_nat len)%Z /\
    chosen_from Z.lt n (positions 0 (Z.of_nat len - w)) starts /\
    yields lens ltr (map (fun s => (s, s + w - 1)%Z) starts) tuples.
Proof. exact rolling_split_sound. Qed.
Print Assumptions C51_range_windows.

Theorem C51_given_ranges : forall len n range_len min_len starts ends lens ltr tuples, (1 <= min_len)%Z -> valid_sets lens ->
  length starts = length ends ->
  range_split len n range_len min_len (Some starts) (Some ends) lens ltr = Ok tuples ->
  exists chosen, chosen_from (fun _ _ => True) n (filter (fun p => Z.leb min_len (snd p - fst p + 1)) (combine starts ends)) chosen /\
    yields lens ltr chosen tuples.
Proof. exact range_split_sound. Qed.
Print Assumptions C51_given_ranges.

Theorem C51_expanding_windows : forall len n min_len lens ltr tuples, (1 <= min_len)%Z -> valid_sets lens ->
  expanding_split len n min_len lens ltr = Ok tuples ->
  exists lasts, chosen_from Z.lt n (positions (min_len - 1) (Z.of_nat len - 1)) lasts /\
    yields lens ltr (map (fun e => (0, e)%Z) lasts) tuples.
Proof. exact expanding_split_sound. Qed.
Print Assumptions C51_expanding_windows.

(** A negative set length is not refused and reaches outside the range. *)
Theorem C51_negative_length_refuted : exists tuples sets,
  split_ranges_into_sets [0%Z] [9%Z] (Same [(-3)%Q]) (Same true) = Ok tuples /\ tuples = [sets] /\ In (-3)%Z (concat sets).
Proof. eexists. eexists. split; [vm_compute; reflexivity|]. split; [reflexivity|]. vm_compute. now left. Qed.
Print Assumptions C51_negative_length_refuted.

Example C51_nonvacuous :
  split_ranges_into_sets [0%Z] [9%Z] (Same [(1 # 2)%Q; 3%Q]) (Same true) = Ok [[[0; 1; 2; 3; 4]; [5; 6; 7]; [8; 9]]%Z] /\
  split_ranges_into_sets [0%Z] [9%Z] (Same [(1 # 2)%Q; 3%Q]) (Same false) = Ok [[[0; 1]; [2; 3; 4; 5; 6]; [7; 8; 9]]%Z] /\
  rolling_split 10 (Some 3) (Some 4%Q) 1 (Same []) (Same true) = Ok [[[0; 1; 2; 3]]; [[3; 4; 5; 6]]; [[6; 7; 8; 9]]]%Z /\
  expanding_split 5 (Some 2) 2 (Same []) (Same true) = Ok [[[0; 1]]; [[0; 1; 2; 3; 4]]]%Z /\
  (exists msg, split_ranges_into_sets [0%Z] [9%Z] (Same [(1 # 20)%Q]) (Same true) = Err (ValueError msg)) /\
  (exists msg, split_ranges_into_sets [0%Z] [9%Z] (Same [10%Q]) (Same true) = Err (ValueError msg)).
Proof. vm_compute. repeat split; eexists; reflexivity. Qed.

(** ** C52: parameter products and combined indexes *)
Theorem C52_product_shape : forall {A} (ls : list (list A)), Forall (fun l => l <> []) ls ->
  length (create_param_product ls) = length ls /\ Forall (fun c => length c = combinations ls) (create_param_product ls).
Proof. exact @cpp_shape. Qed.
Print Assumptions C52_product_shape.

Theorem C52_every_combination : forall {A} (ls : list (list A)) c, Forall (fun l => l <> []) ls ->
  (Forall2 (fun x l => In x l) c ls <->
   exists k, k < combinations ls /\ combination (create_param_product ls) k = map Some c).
Proof. exact @cpp_every. Qed.
Print Assumptions C52_every_combination.

Theorem C52_each_combination_once : forall {A} (ls : list (list A)) k k', Forall (fun l => l <> []) ls -> Forall (@NoDup A) ls ->
  k < combinations ls -> k' < combinations ls ->
  combination (create_param_product ls) k = combination (create_param_product ls) k' -> k = k'.
Proof. exact @cpp_once. Qed.
Print Assumptions C52_each_combination_once.

(** The last list varies fastest. *)
Theorem C52_order_of_combinations : forall {A} (ls : list (list A)) k j l c, Forall (fun l => l <> []) ls -> k < combinations ls ->
  nth_error ls j = Some l -> nth_error (create_param_product ls) j = Some c ->
  nth_error c k = nth_error l ((k / combinations (skipn (S j) ls)) mod length l).
Proof. exact @cpp_order. Qed.
Print Assumptions C52_order_of_combinations.

(** Repeating and tiling indexes lists the same combinations in the same
    order, under the names of the indexes. *)
Theorem C52_combined_index_lists_the_product : forall ignore_default (ls : list Level), ls <> [] ->
  Forall (fun l => lv_values l <> []) ls -> Forall (fun l => ignore_default && level_is_default l = false) ls ->
  exists x, combine_indexes (map Plain ls) ignore_default false true false = Ok x /\
    map lv_name (levels_of x) = map lv_name ls /\
    map lv_values (levels_of x) = create_param_product (map lv_values ls).
Proof.
  intros id ls Hne Hv Hd. destruct (combine_indexes_is_product id ls Hne Hv Hd) as [x [Hx Hl]]. exists x. split; [exact Hx|].
  assert (Hlen : length (map lv_name ls) = length (create_param_product (map lv_values ls))).
  { rewrite (proj1 (cpp_shape (map lv_values ls) ltac:(rewrite Forall_map; exact Hv))). rewrite !map_length. reflexivity. }
  rewrite Hl, !map_map. cbn [named lv_name lv_values]. clear - Hlen.
  revert Hlen. generalize (map lv_name ls) (create_param_product (map lv_values ls)). intros a. induction a as [|x a IH]; intros [|y b] H; cbn in *; try lia; [auto|].
  destruct (IH b ltac:(lia)) as [H1 H2]. rewrite H1, H2. auto.
Qed.
Print Assumptions C52_combined_index_lists_the_product.

(** Dropping duplicate levels loses no distinction between positions. *)
Theorem C52_dropping_duplicates_keeps_distinctions : forall x keep_first i j,
  same_labels (drop_duplicate_levels x keep_first) i j <-> same_labels x i j.
Proof.
  intros x keep i j. unfold same_labels. split; intros H l Hl; apply H; apply drop_duplicates_spec in Hl || apply drop_duplicates_spec; exact Hl.
Qed.
Print Assumptions C52_dropping_duplicates_keeps_distinctions.

Theorem C52_broadcast_parameters : forall {A} n (params out : list (list A)), 1 <= n -> broadcast_params params (Some n) = Ok out ->
  Forall2 (stretched n) params out.
Proof. exact @broadcast_all_spec. Qed.
Print Assumptions C52_broadcast_parameters.

Theorem C52_broadcast_accepts : forall {A} n (params : list (list A)),
  (exists out, broadcast_params params (Some n) = Ok out) <-> Forall (fun p => length p = 1 \/ length p = n) params.
Proof. exact @broadcast_all_accepts. Qed.
Print Assumptions C52_broadcast_accepts.

(** One empty list and no list at all is left of the product. *)
Theorem C52_empty_list_refuted : exists ls : list (list nat), length (create_param_product ls) <> length ls.
Proof. exists [[1; 2]; []]. vm_compute. discriminate. Qed.
Print Assumptions C52_empty_list_refuted.

(** Dropping redundant levels (on by default) can drop the level that told
    two columns apart. *)
Theorem C52_dropping_redundant_refuted : exists a b x y,
  stack_indexes [Plain a; Plain b] true true false = Ok x /\ ~ same_labels x 0 1 /\
  stack_indexes [Plain a; Plain b] true true true = Ok y /\ same_labels y 0 1.
Proof.
  exists (range_level 2), (mkLevel (Some "symbol") [LStr "X"; LStr "X"]). eexists. eexists.
  split; [vm_compute; reflexivity|]. split; [intros H; specialize (H (range_level 2) ltac:(now left)); discriminate|].
  split; [vm_compute; reflexivity|]. intros l [<-|[]]. reflexivity.
Qed.
Print Assumptions C52_dropping_redundant_refuted.

Example C52_nonvacuous :
  create_param_product [[1; 2]; [3; 4; 5]] = [[1; 1; 1; 2; 2; 2]; [3; 4; 5; 3; 4; 5]] /\
  broadcast_params [[1]; [2; 3]] None = Ok [[1; 1]; [2; 3]] /\
  (exists msg, broadcast_params [[1; 2]; [3; 4; 5]] None = Err (ValueError msg)) /\
  combine_indexes [Plain (mkLevel (Some "p") [LInt 1; LInt 2]); Plain (mkLevel (Some "q") [LInt 3; LInt 4])] true true true true
  = Ok (Multi [mkLevel (Some "p") [LInt 1; LInt 1; LInt 2; LInt 2]; mkLevel (Some "q") [LInt 3; LInt 4; LInt 3; LInt 4]]).
Proof. vm_compute. repeat split; eexists; reflexivity. Qed.

(** ** C68: aligning indexes *)
(** When every position of the second index has a match in the first, the
    result lists, for each, a position that agrees on all common levels. *)
Theorem C68_aligned_positions_agree : forall x1 x2 junk idxs, well_formed x1 -> well_formed x2 -> length junk = index_len x2 ->
  map lv_values (levels_of x1) <> map lv_values (levels_of x2) ->
  align_index_to x1 x2 junk = Ok idxs ->
  (forall k, k < index_len x2 -> exists p, p < index_len x1 /\ agrees x1 x2 p k) ->
  length idxs = index_len x2 /\
  forall k, k < index_len x2 -> exists p, nth_error idxs k = Some p /\ p < index_len x1 /\ agrees x1 x2 p k.
Proof. exact align_sound. Qed.
Print Assumptions C68_aligned_positions_agree.

Theorem C68_equal_indexes_unchanged : forall x1 x2 junk, map lv_values (levels_of x1) = map lv_values (levels_of x2) ->
  align_index_to x1 x2 junk = Ok (seq 0 (index_len x1)).
Proof. exact align_equal. Qed.
Print Assumptions C68_equal_indexes_unchanged.

(** What is refused: an index is aligned only if its positions differ on the common
    levels, no level has two candidates, there is a common level, and levels of the same
    name hold the labels of the second index. *)
Theorem C68_ambiguous_indexes_refused : forall x1 x2 junk idxs, well_formed x1 -> well_formed x2 ->
  map lv_values (levels_of x1) <> map lv_values (levels_of x2) ->
  align_index_to x1 x2 junk = Ok idxs ->
  (forall p q, p < index_len x1 -> q < index_len x1 ->
     (forall l1 l2, common_levels x1 x2 l1 l2 -> nth_error (lv_values l1) p = nth_error (lv_values l1) q) -> p = q) /\
  (forall l1 j l2 j' l2', nth_error (levels_of x2) j = Some l2 -> nth_error (levels_of x2) j' = Some l2' ->
     common_levels x1 x2 l1 l2 -> common_levels x1 x2 l1 l2' -> j = j') /\
  (exists l1 l2, common_levels x1 x2 l1 l2) /\
  (forall l1 l2, In l1 (levels_of x1) -> In l2 (levels_of x2) -> lv_name l1 = lv_name l2 -> lv_name l1 <> None ->
     common_levels x1 x2 l1 l2).
Proof. exact align_refuses. Qed.
Print Assumptions C68_ambiguous_indexes_refused.

(** Every label of the second index is in the first, but not the pair of
    labels: the result is what the allocated memory held. *)
Theorem C68_missing_tuple_refuted : exists x1 x2, well_formed x1 /\ well_formed x2 /\
  forall junk, align_index_to x1 x2 [junk] = Ok [junk].
Proof.
  exists (Multi [mkLevel (Some "a") [LInt 1; LInt 2]; mkLevel (Some "b") [LInt 1; LInt 2]]),
         (Multi [mkLevel (Some "a") [LInt 1]; mkLevel (Some "b") [LInt 2]]).
  split; [repeat constructor|]. split; [repeat constructor|]. intros junk. vm_compute. reflexivity.
Qed.
Print Assumptions C68_missing_tuple_refuted.

(** Equality ignores names: levels that trade their names are not realigned. *)
Theorem C68_names_ignored_refuted : exists x1 x2 idxs, well_formed x1 /\ well_formed x2 /\
  align_index_to x1 x2 [] = Ok idxs /\ exists k p, nth_error idxs k = Some p /\ ~ agrees x1 x2 p k.
Proof.
  exists (Multi [mkLevel (Some "a") [LInt 1; LInt 2]; mkLevel (Some "b") [LInt 2; LInt 1]]),
         (Multi [mkLevel (Some "b") [LInt 1; LInt 2]; mkLevel (Some "a") [LInt 2; LInt 1]]), [0; 1].
  split; [repeat constructor|]. split; [repeat constructor|]. split; [vm_compute; reflexivity|].
  exists 0, 0. split; [reflexivity|]. intros H.
  specialize (H (mkLevel (Some "a") [LInt 1; LInt 2]) (mkLevel (Some "a") [LInt 2; LInt 1])). 
  assert (Hc : nth_error [LInt 1; LInt 2] 0 = nth_error [LInt 2; LInt 1] 0).
  { apply H. split; [now left|]. split; [right; now left|]. split; [reflexivity|]. cbn. tauto. }
  discriminate Hc.
Qed.
Print Assumptions C68_names_ignored_refuted.

Example C68_nonvacuous :
  align_index_to (Plain (mkLevel (Some "s") [LStr "A"; LStr "B"]))
    (Multi [mkLevel (Some "w") [LInt 1; LInt 1; LInt 2; LInt 2]; mkLevel (Some "s") [LStr "A"; LStr "B"; LStr "A"; LStr "B"]]) [0; 0; 0; 0]
  = Ok [0; 1; 0; 1] /\
  align_index_to (Plain (mkLevel (Some "s") [LStr "A"; LStr "B"]))
    (Multi [mkLevel (Some "s") [LStr "A"; LStr "A"; LStr "B"]; mkLevel (Some "w") [LInt 1; LInt 2; LInt 1]]) [0; 0; 0]
  = Ok [0; 0; 1].
Proof. vm_compute. auto. Qed.
