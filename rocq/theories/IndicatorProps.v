(** * C85: Running an indicator over parameters *)
From Coq Require Import String ZArith Bool List Arith Lia Sorted.
From Verif Require Import Base Grouper IndexFns IndexSpec BaseFnsSpec BroadcastSpec BroadcastLemmas2 Indicator IndicatorSpec
  IndicatorLemmas7 IndicatorLemmas8 IndicatorLemmas9 IndicatorLemmas10 IndicatorLemmas11.
Import ListNotations.
Local Open Scope nat_scope.

(** Every column of the result is what the calculation of one combination gives for one column of the input, next
    to that column of the input and under labels for both. *)
Theorem C85_columns : forall {V P} peq hashable (label_of : P -> Label) m apply new nm (a : @Args V P) x rows cols, setting m apply new nm a rows cols ->
  run peq hashable label_of m (from_apply_func m apply) new nm a = Ok x ->
  let params := in_params x in
  expand_params (a_params a) (a_product a) false cols = Ok params /\ number_of_columns x = n_values params * cols /\
  forall p c, p < n_values params -> c < cols -> exists r, calculated peq apply new a cols params p r /\
    let w := view x (p * cols + c) in
    v_in_outputs w = columns_at (fst r) c /\ v_outputs w = columns_at (snd r) c /\
    v_inputs w = columns_at (a_inputs a) c /\ v_params w = map label_of (row params p) /\
    sublist (v_labels w) (param_labels label_of nm params p ++ input_labels nm cols c) /\
    (forall s y, In (Some s, y) (param_labels label_of nm params p) -> In (Some s, y) (v_labels w)).
Proof. intros V P. exact run_columns. Qed.
Print Assumptions C85_columns.

(** Combinations are all those of the product, ... *)
Theorem C85_product : forall {V P} peq hashable (label_of : P -> Label) m apply new nm (a : @Args V P) x rows cols, setting m apply new nm a rows cols ->
  run peq hashable label_of m (from_apply_func m apply) new nm a = Ok x ->
  a_product a = true -> 1 < length (a_params a) -> Forall (fun l => l <> []) (a_params a) ->
  n_values (in_params x) = combinations (a_params a) /\
  forall t, Forall2 (fun v l => In v l) t (a_params a) <-> exists p, p < n_values (in_params x) /\ row (in_params x) p = t.
Proof.
  intros V P peq hashable label_of m apply new nm a x rows cols S H Hp Hl Hne. destruct (run_columns peq hashable label_of m apply new nm a x rows cols S H) as [E _].
  rewrite Hp in E. exact (expand_product _ _ _ Hl Hne E).
Qed.
Print Assumptions C85_product.

(** ... or values at one position of lists of one length, single values being repeated. *)
Theorem C85_broadcast : forall {V P} peq hashable (label_of : P -> Label) m apply new nm (a : @Args V P) x rows cols, setting m apply new nm a rows cols ->
  run peq hashable label_of m (from_apply_func m apply) new nm a = Ok x -> a_product a = false ->
  Forall2 (stretched (n_values (in_params x))) (a_params a) (in_params x).
Proof.
  intros V P peq hashable label_of m apply new nm a x rows cols S H Hp. destruct (run_columns peq hashable label_of m apply new nm a x rows cols S H) as [E _].
  rewrite Hp in E. destruct (run_outputs peq hashable label_of m apply new nm a x rows cols S H) as (params & _ & E' & _ & Hn & _). rewrite Hp in E'.
  eapply expand_broadcast; [exact E|]. congruence.
Qed.
Print Assumptions C85_broadcast.

(** Calculating equal combinations once cannot be seen. *)
Theorem C85_unique_not_visible : forall {V P} (peq : P -> P -> bool) hashable label_of,
  (forall x, peq x x = true) -> (forall x y, peq x y = true -> peq y x = true) ->
  forall m apply new nm (a : @Args V P) rows cols, setting m apply new nm a rows cols -> all_given a -> respects peq apply ->
  forall x, run peq hashable label_of m (from_apply_func m apply) new nm (set_unique a true) = Ok x <->
            run peq hashable label_of m (from_apply_func m apply) new nm (set_unique a false) = Ok x.
Proof. intros V P. exact unique_invisible. Qed.
Print Assumptions C85_unique_not_visible.

(** Raw results of an earlier run on the same inputs give what a new run would. *)
Theorem C85_raw_results_reused : forall {V P} peq hashable (label_of : P -> Label) m apply new nm (a b : @Args V P) raw x rows cols,
  setting m apply new nm a rows cols -> all_given a -> respects peq apply ->
  a_unique b = false -> b = with_params a (a_params b) (a_product b) false ->
  run_return_raw peq hashable m (from_apply_func m apply) new a = Ok raw ->
  run_use_raw peq label_of nm b raw = Ok x ->
  run peq hashable label_of m (from_apply_func m apply) new nm b = Ok x.
Proof. intros V P. exact raw_reused. Qed.
Print Assumptions C85_raw_results_reused.

(** With one combination per column, every column is calculated alone with its combination. *)
Theorem C85_per_column : forall {V P} peq hashable (label_of : P -> Label) m (apply : @Apply V P) new nm a x rows cols,
  a_per_column a = true -> a_shape a = Some (rows, cols) -> a_in_outputs a = [] -> Forall (has_shape rows cols) (a_inputs a) ->
  (forall c, c < cols -> keeps_shape m apply (only_column (a_inputs a) c) rows 1) -> columns_fit nm cols ->
  run peq hashable label_of m (from_apply_func m apply) new nm a = Ok x ->
  let params := in_params x in
  expand_params (a_params a) (a_product a) true cols = Ok params /\ number_of_columns x = cols /\
  forall c, c < cols -> exists io outs, apply (only_column (a_inputs a) c) [] (row params c) = Ok (io, outs) /\
    let w := view x c in
    v_outputs w = columns_at outs 0 /\ v_inputs w = columns_at (a_inputs a) c /\ v_params w = map label_of (row params c) /\
    sublist (v_labels w) (param_labels label_of nm params c ++ input_labels nm cols c) /\
    (forall s y, In (Some s, y) (param_labels label_of nm params c) -> In (Some s, y) (v_labels w)).
Proof. intros V P. exact run_own_columns. Qed.
Print Assumptions C85_per_column.

(** Selecting by a parameter keeps the columns of that parameter, all of them and nothing else, in their order. *)
Theorem C85_select_one : forall {V P} peq hashable label_of (x y : @Indicator V P) j key, made peq hashable label_of x -> param_loc x j key = Ok y ->
  exists idxs, idxs <> [] /\ StronglySorted lt idxs /\ (forall i, In i idxs <-> chosen x j key i) /\
    in_params y = in_params x /\ number_of_columns y = length idxs /\
    forall k, k < length idxs -> let w := view x (nth k idxs 0) in
      view y k = mkView (match nth j (in_names x) None, in_columns x with
                         | Some name, Multi _ => without (Some name) (v_labels w)
                         | _, _ => v_labels w
                         end) (v_inputs w) (v_in_outputs w) (v_outputs w) (v_params w).
Proof. intros V P. exact selected_key. Qed.
Print Assumptions C85_select_one.

Theorem C85_select_many : forall {V P} peq hashable label_of (x y : @Indicator V P) j keys, made peq hashable label_of x -> param_loc_list x j keys = Ok y ->
  exists groups, Forall2 (fun key idxs => idxs <> [] /\ StronglySorted lt idxs /\ forall i, In i idxs <-> chosen x j key i) keys groups /\
    in_params y = in_params x /\ number_of_columns y = length (List.concat groups) /\
    forall k, k < length (List.concat groups) -> view y k = view x (nth k (List.concat groups) 0).
Proof. intros V P. exact selected_keys. Qed.
Print Assumptions C85_select_many.

Theorem C85_select_nothing : forall {V P} peq hashable label_of (x : @Indicator V P) j key, made peq hashable label_of x -> j < length (in_mappers x) ->
  (forall i, ~ chosen x j key i) -> exists s, param_loc x j key = Err (KeyError s).
Proof. intros V P. exact nothing_selected. Qed.
Print Assumptions C85_select_nothing.

(** Running combinations: instance [i] is a run over the [i]-th members of all combinations. *)
Theorem C85_combinations : forall {V P} peq hashable label_of m custom new naming comb (a : @Args V P) xs, a_unique a = false ->
  run_combs peq hashable label_of m custom new naming comb a = Ok xs ->
  exists params, (if a_product a then Ok (create_param_product (a_params a)) else broadcast_params (a_params a) None) = Ok params /\
    forall r k, let combos := comb (zip_star params) in
      0 < k -> combos <> [] -> (forall t, In t combos -> length t = r /\ forall u, In u t -> length u = k) ->
      length xs = r /\ forall i, i < r -> exists ps x, nth_error xs i = Some x /\
        length ps = k /\ (forall l, In l ps -> length l = length combos) /\
        (forall p, p < length combos -> row ps p = nth i (nth p combos []) []) /\
        run peq hashable label_of m custom new (naming i) (with_params a ps false false) = Ok x.
Proof. intros V P. exact combinations_run. Qed.
Print Assumptions C85_combinations.

Theorem C85_combinations_unique_not_visible : forall {V P} peq hashable label_of m apply new naming comb (a : @Args V P) xs rows cols,
  (forall i, setting m apply new (naming i) a rows cols) -> all_given a -> respects peq apply ->
  run_combs peq hashable label_of m (from_apply_func m apply) new naming comb (set_unique a true) = Ok xs ->
  run_combs peq hashable label_of m (from_apply_func m apply) new naming comb (set_unique a false) = Ok xs.
Proof. intros V P. exact combinations_reused. Qed.
Print Assumptions C85_combinations_unique_not_visible.

(** The compiled loop gives what the Python loop gives, whatever is in new memory. *)
Theorem C85_loops_agree : forall {V} (junk : V) (shapes : list (nat * nat)) n (f : nat -> res (list (Frame V))), 0 < n ->
  (forall i outs, i < n -> f i = Ok outs -> Forall2 (fun s o => has_shape (fst s) (snd s) o) shapes outs) ->
  apply_and_concat_multiple_nb junk n f = apply_and_concat_multiple n f.
Proof. exact @loops_agree. Qed.
Print Assumptions C85_loops_agree.

(** An indicator has as many outputs as were declared, even if the calculation returns more. *)
Theorem C85_number_of_outputs : forall {V P} peq hashable (label_of : P -> Label) m custom new nm (a : @Args V P) x,
  a_per_column a = false ->
  (forall inputs io ps io' outs, custom inputs io ps = Ok (io', outs) -> length io' = length io) ->
  run peq hashable label_of m custom new nm a = Ok x -> length (in_outputs x) = m /\ length (in_in_outputs x) = number_of_in_outputs a.
Proof. intros V P. exact outputs_number. Qed.
Print Assumptions C85_number_of_outputs.

(** ** Examples *)
Local Open Scope Z_scope.
Definition plus : @Apply Z Z := fun inputs io ps =>
  Ok (io, [map (map (fun v => v + nth 0 ps 0 * nth 1 ps 1)) (nth 0 inputs [])]).
Definition memory : nat -> nat -> Frame Z := fun _ n => repeat [7; 7] n.
Definition names (hidden : list nat) : Naming :=
  mkNaming (Some (Plain (mkLevel (Some "asset"%string) [LStr "a"%string; LStr "b"%string]))) [Some "p"%string; Some "q"%string] hidden false true false true.
Definition names1 (hidden : list nat) : Naming :=
  mkNaming (Some (Plain (mkLevel (Some "asset"%string) [LStr "a"%string; LStr "b"%string]))) [Some "p"%string] hidden false true false true.
Definition prices : Frame Z := [[1; 2]; [10; 20]].
Definition args ps product per_column unique : @Args Z Z := mkArgs [prices] (Some (2, 2)%nat) [] ps product per_column unique.
Definition always (_ : Z) : bool := true.
Notation run_plus := (run Z.eqb always LInt 1 (from_apply_func 1 plus) memory).

(** Raw results with one combination per column: another column's output is taken. *)
Theorem C85_raw_per_column_refuted : exists raw x y, let a := args [[5; 5]] false true false in
  run_return_raw Z.eqb always 1 (from_apply_func 1 plus) memory a = Ok raw /\
  run_plus (names1 []) a = Ok x /\ run_use_raw Z.eqb LInt (names1 []) a raw = Ok y /\
  in_outputs x = [[[6; 7]; [15; 25]]] /\ in_outputs y = [[[6; 7]; [6; 7]]].
Proof. eexists _, _, _. repeat split; vm_compute; reflexivity. Qed.
Print Assumptions C85_raw_per_column_refuted.

(** In-place outputs of which only some are given: what is given is dropped. *)
Definition keep : @Apply Z Z := fun inputs io ps => Ok (io, []).
Theorem C85_some_in_outputs_refuted : exists x,
  let a := mkArgs [prices] (Some (2, 2)%nat) [None; Some [[3; 3]; [4; 4]]] [[5]] false false false in
  run Z.eqb always LInt 0 (from_apply_func 0 keep) memory (names1 []) a = Ok x /\ in_in_outputs x = [[[7; 7]; [7; 7]]].
Proof. eexists. split; vm_compute; reflexivity. Qed.
Print Assumptions C85_some_in_outputs_refuted.

(** Hiding every parameter of several combinations fails. *)
Theorem C85_all_hidden_refuted : exists s,
  run_plus (names1 [0%nat]) (args [[5; 6]] false false false) = Err (AssertionError s).
Proof. eexists. vm_compute. reflexivity. Qed.
Print Assumptions C85_all_hidden_refuted.

(** Selecting by a hidden parameter fails although there are such columns. *)
Theorem C85_select_hidden_refuted : exists x s,
  run_plus (names [1%nat]) (args [[5; 6]; [1; 2]] false false false) = Ok x /\ chosen x 1 (LInt 2) 2 /\
  param_loc x 1 (LInt 2) = Err (KeyError s).
Proof. eexists _, _. split; [vm_compute; reflexivity|]. split; [split; vm_compute; [lia|reflexivity]|vm_compute; reflexivity]. Qed.
Print Assumptions C85_select_hidden_refuted.

(** ** The hypotheses are met *)
Lemma map_shape : forall (f : Z -> Z) rows cols (x : Frame Z), has_shape rows cols x -> has_shape rows cols (map (map f) x).
Proof.
  intros f rows cols x [L H]. split; [rewrite map_length; exact L|]. intros c Hc. apply in_map_iff in Hc. destruct Hc as (c0 & <- & H0). rewrite map_length. apply H. exact H0.
Qed.
Lemma prices_shape : has_shape 2 2 prices.
Proof. split; [reflexivity|]. intros c [<-|[<-|[]]]; reflexivity. Qed.
Lemma plus_keeps : keeps_shape 1 plus [prices] 2 2.
Proof.
  intros io ps io' outs Hio H. unfold plus in H. assert (E : io' = io /\ outs = [map (map (fun v => v + nth 0 ps 0 * nth 1 ps 1)) prices]) by (cbn [nth] in *; split; congruence).
  destruct E as [-> ->]. split; [reflexivity|]. split; [reflexivity|]. split; [exact Hio|].
  constructor; [|constructor]. apply (map_shape _ 2 2 prices prices_shape).
Qed.
Lemma names_fit : forall nm, nm = names [] \/ nm = names1 [] -> columns_fit nm 2.
Proof. intros nm [->| ->]; (split; [reflexivity|]); cbn [nm_columns names names1]; (split; [discriminate|]); repeat constructor. Qed.
Lemma plus_setting : forall nm ps product unique, nm = names [] \/ nm = names1 [] -> setting 1 plus memory nm (args ps product false unique) 2 2.
Proof.
  intros nm ps product unique Hnm. constructor; try reflexivity.
  - intros i k. split; [apply repeat_length|]. intros c Hc. apply repeat_spec in Hc. subst. reflexivity.
  - constructor; [apply prices_shape|constructor].
  - left. constructor.
  - intros f [].
  - apply plus_keeps.
  - apply names_fit. exact Hnm.
Qed.
Lemma plus_respects : respects Z.eqb plus.
Proof.
  intros inputs io t u H. unfold plus. replace u with t; [reflexivity|]. induction H as [|x y t u E H IH]; [reflexivity|]. f_equal; [apply Z.eqb_eq; exact E|exact IH].
Qed.

Example C85_nonvacuous : exists x,
  run_plus (names []) (args [[5; 5]; [1; 2]] true false true) = Ok x /\
  setting 1 plus memory (names []) (args [[5; 5]; [1; 2]] true false true) 2 2 /\ respects Z.eqb plus /\
  all_given (args [[5; 5]; [1; 2]] true false true) /\
  in_params x = [[5; 5; 5; 5]; [1; 2; 1; 2]] /\
  view x 3 = mkView [(Some "p"%string, LInt 5); (Some "q"%string, LInt 2); (Some "asset"%string, LStr "b"%string)] [[10; 20]] [] [[20; 30]] [LInt 5; LInt 2] /\
  view x 7 = view x 3 /\
  (exists y, param_loc x 1 (LInt 2) = Ok y /\ number_of_columns y = 4%nat /\
    view y 1 = mkView [(Some "p"%string, LInt 5); (Some "asset"%string, LStr "b"%string)] [[10; 20]] [] [[20; 30]] [LInt 5; LInt 2]) /\
  (exists y, param_loc_list x 1 [LInt 2; LInt 1] = Ok y /\ number_of_columns y = 8%nat) /\
  (exists s, param_loc x 1 (LInt 3) = Err (KeyError s)).
Proof.
  eexists. split; [vm_compute; reflexivity|]. split; [apply plus_setting; auto|]. split; [apply plus_respects|]. split; [constructor|].
  split; [vm_compute; reflexivity|]. split; [vm_compute; reflexivity|]. split; [vm_compute; reflexivity|].
  split; [eexists; split; [vm_compute; reflexivity|]; split; vm_compute; reflexivity|].
  split; [eexists; split; vm_compute; reflexivity|]. eexists. vm_compute. reflexivity.
Qed.
Print Assumptions C85_nonvacuous.

Example C85_nonvacuous_others :
  (exists raw x, run_return_raw Z.eqb always 1 (from_apply_func 1 plus) memory (args [[5; 6]] false false false) = Ok raw /\
     run_use_raw Z.eqb LInt (names1 []) (args [[6]] false false false) raw = Ok x /\ in_outputs x = [[[7; 8]; [16; 26]]]) /\
  (exists x, run_plus (names1 []) (args [[5; 6]] false true false) = Ok x /\ in_outputs x = [[[6; 7]; [16; 26]]] /\ columns_fit (names1 []) 2) /\
  (exists x y, run_combs Z.eqb always LInt 1 (from_apply_func 1 plus) memory (fun _ => names1 []) (combinations_of 2) (args [[5; 6; 7]] false false true) = Ok [x; y] /\
     in_params x = [[5; 5; 6]] /\ in_params y = [[6; 7; 7]]) /\
  apply_and_concat_multiple_nb 0 2 (fun i => Ok [[[Z.of_nat i; 5]]]) = Ok [[[0; 5]; [1; 5]]] /\
  (exists x, let a := mkArgs [prices] (Some (2, 2)%nat) [Some [[3; 3]; [4; 4]]] [[5; 6]] false false false in
     run Z.eqb always LInt 1 (from_apply_func 1 plus) memory (names1 []) a = Ok x /\ setting 1 plus memory (names1 []) a 2 2 /\
     in_in_outputs x = [[[3; 3]; [4; 4]; [3; 3]; [4; 4]]]).
Proof.
  split; [eexists _, _; split; [vm_compute; reflexivity|]; split; vm_compute; reflexivity|].
  split; [eexists; split; [vm_compute; reflexivity|]; split; [vm_compute; reflexivity|apply names_fit; auto]|].
  split; [eexists _, _; split; [vm_compute; reflexivity|]; split; vm_compute; reflexivity|].
  split; [vm_compute; reflexivity|]. eexists. split; [vm_compute; reflexivity|]. split; [|vm_compute; reflexivity].
  constructor; try reflexivity.
  - intros i k. split; [apply repeat_length|]. intros c Hc. apply repeat_spec in Hc. subst. reflexivity.
  - constructor; [apply prices_shape|constructor].
  - left. constructor; [discriminate|constructor].
  - intros f [[= <-]|[]]. split; [reflexivity|]. intros c [<-|[<-|[]]]; reflexivity.
  - apply plus_keeps.
  - apply names_fit. auto.
Qed.
Print Assumptions C85_nonvacuous_others.

Example C85_number_of_outputs_nonvacuous : exists x,
  run Z.eqb always LInt 1 (fun inputs io ps => Ok (io, [nth 0 inputs []; nth 0 inputs []])) memory (names1 []) (args [[5]] false false false) = Ok x /\
  length (in_outputs x) = 1%nat.
Proof. eexists. split; vm_compute; reflexivity. Qed.
