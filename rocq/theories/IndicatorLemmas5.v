(** * Indicators over parameters: what every column holds *)
From Coq Require Import String ZArith Bool List Arith Lia.
From Verif Require Import Base Grouper IndexFns BaseFnsLemmas4 BroadcastSpec BroadcastLemmas2 Indicator IndicatorSpec
  IndicatorLemmas IndicatorLemmas2 IndicatorLemmas3 IndicatorLemmas4.
Import ListNotations.
Local Open Scope nat_scope.

Section Pipeline.
Context {V P : Type}.
Variable peq : P -> P -> bool.
Variable hashable : P -> bool.
Variable label_of : P -> Label.

Lemma raise_ok : forall {A} b e (r : res A) x, raise_if b e r = Ok x -> b = false /\ r = Ok x.
Proof. intros A [|] e r x H; [discriminate|auto]. Qed.

Lemma make_ok : forall (x y : @Indicator V P), make_indicator x = Ok y ->
  y = x /\ (match in_mapper x with Some m => length m = number_of_columns x | None => True end) /\
  Forall (fun f => rows_of_frame f = in_rows x /\ length f = number_of_columns x) (in_in_outputs x ++ in_outputs x) /\
  Forall (fun m => index_len m = number_of_columns x) (in_mappers x).
Proof.
  intros x y H. unfold make_indicator in H. cbv zeta in H.
  apply raise_ok in H. destruct H as [H1 H]. apply raise_ok in H. destruct H as [H2 H]. apply raise_ok in H. destruct H as [H3 H].
  apply raise_ok in H. destruct H as [H4 H]. apply raise_ok in H. destruct H as [H5 H]. apply raise_ok in H. destruct H as [H6 H].
  split; [congruence|]. split; [|split].
  - destruct (in_mapper x); [|exact I]. apply negb_false_iff, Nat.eqb_eq in H1. exact H1.
  - apply negb_false_iff in H3. rewrite forallb_forall in H3. apply Forall_forall. intros f Hf. specialize (H3 f Hf). unfold shape_eqb in H3.
    apply andb_true_iff in H3. destruct H3 as [A B]. apply Nat.eqb_eq in A, B. auto.
  - apply negb_false_iff in H5. rewrite forallb_forall in H5. apply Forall_forall. intros f Hf. apply Nat.eqb_eq. auto.
Qed.

Definition columns_of (nm : Naming) (cols : nat) : Index := match nm_columns nm with Some x => x | None => Plain (range_level cols) end.
Lemma columns_of_length : forall nm cols, columns_fit nm cols -> of_length cols (columns_of nm cols).
Proof.
  intros nm cols [_ H]. unfold columns_of. destruct (nm_columns nm); [exact H|]. split; [discriminate|]. cbn [levels_of]. constructor; [|constructor].
  cbn [range_level lv_values]. rewrite map_length. apply seq_length.
Qed.

Lemma take_nth : forall {A} (d : A) idxs l i, i < length idxs -> nth i (take d idxs l) d = nth (nth i idxs 0) l d.
Proof.
  intros A d idxs l i Hi. unfold take. rewrite (nth_indep _ d (nth 0 l d)) by (rewrite map_length; exact Hi). apply (map_nth (fun i => nth i l d)).
Qed.

Lemma finish_spec : forall nm (a : @Args V P) params q n_in_cols outs x rows cols,
  a_per_column a = false -> a_shape a = Some (rows, cols) -> columns_fit nm cols -> rect params ->
  Forall (fun f => length f = cols) (a_inputs a) ->
  outs <> [] -> Forall (fun f : Frame V => length f = n_values params * cols) outs ->
  finish label_of nm a params q n_in_cols outs = Ok x ->
  in_params x = params /\ in_names x = nm_levels nm /\ number_of_columns x = n_values params * cols /\
  in_in_outputs x = firstn q outs /\ in_outputs x = skipn q outs /\ in_inputs x = a_inputs a /\
  forall p c, p < n_values params -> c < cols ->
    let w := view x (p * cols + c) in
    v_inputs w = columns_at (a_inputs a) c /\ v_params w = map label_of (row params p) /\
    sublist (v_labels w) (param_labels label_of nm params p ++ input_labels nm cols c) /\
    (forall s y, In (Some s, y) (param_labels label_of nm params p) -> In (Some s, y) (v_labels w)).
Proof.
  intros nm a params q nic outs x rows cols Hpc Hsh Hfit Hr Hin Hne Ho H. unfold finish in H. destruct outs as [|o outs]; [congruence|].
  rewrite Hsh, Hpc in H. cbv zeta in H. fold (columns_of nm cols) in H.
  pose proof (columns_of_length nm cols Hfit) as Hic. assert (Eic : index_len (columns_of nm cols) = cols) by (apply index_len_levels; apply Hic).
  rewrite Eic in H. unfold input_labels. fold (columns_of nm cols).
  destruct (match params with [] => _ | _ => _ end) as [[idxs ci]|] eqn:Eb in H; cbn [bind] in H; [|discriminate]. cbn [fst snd] in H.
  apply make_ok in H. destruct H as (-> & Hm & Hs & Hmap). cbn [in_mapper in_in_outputs in_outputs in_rows in_mappers in_columns in_params in_inputs in_names] in *.
  unfold number_of_columns in *. cbn [in_columns] in *. rewrite firstn_skipn in Hs.
  assert (EN : index_len ci = n_values params * cols).
  { inversion Hs as [|? ? [_ A] _]; subst. inversion Ho as [|? ? B _]; subst. congruence. }
  split; [reflexivity|]. split; [reflexivity|]. split; [exact EN|]. split; [reflexivity|]. split; [reflexivity|]. split; [reflexivity|]. intros p c Hp Hc.
  unfold view. cbn [v_inputs v_params v_labels in_mapper in_in_outputs in_outputs in_rows in_mappers in_columns in_params in_inputs].
  split.
  - unfold columns_at, input_shown. cbn [in_inputs in_mapper]. destruct params as [|ps0 params].
    + cbn [n_values] in Hp. assert (p = 0) by lia. subst p. cbn [Nat.mul Nat.add].
      rewrite <- (map_map (fun k => nth k (a_inputs a) []) (fun f => nth c f [])). f_equal.
      clear. induction (a_inputs a) as [|f l IH]; [reflexivity|]. cbn [length seq map nth]. f_equal. rewrite <- seq_shift, map_map. exact IH.
    + destruct (a_inputs a) as [|f0 fs] eqn:Ea; [reflexivity|]. rewrite <- Ea in *. clear Ea f0 fs.
      rewrite <- (map_map (fun k => nth k (a_inputs a) []) (fun f => nth (p * cols + c) (take [] (List.concat (repeat (seq 0 cols) (n_values (ps0 :: params)))) f) [])).
      replace (map (fun k => nth k (a_inputs a) []) (seq 0 (length (a_inputs a)))) with (a_inputs a).
      2: { symmetry. clear. induction (a_inputs a) as [|f l IH]; [reflexivity|]. cbn [length seq map nth]. f_equal. rewrite <- seq_shift, map_map. exact IH. }
      apply map_ext_in. intros f Hf. rewrite take_nth.
      * pose proof (nth_tiled (seq 0 cols) (n_values (ps0 :: params)) p c 0 Hp) as T. rewrite seq_length in T. rewrite T by exact Hc.
        rewrite seq_nth by exact Hc. reflexivity.
      * rewrite concat_repeat_length, seq_length. nia.
  - destruct params as [|ps0 params].
    + injection Eb as <- <-. cbn [n_values] in Hp. assert (p = 0) by lia. subst p. split; [reflexivity|]. split; [apply sublist_refl|]. intros s y [].
    + set (ps := ps0 :: params) in *. assert (Hps : ps <> []) by discriminate.
      destruct (build_columns_spec label_of nm ps (columns_of nm cols) cols idxs ci (proj1 Hfit) Hic Hr Hps Eb) as [-> Hl].
      destruct (Hl EN p c Hp Hc) as [L1 L2]. split; [|split; [exact L1|exact L2]].
      rewrite map_map. cbn [mapper_values repeat_level lv_values].
      assert (Hd : ps0 <> []) by (intros ->; cbn in Hp; lia). destruct ps0 as [|d0 ps0]; [congruence|].
      rewrite (row_map ps (n_values ps) p d0 Hr Hp), map_map. generalize 0 at 1.
      assert (G : exists n, p < n /\ forall l, In l ps -> length l = n) by (exists (n_values ps); split; [exact Hp|exact Hr]).
      destruct G as (n & Hn & G). clear - Hc Hn G. revert G. generalize ps as ll. clear - Hc Hn. intros ll.
      induction ll as [|l ll IH]; intros G s; [reflexivity|]. cbn [length seq combine map fst snd]. f_equal.
      * rewrite nth_repeat_each; [|rewrite map_length, (G l); [exact Hn|now left]|exact Hc].
        rewrite (nth_indep _ (LInt 0) (label_of d0)) by (rewrite map_length, (G l); [exact Hn|now left]). apply map_nth.
      * apply IH. intros l' Hl'. apply G. now right.
Qed.
End Pipeline.
