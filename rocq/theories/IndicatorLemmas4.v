(** * Indicators over parameters: columns *)
From Coq Require Import String ZArith Bool List Arith Lia.
From Verif Require Import Base Grouper IndexFns BaseFnsSpec BaseFnsLemmas4 BroadcastSpec BroadcastLemmas2 Indicator IndicatorSpec IndicatorLemmas IndicatorLemmas2 IndicatorLemmas3.
Import ListNotations.
Local Open Scope nat_scope.

Lemma sublist_map : forall {A B} (f : A -> B) a b, sublist a b -> sublist (map f a) (map f b).
Proof. intros A B f a b H. induction H; cbn [map]; constructor; assumption. Qed.
Lemma nth_repeat_each : forall {A} (l : list A) w p c d, p < length l -> c < w ->
  nth (p * w + c) (flat_map (fun x => repeat x w) l) d = nth p l d.
Proof.
  intros A l w p c d Hp Hc. rewrite flat_map_concat_map, (concat_nth _ w); [|apply Forall_forall; intros f Hf; apply in_map_iff in Hf; destruct Hf as (x & <- & _); apply repeat_length|rewrite map_length; exact Hp|exact Hc].
  rewrite (nth_indep _ [] (repeat d w)) by (rewrite map_length; exact Hp). rewrite (map_nth (fun x => repeat x w)). apply nth_repeat_lt. exact Hc.
Qed.
Lemma nth_tiled : forall {A} (l : list A) n p c d, p < n -> c < length l ->
  nth (p * length l + c) (List.concat (repeat l n)) d = nth c l d.
Proof.
  intros A l n p c d Hp Hc. rewrite (concat_nth _ (length l)); [|apply Forall_forall; intros f Hf; apply repeat_spec in Hf; now subst|rewrite repeat_length; exact Hp|exact Hc].
  rewrite nth_repeat_lt by exact Hp. reflexivity.
Qed.

Section Pipeline.
Context {P : Type}.
Variable label_of : P -> Label.

Definition shown_levels (nm : Naming) (w : nat) (params : list (list P)) (s : nat) : list Level :=
  flat_map (fun q => if existsb (Nat.eqb (fst q)) (nm_hidden nm) then []
                     else [repeat_level w (mkLevel (nth (fst q) (nm_levels nm) None) (map label_of (snd q)))])
    (combine (seq s (length params)) params).

Lemma shown_spec : forall nm w params s, nm_ignore_default nm = false ->
  flat_map levels_of (map snd (filter (fun p => negb (existsb (Nat.eqb (fst p)) (nm_hidden nm)))
    (combine (seq s (length params)) (map (fun p => param_level label_of nm w false (fst p) (snd p)) (combine (seq s (length params)) params)))))
  = shown_levels nm w params s.
Proof.
  intros nm w params s Hd. revert s. induction params as [|l params IH]; intros s; [reflexivity|]. unfold shown_levels in *.
  cbn [length seq combine map filter fst snd flat_map]. specialize (IH (S s)). destruct (existsb (Nat.eqb s) (nm_hidden nm)); cbn [negb map flat_map].
  - exact IH.
  - rewrite IH. cbn [fst snd]. unfold param_level, repeat_index. rewrite Hd, andb_false_r. reflexivity.
Qed.

Lemma shown_labels : forall nm w params n s p c, (forall l, In l params -> length l = n) -> p < n -> c < w ->
  map (fun l => (lv_name l, nth (p * w + c) (lv_values l) (LInt 0))) (shown_levels nm w params s)
  = flat_map (fun q => if existsb (Nat.eqb (fst q)) (nm_hidden nm) then []
                     else [(nth (fst q) (nm_levels nm) None, nth p (map label_of (snd q)) (LInt 0))]) (combine (seq s (length params)) params).
Proof.
  intros nm w params n s p c Hr Hp Hc. unfold shown_levels. rewrite map_flat_map. apply flat_map_ext_in. intros [i l] Hin.
  pose proof (in_combine_snd _ _ _ Hin) as Hl. cbn [fst snd] in *. destruct (existsb _ _); [reflexivity|].
  cbn [map repeat_level lv_name lv_values]. rewrite nth_repeat_each; [reflexivity|rewrite map_length, (Hr l Hl); exact Hp|exact Hc].
Qed.
Lemma shown_lengths : forall nm w params n s, (forall l, In l params -> length l = n) ->
  Forall (fun l => length (lv_values l) = n * w) (shown_levels nm w params s).
Proof.
  intros nm w params n s Hr. apply Forall_forall. intros l Hl. unfold shown_levels in Hl. apply in_flat_map in Hl. destruct Hl as ([i ps] & Hin & Hl).
  pose proof (in_combine_snd _ _ _ Hin) as Hps. cbn [fst snd] in *. destruct (existsb _ _); [contradiction|]. destruct Hl as [<-|[]].
  cbn [repeat_level lv_values]. rewrite flat_repeat_length, map_length, (Hr ps Hps). reflexivity.
Qed.

Lemma tile_of_length : forall x n w, of_length w x -> of_length (n * w) (tile_index x n false) /\ levels_of (tile_index x n false) = map (tile_level n) (levels_of x).
Proof.
  intros x n w [H1 H2]. unfold tile_index. rewrite andb_false_r.
  assert (E : levels_of (map_levels (tile_level n) x) = map (tile_level n) (levels_of x)) by (destruct x; reflexivity).
  split; [|exact E]. split; rewrite E.
  - intros Hc. apply map_eq_nil in Hc. congruence.
  - apply Forall_forall. intros l Hl. apply in_map_iff in Hl. destruct Hl as (l0 & <- & Hl0). cbn [tile_level lv_values].
    rewrite concat_repeat_length. eapply Forall_forall in H2; [|exact Hl0]. rewrite H2. reflexivity.
Qed.
Lemma stack_flat : forall (xs : list Index) y dd kf dr, stack_indexes (xs ++ [y]) dd kf dr = stack_indexes [Multi (flat_map levels_of xs); y] dd kf dr.
Proof. intros. unfold stack_indexes. rewrite flat_map_app. reflexivity. Qed.

Lemma uninformative_named : forall l s, uninformative l -> lv_name l = Some s -> False.
Proof. intros l s H E. unfold uninformative, is_range in H. intuition congruence. Qed.

Lemma build_columns_spec : forall nm params ic w idxs ci, nm_ignore_default nm = false -> of_length w ic -> rect params -> params <> [] ->
  build_columns label_of nm params ic false = Ok (idxs, ci) ->
  idxs = map (fun q => Plain (repeat_level w (mkLevel (nth (fst q) (nm_levels nm) None) (map label_of (snd q))))) (combine (seq 0 (length params)) params) /\
  (index_len ci = n_values params * w -> forall p c, p < n_values params -> c < w ->
    sublist (labels_at ci (p * w + c)) (param_labels label_of nm params p ++ labels_at ic c) /\
    (forall s y, In (Some s, y) (param_labels label_of nm params p) -> In (Some s, y) (labels_at ci (p * w + c)))).
Proof.
  intros nm params ic w idxs ci Hd Hic Hr Hne H. unfold build_columns in H. cbv zeta in H.
  assert (Ew : index_len ic = w) by (apply index_len_levels; apply Hic). rewrite Ew in H.
  set (ix := map (fun p => param_level label_of nm w false (fst p) (snd p)) (combine (seq 0 (length params)) params)) in *.
  assert (Lix : length ix = length params) by (unfold ix; rewrite map_length, combine_length, seq_length; lia).
  rewrite Lix in H. pose proof (shown_spec nm w params 0 Hd) as Hsh. fold ix in Hsh.
  assert (Eix : ix = map (fun q => Plain (repeat_level w (mkLevel (nth (fst q) (nm_levels nm) None) (map label_of (snd q))))) (combine (seq 0 (length params)) params)).
  { apply map_ext. intros q. unfold param_level, repeat_index. rewrite Hd, andb_false_r. reflexivity. }
  set (shown := map snd (filter _ _)) in *.
  assert (Hplain : forall x, In x shown -> exists l, x = Plain l).
  { intros x Hx. unfold shown in Hx. apply in_map_iff in Hx. destruct Hx as ([i y] & <- & Hy). apply filter_In in Hy. destruct Hy as [Hy _].
    apply in_combine_r in Hy. cbn [snd]. rewrite Eix in Hy. apply in_map_iff in Hy. destruct Hy as (q & <- & _). eauto. }
  clearbody shown.
  assert (Hlab : forall p c, p < n_values params -> c < w -> map (fun l => (lv_name l, nth (p * w + c) (lv_values l) (LInt 0))) (shown_levels nm w params 0) = param_labels label_of nm params p)
    by (intros p c Hp Hc; apply (shown_labels nm w params (n_values params) 0 p c Hr Hp Hc)).
  destruct shown as [|x0 xs].
  - injection H as <- <-. split; [exact Eix|]. intros HN p c Hp Hc.
    assert (n_values params = 1) by (rewrite Ew in HN; nia). assert (p = 0) by lia. subst p. cbn [Nat.mul Nat.add].
    cbn [map flat_map] in Hsh. pose proof (Hlab 0 c Hp Hc) as E0. rewrite <- Hsh in E0. cbn [map] in E0. rewrite <- E0. cbn [app].
    split; [apply sublist_refl|]. intros s y [].
  - rewrite Hd in H. rewrite stack_flat, Hsh in H.
    destruct (tile_of_length ic (n_values params) w Hic) as [Ht Elt].
    assert (Hm : of_length (n_values params * w) (Multi (shown_levels nm w params 0))).
    { split; cbn [levels_of]; [|apply shown_lengths; exact Hr]. rewrite <- Hsh. destruct (Hplain x0 (or_introl eq_refl)) as [l ->]. discriminate. }
    destruct (stack_spec _ _ (nm_drop_duplicates nm) (nm_keep_first nm) (nm_drop_redundant nm) _ Hm Ht) as (s & Es & Hs1 & Hs2 & Hs3).
    rewrite Es in H. cbn [bind] in H. injection H as <- <-. split; [exact Eix|]. intros _ p c Hp Hc. cbn [levels_of] in Hs2, Hs3. rewrite Elt in Hs2, Hs3.
    assert (El : map (fun l => (lv_name l, nth (p * w + c) (lv_values l) (LInt 0))) (shown_levels nm w params 0 ++ map (tile_level (n_values params)) (levels_of ic))
      = param_labels label_of nm params p ++ labels_at ic c).
    { rewrite map_app, (Hlab p c Hp Hc). f_equal. unfold labels_at. rewrite map_map. apply map_ext_in. intros l Hl. cbn [tile_level lv_name lv_values]. f_equal.
      assert (Ll : length (lv_values l) = w) by (destruct Hic as [_ Hic]; eapply Forall_forall in Hic; [exact Hic|exact Hl]).
      rewrite <- Ll. apply nth_tiled; [exact Hp|lia]. }
    split.
    + rewrite <- El. apply sublist_map. exact Hs2.
    + intros t y Hin. rewrite <- (Hlab p c Hp Hc) in Hin. apply in_map_iff in Hin. destruct Hin as (l & El' & Hl). unfold labels_at. apply in_map_iff. exists l.
      split; [exact El'|]. destruct (Hs3 l) as [Hs|[_ Hu]]; [apply in_or_app; left; exact Hl|exact Hs|]. exfalso. apply (uninformative_named l t Hu). congruence.
Qed.
End Pipeline.
