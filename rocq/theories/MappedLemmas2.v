(** * Proof lemmas: mapped arrays by column and by group *)
From Coq Require Import String ZArith Bool List Arith Lia Permutation.
From Verif Require Import Base Num OrdLaws Grouper Reduce RecordsNb RecordsSpec RecordsLemmas RecordsLemmas2 RecordsLemmas3 RecordsLemmas4
  BaseFnsSpec BaseFnsLemmas BaseFnsLemmas2 Wrapper WrapperSpec WrapperLemmas WrapperLemmas2 Mapped MappedSpec MappedLemmas.
Import ListNotations.
Local Open Scope nat_scope.

Lemma in_runs : forall {A} (xs : list A) ns x, In x (runs xs ns) -> In x xs.
Proof.
  induction xs as [|y xs IH]; intros [|n ns] x H; try destruct H. rewrite runs_cons in H. apply in_app_or in H as [H|H]; [left; symmetry; apply repeat_spec in H; auto|right; eauto].
Qed.
Lemma runs_length : forall {A} (xs : list A) ns, length xs = length ns -> length (runs xs ns) = total ns.
Proof.
  induction xs as [|y xs IH]; intros [|n ns] H; try discriminate H; [reflexivity|]. rewrite runs_cons, app_length, repeat_length. cbn [total]. rewrite IH; auto.
Qed.

Lemma nth_of_map : forall {A B} (f : A -> B) l k (e : B) (d : A), k < length l -> nth k (map f l) e = f (nth k l d).
Proof. intros A B f l k e d H. rewrite (nth_indep _ e (f d)) by (rewrite map_length; exact H). apply map_nth. Qed.

Lemma places_length : forall w labels nos, proper w -> places w labels nos -> length nos = length (w_columns w).
Proof.
  intros w labels nos ((g & e & d & m & Hm) & _) [(_ & _ & ->)|(lens & (Hnd & Hl & Hp & Hg) & ->)]; [apply seq_length|].
  pose proof (make_grouper_wf _ _ _ _ _ _ Hm _ Hg) as Hlen. rewrite map_length, runs_length in Hlen by exact Hl. apply make_grouper_inv in Hm as (<- & _).
  rewrite runs_length; [exact Hlen|]. rewrite seq_length. exact Hl.
Qed.
Lemma places_below : forall w labels nos c, proper w -> places w labels nos -> c < length (w_columns w) -> place_of nos c < length labels.
Proof.
  intros w labels nos c Hpr Hpl Hc. pose proof (places_length _ _ _ Hpr Hpl) as Hn. unfold place_of. destruct Hpl as [(_ & -> & ->)|(lens & Hg & ->)].
  - rewrite seq_nth; auto.
  - assert (Hin : In (nth c (runs (seq 0 (length labels)) lens) 0) (seq 0 (length labels))) by (eapply in_runs; apply nth_In; lia).
    apply in_seq in Hin. lia.
Qed.

Lemma regroup_none : forall w, regroup w GNone = Ok w.
Proof. intros w. unfold regroup. destruct (g_group_by (w_grouper w)) eqn:E; cbn; reflexivity. Qed.

Lemma own_col_arr : forall {V} (a : Mapped V) labels nos, well_made a -> places (ma_wrapper a) labels nos ->
  get_col_arr a GNone = Ok (map (place_of nos) (ma_cols a)).
Proof.
  intros V a labels nos (Hpr & Hc & Hi & Hx & Hb) Hpl. pose proof (places_length _ _ _ Hpr Hpl) as Hn. unfold get_col_arr.
  pose proof Hpr as ((g & e & dd & m & Hm) & _). pose proof (make_grouper_inv _ _ _ _ _ _ Hm) as (Hgc & _).
  assert (E : grouper_groups (w_grouper (ma_wrapper a)) GNone = Ok (map Z.of_nat nos)).
  { unfold grouper_groups. destruct Hpl as [(Hu & -> & ->)|(lens & (Hnd & Hl & Hp & Hg) & ->)].
    - unfold ungrouped, grouping in Hu. unfold resolve_group_by, check_group_by, is_grouping_enabled, is_grouping_disabled, self_grouped. rewrite Hu. cbn. rewrite Hu, Hgc. reflexivity.
    - rewrite (proj1 (resolve_own _ _ (make_grouper_wf _ _ _ _ _ _ Hm) Hg)). cbn [bind of_resolved get_groups]. unfold group_by_to_index.
      rewrite (make_grouper_wf _ _ _ _ _ _ Hm _ Hg), Nat.eqb_refl. cbn [negb raise_if bind]. rewrite factorize_runs by assumption. rewrite map_runs. reflexivity. }
  rewrite E. cbn [bind]. f_equal. apply map_ext_in. intros c Hin. unfold place_of. unfold cols_below in Hb. rewrite Forall_forall in Hb. specialize (Hb c Hin).
  rewrite (nth_indep _ (-1)%Z (Z.of_nat 0)) by (rewrite map_length; lia). rewrite map_nth, Nat2Z.id. reflexivity.
Qed.

Lemma own_resolve : forall w labels nos d, proper w -> places w labels nos -> shown w d ->
  exists w', resolve w GNone = Ok w' /\ w_columns w' = labels /\ w_ndim w' = d /\ w_index w' = w_index w.
Proof.
  intros w labels nos d Hpr Hpl Hd. unfold resolve. rewrite regroup_none. cbn [bind]. destruct Hpl as [(Hu & -> & _)|(lens & Hg & _)].
  - destruct Hd as [(_ & Hd)|(Hd & _)]; [|contradiction]. unfold self_grouped. unfold ungrouped, grouping in Hu. rewrite Hu. eauto.
  - pose proof Hg as (_ & _ & _ & Hgg). destruct Hd as [(Hd & _)|(_ & Hd)]; [unfold ungrouped, grouping in Hd; congruence|].
    unfold self_grouped. rewrite Hgg, Hd, (group_labels _ _ _ Hg). cbn [bind]. unfold replace_wrapper, make_grouper. cbn. eauto.
Qed.

Lemma own_map : forall {V} mem (a : Mapped V) labels nos d, well_made a -> places (ma_wrapper a) labels nos -> shown (ma_wrapper a) d ->
  get_col_map mem a GNone = Ok (col_map_nb mem (map (place_of nos) (ma_cols a)) (length labels)).
Proof.
  intros V mem a labels nos d Hw Hpl Hd. unfold get_col_map. pose proof Hw as (Hpr & _ & _ & _ & Hb).
  rewrite (own_col_arr a labels nos Hw Hpl). destruct (own_resolve _ _ _ _ Hpr Hpl Hd) as (w' & Hr & Hcols & _). rewrite Hr. cbn [bind]. rewrite Hcols.
  destruct Hpl as [(Hu & -> & ->)|(lens & (_ & _ & _ & Hg) & ->)].
  - unfold ungrouped, grouping in Hu. unfold is_grouped. rewrite Hu. do 2 f_equal. symmetry. etransitivity; [|apply map_id]. apply map_ext_in. intros c Hc.
    unfold cols_below in Hb. rewrite Forall_forall in Hb. unfold place_of. apply seq_nth. auto.
  - unfold is_grouped. rewrite Hg. reflexivity.
Qed.

Lemma places_cols_below : forall {V} (a : Mapped V) labels nos, well_made a -> places (ma_wrapper a) labels nos ->
  cols_below (length labels) (map (place_of nos) (ma_cols a)).
Proof.
  intros V a labels nos (Hpr & _ & _ & _ & Hb) Hpl. unfold cols_below in *. rewrite Forall_map. rewrite Forall_forall in *. intros c Hc.
  eapply places_below; eauto.
Qed.

Lemma rows_of_place : forall {V} (a : Mapped V) nos p, length (ma_cols a) = length (ma_values a) ->
  rows_of p (map (place_of nos) (ma_cols a)) = filter (fun i => Nat.eqb (place_of nos (nth i (ma_cols a) 0)) p) (seq 0 (length (ma_values a))).
Proof.
  intros V a nos p Hc. unfold rows_of. rewrite map_length, Hc. apply filter_ext_in. intros i Hi. apply in_seq in Hi.
  rewrite (nth_indep _ 0 (place_of nos 0)) by (rewrite map_length; lia). rewrite map_nth. reflexivity.
Qed.
Lemma values_of_place : forall {V} (d : V) a nos p, length (ma_cols a) = length (ma_values a) ->
  values_of d p (map (place_of nos) (ma_cols a)) (ma_values a) = values_at d a nos p.
Proof.
  intros V d a nos p Hc. unfold values_of, values_at, entries. rewrite filter_map, map_map, rows_of_place by exact Hc. reflexivity.
Qed.
Lemma rows_values_length : forall {V} (d : V) a nos p, length (ma_cols a) = length (ma_values a) ->
  length (rows_of p (map (place_of nos) (ma_cols a))) = length (values_at d a nos p).
Proof. intros V d a nos p Hc. rewrite <- values_of_place by exact Hc. unfold values_of. rewrite map_length. reflexivity. Qed.

Lemma wrapped_one_each : forall {C} d labels w (xs : list C), (d = 1 \/ d = 2) -> (d = 1 -> length labels = 1) -> w_ndim w = d -> w_columns w = labels ->
  length xs = length labels -> one_each d labels xs (wrap_reduced w xs).
Proof.
  intros C d labels w xs Hd H1 Hn Hc Hx. unfold wrap_reduced. rewrite Hn, Hc. destruct Hd as [ -> | -> ]; cbn [Nat.eqb].
  - right. split; [reflexivity|]. rewrite (H1 eq_refl) in Hx. destruct xs as [|x [|y xs]]; try discriminate Hx. eauto.
  - left. auto.
Qed.

Section Places.
  Context {V : Type} (d0 : V).

  Lemma reduce_ok : forall {C} mem (a : Mapped V) (fill : C) f labels nos d, well_made a -> places (ma_wrapper a) labels nos -> shown (ma_wrapper a) d ->
    (d = 1 \/ d = 2) -> (d = 1 -> length labels = 1) ->
    exists r, reduce d0 mem a fill f GNone = Ok r /\
      one_each d labels (map (fun p => match values_at d0 a nos p with [] => fill | l => f p l end) (seq 0 (length labels))) r.
  Proof.
    intros C mem a fill f labels nos d Hw Hpl Hs Hd H1. unfold reduce. rewrite (own_map mem a labels nos d Hw Hpl Hs). cbn [bind].
    pose proof Hw as (Hpr & Hc & _). destruct (own_resolve _ _ _ _ Hpr Hpl Hs) as (w' & Hr & Hcols & Hn & _). rewrite Hr. cbn [bind].
    eexists. split; [reflexivity|]. rewrite reduce_spec by (apply places_cols_below; assumption).
    erewrite map_ext_in; [apply wrapped_one_each; auto; rewrite map_length; apply seq_length|].
    intros p _. cbv beta. rewrite (rows_values_length d0), values_of_place by exact Hc. destruct (values_at d0 a nos p); reflexivity.
  Qed.

  Lemma count_ok : forall mem (a : Mapped V) labels nos d, well_made a -> places (ma_wrapper a) labels nos -> shown (ma_wrapper a) d ->
    (d = 1 \/ d = 2) -> (d = 1 -> length labels = 1) ->
    exists r, count mem a GNone = Ok r /\ one_each d labels (map (fun p => length (values_at d0 a nos p)) (seq 0 (length labels))) r.
  Proof.
    intros mem a labels nos d Hw Hpl Hs Hd H1. unfold count. rewrite (own_map mem a labels nos d Hw Hpl Hs). cbn [bind].
    pose proof Hw as (Hpr & Hc & _). destruct (own_resolve _ _ _ _ Hpr Hpl Hs) as (w' & Hr & Hcols & Hn & _). rewrite Hr. cbn [bind].
    eexists. split; [reflexivity|]. rewrite col_map_whole by (apply places_cols_below; assumption). cbn [snd].
    erewrite map_ext; [apply wrapped_one_each; auto; rewrite map_length; apply seq_length|].
    intros p. cbv beta. symmetry; apply rows_values_length. exact Hc.
  Qed.

  Lemma reduce_to_index_ok : forall mem (a : Mapped V) no_row f labels nos d idx, well_made a -> ma_idx a = Some idx -> places (ma_wrapper a) labels nos -> shown (ma_wrapper a) d ->
    (d = 1 \/ d = 2) -> (d = 1 -> length labels = 1) -> ~ In no_row idx ->
    (forall p l, l <> [] -> f p l < length l) ->
    exists r, reduce_to_index d0 mem a no_row f GNone = Ok r /\
      one_each d labels (map (fun p => match values_at d0 a nos p with
                                       | [] => None
                                       | l => option_map (label_at (w_index (ma_wrapper a))) (nth (f p l) (rows_at d0 a nos p) None)
                                       end) (seq 0 (length labels))) r.
  Proof.
    intros mem a no_row f labels nos d idx Hw Hidx Hpl Hs Hd H1 Hno Hf. unfold reduce_to_index. rewrite Hidx. rewrite (own_map mem a labels nos d Hw Hpl Hs). cbn [bind].
    pose proof Hw as (Hpr & Hc & _ & Hx & _). specialize (Hx _ Hidx). destruct (own_resolve _ _ _ _ Hpr Hpl Hs) as (w' & Hr & Hcols & Hn & _). rewrite Hr. cbn [bind].
    eexists. split; [reflexivity|]. rewrite reduce_idx_spec by (apply places_cols_below; assumption). rewrite map_map.
    erewrite map_ext_in; [apply wrapped_one_each; auto; rewrite map_length; apply seq_length|].
    intros p _. cbv beta. rewrite (rows_values_length d0), values_of_place by exact Hc. destruct (values_at d0 a nos p) as [|v l] eqn:Ev; [cbn [length Nat.eqb]; rewrite Nat.eqb_refl; reflexivity|].
    cbn [length Nat.eqb]. set (k := f p (v :: l)).
    assert (Hk : k < length (values_at d0 a nos p)) by (rewrite Ev; apply Hf; discriminate).
    rewrite <- (rows_values_length d0) in Hk by exact Hc.
    assert (E : nth k (rows_at d0 a nos p) None = Some (nth k (values_of 0 p (map (place_of nos) (ma_cols a)) idx) 0)).
    { unfold rows_at, entries, values_of. rewrite filter_map, map_map. unfold entry_at. cbn [e_row e_col]. rewrite <- rows_of_place by exact Hc. rewrite Hidx. cbn [option_map].
      rewrite (nth_of_map _ _ _ None 0) by exact Hk. f_equal. rewrite (nth_of_map _ _ _ 0 0) by exact Hk. reflexivity. }
    rewrite E. cbn [option_map].
    destruct (Nat.eqb_spec (nth k (values_of 0 p (map (place_of nos) (ma_cols a)) idx) 0) no_row) as [Q|Q]; [|reflexivity].
    exfalso. apply Hno. rewrite <- Q. unfold values_of. rewrite (nth_of_map _ _ _ 0 0) by exact Hk.
    apply nth_In. rewrite Hx, <- Hc. pose proof (rows_below p (map (place_of nos) (ma_cols a))) as R. rewrite map_length in R. rewrite Forall_forall in R. apply R, nth_In, Hk.
  Qed.
End Places.

Section Best.
  Context {T : Type} {N : Num T} {L : OrdLaws N}.

  Lemma best_ok : forall (top : bool) mem (a : Mapped T) n g w labels nos d, well_made a -> places (ma_wrapper a) labels nos -> shown (ma_wrapper a) d ->
    regroup (ma_wrapper a) g = Ok w ->
    exists b mask, (if top then top_n mem a n g else bottom_n mem a n g) = Ok b /\ ma_wrapper b = w /\ entries nan b = kept mask (entries nan a) /\
      keeps_best (if top then gtb else ltb) top n (length labels) (map (place_of nos) (ma_cols a)) (ma_values a) mask.
  Proof.
    intros top mem a n g w labels nos d Hw Hpl Hs Hg. pose proof Hw as (Hpr & Hc & _).
    assert (Hb : cols_below (length labels) (map (place_of nos) (ma_cols a))) by (apply places_cols_below; assumption).
    assert (Hl : length (ma_values a) = length (map (place_of nos) (ma_cols a))) by (rewrite map_length; auto).
    pose proof (mask_invariant top mem (map (place_of nos) (ma_cols a)) n (length labels) (ma_values a) Hb Hl) as K. destruct top.
    - unfold top_n, ma_top_n_mask. rewrite (own_map mem a labels nos d Hw Hpl Hs). cbn [bind].
      destruct (mask_ok nan a _ g w (proj1 K) Hg) as (b & E & Hbw & He). exists b. eexists. split; [exact E|]. split; [exact Hbw|]. split; [exact He|]. exact K.
    - unfold bottom_n, ma_bottom_n_mask. rewrite (own_map mem a labels nos d Hw Hpl Hs). cbn [bind].
      destruct (mask_ok nan a _ g w (proj1 K) Hg) as (b & E & Hbw & He). exists b. eexists. split; [exact E|]. split; [exact Hbw|]. split; [exact He|]. exact K.
  Qed.
End Best.
