(** * Indicators over parameters: one combination per column *)
From Coq Require Import String ZArith Bool List Arith Lia.
From Verif Require Import Base Grouper IndexFns BaseFnsSpec BaseFnsLemmas4 BroadcastSpec BroadcastLemmas2 Indicator IndicatorSpec
  IndicatorLemmas IndicatorLemmas2 IndicatorLemmas3 IndicatorLemmas4 IndicatorLemmas5 IndicatorLemmas7 IndicatorLemmas8.
Import ListNotations.
Local Open Scope nat_scope.

Section Pipeline.
Context {V P : Type}.
Variable peq : P -> P -> bool.
Variable hashable : P -> bool.
Variable label_of : P -> Label.

Definition own_levels (nm : Naming) (params : list (list P)) (s : nat) : list Level :=
  flat_map (fun q => if existsb (Nat.eqb (fst q)) (nm_hidden nm) then []
                     else [mkLevel (nth (fst q) (nm_levels nm) None) (map label_of (snd q))]) (combine (seq s (length params)) params).
Lemma own_spec : forall nm w params s,
  flat_map levels_of (map snd (filter (fun p => negb (existsb (Nat.eqb (fst p)) (nm_hidden nm)))
    (combine (seq s (length params)) (map (fun p => param_level label_of nm w true (fst p) (snd p)) (combine (seq s (length params)) params)))))
  = own_levels nm params s.
Proof.
  intros nm w params s. revert s. induction params as [|l params IH]; intros s; [reflexivity|]. unfold own_levels in *.
  cbn [length seq combine map filter fst snd flat_map]. specialize (IH (S s)). destruct (existsb (Nat.eqb s) (nm_hidden nm)); cbn [negb map flat_map]; [exact IH|].
  rewrite IH. reflexivity.
Qed.
Lemma own_labels : forall nm params s c,
  map (fun l => (lv_name l, nth c (lv_values l) (LInt 0))) (own_levels nm params s)
  = flat_map (fun q => if existsb (Nat.eqb (fst q)) (nm_hidden nm) then []
                     else [(nth (fst q) (nm_levels nm) None, nth c (map label_of (snd q)) (LInt 0))]) (combine (seq s (length params)) params).
Proof. intros nm params s c. unfold own_levels. rewrite map_flat_map. apply flat_map_ext. intros [i l]. cbn [fst snd]. destruct (existsb _ _); reflexivity. Qed.

Lemma build_own_columns : forall nm params ic w idxs ci, of_length w ic -> (forall l, In l params -> length l = w) ->
  build_columns label_of nm params ic true = Ok (idxs, ci) ->
  idxs = map (fun q => Plain (mkLevel (nth (fst q) (nm_levels nm) None) (map label_of (snd q)))) (combine (seq 0 (length params)) params) /\
  forall c, c < w ->
    sublist (labels_at ci c) (param_labels label_of nm params c ++ labels_at ic c) /\
    (forall s y, In (Some s, y) (param_labels label_of nm params c) -> In (Some s, y) (labels_at ci c)).
Proof.
  intros nm params ic w idxs ci Hic Hr H. unfold build_columns in H. cbv zeta in H. set (ix := map _ (combine _ params)) in *.
  assert (Lix : length ix = length params) by (unfold ix; rewrite map_length, combine_length, seq_length; lia).
  rewrite Lix in H. pose proof (own_spec nm (index_len ic) params 0) as Hsh. fold ix in Hsh.
  assert (Eix : ix = map (fun q => Plain (mkLevel (nth (fst q) (nm_levels nm) None) (map label_of (snd q)))) (combine (seq 0 (length params)) params)) by reflexivity.
  set (shown := map snd (filter _ _)) in *.
  assert (Hplain : forall x, In x shown -> exists l, x = Plain l).
  { intros x Hx. unfold shown in Hx. apply in_map_iff in Hx. destruct Hx as ([i y] & <- & Hy). apply filter_In in Hy. destruct Hy as [Hy _].
    apply in_combine_r in Hy. cbn [snd]. rewrite Eix in Hy. apply in_map_iff in Hy. destruct Hy as (q & <- & _). eauto. }
  clearbody shown. assert (Hlab : forall c, map (fun l => (lv_name l, nth c (lv_values l) (LInt 0))) (own_levels nm params 0) = param_labels label_of nm params c) by (intros c; apply own_labels).
  destruct shown as [|x0 xs].
  - injection H as <- <-. split; [exact Eix|]. intros c Hc. rewrite <- (Hlab c), <- Hsh. cbn [map flat_map app]. split; [apply sublist_refl|]. intros s y [].
  - rewrite stack_flat, Hsh in H.
    assert (Hm : of_length w (Multi (own_levels nm params 0))).
    { split; cbn [levels_of].
      - rewrite <- Hsh. destruct (Hplain x0 (or_introl eq_refl)) as [l ->]. discriminate.
      - apply Forall_forall. intros l Hl. unfold own_levels in Hl. apply in_flat_map in Hl. destruct Hl as ([i ps] & Hin & Hl).
        pose proof (in_combine_snd _ _ _ Hin) as Hps. cbn [fst snd] in *. destruct (existsb _ _); [contradiction|]. destruct Hl as [<-|[]].
        cbn [lv_values]. rewrite map_length. apply Hr. exact Hps. }
    destruct (stack_spec _ _ (nm_drop_duplicates nm) (nm_keep_first nm) (nm_drop_redundant nm) _ Hm Hic) as (s & Es & Hs1 & Hs2 & Hs3).
    rewrite Es in H. cbn [bind] in H. injection H as <- <-. split; [exact Eix|]. intros c Hc. cbn [levels_of] in Hs2, Hs3. split.
    + rewrite <- (Hlab c). unfold labels_at. rewrite <- map_app. apply sublist_map. exact Hs2.
    + intros t y Hin. rewrite <- (Hlab c) in Hin. apply in_map_iff in Hin. destruct Hin as (l & El' & Hl). unfold labels_at. apply in_map_iff. exists l.
      split; [exact El'|]. destruct (Hs3 l) as [Hs|[_ Hu]]; [apply in_or_app; left; exact Hl|exact Hs|]. exfalso. apply (uninformative_named l t Hu). congruence.
Qed.

Lemma columns_mapM : forall (fs : list (Frame V)) c ys, mapM (fun f => column f c) fs = Ok ys -> ys = only_column fs c.
Proof.
  intros fs c. induction fs as [|f fs IH]; intros ys H; cbn [mapM] in H; [injection H as <-; reflexivity|].
  unfold column in H at 1. destruct (nth_error f c) as [x|] eqn:E; cbn [bind] in H; [|discriminate]. destruct (mapM _ fs) as [zs|]; cbn [bind] in H; [|discriminate].
  injection H as <-. rewrite (IH zs eq_refl). unfold only_column. cbn [map]. rewrite (nth_error_nth _ _ [] E). reflexivity.
Qed.
Lemma items_mapM : forall (ps : list (list P)) c ys, mapM (fun l => let! x := item l c in Ok [x]) ps = Ok ys ->
  rect ys /\ n_values ys = 1 /\ row ys 0 = row ps c.
Proof.
  intros ps c ys H. assert (G : (forall l, In l ys -> length l = 1) /\ row ys 0 = row ps c).
  { revert ys H. induction ps as [|l ps IH]; intros ys H; cbn [mapM] in H; [injection H as <-; split; [intros l []|reflexivity]|].
    unfold item in H at 1. destruct (nth_error l c) as [x|] eqn:E; cbn [bind] in H; [|discriminate]. destruct (mapM _ ps) as [zs|]; cbn [bind] in H; [|discriminate].
    injection H as <-. destruct (IH zs eq_refl) as [A B]. split; [intros l' [<-|Hl]; [reflexivity|auto]|]. unfold row in *. cbn [flat_map]. rewrite E, B. reflexivity. }
  destruct G as [A B]. assert (n_values ys = 1) by (destruct ys; [reflexivity|]; cbn; apply A; now left). split; [|auto]. intros l Hl. rewrite H0. auto.
Qed.

Lemma one_call : forall m (apply : @Apply V P) inputs params rows, keeps_shape m apply inputs rows 1 -> rect params -> n_values params = 1 ->
  forall r, from_apply_func m apply inputs [] params = Ok r -> exists io, apply inputs [] (row params 0) = Ok (io, snd r) /\ length (snd r) = m.
Proof.
  intros m apply inputs params rows Hk Hr Hn r H. unfold from_apply_func in H. cbv zeta in H. rewrite Hn in H. cbn [seq mapM zip_star] in H.
  rewrite (zip_row params (n_values params) 0 Hr) in H by lia. cbn [nth] in H.
  destruct (apply inputs [] (row params 0)) as [[io os]|] eqn:E; cbn [bind] in H; [|discriminate]. cbn [map snd] in H.
  pose proof (Hk _ _ _ _ (Forall_nil _) E) as (_ & Lm & _ & Ho). exists io.
  destruct m as [|m]; cbn [bind] in H.
  - injection H as <-. cbn [snd]. destruct os; [auto|discriminate].
  - destruct (mapM hstack _) as [o2|] eqn:F; cbn [bind] in H; [|discriminate]. injection H as <-. cbn [snd]. apply mapM_hstack in F.
    assert (Eo2 : o2 = os); [|rewrite Eo2; auto]. rewrite F. cbn [zip_star]. rewrite map_map. cbn [List.concat]. rewrite (map_ext _ (fun x => x)) by (intros; apply app_nil_r). apply map_id.
Qed.

Theorem run_own_columns : forall m (apply : @Apply V P) new nm a x rows cols,
  a_per_column a = true -> a_shape a = Some (rows, cols) -> a_in_outputs a = [] -> Forall (has_shape rows cols) (a_inputs a) ->
  (forall c, c < cols -> keeps_shape m apply (only_column (a_inputs a) c) rows 1) -> columns_fit nm cols ->
  run peq hashable label_of m (from_apply_func m apply) new nm a = Ok x ->
  let params := in_params x in
  expand_params (a_params a) (a_product a) true cols = Ok params /\ number_of_columns x = cols /\
  forall c, c < cols -> exists io outs, apply (only_column (a_inputs a) c) [] (row params c) = Ok (io, outs) /\
    let w := view x c in
    v_outputs w = columns_at outs 0 /\ v_inputs w = columns_at (a_inputs a) c /\ v_params w = map label_of (row params c) /\
    sublist (v_labels w) (param_labels label_of nm params c ++ input_labels nm cols c) /\
    (forall s y, In (Some s, y) (param_labels label_of nm params c) -> In (Some s, y) (v_labels w)).
Proof.
  intros m apply new nm a x rows cols Hpc Hsh Hio Hin Hk Hfit H. unfold run in H. apply raise_ok in H. destruct H as [_ H].
  unfold columns_of_shape in H. rewrite Hpc, Hsh in H. destruct (expand_params _ _ true cols) as [params|] eqn:Ee; cbn [bind] in H; [|discriminate].
  destruct (run_raw _ _ _ _ _ _ _) as [[[raw n_in] used]|] eqn:E; cbn [bind] in H; [|discriminate].
  unfold run_raw in E. rewrite Hpc, andb_false_r in E. unfold unique_params in E. cbn [andb] in E. cbv zeta in E.
  rewrite Hio, Hsh in E. cbn [given_idxs length seq combine filter map Nat.ltb Nat.leb andb raise_if wide_in_outputs bind mapM] in E.
  unfold raise_if at 1 in E. cbn [wide_in_outputs given flat_map bind map mapM] in E.
  destruct (mapM _ (seq 0 cols)) as [per|] eqn:Eper in E; cbn [bind] in E; [|discriminate].
  destruct (mapM_seq _ cols per ([], []) Eper) as [Lper Hper].
  assert (Hcol : forall c, c < cols -> exists io, apply (only_column (a_inputs a) c) [] (row params c) = Ok (io, snd (nth c per ([], []))) /\ length (snd (nth c per ([], []))) = m
     /\ Forall (has_shape rows 1) (snd (nth c per ([], [])))).
  { intros c Hc. specialize (Hper c Hc). cbn beta in Hper. destruct (mapM (fun f => column f c) (a_inputs a)) as [ins|] eqn:E1; cbn [bind] in Hper; [|discriminate].
    apply columns_mapM in E1. subst ins. destruct (mapM (fun l => let! x := item l c in Ok [x]) params) as [ps|] eqn:E2; cbn [bind] in Hper; [|discriminate].
    destruct (items_mapM params c ps E2) as (R1 & R2 & R3).
    destruct (from_apply_func m apply (only_column (a_inputs a) c) [] ps) as [r|] eqn:E3; cbn [bind] in Hper; [|discriminate].
    destruct (one_call m apply _ ps rows (Hk c Hc) R1 R2 r E3) as (io & A & B). rewrite R3 in A.
    unfold _split_output in Hper. replace (firstn m (snd r)) with (snd r) in Hper by (rewrite <- B; symmetry; apply firstn_all). cbv zeta in Hper. rewrite B, Nat.eqb_refl in Hper. cbn [negb raise_if bind] in Hper.
    unfold raise_if in Hper. cbn [bind] in Hper. injection Hper as Hper. rewrite <- Hper. cbn [snd]. exists io. split; [exact A|]. split; [exact B|]. apply (Hk c Hc) in A; [|constructor]. apply A. }
  destruct (mapM hstack _) as [outs|] eqn:Eo in E; cbn [bind] in E; [|discriminate]. apply mapM_hstack in Eo.
  cbn [fst snd] in E.
  assert (Ew : forall A B (l : list A), combine l (@nil B) = []) by (intros A B [|? ?]; reflexivity). rewrite Ew in E. cbn [map app] in E.
  destruct outs as [|o outs]; [discriminate|]. apply raise_ok in E. destruct E as [_ E]. cbn [negb andb] in E. unfold raise_if at 1 in E.
  apply raise_ok in E. destruct E as [_ E]. injection E as <- <- <-. cbn [bind raw_outputs raw_cols] in H.
  assert (Hcols : 0 < cols) by (destruct cols; [|lia]; destruct per; [discriminate Eo|discriminate Lper]).
  assert (Hlen : forall r, In r (map snd per) -> length r = m).
  { intros r Hr. apply in_map_iff in Hr. destruct Hr as (q & <- & Hq). destruct (In_nth _ _ ([], []) Hq) as (c & Hc & <-). rewrite Lper in Hc. destruct (Hcol c Hc) as (io & _ & A & _). exact A. }
  assert (Hne : map snd per <> []) by (destruct per; [cbn in Lper; lia|discriminate]).
  rewrite (zip_star_spec [] (map snd per) m Hne Hlen) in Eo. rewrite map_map in Eo.
  assert (Hw : forall k, k < m -> Forall (fun f : Frame V => length f = 1) (map (fun r => nth k r []) (map snd per))).
  { intros k Hkm. apply Forall_forall. intros f Hf. rewrite map_map in Hf. apply in_map_iff in Hf. destruct Hf as (q & <- & Hq). destruct (In_nth _ _ ([], []) Hq) as (c & Hc & <-). rewrite Lper in Hc.
    destruct (Hcol c Hc) as (io & _ & A & B). eapply Forall_forall in B; [apply B|]. apply nth_In. lia. }
  set (all := o :: outs) in *. assert (Lall : forall f, In f all -> length f = cols).
  { intros f Hf. rewrite Eo in Hf. apply in_map_iff in Hf. destruct Hf as (k & <- & Hkk). apply in_seq in Hkk. rewrite (concat_len _ 1) by (apply Hw; lia). rewrite !map_length. lia. }
  unfold finish in H. unfold all in H. rewrite Hsh, Hpc in H. cbv zeta in H. fold all in H. fold (columns_of nm cols) in H.
  pose proof (columns_of_length nm cols Hfit) as Hic. assert (Eic : index_len (columns_of nm cols) = cols) by (apply index_len_levels; apply Hic).
  rewrite Eic in H. unfold input_labels. fold (columns_of nm cols).
  destruct (match params with [] => _ | _ => _ end) as [[idxs ci]|] eqn:Eb in H; cbn [bind] in H; [|discriminate]. cbn [fst snd firstn skipn] in H.
  apply make_ok in H. destruct H as (-> & Hm & Hs & Hmap). cbn [in_mapper in_in_outputs in_outputs in_rows in_mappers in_columns in_params in_inputs in_names] in *.
  unfold number_of_columns in *. cbn [in_columns app] in *.
  assert (EN : index_len ci = cols) by (inversion Hs as [|? ? [_ A] _]; subst; rewrite <- A; apply Lall; now left).
  split; [reflexivity|]. split; [exact EN|]. intros c Hc. destruct (Hcol c Hc) as (io & Hap & Lm & Hsp). exists io, (snd (nth c per ([], []))). split; [exact Hap|]. cbv zeta.
  unfold view. cbn [v_outputs v_inputs v_params v_labels in_mapper in_in_outputs in_outputs in_rows in_mappers in_columns in_params in_inputs].
  split; [|split].
  - unfold columns_at. rewrite Eo, map_map. rewrite <- (map_nth_seq_all (snd (nth c per ([], []))) []), Lm, map_map. apply map_ext_in. intros k Hkk. apply in_seq in Hkk.
    pose proof (concat_nth _ 1 c 0 [] (Hw k ltac:(lia))) as G. rewrite !map_length, Lper in G. specialize (G Hc ltac:(lia)). rewrite Nat.mul_1_r, Nat.add_0_r in G. rewrite G.
    f_equal. rewrite map_map. rewrite (nth_indep _ [] (nth k (@snd (list (list (Frame V))) (list (Frame V)) ([], [])) [])) by (rewrite map_length; lia). rewrite (map_nth (fun r => nth k (snd r) [])). reflexivity.
  - unfold columns_at, input_shown. cbn [in_inputs in_mapper]. destruct params as [|ps0 params].
    + rewrite <- (map_map (fun k => nth k (a_inputs a) []) (fun f => nth c f [])), map_nth_seq_all. reflexivity.
    + destruct (a_inputs a) as [|f0 fs] eqn:Ea; [reflexivity|]. rewrite <- Ea in *. clear Ea f0 fs.
      rewrite <- (map_map (fun k => nth k (a_inputs a) []) (fun f => nth c (take [] (seq 0 cols) f) [])), map_nth_seq_all.
      apply map_ext. intros f. rewrite take_nth by (rewrite seq_length; exact Hc). rewrite seq_nth by exact Hc. reflexivity.
  - destruct params as [|ps0 params].
    + injection Eb as <- <-. split; [reflexivity|]. split; [apply sublist_refl|]. intros s y [].
    + set (ps := ps0 :: params) in *. assert (Hps : forall l, In l ps -> length l = cols).
      { intros l Hl. assert (Hrect : rect ps) by (eapply expand_rect; [exact Ee|lia]). rewrite (Hrect l Hl).
        unfold expand_params in Ee. cbv zeta in Ee. set (pl := if _ && a_product a then _ else _) in Ee. clearbody pl. destruct pl; [discriminate|].
        unfold broadcast_params in Ee. cbn [n_values]. eapply broadcast_all_len; [exact Ee|left; lia|now left]. }
      destruct (build_own_columns nm ps (columns_of nm cols) cols idxs ci Hic Hps Eb) as [-> Hl]. destruct (Hl c Hc) as [L1 L2]. split; [|split; [exact L1|exact L2]].
      rewrite map_map. cbn [mapper_values lv_values].
      assert (Hd : exists d : P, True) by (specialize (Hps ps0 (or_introl eq_refl)); destruct ps0; [cbn in Hps; lia|eauto]). destruct Hd as [d _].
      rewrite (row_map ps cols c d Hps Hc), map_map. generalize 0 at 1. clear - Hps Hc. revert Hps. generalize ps as ll. intros ll.
      induction ll as [|l ll IH]; intros G s; [reflexivity|]. cbn [length seq combine map fst snd]. f_equal.
      * rewrite (nth_indep _ (LInt 0) (label_of d)) by (rewrite map_length, (G l); [exact Hc|now left]). apply map_nth.
      * apply IH. intros l' Hl'. apply G. now right.
Qed.
End Pipeline.
