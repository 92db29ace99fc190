(** * Indicators over parameters: selecting columns, combinations of indicators, and the two loops *)
From Coq Require Import String ZArith Bool List Arith Lia.
From Verif Require Import Base Grouper IndexFns BaseFnsLemmas BaseFnsLemmas4 BaseFnsLemmas5 BroadcastSpec BroadcastLemmas2 Indicator IndicatorSpec
  IndicatorLemmas IndicatorLemmas2 IndicatorLemmas3 IndicatorLemmas4 IndicatorLemmas5 IndicatorLemmas6 IndicatorLemmas7.
Import ListNotations.
Local Open Scope nat_scope.

(** ** The two loops *)
Lemma write_chunks_map : forall {V} (f f' : nat -> Frame V) (g : nat -> nat) (h : nat -> Frame V) i ks,
  (forall k, In k ks -> write_chunk (f k) (g k) i (h k) = Ok (f' k)) ->
  write_chunks (map f ks) (map g ks) i (map h ks) = Ok (map f' ks).
Proof.
  intros V f f' g h i. induction ks as [|k ks IH]; intros H; [reflexivity|]. cbn [map write_chunks]. rewrite (H k) by now left. cbn [bind].
  rewrite IH by (intros k' Hk; apply H; now right). reflexivity.
Qed.
Lemma map_nth_seq_all : forall {A} (l : list A) d, map (fun k => nth k l d) (seq 0 (length l)) = l.
Proof. intros A l d. induction l as [|f l IH]; [reflexivity|]. cbn [length seq map nth]. f_equal. rewrite <- seq_shift, map_map. exact IH. Qed.

Lemma rows_shape : forall {V} (f : Frame V) r c, has_shape r c f -> rows_of_frame f = match c with 0 => 0 | _ => r end.
Proof. intros V [|x f] r c [L H]; cbn in L; subst c; [reflexivity|]. cbn. apply H. now left. Qed.

Theorem loops_agree : forall {V} (junk : V) (shapes : list (nat * nat)) n (f : nat -> res (list (Frame V))), 0 < n ->
  (forall i outs, i < n -> f i = Ok outs -> Forall2 (fun s o => has_shape (fst s) (snd s) o) shapes outs) ->
  apply_and_concat_multiple_nb junk n f = apply_and_concat_multiple n f.
Proof.
  intros V junk shapes n f Hn Hf. set (m := length shapes).
  assert (Hlen : forall i outs, i < n -> f i = Ok outs -> length outs = m) by (intros i outs Hi E; symmetry; apply (F2_len _ _ _ (Hf i outs Hi E))).
  assert (Hsh : forall i outs k, i < n -> f i = Ok outs -> k < m -> has_shape (fst (nth k shapes (0, 0))) (snd (nth k shapes (0, 0))) (nth k outs [])).
  { intros i outs k Hi E Hk. apply (F2_nth _ _ _ k (0, 0) [] (Hf i outs Hi E) Hk). }
  unfold apply_and_concat_multiple_nb, apply_and_concat_multiple.
  destruct (f 0) as [o0|e] eqn:E0; cbn [bind]; [|destruct n; [lia|]; cbn [seq mapM]; rewrite E0; reflexivity].
  set (R := fun k => rows_of_frame (nth k o0 [])). set (W := fun k => snd (nth k shapes (0, 0))).
  set (st := fun (prefix : list (list (Frame V))) => map (fun k => List.concat (map (fun r => nth k r []) prefix) ++ repeat (repeat junk (R k)) ((n - length prefix) * W k)) (seq 0 m)).
  assert (Erows : map rows_of_frame o0 = map R (seq 0 m)).
  { unfold R. rewrite <- (map_map (fun k => nth k o0 []) rows_of_frame). rewrite <- (Hlen 0 o0 Hn E0), map_nth_seq_all. reflexivity. }
  assert (Eempty : map (fun o => repeat (repeat junk (rows_of_frame o)) (n * length o)) o0 = st []).
  { unfold st. cbn [map List.concat app length]. rewrite Nat.sub_0_r.
    transitivity (map (fun o => repeat (repeat junk (rows_of_frame o)) (n * length o)) (map (fun k => nth k o0 []) (seq 0 m))); [rewrite <- (Hlen 0 o0 Hn E0), map_nth_seq_all; reflexivity|].
    rewrite map_map. apply map_ext_in. intros k Hk. apply in_seq in Hk. unfold R, W. rewrite (proj1 (Hsh 0 o0 k Hn E0 ltac:(lia))). reflexivity. }
  rewrite Erows, Eempty.
  assert (Hfold : forall len prefix, length prefix + len = n -> (forall r k, In r prefix -> k < m -> length (nth k r []) = W k) ->
    foldM (fun outputs i => let! outputs_i := (if Nat.eqb i 0 then Ok o0 else f i) in write_chunks outputs (map R (seq 0 m)) i outputs_i) (st prefix) (seq (length prefix) len)
    = let! ys := mapM f (seq (length prefix) len) in Ok (st (prefix ++ ys))).
  { induction len as [|len IH]; intros prefix Hl Hp; cbn [seq foldM mapM bind]; [rewrite app_nil_r; reflexivity|].
    set (i := length prefix) in *. assert (Ei : (if Nat.eqb i 0 then Ok o0 else f i) = f i) by (destruct (Nat.eqb_spec i 0) as [->|]; [symmetry; exact E0|reflexivity]).
    rewrite Ei. destruct (f i) as [y|e] eqn:Ey; cbn [bind]; [|reflexivity].
    assert (Hi : i < n) by lia. assert (Hw : write_chunks (st prefix) (map R (seq 0 m)) i y = Ok (st (prefix ++ [y]))).
    { transitivity (write_chunks (st prefix) (map R (seq 0 m)) i (map (fun k => nth k y []) (seq 0 m))).
      { rewrite <- (Hlen i y Hi Ey), map_nth_seq_all. reflexivity. }
      unfold st. apply write_chunks_map. intros k Hk. apply in_seq in Hk. pose proof (Hsh i y k Hi Ey ltac:(lia)) as Sy. pose proof (Hsh 0 o0 k Hn E0 ltac:(lia)) as S0.
      assert (LA : length (List.concat (map (fun r => nth k r []) prefix)) = i * W k).
      { rewrite (concat_len _ (W k)); [rewrite map_length; reflexivity|]. apply Forall_forall. intros g Hg. apply in_map_iff in Hg. destruct Hg as (r & <- & Hr). apply Hp; [exact Hr|lia]. }
      unfold write_chunk. cbv zeta. rewrite app_length, LA, repeat_length. replace (length (nth k y [])) with (W k) by (symmetry; apply Sy).
      assert (EW : i * W k + (n - i) * W k = n * W k) by nia. fold i. rewrite EW.
      assert (S i * W k <= n * W k) by (apply Nat.mul_le_mono_r; lia). assert (i * W k <= n * W k) by (apply Nat.mul_le_mono_r; lia).
      rewrite (Nat.min_l (S i * W k)), (Nat.min_l (i * W k)) by assumption.
      replace (S i * W k - i * W k) with (W k) by lia. rewrite Nat.eqb_refl.
      assert (ER : rows_of_frame (nth k y []) = R k) by (unfold R; rewrite (rows_shape _ _ _ Sy), (rows_shape _ _ _ S0); reflexivity).
      rewrite ER, Nat.eqb_refl. cbn [andb negb raise_if]. f_equal.
      rewrite firstn_app, LA, Nat.sub_diag, firstn_O, app_nil_r. rewrite <- LA at 1. rewrite firstn_all.
      rewrite map_app, concat_app. cbn [map List.concat]. rewrite app_nil_r, <- app_assoc. f_equal. f_equal.
      rewrite skipn_app, LA, skipn_all2 by (rewrite LA; lia). cbn [app]. replace (S i * W k - i * W k) with (W k) by lia.
      rewrite app_length. cbn [length]. fold i. replace ((n - i) * W k) with (W k + (n - (i + 1)) * W k) by nia.
      rewrite repeat_app, skipn_app, repeat_length, Nat.sub_diag, skipn_all2 by (rewrite repeat_length; lia). reflexivity. }
    unfold raise_if in Hw. rewrite Hw. cbn [bind].
    specialize (IH (prefix ++ [y])). rewrite app_length in IH. cbn [length] in IH. fold i in IH. replace (i + 1) with (S i) in IH by lia.
    rewrite IH.
    - destruct (mapM f (seq (S i) len)) as [ys|]; cbn [bind]; [|reflexivity]. rewrite <- app_assoc. reflexivity.
    - lia.
    - intros r k Hr Hk. apply in_app_or in Hr. destruct Hr as [Hr|[<-|[]]]; [apply Hp; assumption|]. apply (Hsh i y k Hi Ey Hk). }
  pose proof (Hfold n [] eq_refl ltac:(intros r k [])) as HF. cbn [length app] in HF. rewrite HF.
  destruct (mapM f (seq 0 n)) as [ys|] eqn:EM; cbn [bind]; [|reflexivity].
  destruct (mapM_seq f n ys [] EM) as [Ly Hy].
  assert (Hyl : forall r, In r ys -> length r = m). { intros r Hr. destruct (In_nth _ _ [] Hr) as (i & Hi & <-). rewrite Ly in Hi. apply (Hlen i _ Hi (Hy i Hi)). }
  assert (Hne : ys <> []) by (intros ->; cbn in Ly; lia).
  rewrite (zip_star_spec [] ys m Hne Hyl). symmetry. unfold st. rewrite Ly, Nat.sub_diag. cbn [Nat.mul repeat].
  rewrite (mapM_total hstack (@List.concat (list V))).
  - rewrite map_map. f_equal. apply map_ext. intros k. rewrite app_nil_r. reflexivity.
  - intros x Hx. apply in_map_iff in Hx. destruct Hx as (k & <- & Hk). apply in_seq in Hk.
    apply (hstack_shape _ (fst (nth k shapes (0, 0))) (snd (nth k shapes (0, 0)))); [destruct ys; [congruence|discriminate]|].
    apply Forall_forall. intros g Hg. apply in_map_iff in Hg. destruct Hg as (r & <- & Hr). destruct (In_nth _ _ [] Hr) as (i & Hi & <-). rewrite Ly in Hi.
    apply (Hsh i _ k Hi (Hy i Hi)). lia.
Qed.

Section Pipeline.
Context {V P : Type}.
Variable peq : P -> P -> bool.
Variable hashable : P -> bool.
Variable label_of : P -> Label.

(** ** Selecting columns by a parameter *)
Record sound (x : @Indicator V P) : Prop := mkSound {
  sd_make : make_indicator x = Ok x;
  sd_mapper : in_mapper x = None -> in_inputs x = [] \/ in_mappers x = [];
  sd_plain : forall m, In m (in_mappers x) -> exists l, m = Plain l
}.
Lemma make_again : forall x y : @Indicator V P, make_indicator x = Ok y -> y = x /\ make_indicator x = Ok x.
Proof. intros x y H. destruct (make_ok _ _ H) as [-> _]. auto. Qed.
Lemma param_level_plain : forall nm n pc i (ps : list P), exists l, param_level label_of nm n pc i ps = Plain l.
Proof. intros. unfold param_level, repeat_index. destruct pc; [eauto|]. destruct (_ && _); cbn [map_levels]; eauto. Qed.
Lemma finish_sound : forall nm (a : @Args V P) params q nic outs x, finish label_of nm a params q nic outs = Ok x -> sound x.
Proof.
  intros nm a params q nic outs x H. unfold finish in H. destruct outs; [discriminate|]. cbv zeta in H.
  destruct (match params with [] => _ | _ => _ end) as [[idxs ci]|] eqn:Eb in H; cbn [bind] in H; [|discriminate].
  destruct (make_again _ _ H) as [E M]. subst x. constructor; [exact M| |]; cbn [in_mapper in_inputs in_mappers fst].
  - destruct params; [injection Eb as <- <-; auto|]. destruct (a_inputs a); [auto|discriminate].
  - destruct params; [injection Eb as <- <-; intros m []|]. unfold build_columns in Eb. cbv zeta in Eb.
    set (ix := map (fun p => param_level label_of nm _ _ (fst p) (snd p)) _) in Eb.
    assert (Hix : forall m, In m ix -> exists l, m = Plain l) by (intros m Hm; unfold ix in Hm; apply in_map_iff in Hm; destruct Hm as (q0 & <- & _); apply param_level_plain).
    clearbody ix. destruct (map snd _); [injection Eb as <- <-; exact Hix|]. destruct (stack_indexes _ _ _ _); cbn [bind] in Eb; [|discriminate]. injection Eb as <- <-. exact Hix.
Qed.
Lemma select_sound : forall (x y : @Indicator V P) idxs ci, sound x -> select_columns x idxs ci = Ok y -> sound y.
Proof.
  intros x y idxs ci [_ Hm Hp] H. unfold select_columns in H. destruct (make_again _ _ H) as [-> M]. constructor; [exact M| |]; cbn [in_mapper in_inputs in_mappers].
  - destruct (in_mapper x); [discriminate|]. intros _. destruct (Hm eq_refl) as [->| ->]; auto.
  - intros m Hin. apply in_map_iff in Hin. destruct Hin as (m0 & <- & H0). destruct (Hp m0 H0) as [l ->]. cbn [map_levels]. eauto.
Qed.
Lemma made_sound : forall x : @Indicator V P, made peq hashable label_of x -> sound x.
Proof.
  intros x H. induction H as [m custom new nm a x H|nm a raw x H|x j key y _ IH H|x j keys y _ IH H].
  - unfold run in H. apply raise_ok in H. destruct H as [_ H]. destruct (expand_params _ _ _ _); cbn [bind] in H; [|discriminate].
    destruct (run_raw _ _ _ _ _ _ _) as [[[raw n_in] used]|]; cbn [bind] in H; [|discriminate]. destruct (if used then _ else _); cbn [bind] in H; [|discriminate].
    eapply finish_sound. exact H.
  - unfold run_use_raw in H. apply raise_ok in H. destruct H as [_ H]. destruct (expand_params _ _ _ _); cbn [bind] in H; [|discriminate].
    destruct (_use_raw _ _ _); cbn [bind] in H; [|discriminate]. eapply finish_sound. exact H.
  - unfold param_loc in H. destruct (nth_error (in_mappers x) j); [|discriminate]. destruct (indices_of _ _); cbn [bind] in H; [|discriminate].
    destruct (match nth j (in_names x) None with None => _ | _ => _ end); cbn [bind] in H; [|discriminate]. eapply select_sound; [exact IH|exact H].
  - unfold param_loc_list in H. destruct (nth_error (in_mappers x) j); [|discriminate]. destruct (indices_of_all _ _); cbn [bind] in H; [|discriminate].
    eapply select_sound; [exact IH|exact H].
Qed.

Lemma positions_spec : forall key values i, In i (positions key values) <-> nth_error values i = Some key.
Proof.
  intros key values. unfold positions.
  assert (G : forall vs s i, In i (map fst (filter (fun p => label_eqb (snd p) key) (combine (seq s (length vs)) vs))) <-> s <= i /\ nth_error vs (i - s) = Some key).
  { induction vs as [|v vs IH]; intros s i; cbn [length seq combine filter map].
    - split; [intros []|intros [_ H]]. destruct (i - s); discriminate H.
    - assert (D : In i (map fst (filter (fun p => label_eqb (snd p) key) (combine (seq (S s) (length vs)) vs))) <-> s < i /\ nth_error (v :: vs) (i - s) = Some key).
      { rewrite (IH (S s) i). split; intros [A B]; (split; [lia|]); (replace (i - s) with (S (i - S s)) in * by lia); exact B. }
      cbn [snd]. destruct (label_eqb v key) eqn:E.
      + apply label_eqb_spec in E. subst v. cbn [map fst In]. rewrite D. split.
        * intros [->|[A B]]; [split; [lia|]; rewrite Nat.sub_diag; reflexivity|split; [lia|exact B]].
        * intros [A B]. destruct (Nat.eq_dec s i); [auto|]. right. split; [lia|exact B].
      + rewrite D. split; intros [A B]; (split; [|exact B]); [lia|]. destruct (Nat.eq_dec s i) as [->|]; [|lia].
        rewrite Nat.sub_diag in B. cbn in B. injection B as ->. rewrite label_eqb_refl in E. discriminate. }
  intros i. rewrite (G values 0 i), Nat.sub_0_r. split; [tauto|]. intros H. split; [lia|exact H].
Qed.
Lemma positions_sorted : forall key values, Sorted.StronglySorted lt (positions key values).
Proof.
  intros key values. unfold positions. generalize 0. induction values as [|v vs IH]; intros s; cbn [length seq combine filter map]; [constructor|].
  cbn [snd]. specialize (IH (S s)). destruct (label_eqb v key); [|exact IH]. cbn [map fst]. constructor; [exact IH|].
  apply Forall_forall. intros i Hi. apply in_map_iff in Hi. destruct Hi as ([j y] & <- & Hj). apply filter_In in Hj. destruct Hj as [Hj _]. apply in_combine_l in Hj. apply in_seq in Hj. cbn. lia.
Qed.
Lemma chosen_positions : forall x j key m, sound x -> nth_error (in_mappers x) j = Some m ->
  forall i, In i (positions key (mapper_values m)) <-> chosen x j key i.
Proof.
  intros x j key m S Hm i. rewrite positions_spec. destruct S as [Mk _ Pl]. destruct (Pl m (nth_error_In _ _ Hm)) as [l ->]. cbn [mapper_values].
  destruct (make_ok _ _ Mk) as (_ & _ & _ & Hl). eapply Forall_forall in Hl; [|exact (nth_error_In _ _ Hm)]. cbn [index_len] in Hl.
  unfold chosen, view. cbn [v_params]. rewrite nth_error_map, Hm. cbn [option_map mapper_values]. split.
  - intros H. assert (i < length (lv_values l)) by (apply nth_error_Some; congruence). split; [unfold number_of_columns in *; lia|]. f_equal. apply nth_error_nth. exact H.
  - intros [A B]. injection B as B. rewrite <- B. apply nth_error_nth'. unfold number_of_columns in *. lia.
Qed.

Definition unlabelled (w : View V) : View V := mkView [] (v_inputs w) (v_in_outputs w) (v_outputs w) (v_params w).
Lemma select_views : forall (x y : @Indicator V P) idxs ci j m, sound x -> nth_error (in_mappers x) j = Some m ->
  Forall (fun i => i < number_of_columns x) idxs -> select_columns x idxs ci = Ok y ->
  number_of_columns y = length idxs /\ in_columns y = ci /\ in_params y = in_params x /\ in_names y = in_names x /\
  forall k, k < length idxs -> unlabelled (view y k) = unlabelled (view x (nth k idxs 0)).
Proof.
  intros x y idxs ci j m S Hm Hi H. unfold select_columns in H. destruct (make_ok _ _ H) as (-> & _ & _ & Hl). destruct S as [Mk Hmap Pl].
  destruct (make_ok _ _ Mk) as (_ & Hml & _).
  cbn [in_columns in_params in_names in_mappers] in *.
  split.
  - unfold number_of_columns in *. cbn [in_columns] in *.
    destruct (Pl m (nth_error_In _ _ Hm)) as [l ->]. assert (Hin : In (map_levels (take_level idxs) (Plain l)) (map (map_levels (take_level idxs)) (in_mappers x))) by (apply in_map, (nth_error_In _ _ Hm)).
    eapply Forall_forall in Hl; [|exact Hin]. rewrite <- Hl. cbn [map_levels index_len take_level lv_values]. unfold take. apply map_length.
  - split; [reflexivity|]. split; [reflexivity|]. split; [reflexivity|]. intros k Hk. unfold unlabelled, view, columns_at, input_shown.
    cbn [v_inputs v_in_outputs v_outputs v_params in_in_outputs in_outputs in_mappers in_inputs in_mapper]. rewrite !map_map. f_equal.
    + destruct (in_mapper x) as [mp|] eqn:Emp; cbn [option_map].
      * apply map_ext. intros f. assert (Hlt : nth k idxs 0 < length mp) by (rewrite Hml; eapply Forall_forall in Hi; [exact Hi|apply nth_In; exact Hk]).
        rewrite !take_nth; [reflexivity|exact Hlt|exact Hk|unfold take; rewrite map_length; exact Hk].
      * destruct (Hmap eq_refl) as [->|E]; [reflexivity|]. rewrite E in Hm. destruct j; discriminate Hm.
    + apply map_ext. intros f. apply take_nth. exact Hk.
    + apply map_ext. intros f. apply take_nth. exact Hk.
    + apply map_ext_in. intros m' Hm'. destruct (Pl m' Hm') as [l ->]. cbn [map_levels mapper_values take_level lv_values]. apply take_nth. exact Hk.
Qed.

Lemma labels_taken : forall x idxs k, k < length idxs -> labels_at (map_levels (take_level idxs) x) k = labels_at x (nth k idxs 0).
Proof.
  intros x idxs k Hk. unfold labels_at.
  assert (E : levels_of (map_levels (take_level idxs) x) = map (take_level idxs) (levels_of x)) by (destruct x; reflexivity).
  rewrite E, map_map. apply map_ext. intros l. cbn [take_level lv_name lv_values]. rewrite take_nth by exact Hk. reflexivity.
Qed.
Lemma view_eta : forall (a b : View V), unlabelled a = unlabelled b -> v_labels a = v_labels b -> a = b.
Proof. intros [] [] H E. cbn in E. unfold unlabelled in H. cbn in H. congruence. Qed.

Theorem selected_keys : forall (x y : @Indicator V P) j keys, made peq hashable label_of x -> param_loc_list x j keys = Ok y ->
  exists groups, Forall2 (fun key idxs => idxs <> [] /\ Sorted.StronglySorted lt idxs /\ forall i, In i idxs <-> chosen x j key i) keys groups /\
    in_params y = in_params x /\ number_of_columns y = length (List.concat groups) /\
    forall k, k < length (List.concat groups) -> view y k = view x (nth k (List.concat groups) 0).
Proof.
  intros x y j keys Hx H. apply made_sound in Hx. unfold param_loc_list in H. destruct (nth_error (in_mappers x) j) as [m|] eqn:Em; [|discriminate].
  unfold indices_of_all in H. destruct (mapM _ keys) as [groups|] eqn:Eg; cbn [bind] in H; [|discriminate]. apply mapM_ok in Eg.
  assert (F : Forall2 (fun key idxs => idxs <> [] /\ Sorted.StronglySorted lt idxs /\ forall i, In i idxs <-> chosen x j key i) keys groups).
  { clear - Eg Em Hx. induction Eg as [|key g keys groups H _ IH]; constructor; [|exact IH]. unfold indices_of in H.
    pose proof (chosen_positions x j key m Hx Em) as C. pose proof (positions_sorted key (mapper_values m)) as So.
    destruct (positions key (mapper_values m)) eqn:E; [discriminate|]. injection H as <-. split; [discriminate|]. split; [exact So|exact C]. }
  exists groups. split; [exact F|].
  assert (Hi : Forall (fun i => i < number_of_columns x) (List.concat groups)).
  { apply Forall_forall. intros i Hin. apply in_concat in Hin. destruct Hin as (g & Hg & Hin). clear - F Hg Hin. induction F as [|key g' keys groups (_ & _ & C) _ IH]; [contradiction|].
    destruct Hg as [->|Hg]; [|auto]. apply C in Hin. apply Hin. }
  destruct (select_views _ _ _ _ j m Hx Em Hi H) as (A & B & C & _ & D). split; [exact C|]. split; [exact A|]. intros k Hk. apply view_eta; [apply D; exact Hk|].
  unfold view. cbn [v_labels]. rewrite B. apply labels_taken. exact Hk.
Qed.

Lemma drop_by_name : forall ls (name : option string) i l s, filter (fun p => name_eqb (lv_name (snd p)) name) (combine (seq s (length ls)) ls) = [(i, l)] ->
  map snd (filter (fun p => negb (existsb (Nat.eqb (fst p)) [i])) (combine (seq s (length ls)) ls)) = filter (fun l => negb (name_eqb (lv_name l) name)) ls.
Proof.
  intros ls name i l s H.
  assert (G : forall p, In p (combine (seq s (length ls)) ls) -> existsb (Nat.eqb (fst p)) [i] = name_eqb (lv_name (snd p)) name).
  { intros [k l'] Hin. cbn [fst snd existsb]. rewrite orb_false_r. destruct (name_eqb (lv_name l') name) eqn:E.
    - assert (In (k, l') [(i, l)]) by (rewrite <- H; apply filter_In; auto). destruct H0 as [[= -> ->]|[]]. apply Nat.eqb_refl.
    - destruct (Nat.eqb_spec k i) as [->|]; [|reflexivity]. exfalso.
      assert (Hil : In (i, l) (filter (fun p => name_eqb (lv_name (snd p)) name) (combine (seq s (length ls)) ls))) by (rewrite H; now left).
      apply filter_In in Hil. destruct Hil as [Hil En]. cbn [snd] in En.
      assert (l' = l); [|congruence]. clear - Hin Hil. revert s Hin Hil. induction ls as [|x ls IH]; intros s Hin Hil; cbn [length seq combine] in *; [contradiction|].
      assert (N : forall y, In (s, y) (combine (seq (S s) (length ls)) ls) -> False) by (intros y Hy; apply in_combine_l, in_seq in Hy; lia).
      destruct Hin as [[= <- <-]|Hin], Hil as [[= E1]|Hil]; subst; auto; try (exfalso; eapply N; eassumption). eapply IH; eassumption. }
  rewrite (filter_ext_in _ (fun p => negb (name_eqb (lv_name (snd p)) name))) by (intros p Hp; rewrite (G p Hp); reflexivity).
  clear. revert s. induction ls as [|x ls IH]; intros s; [reflexivity|]. cbn [length seq combine filter snd]. destruct (name_eqb (lv_name x) name); cbn [negb map snd]; rewrite IH; reflexivity.
Qed.

Theorem selected_key : forall (x y : @Indicator V P) j key, made peq hashable label_of x -> param_loc x j key = Ok y ->
  exists idxs, idxs <> [] /\ Sorted.StronglySorted lt idxs /\ (forall i, In i idxs <-> chosen x j key i) /\
    in_params y = in_params x /\ number_of_columns y = length idxs /\
    forall k, k < length idxs -> let w := view x (nth k idxs 0) in
      view y k = mkView (match nth j (in_names x) None, in_columns x with
                         | Some name, Multi _ => without (Some name) (v_labels w)
                         | _, _ => v_labels w
                         end) (v_inputs w) (v_in_outputs w) (v_outputs w) (v_params w).
Proof.
  intros x y j key Hx H. apply made_sound in Hx. unfold param_loc in H. destruct (nth_error (in_mappers x) j) as [m|] eqn:Em; [|discriminate].
  unfold indices_of in H. pose proof (chosen_positions x j key m Hx Em) as C. pose proof (positions_sorted key (mapper_values m)) as So.
  destruct (positions key (mapper_values m)) as [|i0 idxs] eqn:E; cbn [bind] in H; [discriminate|]. set (is := i0 :: idxs) in *.
  destruct (match nth j (in_names x) None with None => _ | _ => _ end) as [ci|] eqn:Ec in H; cbn [bind] in H; [|discriminate].
  assert (Hi : Forall (fun i => i < number_of_columns x) is) by (apply Forall_forall; intros i Hin; apply C in Hin; apply Hin).
  destruct (select_views _ _ _ _ j m Hx Em Hi H) as (A & B & C' & _ & D).
  exists is. split; [discriminate|]. split; [exact So|]. split; [exact C|]. split; [exact C'|]. split; [exact A|]. intros k Hk. cbv zeta.
  apply view_eta; [specialize (D k Hk); unfold unlabelled in *; cbn [v_inputs v_in_outputs v_outputs v_params]; exact D|].
  cbn [v_labels]. unfold view at 1. cbn [v_labels]. rewrite B. destruct (nth j (in_names x) None) as [name|].
  - destruct (in_columns x) as [l|ls] eqn:Ex; cbn [map_levels drop_level_strict] in Ec.
    + injection Ec as <-. unfold view. cbn [v_labels]. rewrite Ex. apply (labels_taken (Plain l)). exact Hk.
    + set (ps := filter _ (combine (seq 0 _) _)) in Ec. destruct ps as [|[i l] [|? ?]] eqn:Ep; [discriminate| |discriminate]. unfold ps in Ep.
      apply raise_ok in Ec. destruct Ec as [_ Ec]. assert (Ec' : ci = droplevel (map (take_level is) ls) [i]) by congruence. rewrite Ec'. unfold droplevel. pose proof (drop_by_name _ _ _ _ _ Ep) as Dn. cbv zeta. rewrite Dn. clear Dn Ec' Ec.
      unfold view. cbn [v_labels]. rewrite Ex. unfold without, labels_at. cbn [levels_of].
      set (kept := filter _ _). transitivity (map (fun l => (lv_name l, nth k (lv_values l) (LInt 0))) kept); [destruct kept as [|? [|? ?]]; reflexivity|]. unfold kept.
      clear - Hk. induction ls as [|l0 ls IH]; [reflexivity|]. cbn [map filter take_level lv_name fst]. destruct (name_eqb (lv_name l0) (Some name)); cbn [negb map lv_name lv_values take_level]; [exact IH|].
      f_equal; [|exact IH]. rewrite take_nth by exact Hk. reflexivity.
  - injection Ec as <-. apply labels_taken. exact Hk.
Qed.

Theorem nothing_selected : forall (x : @Indicator V P) j key, made peq hashable label_of x -> j < length (in_mappers x) ->
  (forall i, ~ chosen x j key i) -> exists s, param_loc x j key = Err (KeyError s).
Proof.
  intros x j key Hx Hj Hn. apply made_sound in Hx. unfold param_loc. destruct (nth_error (in_mappers x) j) as [m|] eqn:Em; [|apply nth_error_None in Em; lia].
  pose proof (chosen_positions x j key m Hx Em) as C. unfold indices_of. destruct (positions key (mapper_values m)) as [|i l]; [eexists; reflexivity|].
  exfalso. apply (Hn i). apply C. now left.
Qed.

(** ** Combinations of indicators *)
Theorem combinations_run : forall m custom new naming comb (a : @Args V P) xs, a_unique a = false ->
  run_combs peq hashable label_of m custom new naming comb a = Ok xs ->
  exists params, (if a_product a then Ok (create_param_product (a_params a)) else broadcast_params (a_params a) None) = Ok params /\
    forall r k, let combos := comb (zip_star params) in
      0 < k -> combos <> [] -> (forall t, In t combos -> length t = r /\ forall u, In u t -> length u = k) ->
      length xs = r /\ forall i, i < r -> exists ps x, nth_error xs i = Some x /\
        length ps = k /\ (forall l, In l ps -> length l = length combos) /\
        (forall p, p < length combos -> row ps p = nth i (nth p combos []) []) /\
        run peq hashable label_of m custom new (naming i) (with_params a ps false false) = Ok x.
Proof.
  intros m custom new naming comb a xs Hu H. unfold run_combs in H.
  destruct (if a_product a then _ else _) as [params|]; cbn [bind] in H; [|discriminate]. exists params. split; [reflexivity|]. intros r k combos Hk0 Hne Hr.
  cbv zeta in H. rewrite Hu in H. fold combos in H. set (pls := zip_star combos) in *.
  assert (Lp : length pls = r) by (apply zip_star_len; [exact Hne|intros t Ht; apply Hr; exact Ht]).
  apply mapM_ok in H. pose proof (F2_len _ _ _ H) as L. rewrite combine_length, seq_length, Nat.min_id, Lp in L. split; [congruence|]. intros i Hi.
  destruct (nth_error xs i) as [x|] eqn:Ex; [|apply nth_error_None in Ex; lia].
  assert (Hc : nth i (combine (seq 0 (length pls)) pls) (0, []) = (i, nth i pls [])).
  { rewrite combine_nth by apply seq_length. rewrite seq_nth by lia. reflexivity. }
  pose proof (F2_nth _ _ _ i (0, []) x H) as Hf. rewrite combine_length, seq_length, Nat.min_id, Lp in Hf. specialize (Hf Hi). rewrite Lp in Hc. rewrite Hc in Hf. cbn [fst snd] in Hf.
  rewrite (nth_error_nth _ _ x Ex) in Hf. 
  assert (Hrow : nth i pls [] = map (fun t => nth i t []) combos) by (apply (zip_star_nth combos r); [exact Hne|intros t Ht; apply Hr; exact Ht|exact Hi]).
  assert (Hin : forall u, In u (nth i pls []) -> length u = k).
  { rewrite Hrow. intros u Hu'. apply in_map_iff in Hu'. destruct Hu' as (t & <- & Ht). destruct (Hr t Ht) as [Lt Hk]. apply Hk, nth_In. lia. }
  assert (Hne' : nth i pls [] <> []) by (rewrite Hrow; destruct combos; [congruence|discriminate]).
  destruct (zip_zip (nth i pls []) k Hne' Hk0 Hin) as (Hrect & Hn & Hzz & Hlen).
  exists (zip_star (nth i pls [])), x. split; [reflexivity|]. split; [exact Hlen|].
  assert (Hll : forall l, In l (zip_star (nth i pls [])) -> length l = length combos).
  { intros l Hl. rewrite (Hrect l Hl), Hn, Hrow. apply map_length. }
  split; [exact Hll|]. split; [|exact Hf]. intros p Hp. rewrite <- (zip_row _ (length combos) p Hll Hp), Hzz, Hrow.
  rewrite (nth_indep _ [] (nth i [] [])) by (rewrite map_length; exact Hp). apply (map_nth (fun t => nth i t [])).
Qed.

Lemma mapM_impl : forall {A B} (f g : A -> res B) l ys, (forall x y, In x l -> f x = Ok y -> g x = Ok y) -> mapM f l = Ok ys -> mapM g l = Ok ys.
Proof.
  intros A B f g l ys H E. apply mapM_ok in E. apply mapM_ok. induction E as [|x y l ys Hxy E IH]; constructor; [apply H; [now left|exact Hxy]|].
  apply IH. intros x' y' Hx. apply H. now right.
Qed.
Theorem combinations_reused : forall m apply new naming comb (a : @Args V P) xs rows cols,
  (forall i, setting m apply new (naming i) a rows cols) -> all_given a -> respects peq apply ->
  run_combs peq hashable label_of m (from_apply_func m apply) new naming comb (set_unique a true) = Ok xs ->
  run_combs peq hashable label_of m (from_apply_func m apply) new naming comb (set_unique a false) = Ok xs.
Proof.
  intros m apply new naming comb a xs rows cols S Hall Hres H. unfold run_combs in *. cbn [set_unique a_product a_params a_unique] in *.
  destruct (if a_product a then _ else _) as [params|]; cbn [bind] in *; [|discriminate].
  destruct (run_return_raw _ _ _ _ _ _) as [raw|] eqn:Er; cbn [bind] in H; [|discriminate].
  eapply mapM_impl; [|exact H]. intros [i p] y Hin E. cbn [fst snd] in *.
  eapply (raw_reused peq hashable label_of m apply new (naming i) (with_params (set_unique a true) params false false) _ raw _ rows cols); [| | | | |exact Er|].
  - destruct (S i). constructor; assumption.
  - exact Hall.
  - exact Hres.
  - reflexivity.
  - reflexivity.
  - exact E.
Qed.
End Pipeline.
