(** * Proof lemmas: wrappers made by indexing *)
From Coq Require Import String ZArith Bool List Arith Lia.
From Verif Require Import Base Grouper Reduce BaseFnsSpec BaseFnsLemmas BaseFnsLemmas2 Wrapper WrapperSpec WrapperLemmas.
Import ListNotations.
Local Open Scope nat_scope.

Definition chooses (w : Wrapper) (columns : list Label) (ndim : nat) (i : Indexing) : res Meta :=
  match i with OnColumns f => select_columns (w_index w) columns ndim f | OnBoth f => select_both (w_index w) columns ndim f end.

Lemma replace_inv : forall s index columns ndim gn g w, replace_wrapper s index columns ndim gn g = Ok w ->
  w_index w = index /\ w_columns w = columns /\ w_ndim w = ndim /\ w_grouped_ndim w = gn /\
  (exists e d m, make_grouper (length columns) g e d m = Ok (w_grouper w)) /\
  match g with GIndex l => grouping w = Some l | GNone => grouping w = None | _ => True end.
Proof.
  intros s index columns ndim gn g w H. unfold replace_wrapper in H. apply binv in H as (g' & Hg & H). injection H as <-. cbn. repeat split; eauto.
  pose proof (make_grouper_inv _ _ _ _ _ _ Hg) as (_ & _ & _ & _ & H). unfold grouping. cbn. destruct g; auto. apply H.
Qed.

Lemma meta_columns : forall w i w' rs gs cs gsel, gsel && self_grouped (w_grouper w) = false ->
  indexing_func_meta w gsel i = Ok (w', rs, gs, cs) ->
  exists m, chooses w (w_columns w) (w_ndim w) i = Ok m /\ w_index w' = m_index m /\ w_columns w' = m_columns m /\ w_ndim w' = m_ndim m /\
    rs = m_rows m /\ gs = m_cols m /\ cs = m_cols m /\ (exists g e d k, make_grouper (length (w_columns w')) g e d k = Ok (w_grouper w')) /\
    match grouping w with
    | None => grouping w' = None
    | Some own => is_array rs = true /\ grouping w' = Some (map (fun c => nth c own None) (to_1d (m_cols m)))
    end.
Proof.
  intros w i w' rs gs cs gsel Hs H. unfold indexing_func_meta in H. cbv zeta in H. rewrite Hs in H. cbn [bind] in H.
  apply binv in H as (m & Hm & H). exists m. split; [exact Hm|]. unfold self_grouped in H. unfold grouping at 1.
  destruct (g_group_by (w_grouper w)) as [own|] eqn:Eo.
  - apply rinv in H as [Hr H]. apply binv in H as (w2 & Hw & H). injection H as <- <- <- <-. apply negb_false_iff in Hr.
    apply replace_inv in Hw as (H1 & H2 & H3 & _ & (e & d & k & H4) & H5). rewrite H2. repeat split; eauto 6.
  - apply binv in H as (w2 & Hw & H). injection H as <- <- <- <-.
    apply replace_inv in Hw as (H1 & H2 & H3 & _ & (e & d & k & H4) & H5). rewrite H2. repeat split; eauto 6.
Qed.

Lemma keeps_cells : forall w f p w' rs gs cs gsel, proper w -> gsel = false \/ ungrouped w ->
  f (w_index w) (w_columns w) (w_ndim w) = Ok p -> fits (length (w_index w)) (length (w_columns w)) p ->
  indexing_func_meta w gsel (OnBoth f) = Ok (w', rs, gs, cs) ->
  (forall V (a : nat -> nat -> V), wrap w' (sub_array a rs cs) = Ok (taken a p)) /\ gs = cs /\ proper w'.
Proof.
  intros w f p w' rs gs cs gsel (Hg & Hd & H1) Hu Hf Hfit H.
  assert (Hs : gsel && self_grouped (w_grouper w) = false).
  { destruct Hu as [ -> |Hu]; [reflexivity|]. unfold ungrouped, grouping in Hu. unfold self_grouped. rewrite Hu. apply andb_false_r. }
  apply (meta_columns _ _ _ _ _ _ _ Hs) in H as (m & Hm & Hi & Hc & Hn & -> & -> & -> & Hmk & _). cbn [chooses] in Hm.
  split; [intros V a; exact (wrap_both a _ _ _ _ _ _ _ Hd H1 Hf Hfit Hm Hi Hc Hn)|]. split; [reflexivity|]. split; [exact Hmk|].
  rewrite Hc, Hn. pose proof (both_shape _ _ _ _ _ _ Hd H1 Hf Hfit Hm) as Hsh. destruct p as [rs cs ni nc|cells ni|r c]; [| |destruct Hsh].
  - destruct Hsh as (_ & _ & _ & ->). cbn. split; auto; discriminate.
  - destruct Hsh as [(c & _ & _ & _ & _ & ->)|(_ & r & _ & _ & _ & ->)]; cbn; auto.
Qed.

Lemma accepts : forall w f p gsel, proper w -> gsel = false \/ ungrouped w ->
  f (w_index w) (w_columns w) (w_ndim w) = Ok p -> fits (length (w_index w)) (length (w_columns w)) p ->
  ((exists r, indexing_func_meta w gsel (OnBoth f) = Ok r) <-> allowed (w_ndim w) p /\ (~ ungrouped w -> ~ turns p)).
Proof.
  intros w f p gsel (Hg & Hd & H1) Hu Hf Hfit.
  assert (Hs : gsel && self_grouped (w_grouper w) = false).
  { destruct Hu as [ -> |Hu]; [reflexivity|]. unfold ungrouped, grouping in Hu. unfold self_grouped. rewrite Hu. apply andb_false_r. }
  rewrite <- (both_accepts (w_index w) (w_columns w) (w_ndim w) f p Hd Hf). split.
  - intros [[[[w' rs] gs] cs] H]. pose proof H as H0. apply (meta_columns _ _ _ _ _ _ _ Hs) in H as (m & Hm & Hi & Hc & Hn & -> & -> & -> & Hmk & Hgr).
    cbn [chooses] in Hm. split; [eauto|]. intros Hun. unfold ungrouped in Hun. destruct (grouping w) as [own|]; [|congruence]. destruct Hgr as [Ha _].
    pose proof (both_shape _ _ _ _ _ _ Hd H1 Hf Hfit Hm) as Hsh. destruct p as [rs cs ni nc|cells ni|r c]; try (intros []; fail).
    destruct Hsh as [(c & Hc' & _)|(_ & r & _ & _ & _ & ->)]; [|discriminate Ha]. intros (q & q' & Hq & Hq' & Hne). apply Hne. rewrite (Hc' q Hq), (Hc' q' Hq'). reflexivity.
  - intros [[m Hm] Ht]. unfold indexing_func_meta. cbv zeta. rewrite Hs. cbn [bind]. rewrite Hm. cbn [bind].
    pose proof (both_shape _ _ _ _ _ _ Hd H1 Hf Hfit Hm) as Hsh. unfold self_grouped. unfold ungrouped, grouping in Ht.
    destruct (g_group_by (w_grouper w)) as [own|] eqn:Eo; [|unfold replace_wrapper, make_grouper; cbn; eauto].
    specialize (Ht ltac:(congruence)).
    assert (Ha : is_array (m_rows m) = true /\ length (m_columns m) = length (to_1d (m_cols m))).
    { destruct p as [rs cs ni nc|cells ni|r c]; [| |destruct Hsh].
      - destruct Hsh as (_ & _ & _ & ->). cbn. split; [reflexivity|]. apply Hfit.
      - destruct Hsh as [(c & _ & _ & _ & _ & ->)|(_ & r & _ & Hne & E & ->)]; [cbn; auto|]. exfalso. apply Ht.
        destruct (two_different _ E) as (x & y & Hx & Hy & Hxy); [destruct cells; [congruence|discriminate]|].
        apply in_map_iff in Hx as (q & <- & Hx). apply in_map_iff in Hy as (q' & <- & Hy). exists q, q'. auto. }
    destruct Ha as [Ha Hl]. rewrite Ha. cbn [negb raise_if]. unfold replace_wrapper, make_grouper, group_by_to_index. rewrite map_length, Hl, Nat.eqb_refl. cbn. eauto.
Qed.

Lemma wrap_columns : forall {V} (a : nat -> nat -> V) w f p w' rs gs cs, proper w -> w_ndim w = 2 ->
  f (w_columns w) = Ok p -> col_fits (length (w_columns w)) p ->
  indexing_func_meta w false (OnColumns f) = Ok (w', rs, gs, cs) ->
  wrap w' (sub_array a rs cs) = Ok (taken a (whole_columns (w_index w) (w_columns w) p)).
Proof.
  intros V a w f p w' rs gs cs (Hg & Hd & H1) H2 Hf Hfit H. apply (meta_columns w _ _ _ _ _ false eq_refl) in H as (m & Hm & Hi & Hc & Hn & -> & -> & -> & Hmk & _).
  cbn [chooses] in Hm. unfold select_columns in Hm. rewrite H2 in Hm. cbn [Nat.eqb raise_if] in Hm. rewrite Hf in Hm. cbn [bind] in Hm.
  unfold wrap. rewrite Hi, Hc, Hn. destruct p as [cs labels|c]; injection Hm as <-; cbn [m_rows m_cols m_index m_columns m_ndim sub_array to_1d whole_columns taken];
    unfold nrows, ncols; cbn [rows length]; rewrite !map_length, seq_length, Nat.eqb_refl; cbn [negb raise_if].
  - destruct Hfit as [Hl _]. rewrite Hl, Nat.eqb_refl. cbn [negb raise_if]. rewrite andb_false_r. reflexivity.
  - cbn [Nat.eqb negb raise_if andb map]. rewrite concat_singles, map_map. reflexivity.
Qed.

Lemma columns_accepted : forall w f p, proper w -> f (w_columns w) = Ok p -> col_fits (length (w_columns w)) p ->
  ((exists r, indexing_func_meta w false (OnColumns f) = Ok r) <-> w_ndim w = 2).
Proof.
  intros w f p (Hg & Hd & H1) Hf Hfit. split.
  - intros [r H]. destruct Hd as [Hd|Hd]; [|exact Hd]. unfold indexing_func_meta, select_columns in H. cbv zeta in H. cbn [andb bind] in H. rewrite Hd in H. discriminate H.
  - intros Hd2. unfold indexing_func_meta, select_columns. cbv zeta. cbn [andb bind]. rewrite Hd2. cbn [Nat.eqb raise_if]. rewrite Hf. cbn [bind].
    destruct (self_grouped (w_grouper w)) eqn:E; destruct p as [cs labels|c]; cbn; unfold replace_wrapper, make_grouper; cbn; eauto;
      rewrite ?map_length; destruct Hfit as [Hl _]; rewrite Hl, Nat.eqb_refl; cbn; eauto.
Qed.

Lemma keeps_groups : forall w i p w' rs gs cs own k c, proper w -> grouping w = Some own ->
  indexing_func_meta w false i = Ok (w', rs, gs, cs) ->
  match i with
  | OnBoth f => f (w_index w) (w_columns w) (w_ndim w) = Ok p /\ fits (length (w_index w)) (length (w_columns w)) p
  | OnColumns f => exists q, f (w_columns w) = Ok q /\ col_fits (length (w_columns w)) q
  end ->
  exists own', grouping w' = Some own' /\ length own' = length (to_1d cs) /\ (nth_error (to_1d cs) k = Some c -> nth_error own' k = nth_error own c).
Proof.
  intros w i p w' rs gs cs own k c (Hg & Hd & H1) Ho H Hi.
  apply (meta_columns w _ _ _ _ _ false eq_refl) in H as (m & Hm & _ & _ & _ & -> & -> & -> & Hmk & Hgr). rewrite Ho in Hgr. destruct Hgr as [_ Hgr].
  eexists. split; [exact Hgr|]. split; [apply map_length|]. intros Hk. rewrite nth_error_map, Hk. cbn.
  assert (Hlen : length own = length (w_columns w)).
  { destruct Hg as (g & e & d & k' & Hg). pose proof (make_grouper_wf _ _ _ _ _ _ Hg _ Ho) as Hl. apply make_grouper_inv in Hg as (<- & _). exact Hl. }
  assert (Hc : c < length own).
  { rewrite Hlen. apply nth_error_In in Hk. destruct i as [f|f].
    - destruct Hi as [Hf Hfit]. cbn [chooses] in Hm. pose proof (both_shape _ _ _ _ _ _ Hd H1 Hf Hfit Hm) as Hsh.
      destruct p as [rs cs ni nc|cells ni|r c']; [| |destruct Hsh].
      + destruct Hsh as (_ & _ & _ & ->). cbn in Hk. destruct Hfit as (_ & _ & _ & Hfit). rewrite Forall_forall in Hfit. auto.
      + destruct Hsh as [(c' & _ & _ & Hlt & _ & ->)|(_ & r & _ & _ & _ & ->)].
        * cbn in Hk. destruct Hk as [<-|[]]. exact Hlt.
        * cbn in Hk. apply in_map_iff in Hk as (q & <- & Hq). destruct Hfit as [_ Hfit]. rewrite Forall_forall in Hfit. apply Hfit. exact Hq.
    - destruct Hi as (q & Hf & Hfit). cbn [chooses] in Hm. unfold select_columns in Hm. apply rinv in Hm as [_ Hm]. rewrite Hf in Hm. cbn [bind] in Hm.
      destruct q as [cs labels|c']; injection Hm as <-; cbn in Hk.
      + destruct Hfit as [_ Hfit]. rewrite Forall_forall in Hfit. auto.
      + destruct Hk as [<-|[]]. exact Hfit. }
  symmetry. apply nth_error_nth'. exact Hc.
Qed.

(** ** Selecting groups *)
Lemma total_app : forall a b, total (a ++ b) = total a + total b.
Proof. induction a; intros; cbn; [reflexivity|]. rewrite IHa. lia. Qed.
Lemma concat_ranges_length : forall rs, length (concat (map (fun p : nat * nat => seq (fst p) (snd p)) rs)) = total (map snd rs).
Proof. induction rs as [|[s n] rs IH]; cbn; [reflexivity|]. rewrite app_length, seq_length, IH. reflexivity. Qed.

Lemma group_ranges : forall lens gs, gs <> [] -> Forall (fun k => 1 <= k) lens -> Forall (fun g => g < length lens) gs ->
  get_ranges_arr (map (fun k => nth k (get_group_start_idxs lens) 0) gs) (map (fun k => nth k (get_group_end_idxs lens) 0) gs) = Ok (columns_of_groups lens gs).
Proof.
  intros lens gs Hne Hp Hg.
  assert (E : forall k, In k gs -> nth k (get_group_start_idxs lens) 0 = total (firstn k lens) /\ nth k (get_group_end_idxs lens) 0 = total (firstn k lens) + nth k lens 0).
  { intros k Hk. rewrite Forall_forall in Hg. apply Hg in Hk. destruct (start_end_nth lens k (nth k lens 0)) as [H1 H2]; [apply nth_error_nth'; exact Hk|].
    split; apply nth_error_nth; assumption. }
  set (rs := map (fun g => (total (firstn g lens), nth g lens 0)) gs).
  replace (map (fun k => nth k (get_group_start_idxs lens) 0) gs) with (map fst rs) by (unfold rs; rewrite map_map; apply map_ext_in; intros k Hk; cbn; symmetry; apply E, Hk).
  replace (map (fun k => nth k (get_group_end_idxs lens) 0) gs) with (map (fun p => fst p + snd p) rs) by (unfold rs; rewrite map_map; apply map_ext_in; intros k Hk; cbn; symmetry; apply E, Hk).
  rewrite ranges_ok.
  - f_equal. unfold rs, columns_of_groups, columns_of_group. rewrite map_map. reflexivity.
  - unfold rs. destruct gs; [congruence|discriminate].
  - unfold rs. apply Forall_forall. intros p Hp'. apply in_map_iff in Hp' as (g & <- & Hin). cbn. rewrite Forall_forall in Hp, Hg. apply Hp. apply nth_In. auto.
Qed.

Lemma columns_of_groups_length : forall lens gs, length (columns_of_groups lens gs) = total (map (fun g => nth g lens 0) gs).
Proof. intros lens gs. unfold columns_of_groups. induction gs as [|g gs IH]; cbn; [reflexivity|]. rewrite app_length, IH. unfold columns_of_group. rewrite seq_length. reflexivity. Qed.

(** The place of the group, right for one or two groups *)
Lemma places_1 : forall a, ungrouped_group_idxs [a] a = repeat 0 a.
Proof.
  intros a. unfold ungrouped_group_idxs. cbn [removelast fold_left]. induction a as [|a IH]; [reflexivity|]. cbn. rewrite IH. reflexivity.
Qed.
Lemma cumsum_app : forall a b acc, cumsum acc (a ++ b) = cumsum acc a ++ cumsum (acc + total a) b.
Proof. induction a as [|x a IH]; intros b acc; cbn; [rewrite Nat.add_0_r; reflexivity|]. rewrite IH, Nat.add_assoc. reflexivity. Qed.
Lemma cumsum_zeros : forall n acc, cumsum acc (repeat 0 n) = repeat acc n.
Proof. induction n as [|n IH]; intros acc; [reflexivity|]. cbn. rewrite Nat.add_0_r, IH. reflexivity. Qed.
Lemma total_zeros : forall n, total (repeat 0 n) = 0.
Proof. induction n; auto. Qed.
Lemma places_2 : forall a b, 1 <= b -> ungrouped_group_idxs [a; b] (a + b) = repeat 0 a ++ repeat 1 b.
Proof.
  intros a b Hb. unfold ungrouped_group_idxs. cbn [removelast fold_left]. destruct b as [|b]; [lia|]. rewrite repeat_app. cbn [repeat].
  rewrite <- (repeat_length 0 a) at 2. rewrite upd_at, cumsum_app, cumsum_zeros, total_zeros. cbn. rewrite cumsum_zeros. reflexivity.
Qed.

Lemma upd_length' : forall {A} (l : list A) k v, length (upd l k v) = length l.
Proof. induction l as [|x l IH]; intros [|k] v; cbn; auto. Qed.
Lemma upd_other : forall {A} (l : list A) k v j, j <> k -> nth_error (upd l k v) j = nth_error l j.
Proof. induction l as [|x l IH]; intros [|k] v [|j] H; cbn; auto; try lia. Qed.
Lemma writes_other : forall ks (l : list nat) j, ~ In j ks -> nth_error (fold_left (fun a k => upd a k 1) ks l) j = nth_error l j.
Proof.
  induction ks as [|k ks IH]; intros l j H; [reflexivity|]. cbn [fold_left]. rewrite IH by (intros E; apply H; right; exact E).
  apply upd_other. intros ->. apply H. left. reflexivity.
Qed.
Lemma writes_length : forall ks (l : list nat), length (fold_left (fun a k => upd a k 1) ks l) = length l.
Proof. induction ks as [|k ks IH]; intros l; [reflexivity|]. cbn. rewrite IH. apply upd_length'. Qed.
Lemma cumsum_flat : forall l acc j, nth_error l (S j) = Some 0 -> nth_error (cumsum acc l) (S j) = nth_error (cumsum acc l) j.
Proof.
  induction l as [|x l IH]; intros acc j H; [discriminate|]. cbn [cumsum nth_error] in *. destruct j as [|j].
  - destruct l as [|y l]; [discriminate|]. cbn in *. injection H as ->. f_equal. lia.
  - apply IH. exact H.
Qed.
Lemma parts_below : forall l x, Forall (fun k => 1 <= k) l -> 2 <= length l -> In x l -> x < total l.
Proof.
  assert (S1 : forall l x, In x l -> x <= total l) by (induction l as [|y l IH]; intros x []; subst; cbn; [lia|]; specialize (IH x H); lia).
  intros [|a [|b l]] x Hp Hl Hx; cbn in Hl; try lia. inversion Hp as [|? ? Ha Hp']; subst. inversion Hp'; subst. cbn [total]. destruct Hx as [<-|[<-|Hx]]; [lia| |].
  - lia.
  - specialize (S1 l x Hx). lia.
Qed.
(** With three groups or more the last two always get the same place. *)
Lemma places_3 : forall lens last_len, Forall (fun k => 1 <= k) lens -> 2 <= length lens -> 1 <= last_len ->
  let places := ungrouped_group_idxs (lens ++ [last_len]) (total lens + last_len) in
  nth_error places (total lens) = nth_error places (total lens - 1) /\ length places = total lens + last_len.
Proof.
  intros lens last_len Hp Hl Hlast. unfold ungrouped_group_idxs. rewrite removelast_last. cbv zeta. split; [|rewrite cumsum_length, writes_length, repeat_length; reflexivity].
  assert (Ht : exists t, total lens = S t).
  { destruct lens as [|a lens]; [cbn in Hl; lia|]. inversion Hp; subst. exists (a - 1 + total lens). cbn. lia. }
  destruct Ht as [t Ht]. rewrite Ht. replace (S t - 1) with t by lia. apply cumsum_flat. rewrite writes_other.
  - apply nth_error_repeat'. lia.
  - intros E. apply (parts_below lens (S t)) in E; auto. lia.
Qed.

Lemma group_labels : forall w us lens, in_groups w us lens -> group_columns w = us.
Proof.
  intros w us lens (Hnd & Hl & Hp & Hg). unfold group_columns. rewrite Hg. unfold factorize. rewrite (factorize_runs_from us lens [] [] Hnd Hl Hp). reflexivity.
Qed.
Lemma group_lengths : forall w us lens, proper w -> in_groups w us lens -> get_group_lens (w_grouper w) GNone = Ok lens.
Proof.
  intros w us lens ((g & e & d & m & Hm) & _) (Hnd & Hl & Hp & Hg). apply (grouper_lens_iff _ _ _ _ _ _ (runs us lens) lens Hm Hg). exists us. auto.
Qed.

Lemma meta_groups : forall w us lens i m d, proper w -> in_groups w us lens -> grouped_ndim w = Ok d -> chooses w us d i = Ok m ->
  m_cols m <> Many [] -> Forall (fun g => g < length lens) (to_1d (m_cols m)) -> is_array (m_rows m) = true ->
  let gs := to_1d (m_cols m) in
  let cols := columns_of_groups lens gs in
  let places := ungrouped_group_idxs (map (fun g => nth g lens 0) gs) (length cols) in
  exists w' cs, indexing_func_meta w true i = Ok (w', m_rows m, m_cols m, cs) /\ to_1d cs = cols /\
    w_index w' = m_index m /\ w_columns w' = map (label_at (w_columns w)) cols /\
    (w_ndim w' = 1 <-> m_ndim m = 1 /\ length cols = 1) /\ (w_ndim w' = 1 <-> is_array cs = false) /\ grouped_ndim w' = Ok (m_ndim m) /\
    grouping w' = Some (map (fun k => Some (label_at (m_columns m) k)) places).
Proof.
  intros w us lens i m d Hpr Hgr Hd Hm Hne Hfit Hrow gs cols places.
  assert (Hgs : gs <> []) by (unfold gs; destruct (m_cols m) as [g|[|g l]]; cbn; congruence).
  assert (Hpl : length places = length cols).
  { unfold places, ungrouped_group_idxs. rewrite cumsum_length, writes_length, repeat_length. reflexivity. }
  unfold indexing_func_meta. cbv zeta. assert (Hsg : self_grouped (w_grouper w) = true) by (unfold self_grouped; destruct Hgr as (_ & _ & _ & ->); reflexivity).
  rewrite Hsg. cbn [andb]. rewrite Hd, (group_labels _ _ _ Hgr). cbn [bind]. unfold chooses in Hm. rewrite Hm. cbn [bind]. rewrite Hrow. cbn [negb raise_if].
  rewrite (group_lengths _ _ _ Hpr Hgr). cbn [bind]. fold gs.
  rewrite (group_ranges lens gs Hgs) by (exact Hfit || apply Hgr). cbn [bind]. fold cols. rewrite map_length. fold places.
  set (one := Nat.eqb (m_ndim m) 1 && Nat.eqb (length cols) 1).
  assert (Hok : exists w', replace_wrapper (w_grouper w) (m_index m) (map (label_at (w_columns w)) cols) (if one then 1 else 2) (Some (m_ndim m))
                  (GIndex (map (fun k => Some (label_at (m_columns m) k)) places)) = Ok w').
  { unfold replace_wrapper, make_grouper, group_by_to_index. rewrite !map_length, Hpl, Nat.eqb_refl. cbn. eauto. }
  destruct Hok as [w' Hw]. rewrite Hw. cbn [bind]. apply replace_inv in Hw as (H1 & H2 & H3 & H4 & _ & H5).
  exists w', (if one then One (hd 0 cols) else Many cols). split; [reflexivity|].
  assert (Hone : one = true <-> m_ndim m = 1 /\ length cols = 1) by (unfold one; rewrite andb_true_iff, !Nat.eqb_eq; reflexivity).
  split.
  { destruct one eqn:E; [|reflexivity]. apply proj1 in Hone. specialize (Hone eq_refl) as [_ Hc]. destruct cols as [|c [|c' cols']]; try discriminate Hc. reflexivity. }
  split; [exact H1|]. split; [exact H2|]. split; [rewrite H3; destruct one; rewrite <- Hone; split; congruence|].
  split; [rewrite H3; destruct one; cbn; split; congruence|]. split; [unfold grouped_ndim; rewrite H4; reflexivity|]. exact H5.
Qed.

(** The grouping found and the grouping of the selected groups *)
Lemma places_right : forall (labels : list Label) lens, length labels = length lens -> Forall (fun k => 1 <= k) lens -> length lens <= 2 -> lens <> [] ->
  map (fun k => Some (label_at labels k)) (ungrouped_group_idxs lens (total lens)) = map Some (runs labels lens).
Proof.
  intros labels lens Hl Hp H2 Hne. destruct lens as [|a [|b [|c lens]]]; cbn in H2; try lia; try congruence.
  - destruct labels as [|x [|y labels]]; try discriminate Hl. cbn [total]. rewrite Nat.add_0_r, places_1. unfold runs. cbn [combine map concat fst snd]. rewrite app_nil_r, !map_repeat'. reflexivity.
  - destruct labels as [|x [|y [|z labels]]]; try discriminate Hl. inversion Hp as [|? ? Ha Hp']; subst. inversion Hp'; subst. cbn [total]. rewrite Nat.add_0_r, places_2 by assumption.
    unfold runs. cbn [combine map concat fst snd]. rewrite app_nil_r, !map_app, !map_repeat'. reflexivity.
Qed.
Lemma places_wrong : forall (labels : list Label) lens, length labels = length lens -> Forall (fun k => 1 <= k) lens -> 3 <= length lens -> NoDup labels ->
  map (fun k => Some (label_at labels k)) (ungrouped_group_idxs lens (total lens)) <> map Some (runs labels lens).
Proof.
  intros labels lens Hl Hp H3 Hnd E. destruct (exists_last (l := lens)) as (lens0 & n & ->); [destruct lens; [cbn in H3; lia|discriminate]|].
  rewrite app_length in H3, Hl. cbn in H3, Hl. rewrite total_app in E. cbn [total] in E. rewrite Nat.add_0_r in E.
  apply Forall_app in Hp as [Hp0 Hpn]. inversion Hpn as [|? ? Hn _]; subst.
  destruct (places_3 lens0 n Hp0 ltac:(lia) Hn) as [Hsame Hlen]. set (places := ungrouped_group_idxs (lens0 ++ [n]) (total lens0 + n)) in *.
  assert (E1 : nth_error (map Some (runs labels (lens0 ++ [n]))) (total lens0) = nth_error (map Some (runs labels (lens0 ++ [n]))) (total lens0 - 1)).
  { rewrite <- E, !nth_error_map, Hsame. reflexivity. }
  rewrite !nth_error_map in E1.
  destruct (exists_last (l := lens0)) as (lens1 & n1 & ->); [destruct lens0; [cbn in H3; lia|discriminate]|].
  rewrite app_length in Hl, H3. cbn in Hl, H3.
  assert (Hk1 : exists x, nth_error labels (length lens1 + 1) = Some x) by (destruct (nth_error labels (length lens1 + 1)) eqn:Q; eauto; apply nth_error_None in Q; lia).
  assert (Hk0 : exists x, nth_error labels (length lens1) = Some x) by (destruct (nth_error labels (length lens1)) eqn:Q; eauto; apply nth_error_None in Q; lia).
  destruct Hk1 as [x1 Hx1], Hk0 as [x0 Hx0]. apply Forall_app in Hp0 as [_ Hp1]. inversion Hp1 as [|? ? Hn1 _]; subst.
  assert (R1 : nth_error (runs labels ((lens1 ++ [n1]) ++ [n])) (total (lens1 ++ [n1])) = Some x1).
  { pose proof (runs_nth labels ((lens1 ++ [n1]) ++ [n]) (length lens1 + 1) x1 n 0) as R. rewrite Nat.add_0_r in R.
    assert (F : firstn (length lens1 + 1) ((lens1 ++ [n1]) ++ [n]) = lens1 ++ [n1]).
    { replace (length lens1 + 1) with (length (lens1 ++ [n1]) + 0) by (rewrite app_length; cbn; lia). rewrite firstn_app_2. cbn. apply app_nil_r. }
    rewrite F in R. apply R; auto; [rewrite !app_length; cbn; lia|]. rewrite nth_error_app2 by (rewrite app_length; cbn; lia). rewrite app_length. cbn.
    replace (length lens1 + 1 - (length lens1 + 1)) with 0 by lia. reflexivity. }
  assert (R0 : nth_error (runs labels ((lens1 ++ [n1]) ++ [n])) (total (lens1 ++ [n1]) - 1) = Some x0).
  { pose proof (runs_nth labels ((lens1 ++ [n1]) ++ [n]) (length lens1) x0 n1 (n1 - 1)) as R.
    assert (F : firstn (length lens1) ((lens1 ++ [n1]) ++ [n]) = lens1).
    { rewrite <- app_assoc. replace (length lens1) with (length lens1 + 0) by lia. rewrite firstn_app_2. cbn. apply app_nil_r. }
    rewrite F in R. rewrite total_app. cbn [total]. replace (total lens1 + (n1 + 0) - 1) with (total lens1 + (n1 - 1)) by lia.
    apply R; auto; [rewrite !app_length; cbn; lia| |lia]. rewrite <- app_assoc, nth_error_app2 by lia. replace (length lens1 - length lens1) with 0 by lia. reflexivity. }
  rewrite R1, R0 in E1. cbn in E1. injection E1 as E1. subst x1.
  pose proof (proj1 (NoDup_nth_error labels) Hnd (length lens1 + 1) (length lens1)) as Q. rewrite Hx1, Hx0 in Q.
  specialize (Q ltac:(apply nth_error_Some; congruence) eq_refl). lia.
Qed.

Lemma picked_lens : forall lens gs, Forall (fun k => 1 <= k) lens -> Forall (fun g => g < length lens) gs -> Forall (fun k => 1 <= k) (map (fun g => nth g lens 0) gs).
Proof.
  intros lens gs Hp Hg. rewrite Forall_forall in *. intros k Hk. apply in_map_iff in Hk as (g & <- & Hin). apply Hp, nth_In. auto.
Qed.

Lemma select_groups : forall w us lens f p, proper w -> in_groups w us lens -> grouped_ndim w = Ok 2 ->
  f us = Ok p -> col_fits (length us) p -> picked p <> [] ->
  let cols := columns_of_groups lens (picked p) in
  let lens' := map (fun g => nth g lens 0) (picked p) in
  exists w' rs gs cs, indexing_func_meta w true (OnColumns f) = Ok (w', rs, gs, cs) /\
    to_1d rs = seq 0 (length (w_index w)) /\ to_1d gs = picked p /\ to_1d cs = cols /\
    w_index w' = w_index w /\ w_columns w' = map (label_at (w_columns w)) cols /\
    (length (picked p) <= 2 -> grouping w' = Some (map Some (runs (picked_labels us p) lens'))) /\
    (3 <= length (picked p) -> NoDup (picked_labels us p) -> grouping w' <> Some (map Some (runs (picked_labels us p) lens'))).
Proof.
  intros w us lens f p Hpr Hgr Hd Hf Hfit Hne cols lens'. pose proof Hgr as (_ & Hul & Hlens & _).
  set (m := match p with CSeries cs labels => mkMeta (w_index w) labels 2 (Many (seq 0 (length (w_index w)))) (Many cs)
            | CScalar c => mkMeta (w_index w) [label_at us c] 1 (Many (seq 0 (length (w_index w)))) (One c) end).
  assert (Hm : chooses w us 2 (OnColumns f) = Ok m).
  { unfold chooses, select_columns. cbn [Nat.eqb raise_if]. rewrite Hf. destruct p; reflexivity. }
  assert (Hcols : to_1d (m_cols m) = picked p) by (destruct p; reflexivity).
  assert (Hlab : m_columns m = picked_labels us p) by (destruct p; reflexivity).
  assert (Hg : Forall (fun g => g < length lens) (picked p)).
  { rewrite <- Hul. destruct p as [cs labels|c]; cbn in *; [apply Hfit|constructor; auto]. }
  destruct (meta_groups w us lens (OnColumns f) m 2 Hpr Hgr Hd Hm) as (w' & cs & H1 & H2 & H3 & H4 & _ & _ & _ & H5).
  - destruct p; cbn in *; congruence.
  - rewrite Hcols. exact Hg.
  - destruct p; reflexivity.
  - rewrite Hcols in *. rewrite Hlab in H5. fold cols in H2, H4, H5. fold lens' in H5.
    assert (Hlc : length cols = total lens') by (apply columns_of_groups_length).
    assert (Hll : length (picked_labels us p) = length lens').
    { unfold lens'. rewrite map_length. destruct p as [c labels|c]; cbn in *; [apply Hfit|reflexivity]. }
    assert (Hl' : length lens' = length (picked p)) by apply map_length.
    pose proof (picked_lens lens (picked p) Hlens Hg) as Hp'. fold lens' in Hp'. rewrite Hlc in H5.
    exists w', (m_rows m), (m_cols m), cs. split; [exact H1|]. split; [destruct p; reflexivity|]. split; [exact Hcols|]. split; [exact H2|].
    split; [rewrite H3; destruct p; reflexivity|]. split; [exact H4|]. rewrite H5. split.
    + intros H. f_equal. apply places_right; auto; [lia|]. intros E. rewrite E in Hl'. destruct (picked p); [congruence|discriminate].
    + intros H Hnd E. injection E as E. revert E. apply places_wrong; auto. lia.
Qed.

Lemma select_groups_and_rows : forall w us lens f rs gs index labels, proper w -> in_groups w us lens -> grouped_ndim w = Ok 2 ->
  f (w_index w) us 2 = Ok (PFrame rs gs index labels) -> fits (length (w_index w)) (length us) (PFrame rs gs index labels) -> rs <> [] -> gs <> [] ->
  let cols := columns_of_groups lens gs in
  let lens' := map (fun g => nth g lens 0) gs in
  exists w' cs, indexing_func_meta w true (OnBoth f) = Ok (w', Many rs, Many gs, cs) /\
    (forall V (a : nat -> nat -> V), wrap w' (sub_array a (Many rs) cs) = Ok (taken a (PFrame rs cols index (map (label_at (w_columns w)) cols)))) /\
    (length gs <= 2 -> grouping w' = Some (map Some (runs labels lens'))) /\
    (3 <= length gs -> NoDup labels -> grouping w' <> Some (map Some (runs labels lens'))).
Proof.
  intros w us lens f rs gs index labels Hpr Hgr Hd Hf Hfit Hrs Hgs cols lens'. pose proof Hgr as (_ & Hul & Hlens & _).
  set (m := mkMeta index labels 2 (Many rs) (Many gs)). cbn [fits] in Hfit. destruct Hfit as (Hf1 & Hf2 & Hf3 & Hf4).
  assert (Hm : chooses w us 2 (OnBoth f) = Ok m).
  { assert (Hex : exists m, select_both (w_index w) us 2 f = Ok m) by (apply (both_accepts _ _ _ f _ (or_intror eq_refl) Hf); cbn; auto).
    destruct Hex as [m' Hm']. pose proof (both_shape _ us 2 f _ m' (or_intror eq_refl) ltac:(discriminate) Hf ltac:(cbn; auto) Hm') as (_ & _ & _ & ->). exact Hm'. }
  rewrite Hul in Hf4.
  destruct (meta_groups w us lens (OnBoth f) m 2 Hpr Hgr Hd Hm) as (w' & cs & H1 & H2 & H3 & H4 & Hn & Hc & _ & H5).
  - cbn. congruence.
  - exact Hf4.
  - reflexivity.
  - cbn [m m_cols m_rows m_index m_columns m_ndim to_1d] in *. fold cols in H2, H4, H5, Hn. fold lens' in H5.
    assert (Hlc : length cols = total lens') by (apply columns_of_groups_length).
    assert (Hl' : length lens' = length gs) by apply map_length.
    pose proof (picked_lens lens gs Hlens Hf4) as Hp'. fold lens' in Hp'. rewrite Hlc in H5.
    exists w', cs. split; [exact H1|]. split; [|split].
    + intros V a. unfold wrap, sub_array. rewrite H2, H3, H4. unfold nrows, ncols. cbn [rows]. rewrite !map_length, Hf1, !Nat.eqb_refl. cbn [negb raise_if].
      assert (Hnd : Nat.eqb (w_ndim w') 1 = false) by (apply Nat.eqb_neq; intros E; apply Hn in E as [E _]; discriminate). rewrite Hnd, andb_false_r. reflexivity.
    + rewrite H5. intros H. f_equal. apply places_right; auto; try lia. intros E. rewrite E in Hl'. destruct gs; [congruence|discriminate].
    + rewrite H5. intros H Hnd E. injection E as E. revert E. apply places_wrong; auto; lia.
Qed.
