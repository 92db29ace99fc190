(** * Labels of results, acceptance and broadcasting again *)
From Coq Require Import String ZArith Bool List Arith Lia.
From Verif Require Import Base Grouper Reshape IndexFns IndexSpec Broadcast BroadcastSpec BaseFnsLemmas BaseFnsLemmas4 BaseFnsLemmas5 BroadcastLemmas BroadcastLemmas2 BroadcastLemmas3.
Import ListNotations.
Local Open Scope nat_scope.

Lemma index_given : forall {A} o (args : list (BArg A)) shape from c r, from <> FromKeep -> broadcast_index o args shape from c = Ok r -> exists x, r = Some x /\ shape <> [].
Proof.
  intros A o args shape from c r Hf H. unfold broadcast_index in H. apply bind_ok in H. destruct H as [m [Hm H]].
  assert (Hs : shape <> []) by (destruct shape; [discriminate Hm|discriminate]).
  assert (Hfin : forall strict new, finished o m strict new = Ok r -> exists x, r = Some x).
  { intros strict [x|] E; cbn [finished] in E; [|inversion E; eauto]. destruct (Nat.ltb (index_len x) m); [|inversion E; eauto].
    apply raise_if_ok in E. destruct E as [_ E]. apply raise_if_ok in E. destruct E as [_ E]. inversion E; eauto. }
  assert (Hst : forall strict, (if negb (index_conflict None (pick_indexes args c)) then finished o m strict (last (map Some (pick_indexes args c)) None)
       else let! new := foldM (stack_one o strict) None (stackable o args c) in finished o m strict new) = Ok r -> exists x, r = Some x).
  { intros strict E. destruct (negb _); [eauto|]. apply bind_ok in E. destruct E as [new [_ E]]. eauto. }
  destruct from as [| | | |k|x]; [congruence| | | | |].
  - destruct (Hst false H) as [x ->]. eauto.
  - destruct (Hst true H) as [x ->]. eauto.
  - destruct (Hfin false (Some (range_index m)) H) as [x ->]. eauto.
  - destruct (nth_error args k) as [z|]; [|discriminate]. destruct (get_index z c) as [i|]; [|discriminate]. destruct (Hfin false (Some i) H) as [x ->]. eauto.
  - destruct (Hfin false (Some x) H) as [y ->]. eauto.
Qed.

Lemma pandas_labels : forall {A} (x : BArg A) c, is_pandas x = true <-> exists i, labels_on c x = [i].
Proof.
  intros A [a|ix nm l|ix cs rows] c; cbn [is_pandas labels_on]; split; try discriminate; intros H; auto.
  - destruct H; discriminate.
  - destruct c; eauto.
  - eauto.
Qed.

(** Labels of every result that is not kept raw *)
Lemma result_labels : forall {A} o (args : list (BArg A)) junk ys shape ni nc, Forall consistent args -> bo_to_frame o = None -> no_alignment o args ->
  broadcast o args junk = Ok (ys, (shape, (ni, nc))) -> args <> [] -> bo_to_pd o = None -> existsb is_pandas args = true ->
  bo_index_from o <> FromKeep -> bo_columns_from o <> FromKeep ->
  exists i c, ni = Some i /\ nc = Some c /\ shape <> [] /\
    broadcast_index (bo_stack o) args shape (bo_index_from o) false = Ok (Some i) /\
    broadcast_index (bo_stack o) args shape (bo_columns_from o) true = Ok (Some c) /\
    forall k y, nth_error ys k = Some y -> bo_keep_raw o k = false -> axes y = shape /\
      index_len i = rows_in shape /\
      match y with Frame i' c' _ => i' = i /\ c' = c /\ index_len c = columns_in shape
                 | Ser i' nm _ => i' = i /\ nm = series_name (Some c) | Raw _ => False end.
Proof.
  intros A o args junk ys shape ni nc Hc Hf Hna H Hne Hpd Hp Hfi Hfc. pose proof (broadcast_values _ _ _ _ _ _ Hc Hf Hna H Hne) as Hv. cbv zeta in Hv.
  destruct Hv as [Hly [H2 [H1 [_ [_ Hv]]]]].
  apply broadcast_inv in H; auto. cbv zeta in H. destruct H as [Hs [[arrs [Ha Hw]] Hm]].
  assert (Eany : any_pandas o args = true) by (unfold any_pandas; rewrite Hpd; exact Hp). rewrite Eany in Hm. destruct Hm as [Hi Hco].
  destruct (index_given _ _ _ _ _ _ Hfi Hi) as [i [Ei Hsn]]. destruct (index_given _ _ _ _ _ _ Hfc Hco) as [c [Ec _]]. subst ni nc.
  exists i, c. repeat (split; [assumption || reflexivity|]).
  set (two := two_axes (bo_shape o) args) in *. apply broadcast_each_nth in Ha. destruct Ha as [Hla Ha]. apply wrap_each_nth in Hw; [|exact Hla]. destruct Hw as [_ Hw].
  intros k y Hy Hk. assert (Hx : exists x, nth_error args k = Some x).
  { assert (k < length args) by (rewrite <- Hly; apply nth_error_Some; congruence). destruct (nth_error args k) eqn:E; [eauto|]. apply nth_error_None in E. lia. }
  destruct Hx as [x Hx]. destruct (Ha k x Hx) as [b [Hb Hak]]. cbn [Nat.add] in Hak. rewrite Hk in Hak. destruct (Hw k x b Hx Hak) as [y' [Hy' Hwk]]. cbn [Nat.add] in Hwk. rewrite Hk in Hwk.
  rewrite Hy in Hy'. inversion Hy'; subst y'. clear Hy'. assert (Hcx : consistent x) by (eapply Forall_forall in Hc; [exact Hc|eapply nth_error_In; eauto]).
  destruct (np_broadcast_ok two (array_of two x) b shape (array_consistent two x Hcx) H2 H1 Hb) as [Hsb _].
  assert (Epd : pandas_at o args k = true) by (unfold pandas_at; rewrite Hpd; exact Eany). rewrite Epd in Hwk.
  destruct (wrap_ok (bo_stack o) two x b true (Some i) (Some c) y) as [[Hax _] [_ Hlab]]; [rewrite Hsb; exact H2|exact Hwk|].
  destruct (Hlab eq_refl) as [i' [El [Hil [Hie Hrest]]]]. rewrite Hsb in *. split; [exact Hax|].
  pose proof (Hie i eq_refl) as Eii. subst i'. assert (Hr : nth 0 shape 0 = rows_in shape) by (unfold rows_in; destruct shape; [congruence|reflexivity]).
  split; [congruence|]. destruct y as [a|ix nm l|ix cs rows]; [contradiction| |].
  - cbn [labels_on] in El. split; [congruence|]. apply Hrest. reflexivity.
  - cbn [labels_on] in El. split; [congruence|]. destruct Hrest as [Hcl Hce]. pose proof (Hce c eq_refl). subst cs. split; [reflexivity|].
    rewrite Hcl. cbn [axes] in Hax. rewrite <- Hax. reflexivity.
Qed.

Lemma rows_or_frame : forall {A} (y : BArg A) i c (ax : bool) n m x,
  match y with Frame i' c' _ => i' = i /\ c' = c /\ index_len c = m | Ser i' nm _ => i' = i /\ nm = series_name (Some c) | Raw _ => False end ->
  index_len i = n -> (ax = true -> length (axes y) = 2) -> labels_on ax y = [x] -> x = (if ax then c else i) /\ index_len x = (if ax then m else n).
Proof.
  intros A [a|ix nm l|ix cs rows] i c ax n m x Hm Hn Hax Hl; cbn [labels_on] in Hl; [discriminate| |].
  - destruct ax; [specialize (Hax eq_refl); discriminate|]. destruct Hm as [-> _]. inversion Hl; subst. auto.
  - destruct Hm as [-> [-> Hm]]. destruct ax; inversion Hl; subst; auto.
Qed.


Lemma stacked_labels : forall {A} o (args : list (BArg A)) junk ys shape meta ax k y x, Forall consistent args -> bo_to_frame o = None -> no_alignment o args ->
  broadcast o args junk = Ok (ys, (shape, meta)) -> bo_to_pd o = None -> bo_index_from o <> FromKeep -> bo_columns_from o <> FromKeep ->
  existsb is_pandas args = true -> from_on o ax = FromStack -> nth_error ys k = Some y -> bo_keep_raw o k = false -> (ax = true -> length (axes y) = 2) -> labels_on ax y = [x] ->
  let n := size_on ax shape in
  index_len x = n /\ proper_index x /\ (default_index x \/ drawn_from n (levels_of x) (flat_map levels_of (all_labels ax args))) /\
  forall z w l, In z args -> ignored (bo_stack o) ax z = false -> In w (labels_on ax z) -> ~ default_index w -> In l (levels_of w) ->
      In (stretch_level n l) (levels_of x) \/ (lossy (bo_stack o) /\ uninformative (stretch_level n l)).
Proof.
  intros A o args junk ys shape [ni nc] ax k y x Hc Hf Hna H Hpd Hfi Hfc Hp Hfr Hy Hk Hax Hl n.
  assert (Hne : args <> []) by (intros ->; discriminate).
  destruct (result_labels _ _ _ _ _ _ _ Hc Hf Hna H Hne Hpd Hp Hfi Hfc) as [i [c [-> [-> [Hsn [Hbi [Hbc Hres]]]]]]].
  destruct (Hres k y Hy Hk) as [Haxes [Hil Hm]]. destruct (rows_or_frame y i c ax _ _ x Hm Hil Hax Hl) as [Ex Hx].
  assert (Hn : index_len x = n) by (unfold n, size_on; exact Hx). 
  assert (Hb : broadcast_index (bo_stack o) args shape FromStack ax = Ok (Some x)) by (unfold from_on in Hfr; destruct ax; subst x; rewrite <- Hfr; assumption).
  rewrite (broadcast_index_stack _ _ _ false) in Hb by exact Hsn. fold n in Hb. destruct (stacked_ok _ _ _ _ _ Hc Hb) as [x' [E Hx']]. inversion E; subst x'.
  destruct (Hx' Hn) as [P1 [P2 P3]]. auto.
Qed.

Lemma strict_labels : forall {A} o (args : list (BArg A)) junk ys shape meta ax k y x, Forall consistent args -> bo_to_frame o = None -> no_alignment o args ->
  broadcast o args junk = Ok (ys, (shape, meta)) -> bo_to_pd o = None -> bo_index_from o <> FromKeep -> bo_columns_from o <> FromKeep ->
  existsb is_pandas args = true -> from_on o ax = FromStrict -> nth_error ys k = Some y -> bo_keep_raw o k = false -> (ax = true -> length (axes y) = 2) -> labels_on ax y = [x] ->
  index_len x = size_on ax shape /\ proper_index x /\
  forall z w, In z args -> ignored (bo_stack o) ax z = false -> In w (labels_on ax z) -> w = x \/ default_index w.
Proof.
  intros A o args junk ys shape [ni nc] ax k y x Hc Hf Hna H Hpd Hfi Hfc Hp Hfr Hy Hk Hax Hl.
  assert (Hne : args <> []) by (intros ->; discriminate).
  destruct (result_labels _ _ _ _ _ _ _ Hc Hf Hna H Hne Hpd Hp Hfi Hfc) as [i [c [-> [-> [Hsn [Hbi [Hbc Hres]]]]]]].
  destruct (Hres k y Hy Hk) as [Haxes [Hil Hm]]. destruct (rows_or_frame y i c ax _ _ x Hm Hil Hax Hl) as [Ex Hx].
  assert (Hb : broadcast_index (bo_stack o) args shape FromStrict ax = Ok (Some x)) by (unfold from_on in Hfr; destruct ax; subst x; rewrite <- Hfr; assumption).
  rewrite (broadcast_index_stack _ _ _ true) in Hb by exact Hsn. destruct (stacked_strict_ok _ _ _ _ _ Hc Hb) as [x' [E [Hp' [Hle [_ Hx']]]]]. inversion E; subst x'.
  split; [exact Hx|]. split; [exact Hp'|]. exact Hx'.
Qed.

(** All results have the same labels. *)
Lemma shared_labels : forall {A} o (args : list (BArg A)) junk ys shape meta, Forall consistent args -> bo_to_frame o = None -> no_alignment o args ->
  broadcast o args junk = Ok (ys, (shape, meta)) -> bo_to_pd o = None -> bo_index_from o <> FromKeep -> bo_columns_from o <> FromKeep ->
  (existsb is_pandas args = true -> exists i c, forall k y, nth_error ys k = Some y -> bo_keep_raw o k = false -> 
     labels_on false y = [i] /\ labels_on true y = [c] /\ index_len i = rows_in shape /\ index_len c = columns_in shape) /\
  (existsb is_pandas args = false -> forall y, In y ys -> exists a, y = Raw a).
Proof.
  intros A o args junk ys shape [ni nc] Hc Hf Hna H Hpd Hfi Hfc. split; intros Hp.
  - assert (Hne : args <> []) by (intros ->; discriminate).
    destruct (result_labels _ _ _ _ _ _ _ Hc Hf Hna H Hne Hpd Hp Hfi Hfc) as [i [c [-> [-> [Hsn [Hbi [Hbc Hres]]]]]]].
    exists i, (if Nat.eqb (length shape) 2 then c else name_index (series_name (Some c))). intros k y Hy Hk. destruct (Hres k y Hy Hk) as [Hax [Hil Hm]].
    destruct y as [a|ix nm l|ix cs rows]; [contradiction| |]; cbn [axes] in Hax; rewrite <- Hax; cbn [length Nat.eqb labels_on].
    + destruct Hm as [-> ->]. rewrite <- Hax in Hil. split; [reflexivity|]. split; [destruct (series_name (Some c)) as [[|v [|]]|]; reflexivity|]. split; [exact Hil|].
      unfold series_name. destruct (Nat.eqb_spec (index_len c) 1) as [E|]; [|reflexivity].
      set (nm := map _ (levels_of c)). assert (Hn0 : nm <> []).
      { unfold nm. destruct c as [l0|[|l0 ls]]; cbn in *; discriminate. }
      destruct nm as [|v [|v' t]]; [congruence| |]; destruct v as [[|p|p]|s]; reflexivity.
    + destruct Hm as [-> [-> Hm]]. rewrite <- Hax in Hil, Hm. auto.
  - intros y Hy. apply In_nth_error in Hy. destruct Hy as [k Hk]. assert (Hne : args <> []).
    { intros ->. apply broadcast_inv in H; auto. cbv zeta in H. destruct H as [_ [[arrs [Ha Hw]] _]]. cbn in Ha. inversion Ha; subst. cbn in Hw. inversion Hw; subst. destruct k; discriminate. }
    pose proof (broadcast_values _ _ _ _ _ _ Hc Hf Hna H Hne) as Hv. cbv zeta in Hv. destruct Hv as [Hly [H2 [H1 _]]].
    apply broadcast_inv in H; auto. cbv zeta in H. destruct H as [Hs [[arrs [Ha Hw]] Hm]].
    assert (Eany : any_pandas o args = false) by (unfold any_pandas; rewrite Hpd; exact Hp).
    apply broadcast_each_nth in Ha. destruct Ha as [Hla Ha]. apply wrap_each_nth in Hw; [|exact Hla]. destruct Hw as [_ Hw].
    assert (Hx : exists x, nth_error args k = Some x).
    { assert (k < length args) by (rewrite <- Hly; apply nth_error_Some; congruence). destruct (nth_error args k) eqn:E; [eauto|]. apply nth_error_None in E. lia. }
    destruct Hx as [x Hx]. destruct (Ha k x Hx) as [b [Hb Hak]]. destruct (Hw k x _ Hx Hak) as [y' [Hy' Hwk]]. rewrite Hk in Hy'. inversion Hy'; subst y'. cbn [Nat.add] in Hwk.
    destruct (bo_keep_raw o k); [eauto|]. assert (Epd : pandas_at o args k = false) by (unfold pandas_at; rewrite Hpd; exact Eany). rewrite Epd in Hwk. cbn in Hwk. inversion Hwk. eauto.
Qed.

(** ** Acceptance *)
Lemma common_unique : forall sizes a b, common_size sizes a -> common_size sizes b -> a = b.
Proof.
  intros sizes a b [Ha1 Ha2] [Hb1 Hb2]. destruct Ha2 as [->|Ha2]; destruct Hb2 as [->|Hb2]; auto.
  - destruct (Ha1 b Hb2); auto.
  - destruct (Hb1 a Ha2); auto.
  - destruct (Ha1 b Hb2); auto. destruct (Hb1 a Ha2); congruence.
Qed.
Lemma sizes_positive : forall {A} two (x : BArg A), ~ In 0 (axes x) -> 1 <= height two x /\ 1 <= width two x.
Proof.
  intros A two [[v|l|c rows]|ix nm l|ix c rows] H; destruct two; cbn in *; lia.
Qed.
Lemma common_positive : forall sizes d, common_size sizes d -> (forall s, In s sizes -> 1 <= s) -> 1 <= d.
Proof. intros sizes d [_ [->|H]] Hs; [lia|auto]. Qed.

Lemma wrap_total : forall {A} so (x : BArg A) new pd ni nc, shape_of new <> [] \/ pd = false -> 
  (pd = true -> exists i c, ni = Some i /\ nc = Some c /\ index_len i = rows_in (shape_of new) /\ index_len c = columns_in (shape_of new)) ->
  exists y, wrap_broadcasted so x new pd ni nc = Ok y.
Proof.
  intros A so x new pd ni nc Hs Hp. unfold wrap_broadcasted. destruct pd; [|eauto]. destruct Hs as [Hs|]; [|discriminate]. destruct (Hp eq_refl) as [i [c [-> [-> [Hi Hc]]]]].
  destruct new as [v|l|m rows]; cbn in Hs; [congruence| |]; cbn [shape_of nth] in *; unfold rows_in, columns_in in *; cbn [nth] in *; cbn [fit_index].
  - rewrite Hi, Nat.eqb_refl. cbn. eauto.
  - rewrite Hi, Hc, !Nat.eqb_refl. cbn. eauto.
Qed.
Lemma wrap_each_total : forall {A} o pd (args : list (BArg A)) k arrs ni nc,
  (forall i x a, nth_error args i = Some x -> nth_error arrs i = Some a -> bo_keep_raw o (k + i) = true \/ exists y, wrap_broadcasted (bo_stack o) x a (pd (k + i)) ni nc = Ok y) ->
  exists ys, wrap_each o pd k args arrs ni nc = Ok ys.
Proof.
  intros A o pd. induction args as [|x args IH]; intros k [|a arrs] ni nc H; cbn [wrap_each]; eauto.
  assert (H0 : exists y, (if bo_keep_raw o k then Ok (Raw a) else wrap_broadcasted (bo_stack o) x a (pd k) ni nc) = Ok y).
  { destruct (H 0 x a eq_refl eq_refl) as [E|E]; rewrite Nat.add_0_r in E; [rewrite E; eauto|]. destruct (bo_keep_raw o k); eauto. }
  destruct H0 as [y ->]. cbn [bind]. destruct (IH (S k) arrs ni nc) as [ys ->]; [|cbn; eauto].
  intros i z b Hz Hb. replace (S k + i) with (k + S i) by lia. apply (H (S i)); auto.
Qed.

Lemma no_pandas_labels : forall {A} (args : list (BArg A)) c, existsb is_pandas args = false -> all_labels c args = [].
Proof.
  intros A args c H. induction args as [|x args IH]; [reflexivity|]. cbn [existsb] in H. apply orb_false_iff in H. destruct H as [H1 H2].
  unfold all_labels in *. cbn [flat_map]. rewrite (IH H2), app_nil_r. destruct x; [reflexivity|discriminate|discriminate].
Qed.
Lemma broadcast_index_reset : forall {A} o (args : list (BArg A)) shape c, shape <> [] ->
  broadcast_index o args shape FromReset c = Ok (Some (range_index (size_on c shape))).
Proof.
  intros A o args shape c Hne. unfold broadcast_index, size_on, rows_in, columns_in. destruct shape as [|n [|m t]]; [congruence| |]; cbn [bind nth];
  destruct c; unfold range_index; cbn [index_len]; rewrite range_length, Nat.ltb_irrefl; reflexivity.
Qed.

Lemma shape_not_empty : forall {A} two (args : list (BArg A)) (shape : list nat), length shape = fold_left Nat.max (map (fun x => length (shape_of (array_of two x))) args) 0 ->
  existsb is_pandas args = true -> shape <> [].
Proof.
  intros A two args shape Hl H E. subst shape. apply existsb_exists in H. destruct H as [x [Hx Hp]]. cbn in Hl.
  assert (length (shape_of (array_of two x)) <= 0); [|destruct x as [a|ix nm l|ix c rows]; [discriminate| |]; destruct two; cbn in *; lia].
  rewrite Hl. apply fold_max_ge. apply in_map_iff. eauto.
Qed.

Lemma accepts : forall {A} o (args : list (BArg A)) junk, Forall consistent args -> bo_to_frame o = None -> no_alignment o args ->
  bo_shape o = None -> bo_to_pd o = None -> args <> [] -> (forall x, In x args -> ~ In 0 (axes x)) ->
  (bo_index_from o = FromStrict \/ bo_index_from o = FromStack \/ bo_index_from o = FromReset) ->
  (bo_columns_from o = FromStack \/ bo_columns_from o = FromReset) ->
  let two := two_axes None args in
  (exists r, broadcast o args junk = Ok r) <->
  exists n m, common_size (map (height two) args) n /\ common_size (map (width two) args) m /\
    (bo_index_from o = FromStrict -> agreeing n (all_labels false args)).
Proof.
  intros A o args junk Hc Hf Hna Hsh Hpd Hne Hz Hfi Hfc two.
  assert (Hax : two = false -> forall x, In x args -> length (axes x) <= 1) by (intros E x Hx; eapply two_axes_false; eauto).
  assert (H2 : two = true -> exists x, In x args /\ length (axes x) = 2).
  { intros E. unfold two, two_axes in E. rewrite orb_false_r in E. apply existsb_exists in E. destruct E as [x [Hx E]]. apply Nat.ltb_lt in E. exists x. split; [exact Hx|].
    destruct x as [[v|l|c rows]|ix nm l|ix c rows]; cbn in *; lia. }
  assert (Hany : any_pandas o args = existsb is_pandas args) by (unfold any_pandas; now rewrite Hpd).
  assert (Hlab : forall ax w n m, common_size (map (height two) args) n -> common_size (map (width two) args) m -> In w (all_labels ax args) ->
             index_len w = (if ax then m else n) \/ index_len w = 1).
  { intros ax w n m Hn Hm Hw. apply in_flat_map in Hw. destruct Hw as [x [Hx Hw]]. assert (Hcx : consistent x) by (eapply Forall_forall in Hc; eauto).
    rewrite (label_length x ax w two Hcx Hw). destruct ax; [apply Hm|apply Hn]; now apply in_map. }
  split.
  - intros [[ys [shape [ni nc]]] H]. apply broadcast_inv in H; auto. rewrite Hsh in H. cbv zeta in H. fold two in H. destruct H as [Hs [[arrs [Ha Hw]] Hm]].
    destruct (broadcast_shapes_ok two args shape H2 Hax Hs) as [[Hl [Hr Hco]] _]. exists (rows_in shape), (columns_in shape). split; [exact Hr|]. split; [exact Hco|].
    intros Hst. destruct (existsb is_pandas args) eqn:Ep; [|left; apply no_pandas_labels; exact Ep].
    rewrite Hany in Hm. destruct Hm as [Hi _]. rewrite Hst in Hi.
    pose proof (shape_not_empty two args shape Hl Ep) as Hsn. rewrite (broadcast_index_stack _ _ _ true) in Hi by exact Hsn.
    apply (strict_iff (bo_stack o)). cbn [size_on] in Hi. destruct (stacked_strict_ok _ _ _ _ _ Hc Hi) as [x [-> [_ [Hle [Hin _]]]]].
    exists x. split; [exact Hi|]. destruct Hin as [Hin|E]; [|exact E]. destruct (Hlab false x _ _ Hr Hco Hin) as [E|E]; [exact E|].
    assert (1 <= rows_in shape); [|lia]. eapply common_positive; [exact Hr|]. intros s Hs'. apply in_map_iff in Hs'. destruct Hs' as [z [<- Hz']]. apply (sizes_positive two z). auto.
  - intros [n [m [Hn [Hm Hag]]]]. destruct (broadcast_shapes_total two args n m Hax Hn Hm) as [shape Hs].
    destruct (broadcast_shapes_ok two args shape H2 Hax Hs) as [[Hl [Hr Hco]] [Hs2 Hs1]].
    pose proof (common_unique _ _ _ Hr Hn) as En. pose proof (common_unique _ _ _ Hco Hm) as Em.
    assert (Hpn : 1 <= n) by (eapply common_positive; [exact Hn|]; intros s Hs'; apply in_map_iff in Hs'; destruct Hs' as [z [<- Hz']]; apply (sizes_positive two z); auto).
    assert (Hpm : 1 <= m) by (eapply common_positive; [exact Hm|]; intros s Hs'; apply in_map_iff in Hs'; destruct Hs' as [z [<- Hz']]; apply (sizes_positive two z); auto).
    destruct (broadcast_each_total two (bo_keep_raw o) shape args 0) as [arrs Harrs].
    { intros x Hx. destruct (array_height two x ltac:(auto)) as [Eh Ew]. apply (np_broadcast_total two); auto.
      - rewrite Hl. apply fold_max_ge. apply in_map_iff. eauto.
      - rewrite Eh. apply Hr. now apply in_map.
      - rewrite Ew. apply Hco. now apply in_map. }
    assert (Hmeta : exists ni nc, (if any_pandas o args then broadcast_index (bo_stack o) args shape (bo_index_from o) false = Ok ni /\ broadcast_index (bo_stack o) args shape (bo_columns_from o) true = Ok nc else ni = None /\ nc = None) /\
              (any_pandas o args = true -> shape <> [] /\ exists i c, ni = Some i /\ nc = Some c /\ index_len i = n /\ index_len c = m)).
    { destruct (any_pandas o args) eqn:Ea; [|exists None, None; split; [auto|discriminate]].
      pose proof (shape_not_empty two args shape Hl (eq_sym Hany)) as Hsn.
      assert (Hi : exists i, broadcast_index (bo_stack o) args shape (bo_index_from o) false = Ok (Some i) /\ index_len i = n).
      { destruct Hfi as [E|[E|E]]; rewrite E.
        - rewrite (broadcast_index_stack _ _ _ true) by exact Hsn. cbn [size_on]. rewrite En. apply strict_iff. auto.
        - rewrite (broadcast_index_stack _ _ _ false) by exact Hsn. cbn [size_on]. rewrite En. apply stacked_total; auto. intros w Hw. apply (Hlab false w n m); auto.
        - rewrite broadcast_index_reset by exact Hsn. eexists. split; [reflexivity|]. cbn [size_on]. rewrite En. apply range_length. }
      assert (Hcc : exists i, broadcast_index (bo_stack o) args shape (bo_columns_from o) true = Ok (Some i) /\ index_len i = m).
      { destruct Hfc as [E|E]; rewrite E.
        - rewrite (broadcast_index_stack _ _ _ false) by exact Hsn. cbn [size_on]. rewrite Em. apply stacked_total; auto. intros w Hw. apply (Hlab true w n m); auto.
        - rewrite broadcast_index_reset by exact Hsn. eexists. split; [reflexivity|]. cbn [size_on]. rewrite Em. apply range_length. }
      destruct Hi as [i [Hi Hil]]. destruct Hcc as [c [Hcc Hcl]]. exists (Some i), (Some c). split; [auto|]. intros _. split; [exact Hsn|]. exists i, c. auto. }
    destruct Hmeta as [ni [nc [Hmeta Hlens]]].
    destruct (wrap_each_total o (pandas_at o args) args 0 arrs ni nc) as [ys Hys].
    { intros k x a Hx Ha. destruct (bo_keep_raw o (0 + k)) eqn:Ek; [auto|]. right. cbn [Nat.add] in *.
      apply broadcast_each_nth in Harrs. destruct Harrs as [_ Harrs]. destruct (Harrs k x Hx) as [b [Hb Hk]]. cbn [Nat.add] in Hk. rewrite Ek, Ha in Hk. inversion Hk; subst a.
      assert (Hcx : consistent x) by (eapply Forall_forall in Hc; [exact Hc|eapply nth_error_In; eauto]).
      destruct (np_broadcast_ok two (array_of two x) b shape (array_consistent two x Hcx) Hs2 Hs1 Hb) as [Hsb _].
      assert (Epa : pandas_at o args k = any_pandas o args) by (unfold pandas_at; now rewrite Hpd). rewrite Epa.
      apply wrap_total; rewrite Hsb.
      - destruct (any_pandas o args); [left; apply Hlens; reflexivity|now right].
      - intros E. destruct (Hlens E) as [_ [i [c [-> [-> [Ei Ec]]]]]]. exists i, c. repeat split; congruence. }
    eexists. apply (broadcast_intro o args junk ys shape ni nc arrs); auto; rewrite Hsh; auto.
Qed.
