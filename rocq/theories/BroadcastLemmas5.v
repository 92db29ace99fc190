(** * Broadcasting again, and alignment *)
From Coq Require Import String ZArith Bool List Arith Lia.
From Verif Require Import Base Grouper Reshape IndexFns IndexSpec Broadcast BroadcastSpec BaseFnsLemmas BaseFnsLemmas4 BaseFnsLemmas5 BroadcastLemmas BroadcastLemmas2 BroadcastLemmas3 BroadcastLemmas4.
Import ListNotations.
Local Open Scope nat_scope.

Lemma rule_given : forall f, rule f -> f <> FromKeep.
Proof. intros f [->|[->| ->]]; discriminate. Qed.

Lemma rule_proper : forall {A} o (args : list (BArg A)) shape f ax x, Forall consistent args -> rule f -> shape <> [] ->
  broadcast_index o args shape f ax = Ok (Some x) -> index_len x = size_on ax shape -> proper_index x.
Proof.
  intros A o args shape f ax x Hc Hr Hs H Hx. destruct Hr as [->|[->| ->]].
  - rewrite (broadcast_index_stack _ _ _ true) in H by exact Hs. destruct (stacked_strict_ok _ _ _ _ _ Hc H) as [x' [E [Hp _]]]. inversion E; subst; exact Hp.
  - rewrite (broadcast_index_stack _ _ _ false) in H by exact Hs. destruct (stacked_ok _ _ _ _ _ Hc H) as [x' [E Hp]]. inversion E; subst. apply Hp. exact Hx.
  - rewrite broadcast_index_reset in H by exact Hs. inversion H; subst. split; [repeat constructor|discriminate].
Qed.

Lemma rule_again : forall {A} o (ys : list (BArg A)) shape f ax x, rule f -> shape <> [] -> ys <> [] ->
  (forall y, In y ys -> labels_on ax y = [x]) -> index_len x = size_on ax shape -> (f = FromReset -> x = range_index (size_on ax shape)) ->
  broadcast_index o ys shape f ax = Ok (Some x).
Proof.
  intros A o ys shape f ax x Hr Hs Hne Hl Hx Hre.
  assert (Hall : Forall (eq x) (all_labels ax ys) /\ all_labels ax ys <> []).
  { split.
    - apply Forall_forall. intros w Hw. apply in_flat_map in Hw. destruct Hw as [y [Hy Hw]]. rewrite (Hl y Hy) in Hw. destruct Hw as [<-|[]]. reflexivity.
    - destruct ys as [|y ys]; [congruence|]. unfold all_labels. cbn [flat_map]. rewrite (Hl y (or_introl eq_refl)). discriminate. }
  destruct Hall as [Hall Hnn].
  assert (Hst : forall strict, stacked o ys (size_on ax shape) strict ax = Ok (Some x)).
  { intros strict. unfold stacked. assert (Ec : index_conflict None (all_labels ax ys) = false) by (apply conflict_none; right; eauto). rewrite Ec. cbn [negb].
    rewrite (last_all _ x Hall Hnn). unfold finished. rewrite Hx, Nat.ltb_irrefl. reflexivity. }
  destruct Hr as [->|[->| ->]].
  - rewrite (broadcast_index_stack _ _ _ true) by exact Hs. apply Hst.
  - rewrite (broadcast_index_stack _ _ _ false) by exact Hs. apply Hst.
  - rewrite broadcast_index_reset by exact Hs. rewrite <- Hre; reflexivity.
Qed.

Lemma np_same : forall {A} (a : Arr A) shape, shape_of a = shape -> consistent (Raw a) -> np_broadcast_to a shape = Ok a.
Proof.
  intros A [v|l|c rows] shape <- Hc; cbn [shape_of np_broadcast_to].
  - reflexivity.
  - unfold stretch. rewrite Nat.eqb_refl. reflexivity.
  - unfold raise_if. rewrite Nat.eqb_refl. cbn [orb negb]. assert (E : map (stretch_row c c) rows = rows).
    { rewrite <- (map_id rows) at 2. apply map_ext. intros r. unfold stretch_row. rewrite Nat.eqb_refl. reflexivity. }
    rewrite E. unfold stretch. rewrite Nat.eqb_refl. reflexivity.
Qed.

Lemma each_same : forall {A} two keep shape (ys : list (BArg A)) k, (forall y, In y ys -> np_broadcast_to (array_of two y) shape = Ok (array_of two y)) ->
  broadcast_each two keep k ys shape = Ok (map (array_of two) ys).
Proof.
  intros A two keep shape. induction ys as [|y ys IH]; intros k H; [reflexivity|]. cbn [broadcast_each map]. rewrite (H y) by now left. cbn [bind].
  rewrite IH by (intros z Hz; apply H; now right). cbn [bind]. destruct (keep k); reflexivity.
Qed.
Lemma wrap_same : forall {A} o pd two (ys : list (BArg A)) k ni nc, (forall k, bo_keep_raw o k = false) ->
  (forall y k, In y ys -> wrap_broadcasted (bo_stack o) y (array_of two y) (pd k) ni nc = Ok y) ->
  wrap_each o pd k ys (map (array_of two) ys) ni nc = Ok ys.
Proof.
  intros A o pd two. induction ys as [|y ys IH]; intros k ni nc Hk H; [reflexivity|]. cbn [wrap_each map]. rewrite Hk, (H y k) by now left. cbn [bind].
  rewrite IH; auto. intros z j Hz. apply H. now right.
Qed.

Lemma same_shape : forall {A} two (ys : list (BArg A)) shape, ys <> [] -> (forall y, In y ys -> shape_of (array_of two y) = shape) ->
  broadcast_shapes (map (fun x => shape_of (array_of two x)) ys) = Ok shape.
Proof.
  intros A two ys shape Hne H. assert (E : map (fun x => shape_of (array_of two x)) ys = repeat shape (length ys)).
  { clear Hne. induction ys as [|y ys IH]; [reflexivity|]. cbn [map length repeat]. rewrite (H y) by now left. f_equal. apply IH. intros z Hz. apply H. now right. }
  rewrite E. unfold broadcast_shapes. destruct ys as [|y ys]; [congruence|]. cbn [length repeat map foldM broadcast_rev bind]. 
  assert (Hself : forall s, broadcast_rev s s = Ok s).
  { induction s as [|d s IH]; [reflexivity|]. cbn [broadcast_rev]. unfold broadcast_dim. rewrite Nat.eqb_refl. cbn [bind]. rewrite IH. reflexivity. }
  assert (Hrep : forall n s, foldM broadcast_rev s (map (@rev nat) (repeat (rev s) n)) = Ok s).
  { induction n as [|n IH]; intros s; [reflexivity|]. cbn [repeat map foldM]. rewrite rev_involutive, Hself. cbn [bind]. apply IH. }
  specialize (Hrep (length ys) (rev shape)). rewrite rev_involutive in Hrep. rewrite Hrep. cbn [bind]. now rewrite rev_involutive.
Qed.

Lemma name_again : forall c, series_name (Some (name_index (series_name (Some c)))) = series_name (Some c) /\ index_len (name_index (series_name (Some c))) = 1 /\ series_name (Some c) <> Some [].
Proof.
  intros c. cbn [series_name]. destruct (Nat.eqb_spec (index_len c) 1) as [E|]; [|cbn; repeat split; discriminate].
  set (nm := map _ (levels_of c)). assert (Hn0 : nm <> []) by (unfold nm; destruct c as [l0|[|l0 ls]]; cbn in *; discriminate).
  destruct nm as [|v [|v' t]]; [congruence| |].
  - destruct v as [[|p|p]|s]; cbn; repeat split; discriminate.
  - assert (En : (match v with LInt 0%Z => Some (v :: v' :: t) | _ => Some (v :: v' :: t) end) = Some (v :: v' :: t)) by (destruct v as [[|p|p]|s]; reflexivity).
    assert (Ec : match v :: v' :: t with [LInt 0%Z] => None | name => Some name end = Some (v :: v' :: t)) by (destruct v as [[|p|p]|s]; reflexivity).
    rewrite Ec. cbn [name_index map index_len lv_values length Nat.eqb levels_of nth]. split; [|split; [reflexivity|discriminate]].
    rewrite map_map. cbn [lv_values nth]. rewrite map_id. exact Ec.
Qed.

Lemma rebroadcast : forall {A} o (args : list (BArg A)) junk junk' ys shape meta, Forall consistent args -> bo_to_frame o = None -> no_alignment o args ->
  bo_shape o = None -> bo_to_pd o = None -> (forall k, bo_keep_raw o k = false) -> args <> [] ->
  rule (bo_index_from o) -> rule (bo_columns_from o) ->
  broadcast o args junk = Ok (ys, (shape, meta)) -> exists meta', broadcast o ys junk' = Ok (ys, (shape, meta')).
Proof.
  intros A o args junk junk' ys shape [ni nc] Hc Hf Hna Hsh Hpd Hkr Hne Hri Hrc H.
  pose proof (broadcast_values _ _ _ _ _ _ Hc Hf Hna H Hne) as Hv. cbv zeta in Hv. rewrite Hsh in Hv. set (two := two_axes None args) in *.
  destruct Hv as [Hly [H2 [H1 [_ [_ Hv]]]]].
  assert (Hyne : ys <> []) by (intros ->; destruct args; [congruence|discriminate]).
  assert (Hpair : forall k y, nth_error ys k = Some y -> exists x, nth_error args k = Some x).
  { intros k y Hk. assert (k < length args) by (rewrite <- Hly; apply nth_error_Some; congruence). destruct (nth_error args k) eqn:E; [eauto|]. apply nth_error_None in E. lia. }
  assert (Hax : forall y, In y ys -> axes y = shape).
  { intros y Hy. apply In_nth_error in Hy. destruct Hy as [k Hk]. destruct (Hpair k y Hk) as [x Hx]. apply (Hv k x y Hx Hk). apply Hkr. }
  assert (Htwo : two_axes None ys = two).
  { unfold two_axes at 1. rewrite orb_false_r. destruct two eqn:Et.
    - apply existsb_exists. destruct ys as [|y ys]; [congruence|]. exists y. split; [now left|]. rewrite (Hax y (or_introl eq_refl)), (H2 eq_refl). reflexivity.
    - destruct (existsb _ ys) eqn:E; [|reflexivity]. apply existsb_exists in E. destruct E as [y [Hy E]]. rewrite (Hax y Hy) in E. apply Nat.ltb_lt in E. specialize (H1 eq_refl). lia. }
  assert (Harr : forall y, In y ys -> shape_of (array_of two y) = shape).
  { intros y Hy. pose proof (Hax y Hy) as E. destruct y as [[v|l|c rows]|ix nm l|ix c rows]; cbn [axes array_of shape_of] in *; auto.
    destruct two; [specialize (H2 eq_refl); rewrite <- E in H2; discriminate|exact E]. }
  pose proof H as Hb. apply broadcast_inv in H; auto. rewrite Hsh in H. cbv zeta in H. fold two in H. destruct H as [Hs [[arrs [Ha Hw]] Hm]].
  apply broadcast_each_nth in Ha. destruct Ha as [Hla Ha]. apply wrap_each_nth in Hw; [|exact Hla]. destruct Hw as [_ Hw].
  (* every result holds a well-formed array *)
  assert (Hca : forall y, In y ys -> consistent (Raw (array_of two y))).
  { intros y Hy. apply In_nth_error in Hy. destruct Hy as [k Hk]. destruct (Hpair k y Hk) as [x Hx]. destruct (Ha k x Hx) as [b [Hnb Hak]]. rewrite Hkr in Hak.
    destruct (Hw k x _ Hx Hak) as [y' [Hy' Hwk]]. rewrite Hkr in Hwk. rewrite Hk in Hy'. inversion Hy'; subst y'.
    assert (Hcx : consistent x) by (eapply Forall_forall in Hc; [exact Hc|eapply nth_error_In; eauto]).
    destruct (np_broadcast_ok two (array_of two x) b shape (array_consistent two x Hcx) H2 H1 Hnb) as [Hsb [Hcb _]].
    unfold wrap_broadcasted in Hwk. destruct (pandas_at o args (0 + k)); [|inversion Hwk; subst; exact Hcb]. destruct b as [v|l|c rows]; [discriminate| |].
    - apply bind_ok in Hwk. destruct Hwk as [i [_ E]]. inversion E; subst. cbn [array_of]. destruct two; [|exact I]. specialize (H2 eq_refl). cbn in H2. discriminate.
    - apply bind_ok in Hwk. destruct Hwk as [i [_ E]]. apply bind_ok in E. destruct E as [cc [Hcc E]]. inversion E; subst. apply fit_ok in Hcc. cbn [array_of consistent shape_of nth] in *. destruct Hcc as [-> _]. exact Hcb. }
  assert (Hnp : forall y, In y ys -> np_broadcast_to (array_of two y) shape = Ok (array_of two y)) by (intros y Hy; apply np_same; auto).
  assert (Hsh' : broadcast_shapes (map (fun x => shape_of (array_of two x)) ys) = Ok shape) by (apply same_shape; auto).
  destruct (existsb is_pandas args) eqn:Ep.
  - destruct (result_labels _ _ _ _ _ _ _ Hc Hf Hna Hb Hne Hpd Ep (rule_given _ Hri) (rule_given _ Hrc)) as [i [c [-> [-> [Hsn [Hbi [Hbc Hres]]]]]]].
    assert (Hall : forall y, In y ys -> index_len i = rows_in shape /\
      match y with Frame i' c' _ => i' = i /\ c' = c /\ index_len c = columns_in shape | Ser i' nm _ => i' = i /\ nm = series_name (Some c) | Raw _ => False end).
    { intros y Hy. apply In_nth_error in Hy. destruct Hy as [k Hk]. apply (Hres k y Hk). apply Hkr. }
    assert (Hpi : proper_index i).
    { destruct ys as [|y ys]; [congruence|]. apply (rule_proper _ _ _ _ _ _ Hc Hri Hsn Hbi). apply (Hall y (or_introl eq_refl)). }
    assert (Hcons : Forall consistent ys).
    { apply Forall_forall. intros y Hy. destruct (Hall y Hy) as [Hil Hy']. pose proof (Hax y Hy) as E. pose proof (Hca y Hy) as Hcy.
      destruct y as [a|ix nm l|ix cs rows]; [contradiction| |]; cbn [axes] in E; subst shape.
      - destruct Hy' as [-> ->]. split; [exact Hpi|]. split; [exact Hil|]. apply name_again.
      - destruct Hy' as [-> [-> Hcl]]. split; [exact Hpi|]. split; [apply (rule_proper _ _ _ _ _ _ Hc Hrc Hsn Hbc); exact Hcl|]. split; [exact Hil|]. exact Hcy. }
    assert (Hlabr : forall y, In y ys -> labels_on false y = [i]) by (intros y Hy; destruct (Hall y Hy) as [_ Hy']; destruct y; [contradiction| |]; cbn; destruct Hy' as [-> _]; reflexivity).
    set (c' := if two then c else name_index (series_name (Some c))).
    assert (Hlabc : forall y, In y ys -> labels_on true y = [c']).
    { intros y Hy. destruct (Hall y Hy) as [_ Hy']. pose proof (Hax y Hy) as E. unfold c'. destruct y as [a|ix nm l|ix cs rows]; [contradiction| |]; cbn [axes] in E.
      - destruct two; [specialize (H2 eq_refl); rewrite <- E in H2; discriminate|]. destruct Hy' as [_ ->]. cbn [labels_on]. destruct (series_name (Some c)) as [[|v [|]]|]; reflexivity.
      - destruct two; [|specialize (H1 eq_refl); rewrite <- E in H1; cbn in H1; lia]. destruct Hy' as [_ [-> _]]. reflexivity. }
    assert (Hcl : index_len c' = columns_in shape).
    { destruct ys as [|y ys]; [congruence|]. pose proof (Hax y (or_introl eq_refl)) as E. destruct (Hall y (or_introl eq_refl)) as [_ Hy']. unfold c'.
      destruct y as [a|ix nm l|ix cs rows]; [contradiction| |]; cbn [axes] in E.
      - destruct two; [specialize (H2 eq_refl); rewrite <- E in H2; discriminate|]. rewrite <- E. apply name_again.
      - destruct two; [|specialize (H1 eq_refl); rewrite <- E in H1; cbn in H1; lia]. apply Hy'. }
    assert (Hil : index_len i = rows_in shape) by (destruct ys as [|y ys]; [congruence|]; apply (Hall y (or_introl eq_refl))).
    assert (Hreset_i : bo_index_from o = FromReset -> i = range_index (size_on false shape)) by (intros E; rewrite E, broadcast_index_reset in Hbi by exact Hsn; inversion Hbi; reflexivity).
    assert (Hreset_c : bo_columns_from o = FromReset -> c' = range_index (size_on true shape)).
    { intros E. rewrite E, broadcast_index_reset in Hbc by exact Hsn. inversion Hbc as [E']. unfold c'. destruct two eqn:Et; [symmetry; exact E'|].
      assert (Ecol : columns_in shape = 1) by (unfold columns_in; apply nth_overflow; auto). cbn [size_on] in *. rewrite <- E'. rewrite Ecol. reflexivity. }
    pose proof (rule_again (bo_stack o) ys shape _ false i Hri Hsn Hyne Hlabr Hil Hreset_i) as Hi2.
    pose proof (rule_again (bo_stack o) ys shape _ true c' Hrc Hsn Hyne Hlabc Hcl Hreset_c) as Hc2.
    assert (Hp2 : existsb is_pandas ys = true).
    { apply existsb_exists. destruct ys as [|y ys]; [congruence|]. exists y. split; [now left|]. apply (pandas_labels y false). eauto using in_eq. }
    exists (Some i, Some c'). apply (broadcast_intro o ys junk' ys shape (Some i) (Some c') (map (array_of two) ys)); auto.
    + split; intros _ a b Ha' Hb' _ _; apply in_flat_map in Ha', Hb'; destruct Ha' as [y1 [Hy1 Ha']]; destruct Hb' as [y2 [Hy2 Hb']].
      * rewrite (Hlabr y1 Hy1) in Ha'. rewrite (Hlabr y2 Hy2) in Hb'. destruct Ha' as [<-|[]]; destruct Hb' as [<-|[]]. reflexivity.
      * rewrite (Hlabc y1 Hy1) in Ha'. rewrite (Hlabc y2 Hy2) in Hb'. destruct Ha' as [<-|[]]; destruct Hb' as [<-|[]]. reflexivity.
    + rewrite Hsh, Htwo. exact Hsh'.
    + rewrite Hsh, Htwo. apply each_same. exact Hnp.
    + apply wrap_same; [exact Hkr|]. intros y k Hy. destruct (Hall y Hy) as [_ Hy']. pose proof (Hax y Hy) as E. unfold pandas_at, any_pandas. rewrite Hpd, Hp2.
      destruct y as [a|ix nm l|ix cs rows]; [contradiction| |]; cbn [axes] in E.
      * destruct two; [specialize (H2 eq_refl); rewrite <- E in H2; discriminate|]. destruct Hy' as [-> ->]. cbn [array_of wrap_broadcasted shape_of nth].
        unfold fit_index, raise_if. rewrite Hil, <- E. unfold rows_in. cbn [nth]. rewrite Nat.eqb_refl. cbn [negb bind]. unfold c'. rewrite (proj1 (name_again c)). reflexivity.
      * destruct two; [|specialize (H1 eq_refl); rewrite <- E in H1; cbn in H1; lia]. destruct Hy' as [-> [-> Hcl']]. cbn [array_of wrap_broadcasted shape_of nth].
        unfold fit_index, raise_if. rewrite Hil, <- E. unfold rows_in. cbn [nth]. rewrite Nat.eqb_refl. cbn [negb bind]. unfold c'. rewrite Nat.eqb_refl. reflexivity.
    + unfold any_pandas. rewrite Hpd, Hp2. auto.
  - destruct (shared_labels o args junk ys shape (ni, nc) Hc Hf Hna Hb Hpd (rule_given _ Hri) (rule_given _ Hrc)) as [_ Hraw]. specialize (Hraw Ep).
    assert (Hp2 : existsb is_pandas ys = false).
    { destruct (existsb is_pandas ys) eqn:E; [|reflexivity]. apply existsb_exists in E. destruct E as [y [Hy E]]. destruct (Hraw y Hy) as [a ->]. discriminate. }
    exists (None, None). apply (broadcast_intro o ys junk' ys shape None None (map (array_of two) ys)); auto.
    + apply Forall_forall. intros y Hy. specialize (Hca y Hy). destruct (Hraw y Hy) as [a ->]. exact Hca.
    + split; intros _ a b Ha'; rewrite (no_pandas_labels ys _ Hp2) in Ha'; contradiction.
    + rewrite Hsh, Htwo. exact Hsh'.
    + rewrite Hsh, Htwo. apply each_same. exact Hnp.
    + apply wrap_same; [exact Hkr|]. intros y k Hy. destruct (Hraw y Hy) as [a ->]. unfold pandas_at, any_pandas. rewrite Hpd, Hp2. reflexivity.
    + unfold any_pandas. rewrite Hpd, Hp2. auto.
Qed.
