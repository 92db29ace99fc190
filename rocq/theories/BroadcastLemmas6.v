(** * Alignment of columns *)
From Coq Require Import String ZArith Bool List Arith Lia.
From Verif Require Import Base Grouper Reshape IndexFns IndexSpec Broadcast BroadcastSpec BaseFnsLemmas BaseFnsLemmas4 BaseFnsLemmas5 BroadcastLemmas BroadcastLemmas2 BroadcastLemmas3.
Import ListNotations.
Local Open Scope nat_scope.

Lemma take_ok : forall {A} ks (l r : list A), take ks l = Ok r -> taken ks l r.
Proof.
  induction ks as [|k ks IH]; intros l r H; cbn [take] in H.
  - inversion H; subst. split; [reflexivity|]. intros [|j] p Hp; discriminate.
  - destruct (nth_error l k) as [x|] eqn:E; [|discriminate]. apply bind_ok in H. destruct H as [t [Ht H]]. inversion H; subst. destruct (IH _ _ Ht) as [Hl Hn].
    split; [cbn; lia|]. intros [|j] p Hp; cbn [nth_error] in *; [inversion Hp; subst; eauto|]. apply Hn. exact Hp.
Qed.
Lemma take_levels_ok : forall ks ls ls', take_levels ks ls = Ok ls' -> Forall2 (fun l l' => lv_name l' = lv_name l /\ taken ks (lv_values l) (lv_values l')) ls ls'.
Proof.
  induction ls as [|l ls IH]; intros ls' H; cbn [take_levels] in H; [inversion H; constructor|].
  apply bind_ok in H. destruct H as [v [Hv H]]. apply bind_ok in H. destruct H as [r [Hr H]]. inversion H; subst. constructor; [|apply IH; exact Hr].
  split; [reflexivity|]. now apply take_ok.
Qed.
Lemma take_index_ok : forall ks x x', take_index ks x = Ok x' -> Forall2 (fun l l' => lv_name l' = lv_name l /\ taken ks (lv_values l) (lv_values l')) (levels_of x) (levels_of x').
Proof.
  intros ks [l|ls] x' H; cbn [take_index] in H; apply bind_ok in H; destruct H as [v [Hv H]]; inversion H; subst; cbn [levels_of].
  - constructor; [|constructor]. split; [reflexivity|]. now apply take_ok.
  - now apply take_levels_ok.
Qed.
Lemma take_rows_ok : forall {A} ks (rows rows' : list (list A)), take_rows ks rows = Ok rows' -> Forall2 (taken ks) rows rows'.
Proof.
  induction rows as [|r rows IH]; intros rows' H; cbn [take_rows] in H; [inversion H; constructor|].
  apply bind_ok in H. destruct H as [v [Hv H]]. apply bind_ok in H. destruct H as [vs [Hvs H]]. inversion H; subst. constructor; [now apply take_ok|auto].
Qed.

Lemma taken_frame : forall {A} ks i c (rows : list (list A)) x', consistent (Frame i c rows) -> select true (Some ks) (Frame i c rows) = Ok x' ->
  columns_taken ks (Frame i c rows) x' /\ consistent x'.
Proof.
  intros A ks i c rows x' Hc H. cbn [select] in H. apply bind_ok in H. destruct H as [c' [Hc' H]]. apply bind_ok in H. destruct H as [rows' [Hr H]]. inversion H; subst.
  apply take_rows_ok in Hr. assert (Hl : Forall2 (fun l l' => lv_name l' = lv_name l /\ taken ks (lv_values l) (lv_values l')) (levels_of c) (levels_of c')) by now apply take_index_ok.
  split; [exists i, c, rows, c', rows'; auto|]. destruct Hc as [H1 [[H2a H2b] [H3 H4]]].
  assert (Hof : of_length (length ks) c').
  { split; [intros E; rewrite E in Hl; inversion Hl; congruence|]. clear -Hl. induction Hl as [|a b la lb [_ [Hab _]] Hl IH]; constructor; auto. }
  apply of_length_proper in Hof. destruct Hof as [Hp Hlen]. split; [exact H1|]. split; [exact Hp|]. split.
  - rewrite H3. clear -Hr. induction Hr; cbn; congruence.
  - rewrite Hlen. clear -Hr. induction Hr as [|a b la lb [Hab _] Hl IH]; constructor; auto.
Qed.

(** What the positions say *)
Definition positions_for (junk : list nat) (targets : list Index) (c : Index) (ps : list nat) : Prop := exists t, In t targets /\ align_index_to c t junk = Ok ps.
Lemma first_aligned_ok : forall c targets junk ps, first_aligned c targets junk = Ok (Some ps) -> positions_for junk targets c ps.
Proof.
  induction targets as [|t ts IH]; intros junk ps H; cbn [first_aligned] in H; [discriminate|].
  destruct (align_index_to c t junk) as [idxs|e] eqn:E.
  - inversion H; subst. exists t. split; [now left|exact E].
  - destruct e; try discriminate. destruct (IH _ _ H) as [t' [Ht' E']]. exists t'. split; [now right|exact E'].
Qed.

Lemma align_selects : forall {A} (args : list (BArg A)) longest targets junk ps out,
  align_each (flat_map (fun x => match to_align true x with Some i => [i] | None => [] end) args) longest targets junk = Ok ps ->
  select_each true args ps = Ok out ->
  Forall2 (fun x x' => match to_align true x with
                       | None => x' = x
                       | Some c => if Nat.eqb (index_len c) longest then x' = x
                                   else exists ks, positions_for junk targets c ks /\ select true (Some ks) x = Ok x'
                       end) args out.
Proof.
  intros A. induction args as [|x args IH]; intros longest targets junk ps out Ha Hs; cbn [select_each] in Hs; [inversion Hs; constructor|].
  cbn [flat_map] in Ha. destruct (to_align true x) as [c|] eqn:E.
  - cbn [app align_each] in Ha. apply bind_ok in Ha. destruct Ha as [p [Hp Ha]]. apply bind_ok in Ha. destruct Ha as [ps' [Hps Ha]]. inversion Ha; subst ps.
    apply bind_ok in Hs. destruct Hs as [y [Hy Hs]]. apply bind_ok in Hs. destruct Hs as [ys [Hys Hs]]. inversion Hs; subst. constructor; [|eapply IH; eauto].
    rewrite E. destruct (Nat.eqb (index_len c) longest); [inversion Hp; subst; cbn in Hy; congruence|].
    apply bind_ok in Hp. destruct Hp as [p' [Hp' Hp]]. destruct p' as [ks|]; [|discriminate]. inversion Hp; subst. exists ks. split; [now apply first_aligned_ok|exact Hy].
  - cbn [app] in Ha. apply bind_ok in Hs. destruct Hs as [ys [Hys Hs]]. inversion Hs; subst. constructor; [rewrite E; reflexivity|]. eapply IH; eauto.
Qed.

Lemma align_common : forall x1 x2 junk idxs, map lv_values (levels_of x1) <> map lv_values (levels_of x2) -> align_index_to x1 x2 junk = Ok idxs ->
  exists l1 l2, common_levels x1 x2 l1 l2.
Proof.
  intros x1 x2 junk idxs Hne H. unfold align_index_to in H. destruct (levels_eqb (levels_of x1) (levels_of x2)) eqn:El; [apply levels_eqb_spec in El; contradiction|].
  apply bind_ok in H. destruct H as [mapper [Em H]]. destruct mapper as [|[i j] mapper]; [discriminate|].
  destruct (proj1 (match_levels_ok _ _ _ Em i j) (or_introl eq_refl)) as [l1 [l2 [H1 [H2 [H3 H4]]]]]. exists l1, l2.
  split; [eapply nth_error_In; eauto|]. split; [eapply nth_error_In; eauto|]. auto.
Qed.

Lemma max_len_max : forall xs, xs <> [] -> (forall w, In w xs -> index_len w <= max_len xs) /\ exists t, In t xs /\ index_len t = max_len xs.
Proof.
  intros xs Hne. split; [intros w Hw; unfold max_len; apply fold_max_ge; now apply in_map|]. unfold max_len.
  assert (H : forall l a, fold_left Nat.max l a = a \/ In (fold_left Nat.max l a) l).
  { induction l as [|x l IH]; intros a; cbn [fold_left]; [auto|]. destruct (IH (Nat.max a x)) as [E|E]; [|right; now right].
    rewrite E. destruct (Nat.max_spec a x) as [[_ ->]|[_ ->]]; [right; now left|now left]. }
  destruct (H (map index_len xs) 0) as [E|E].
  - destruct xs as [|x xs]; [congruence|]. exists x. split; [now left|]. pose proof (fold_max_ge (map index_len (x :: xs)) 0 (index_len x) (or_introl eq_refl)). lia.
  - apply in_map_iff in E. destruct E as [t [Et Ht]]. exists t. auto.
Qed.

Lemma align_columns_spec : forall {A} (args : list (BArg A)) junk args', Forall consistent args -> align_args true args junk = Ok args' ->
  Forall2 (aligned_to args) args args' /\ Forall consistent args'.
Proof.
  intros A args junk args' Hc H. unfold align_args in H. set (xs := flat_map (fun x : BArg A => match to_align true x with Some i => [i] | None => [] end) args) in *.
  assert (Hxs : forall i, In i xs <-> exists x, In x args /\ to_align true x = Some i).
  { intros i. unfold xs. rewrite in_flat_map. split.
    - intros [x [Hx Hi]]. exists x. split; [exact Hx|]. destruct (to_align true x); [destruct Hi as [->|[]]; reflexivity|contradiction].
    - intros [x [Hx Hi]]. exists x. split; [exact Hx|]. rewrite Hi. now left. }
  assert (Hlab : forall i, In i xs -> In i (all_labels true args) /\ 1 < index_len i /\ proper_index i).
  { intros i Hi. apply Hxs in Hi. destruct Hi as [x [Hx Hi]]. assert (Hcx : consistent x) by (eapply Forall_forall in Hc; eauto).
    destruct (to_align_labels true x i Hcx Hi) as [El Hl]. assert (In i (all_labels true args)) by (apply in_flat_map; exists x; rewrite El; split; [exact Hx|now left]).
    split; [assumption|]. split; [exact Hl|]. eapply all_proper; eauto. }
  assert (Hin : forall i, In i (all_labels true args) -> 1 < index_len i -> In i xs).
  { intros i Hi Hl. apply in_flat_map in Hi. destruct Hi as [x [Hx Hi]]. apply Hxs. exists x. split; [exact Hx|]. assert (Hcx : consistent x) by (eapply Forall_forall in Hc; eauto).
    destruct x as [a|ix nm l|ix cs rows]; cbn [labels_on] in Hi; [contradiction| |].
    - destruct Hcx as [_ [_ Hn]]. destruct Hi as [<-|[]]. destruct nm as [[|v [|]]|]; cbn in Hl; [congruence|lia|lia|lia].
    - destruct Hi as [<-|[]]. cbn [to_align]. apply Nat.ltb_lt in Hl. rewrite Hl. reflexivity. }
  assert (Hframe : forall (x : BArg A) i c rows, x = Frame i c rows -> 1 < index_len c -> to_align true x = Some c).
  { intros x i c rows -> Hl. cbn [to_align]. apply Nat.ltb_lt in Hl. rewrite Hl. reflexivity. }
  destruct (Nat.ltb 1 (length xs) && negb (forallb (fun x => Nat.eqb (index_len x) (max_len xs)) xs)) eqn:Ec.
  - apply bind_ok in H. destruct H as [ps [Hps Hs]]. unfold align_indexes in Hps. fold xs in Hps. pose proof (align_selects args _ _ _ ps args' Hps Hs) as Hf.
    apply andb_true_iff in Ec. destruct Ec as [Elen _]. apply Nat.ltb_lt in Elen. assert (Hne : xs <> []) by (intros E; rewrite E in Elen; cbn in Elen; lia).
    destruct (max_len_max xs Hne) as [Hmax _].
    assert (Hg : forall l l', Forall2 (fun x x' => match to_align true x with
                       | None => x' = x
                       | Some c => if Nat.eqb (index_len c) (max_len xs) then x' = x
                                   else exists ks, positions_for (map junk (seq 0 (max_len xs))) (filter (fun x => Nat.eqb (index_len x) (max_len xs)) xs) c ks /\ select true (Some ks) x = Ok x'
                       end) l l' -> (forall x, In x l -> In x args) -> Forall2 (aligned_to args) l l' /\ Forall consistent l').
    { intros l l' Hl. induction Hl as [|x x' l l' Hx Hl IH]; intros Hsub; [split; constructor|]. destruct IH as [IH1 IH2]; [intros z Hz; apply Hsub; now right|].
      assert (Hxin : In x args) by (apply Hsub; now left). assert (Hcx : consistent x) by (eapply Forall_forall in Hc; eauto).
      assert (Hgoal : aligned_to args x x' /\ consistent x'); [|split; constructor; tauto].
      destruct (to_align true x) as [c|] eqn:E.
      - destruct (Nat.eqb_spec (index_len c) (max_len xs)) as [El|El].
        + subst x'. split; [|exact Hcx]. split; [reflexivity|]. intros [i [c' [rows [t [-> [H1 [Ht Hlt]]]]]]]. exfalso. rewrite (Hframe _ i c' rows eq_refl H1) in E. inversion E; subst.
          assert (In t xs) by (apply Hin; [exact Ht|lia]). pose proof (Hmax t H). lia.
        + destruct Hx as [ks [[t [Ht Hal]] Hsel]]. apply filter_In in Ht. destruct Ht as [Ht Htl]. apply Nat.eqb_eq in Htl.
          assert (Hcin : In c xs) by (apply Hxs; eauto). pose proof (Hmax c Hcin) as Hle.
          destruct x as [a|ix nm l0|ix cs rows]; cbn [to_align] in E; [discriminate|discriminate|]. destruct (Nat.ltb_spec 1 (index_len cs)) as [Hcs|]; [|discriminate]. inversion E; subst cs.
          destruct (taken_frame ks ix c rows x' Hcx Hsel) as [Htk Hcx']. split; [|exact Hcx'].
          destruct (Hlab t Ht) as [Htin [_ Htp]]. assert (Hcp : proper_index c) by (apply Hcx).
          assert (Hdiff : map lv_values (levels_of c) <> map lv_values (levels_of t)).
          { intros Em. apply El. rewrite <- Htl. destruct Hcp as [Hcw Hcn]. destruct Htp as [Htw Htn]. clear -Em Hcw Hcn Htw Htn. unfold well_formed in *.
            destruct (levels_of c) as [|lc tc]; [congruence|]. destruct (levels_of t) as [|lt tt]; [congruence|].
            inversion Hcw as [|a b Ha Hb]; inversion Htw as [|a' b' Ha' Hb']; subst. cbn in Em. injection Em as E1 E2. rewrite <- Ha, <- Ha', E1. reflexivity. }
          split; [intros Hn; exfalso; apply Hn; exists ix, c, rows, t; repeat split; auto; lia|]. intros _. exists ix, c, rows, t, ks. split; [reflexivity|]. split; [exact Htin|]. split.
          * intros w Hw. destruct (Nat.le_gt_cases (index_len w) 1); [lia|]. rewrite Htl. apply Hmax. now apply Hin.
          * split; [exact Htk|]. split; [eapply align_common; eauto|]. intros Hall.
            destruct (align_sound c t (map junk (seq 0 (max_len xs))) ks) as [Hl1 Hl2]; auto; [apply Hcp|apply Htp|rewrite map_length, seq_length; auto|].
            split; [exact Hl1|]. intros k Hk. destruct (Hl2 k Hk) as [p [Hp1 [_ Hp2]]]. eauto.
      - subst x'. split; [|exact Hcx]. split; [reflexivity|]. intros [i [c' [rows [t [-> [H1 _]]]]]]. exfalso. rewrite (Hframe _ i c' rows eq_refl H1) in E. discriminate. }
    apply Hg; auto.
  - inversion H; subst args'. split; [|exact Hc].
    assert (Hnone : forall x, In x args -> aligned_to args x x).
    { intros x Hx. split; [reflexivity|]. intros [i [c [rows [t [-> [H1 [Ht Hlt]]]]]]]. exfalso.
      assert (Hc1 : In c xs) by (apply Hxs; exists (Frame i c rows); split; [exact Hx|]; eapply Hframe; eauto). assert (Ht1 : In t xs) by (apply Hin; [exact Ht|lia]).
      apply andb_false_iff in Ec. destruct Ec as [Ec|Ec].
      - apply Nat.ltb_ge in Ec. destruct xs as [|a [|b xs']]; [contradiction| |cbn in Ec; lia]. destruct Hc1 as [<-|[]]. destruct Ht1 as [<-|[]]. lia.
      - apply negb_false_iff in Ec. rewrite forallb_forall in Ec. pose proof (Ec c Hc1) as E1. pose proof (Ec t Ht1) as E2. apply Nat.eqb_eq in E1, E2. lia. }
    clear -Hnone. assert (Hg : forall l, (forall x, In x l -> In x args) -> Forall2 (aligned_to args) l l).
    { induction l as [|x l IH]; intros Hs; constructor; [apply Hnone; apply Hs; now left|]. apply IH. intros z Hz. apply Hs. now right. }
    apply Hg. auto.
Qed.


Lemma aligned_kind : forall {A} (args : list (BArg A)) x x', aligned_to args x x' -> has_2d x' = has_2d x /\ is_pandas x' = is_pandas x.
Proof.
  intros A args x x' [H1 H2]. destruct x as [a|ix nm l|ix cs rows].
  - rewrite H1; auto. intros [i [c [rows [t [E _]]]]]. discriminate.
  - rewrite H1; auto. intros [i [c [rows [t [E _]]]]]. discriminate.
  - assert (Hd : (exists i c rows0 t, Frame ix cs rows = Frame i c rows0 /\ 1 < index_len c /\ In t (all_labels true args) /\ index_len c < index_len t) \/
                 ~ (exists i c rows0 t, Frame ix cs rows = Frame i c rows0 /\ 1 < index_len c /\ In t (all_labels true args) /\ index_len c < index_len t)).
    { destruct (Nat.ltb 1 (index_len cs) && existsb (fun t => Nat.ltb (index_len cs) (index_len t)) (all_labels true args)) eqn:E.
      - left. apply andb_true_iff in E. destruct E as [E1 E2]. apply existsb_exists in E2. destruct E2 as [t [Ht E2]]. apply Nat.ltb_lt in E1, E2. exists ix, cs, rows, t. auto.
      - right. intros [i [c [r [t [Ef [Hl [Ht Hlt]]]]]]]. inversion Ef; subst. apply andb_false_iff in E. destruct E as [E|E]; [apply Nat.ltb_ge in E; lia|].
        assert (existsb (fun t => Nat.ltb (index_len c) (index_len t)) (all_labels true args) = true) by (apply existsb_exists; exists t; split; [exact Ht|now apply Nat.ltb_lt]). congruence. }
    destruct Hd as [Hd|Hd]; [|rewrite (H1 Hd); auto]. destruct (H2 Hd) as [i [c [r [t [ps [_ [_ [_ [[i' [c0 [r0 [c' [r' [_ [-> _]]]]]]] _]]]]]]]]]. auto.
Qed.

Lemma broadcast_aligned : forall {A} o (args : list (BArg A)) junk r, Forall consistent args -> bo_align_index o = false -> bo_align_columns o = true ->
  broadcast o args junk = Ok r ->
  exists args', Forall2 (aligned_to args) args args' /\ Forall consistent args' /\ broadcast (without_alignment o) args' junk = Ok r.
Proof.
  intros A o args junk r Hc Hi Hco H. unfold broadcast in H. rewrite Hi, Hco in H. cbn [bind] in H. apply bind_ok in H. destruct H as [args' [Ha H]].
  destruct (align_columns_spec args junk args' Hc Ha) as [Hf Hc']. exists args'. split; [exact Hf|]. split; [exact Hc'|].
  assert (E2 : existsb has_2d args' = existsb has_2d args) by (clear -Hf; revert Hf; generalize args at 1; intros a0 Hf; induction Hf as [|x y l l' Hx Hf IH]; [reflexivity|]; cbn [existsb]; destruct (aligned_kind _ _ _ Hx) as [-> _]; now rewrite IH).
  assert (Ep : existsb is_pandas args' = existsb is_pandas args) by (clear -Hf; revert Hf; generalize args at 1; intros a0 Hf; induction Hf as [|x y l l' Hx Hf IH]; [reflexivity|]; cbn [existsb]; destruct (aligned_kind _ _ _ Hx) as [_ ->]; now rewrite IH).
  assert (El : length args' = length args) by (clear -Hf; revert Hf; generalize args at 1; intros a0 Hf; induction Hf; cbn; congruence).
  unfold broadcast, without_alignment. cbn [bo_shape bo_to_pd bo_to_frame bo_align_index bo_align_columns bo_index_from bo_columns_from bo_keep_raw bo_stack bind].
  rewrite E2, Ep, El. destruct o as [f1 f2 f3 f4 f5 f6 f7 f8 f9]. cbn [bo_shape bo_to_pd bo_to_frame bo_align_index bo_align_columns bo_index_from bo_columns_from bo_keep_raw bo_stack] in *. 
  (* the other options are the same *)
  assert (Hw : forall pd k l arrs ni nc, wrap_each (mkBOpts f1 f2 f3 false false f6 f7 f8 f9) pd k (l : list (BArg A)) arrs ni nc = wrap_each (mkBOpts f1 f2 f3 f4 f5 f6 f7 f8 f9) pd k l arrs ni nc).
  { clear. intros pd k l. revert k. induction l as [|x l IH]; intros k [|a arrs] ni nc; cbn [wrap_each]; auto. cbn [bo_keep_raw bo_stack]. rewrite IH. reflexivity. }
  apply bind_ok in H. destruct H as [sh [H1 H]]. rewrite H1. cbn [bind]. apply bind_ok in H. destruct H as [arrs [H2 H]]. rewrite H2. cbn [bind].
  apply bind_ok in H. destruct H as [[i c] [H3 H]]. rewrite H3. cbn [bind]. apply bind_ok in H. destruct H as [ys [H4 H]]. rewrite Hw, H4. exact H.
Qed.
