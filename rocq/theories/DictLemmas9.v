(** * Reset of configs: histories *)
From Coq Require Import String ZArith Bool List Arith Lia.
From Verif Require Import Base Dicts DictSpec DictLemmas DictLemmas2 DictLemmas3 DictLemmas4 DictLemmas5 DictLemmas6 DictLemmas7 DictLemmas8.
Import ListNotations.
Local Open Scope list_scope.
Local Open Scope nat_scope.

Lemma owned_plain : forall t h v S, owned h v t S -> denotes plain_kind h v t.
Proof.
  induction t as [z|b l IH] using Tree_ind'; intros h v S Ho; [apply Ho|]. apply owned_dict in Ho.
  destruct Ho as [a [its [S' [H1 [H2 [_ [_ [H5 H6]]]]]]]]. cbn. exists a, (mkObj b None its []). split; [exact H1|]. split; [exact H2|].
  split; [split; reflexivity|]. split; [reflexivity|]. split; [exact H5|]. cbn. clear - IH H6.
  revert its S' H6. induction l as [|[k t] l IHl]; intros [|[k' v] its] S' H6; cbn in *; try exact H6; try exact I.
  apply Forall_cons_iff in IH. destruct IH as [IHt IHr]. destruct H6 as [-> [S1 [S2 [_ [_ [Ho Hr]]]]]]. split; [reflexivity|].
  split; [exact (IHt h v S1 Ho)|exact (IHl IHr its S2 Hr)].
Qed.
Lemma own_items_plain : forall ts h its S, own_items h its ts S -> den_items plain_kind h its ts.
Proof.
  induction ts as [|[k t] ts IH]; intros h [|[k' v] its] S H; cbn in H; try contradiction; [constructor|].
  destruct H as [-> [S1 [S2 [_ [_ [Ho Hr]]]]]]. constructor; [split; [reflexivity|now apply owned_plain in Ho]|eapply IH; eauto].
Qed.
Lemma den_keys : forall kind h its ts, den_items kind h its ts -> keys its = keys ts.
Proof. intros kind h its ts H. induction H as [|[k v] [k' t] l l' [H1 _] H IH]; [reflexivity|]. unfold keys in *. cbn in *. now rewrite H1, IH. Qed.
Lemma den_unchanged : forall kind h h' its ts, unchanged h h' -> den_items kind h its ts -> den_items kind h' its ts.
Proof.
  intros kind h h' its ts Hu H. unfold den_items in *. induction H as [|x y l l' [H1 H2] H IH]; constructor; [|exact IH]. split; [exact H1|].
  eapply denotes_unchanged; eauto.
Qed.
Lemma own_items_refs : forall ts h its S k b, own_items h its ts S -> In (k, VRef b) its -> In b S.
Proof.
  induction ts as [|[k0 t] ts IH]; intros h [|[k' v] its] S k b H Hi; cbn in H; try contradiction.
  destruct H as [-> [S1 [S2 [-> [_ [Ho Hr]]]]]]. apply in_or_app. destruct Hi as [Hi|Hi]; [|right; eapply IH; eauto].
  injection Hi as -> ->. left. destruct t as [z|b0 l]; [destruct Ho; discriminate|]. apply owned_dict in Ho. destruct Ho as [a [i [S' [E [_ [-> _]]]]]]. injection E as ->. now left.
Qed.
Lemma sets_fresh : forall V (l d : list (string * V)), NoDup (keys (d ++ l)) -> fold_left (fun d kv => dict_set d (fst kv) (snd kv)) l d = d ++ l.
Proof.
  induction l as [|[k v] l IH]; intros d Hn; [now rewrite app_nil_r|]. cbn. rewrite set_not_in.
  - rewrite IH; rewrite <- app_assoc; [reflexivity|exact Hn].
  - unfold keys in Hn. rewrite map_app in Hn. cbn in Hn. apply NoDup_remove_2 in Hn. intros H. apply Hn, in_or_app. now left.
Qed.

(** ** Only [a] changes *)
Definition only (a : nat) (h h' : Heap) : Prop := List.length h' = List.length h /\ forall b, b <> a -> nth_error h' b = nth_error h b.
Lemma only_upd : forall h a o, only a h (upd h a o).
Proof. intros h a o. split; [apply upd_length|]. intros b Hb. now apply upd_other. Qed.
Lemma only_trans : forall a h1 h2 h3, only a h1 h2 -> only a h2 h3 -> only a h1 h3.
Proof. intros a h1 h2 h3 [L1 E1] [L2 E2]. split; [congruence|]. intros b Hb. rewrite E2, E1; auto. Qed.
Lemma sep_only : forall R a h h' o, sep R h -> only a h h' -> nth_error h' a = Some o -> fine R h (o_items o) -> ~ In a R -> sep R h'.
Proof.
  intros R a h h' o [Hc [Hl Hs]] [HL HE] Ho Hf Ha.
  assert (Hcase : forall b ob, nth_error h' b = Some ob -> (b = a /\ ob = o) \/ (b <> a /\ nth_error h b = Some ob)).
  { intros b ob Hb. destruct (Nat.eq_dec b a) as [->|Hd]; [left; split; [reflexivity|congruence]|right]. rewrite HE in Hb by exact Hd. auto. }
  split; [|split].
  - intros b ob k c Hb Hin. rewrite HL. destruct (Hcase b ob Hb) as [[_ ->]|[_ H]]; [apply (Hf k c Hin)|eapply Hc; eauto].
  - intros b Hb. rewrite HL. auto.
  - intros b ob Hb Hnb k c Hin. rewrite HL. destruct (Hcase b ob Hb) as [[_ ->]|[_ H]]; [apply (Hf k c Hin)|apply (Hs b ob H Hnb k c Hin)].
Qed.
Lemma force_items_config : forall items h a o c, nth_error h a = Some o -> o_cfg o = Some c ->
  exists h' o', force_items a items h = (h', Done tt) /\ only a h h' /\ nth_error h' a = Some o' /\ o_cfg o' = Some c /\
    o_items o' = fold_left (fun d kv => dict_set d (fst kv) (snd kv)) items (o_items o).
Proof.
  unfold force_items. induction items as [|[k v] items IH]; intros h a o c Hn Hc.
  { exists h, o. split; [reflexivity|]. split; [split; auto|]. auto. }
  cbn [each fst snd fold_left].
  assert (E1 : set_dict_item a k v true h = (upd h a (mkObj (o_atomic o) (o_cfg o) (dict_set (o_items o) k v)
     match o_cfg o with Some c => if c_as_attrs c then dict_set (o_attrs o) k v else o_attrs o | None => o_attrs o end), Done tt)).
  { unfold set_dict_item. rewrite (andThen_done _ _ _ _ _ _ _ (load_done _ _ _ Hn)), Hc. unfold config_setitem.
    rewrite (andThen_done _ _ _ _ _ _ _ (load_done _ _ _ Hn)). cbn [negb andb]. unfold set_raw. rewrite (andThen_done _ _ _ _ _ _ _ (load_done _ _ _ Hn)), Hc. reflexivity. }
  rewrite (andThen_done _ _ _ _ _ _ _ E1).
  match goal with |- context [upd h a ?x] => set (o1 := x) in * end.
  destruct (IH (upd h a o1) a o1 c (upd_same _ _ _ _ _ Hn) Hc) as [h' [o' [G1 [G2 [G3 [G4 G5]]]]]].
  exists h', o'. split; [exact G1|]. split; [eapply only_trans; [apply only_upd|exact G2]|]. split; [exact G3|]. split; [exact G4|]. exact G5.
Qed.

(** ** A fresh private copy *)
Lemma snapshot : forall fuel h s os ts kw, closed h -> nth_error h s = Some os -> NoDup (keys ts) -> den_items plain_kind h (o_items os) ts ->
  depth (TDict false ts) <= fuel -> cp_nested kw = true ->
  exists h1 h2 r S R, dict_of s h = (h1, Done (List.length h)) /\ copy_dict fuel (List.length h) kw h1 = (h2, Done r) /\
    unchanged h h2 /\ owned h2 (VRef r) (TDict false ts) S /\ incl S R /\ sep R h2 /\ (forall z, In z R -> List.length h < z).
Proof.
  intros fuel h s os ts kw Hc Hs Hnd Hden Hdep Hkw. set (h1 := h ++ [plain (o_items os)]).
  assert (E1 : dict_of s h = (h1, Done (List.length h))).
  { unfold dict_of. rewrite (andThen_done _ _ _ _ _ _ _ (load_done _ _ _ Hs)). reflexivity. }
  assert (Hl1 : List.length h1 = S (List.length h)) by (unfold h1; rewrite app_length; cbn; lia).
  assert (Hr0 : denotes plain_kind h1 (VRef (List.length h)) (TDict false ts)).
  { apply denotes_dict. exists (List.length h), (plain (o_items os)). split; [reflexivity|]. split.
    { unfold h1. rewrite nth_error_app2, Nat.sub_diag by lia. reflexivity. }
    split; [split; reflexivity|]. split; [reflexivity|]. split; [exact Hnd|]. cbn [plain o_items].
    eapply den_unchanged; [apply unchanged_app|exact Hden]. }
  destruct kw as [mode nst]. cbn in Hkw. subst nst.
  destruct (copy_fresh (TDict false ts) fuel h1 (List.length h) mode Hdep ltac:(exists false, ts; reflexivity) Hr0) as [h2 [r [S [G1 [G2 [G3 G4]]]]]].
  cbn beta in G1.
  destruct (gives_dict_of s h Hc) as [C1 _]. rewrite E1 in C1. cbn in C1.
  destruct (gives_copy_dict fuel (List.length h) (mkCopyKwargs mode true) h1 (proj1 C1)) as [C2 _]. rewrite G1 in C2. cbn in C2.
  exists h1, h2, r, S, (seq (List.length h1) (List.length h2 - List.length h1)). split; [exact E1|]. split; [exact G1|].
  split; [eapply unchanged_trans; [apply unchanged_app|exact G2]|]. split; [exact G3|]. split.
  { intros z Hz. apply in_seq. pose proof (G4 z Hz). pose proof (owned_in _ _ _ _ _ G3 Hz). lia. }
  split; [|intros z Hz; apply in_seq in Hz; lia]. split; [apply C2|]. split; [intros b Hb; apply in_seq in Hb; lia|].
  intros b ob Hb Hnb k c Hin. assert (Hlt : b < List.length h1).
  { pose proof (nth_error_len _ _ _ _ Hb). destruct (Nat.lt_ge_cases b (List.length h1)); [assumption|]. exfalso. apply Hnb, in_seq. lia. }
  destruct (nth_error h1 b) as [ob1|] eqn:Eb; [|apply nth_error_None in Eb; lia]. pose proof (G2 _ _ Eb) as Eb2. rewrite Hb in Eb2. injection Eb2 as <-.
  pose proof (proj1 C1 b ob k c Eb Hin) as Hcl. destruct C2. split; [lia|]. rewrite in_seq. lia.
Qed.

(** ** The invariant *)
Definition saved_in (h : Heap) (a : nat) (roots : nat -> Prop) (ts : list (string * Tree)) : Prop :=
  exists R S o c, nth_error h a = Some o /\ o_cfg o = Some c /\ cp_nested (c_reset_copy c) = true /\ owned h (VRef (c_reset c)) (TDict false ts) S /\
    incl S R /\ sep R h /\ ~ In a R /\ (forall x, roots x -> x < List.length h /\ ~ In x R) /\ depth (TDict false ts) <= depth_limit.

Lemma saved_quiet : forall h h' a (roots : nat -> Prop) ts R S o c, nth_error h a = Some o -> o_cfg o = Some c -> cp_nested (c_reset_copy c) = true ->
  owned h (VRef (c_reset c)) (TDict false ts) S -> incl S R -> ~ In a R -> (forall x, roots x -> x < List.length h' /\ ~ In x R) ->
  depth (TDict false ts) <= depth_limit -> quiet R h h' -> saved_in h' a roots ts.
Proof.
  intros h h' a roots ts R S o c H1 H2 H3 H4 H5 H6 H7 H8 [Q1 [Q2 [Q3 Q4]]]. destruct (Q4 a o H1) as [o' [E1 E2]].
  exists R, S, o', c. split; [exact E1|]. split; [congruence|]. split; [exact H3|]. split; [|repeat (split; [assumption|]); assumption].
  apply (owned_frame _ h); [|exact H4]. intros x Hx. apply Q3. auto.
Qed.
Lemma saved_edit : forall h a roots ts b op force, saved_in h a roots ts -> edit h roots b op -> saved_in (fst (call b op force h)) a roots ts.
Proof.
  intros h a roots ts b op force [R [S [o [c [H1 [H2 [H3 [H4 [H5 [H6 [H7 [H8 H9]]]]]]]]]]]] He.
  pose proof (quiet_edit R h roots b op force H6 H8 He) as Q. eapply saved_quiet; eauto. intros x Hx. destruct (H8 x Hx). pose proof (quiet_len _ _ _ Q). split; [lia|auto].
Qed.
Lemma saved_new : forall h a (roots : nat -> Prop) ts items, saved_in h a roots ts -> (forall k v, In (k, v) items -> reach_val h roots v) ->
  saved_in (h ++ [plain items]) a (fun b => roots b \/ b = List.length h) ts.
Proof.
  intros h a roots ts items [R [S [o [c [H1 [H2 [H3 [H4 [H5 [H6 [H7 [H8 H9]]]]]]]]]]]] Hi.
  assert (Q : quiet R h (h ++ [plain items])).
  { apply quiet_alloc; [exact H6|]. intros k b Hb. exact (reach_val_out R h roots (VRef b) H6 H8 (Hi k (VRef b) Hb)). }
  eapply saved_quiet; eauto. intros x [Hx| ->].
  - destruct (H8 x Hx). rewrite app_length. split; [lia|auto].
  - rewrite app_length. split; [cbn; lia|]. intros Hin. destruct H6 as [_ [Hl _]]. apply Hl in Hin. lia.
Qed.

(** the new copy is installed in the config *)
Lemma installed : forall h h2 h3 a (roots : nat -> Prop) ts r S R o2 o3 c, unchanged h h2 -> owned h2 (VRef r) (TDict false ts) S -> incl S R -> sep R h2 ->
  (forall z, In z R -> List.length h < z) -> a < List.length h -> (forall x, roots x -> x < List.length h) -> depth (TDict false ts) <= depth_limit ->
  only a h2 h3 -> nth_error h2 a = Some o2 -> nth_error h3 a = Some o3 -> fine R h2 (o_items o3) -> o_cfg o3 = Some c -> c_reset c = r -> cp_nested (c_reset_copy c) = true ->
  saved_in h3 a roots ts.
Proof.
  intros h h2 h3 a roots ts r S R o2 o3 c Hu Ho HSR Hsep HR Ha Hroots Hdep Honly E2 E3 Hf Hc Hr Hcp.
  assert (HaR : ~ In a R) by (intros H; apply HR in H; lia).
  exists R, S, o3, c. split; [exact E3|]. split; [exact Hc|]. split; [exact Hcp|]. split.
  { rewrite Hr. apply (owned_frame _ h2); [|exact Ho]. intros x Hx. apply Honly. intros ->. apply HaR. auto. }
  split; [exact HSR|]. split; [eapply sep_only; eauto|]. split; [exact HaR|]. split; [|exact Hdep].
  intros x Hx. pose proof (Hroots x Hx). destruct Honly as [HL _]. rewrite HL. pose proof (unchanged_length _ _ Hu). split; [lia|]. intros Hz; apply HR in Hz; lia.
Qed.
Lemma fine_old : forall R h h2 items, unchanged h h2 -> (forall z, In z R -> List.length h < z) -> within h items -> fine R h2 items.
Proof. intros R h h2 items Hu HR Hw k b Hb. pose proof (Hw k b Hb). pose proof (unchanged_length _ _ Hu). split; [lia|]. intros Hz; apply HR in Hz; lia. Qed.

Lemma set_reset_only : forall h a r o c, nth_error h a = Some o -> o_cfg o = Some c ->
  exists o', set_reset a r h = (upd h a o', Done tt) /\ o_items o' = o_items o /\
    exists c', o_cfg o' = Some c' /\ c_reset c' = r /\ c_reset_copy c' = c_reset_copy c.
Proof.
  intros h a r o c Hn Hc. unfold set_reset. rewrite (andThen_done _ _ _ _ _ _ _ (load_done _ _ _ Hn)), Hc. eexists. split; [reflexivity|].
  split; [reflexivity|]. eexists. split; [reflexivity|]. split; reflexivity.
Qed.

Lemma saved_reset : forall h a roots ts o c force, saved_in h a roots ts -> nth_error h a = Some o -> o_cfg o = Some c -> negb force && c_readonly c = false ->
  exists h', call a OReset force h = (h', Done tt) /\ holds h' a ts /\ saved_in h' a roots ts.
Proof.
  intros h a roots ts o c force [R [S [o' [c' [H1 [H2 [H3 [H4 [H5 [H6 [H7 [H8 H9]]]]]]]]]]]] Hn Hc Hro.
  rewrite Hn in H1. injection H1 as <-. rewrite Hc in H2. injection H2 as <-.
  unfold call. rewrite (andThen_done _ _ _ _ _ _ _ (load_done _ _ _ Hn)), Hc. unfold config_reset. rewrite Hro.
  pose proof H4 as H4'. apply owned_dict in H4'. destruct H4' as [ra [its [S' [E0 [Eres [-> [Hra [Hnd Hown]]]]]]]]. injection E0 as E0.
  pose proof (own_items_plain _ _ _ _ Hown) as Hden. pose proof (den_keys _ _ _ _ Hden) as Hkeys.
  rewrite <- E0 in Eres.
  destruct (snapshot depth_limit h (c_reset c) _ ts (c_reset_copy c) (proj1 H6) Eres Hnd Hden H9 H3) as [h1 [h2 [r [S2 [R2 [G1 [G2 [G3 [G4 [G5 [G6 G7]]]]]]]]]]].
  rewrite (andThen_done _ _ _ _ _ _ _ G1), (andThen_done _ _ _ _ _ _ _ G2). clear G1 G2.
  pose proof (G3 _ _ Hn) as Hn2. pose proof (nth_error_len _ _ _ _ Hn) as Hla.
  set (o3 := mkObj (o_atomic o) (o_cfg o) [] (clear_attrs o c [])).
  assert (E3 : config_clear a c true h2 = (upd h2 a o3, Done tt)).
  { unfold config_clear. cbn [negb andb]. rewrite (andThen_done _ _ _ _ _ _ _ (load_done _ _ _ Hn2)). reflexivity. }
  rewrite (andThen_done _ _ _ _ _ _ _ E3).
  assert (Hrb : c_reset c <> a). { intros E. apply H7, H5. left. congruence. }
  assert (Eres3 : nth_error (upd h2 a o3) (c_reset c) = Some (mkObj false None its [])) by (rewrite upd_other by exact Hrb; now apply G3).
  rewrite (andThen_done _ _ _ _ _ _ _ (load_done _ _ _ Eres3)). cbn [o_items].
  destruct (force_items_config its (upd h2 a o3) a o3 c (upd_same _ _ _ _ _ Hn2) Hc) as [h4 [o4 [F1 [F2 [F3 [F4 F5]]]]]].
  rewrite (andThen_done _ _ _ _ _ _ _ F1). cbn [o3 o_items] in F5. rewrite sets_fresh in F5 by (cbn [app]; now rewrite Hkeys). cbn [app] in F5.
  destruct (set_reset_only h4 a r o4 c F3 F4) as [o5 [K1 [K2 [c5 [K3 [K4 K5]]]]]].
  exists (upd h4 a o5). split; [exact K1|].
  assert (Honly : only a h2 (upd h4 a o5)) by (eapply only_trans; [eapply only_trans; [apply only_upd|exact F2]|apply only_upd]).
  assert (Hn5 : nth_error (upd h4 a o5) a = Some o5) by (eapply upd_same; exact F3).
  assert (Hits : o_items o5 = its) by congruence.
  assert (Hw : within h its). { intros k b Hb. pose proof (own_items_refs _ _ _ _ _ _ Hown Hb) as Hin. exact (own_items_in _ _ _ _ _ Hown Hin). }
  split.
  - exists o5. split; [exact Hn5|]. split; [exact Hnd|]. rewrite Hits. apply (own_items_plain ts _ its S'). apply (own_items_frame ts h); [|exact Hown].
    intros x Hx. pose proof (own_items_in _ _ _ _ _ Hown Hx) as Hlx. destruct Honly as [_ HE]. rewrite HE by (intros ->; apply H7, H5; now right).
    destruct (nth_error h x) eqn:Ex; [now apply G3|]. apply nth_error_None in Ex. lia.
  - refine (installed h h2 _ a roots ts r S2 R2 o o5 c5 G3 G4 G5 G6 G7 Hla _ H9 Honly Hn2 Hn5 _ K3 K4 _).
    + intros x Hx. now apply H8.
    + rewrite Hits. eapply fine_old; eauto.
    + congruence.
Qed.
Lemma saved_checkpoint : forall h a roots ts ts1 force h1, saved_in h a roots ts -> holds h a ts1 -> depth (TDict false ts1) <= depth_limit ->
  call a OCheckpoint force h = (h1, Done tt) -> saved_in h1 a roots ts1.
Proof.
  intros h a roots ts ts1 force h' [R [S [o [c [H1 [H2 [H3 [H4 [H5 [H6 [H7 [H8 H9]]]]]]]]]]]] [o' [E [Hnd Hden]]] Hdep Hcall.
  rewrite H1 in E. injection E as <-.
  unfold call in Hcall. rewrite (andThen_done _ _ _ _ _ _ _ (load_done _ _ _ H1)), H2 in Hcall. unfold config_make_checkpoint in Hcall.
  destruct (negb force && c_readonly c); [discriminate|].
  destruct (snapshot depth_limit h a _ ts1 (c_reset_copy c) (proj1 H6) H1 Hnd Hden Hdep H3) as [h1 [h2 [r [S2 [R2 [G1 [G2 [G3 [G4 [G5 [G6 G7]]]]]]]]]]].
  rewrite (andThen_done _ _ _ _ _ _ _ G1), (andThen_done _ _ _ _ _ _ _ G2) in Hcall.
  pose proof (G3 _ _ H1) as Hn2. destruct (set_reset_only h2 a r o c Hn2 H2) as [o5 [K1 [K2 [c5 [K3 [K4 K5]]]]]]. rewrite K1 in Hcall. injection Hcall as <-.
  refine (installed h h2 _ a roots ts1 r S2 R2 o o5 c5 G3 G4 G5 G6 G7 _ _ Hdep _ Hn2 _ _ K3 K4 _).
  - eapply nth_error_len; exact H1.
  - intros x Hx. now apply H8.
  - apply only_upd.
  - eapply upd_same; exact Hn2.
  - rewrite K2. eapply fine_old; eauto. eapply within_load; [apply H6|exact H1].
  - congruence.
Qed.
Lemma saved_history : forall a h roots ts h' ts', history a h roots ts h' ts' -> saved_in h a roots ts -> exists roots', saved_in h' a roots' ts'.
Proof.
  intros a h roots ts h' ts' H. induction H as [h roots ts|h roots ts b op force h' ts' He Hh IH|h roots ts items h' ts' Hi Hh IH|h roots ts force h1 h' ts' Hc Hh IH|h roots ts ts1 force h1 h' ts' Hd Hdep Hc Hh IH];
    intros Hs.
  - eauto.
  - apply IH. now apply saved_edit.
  - apply IH. now apply saved_new.
  - pose proof Hs as Hs'. destruct Hs' as [R [S [o [c [H1 [H2 _]]]]]].
    destruct (negb force && c_readonly c) eqn:Ero.
    + exfalso. unfold call in Hc. rewrite (andThen_done _ _ _ _ _ _ _ (load_done _ _ _ H1)), H2 in Hc. unfold config_reset in Hc. rewrite Ero in Hc. discriminate.
    + destruct (saved_reset h a roots ts o c force Hs H1 H2 Ero) as [h2 [E2 [_ Hs2]]]. rewrite Hc in E2. injection E2 as <-. auto.
  - apply IH. eapply saved_checkpoint; eauto.
Qed.
(** A config made from dictionaries *)
Lemma saved_init : forall fuel h dct ts at_ ro fr nst attrs ck rk, closed h -> holds h dct ts -> depth (TDict false ts) <= fuel -> depth (TDict false ts) <= depth_limit ->
  cp_nested ck = true -> cp_nested rk = true ->
  exists h' a, config_init (S fuel) at_ dct None ro fr nst false attrs ck rk h = (h', Done a) /\ unchanged h h' /\ List.length h <= a /\ holds h' a ts /\
    saved_in h' a (fun b => b < List.length h \/ b = a) ts.
Proof.
  intros fuel h dct ts at_ ro fr nst attrs ck rk Hc [o [Hn [Hnd Hden]]] Hdep Hdep2 Hck Hrk.
  destruct (snapshot fuel h dct o ts ck Hc Hn Hnd Hden Hdep Hck) as [h1 [h2 [d [S [R [G1 [G2 [G3 [G4 [_ [G6 G7]]]]]]]]]]].
  pose proof G4 as G4'. apply owned_dict in G4'. destruct G4' as [da [its [S' [E0 [Ed [-> [Hda [_ Hown]]]]]]]]. injection E0 as E0. rewrite <- E0 in *. clear E0 da.
  pose proof (own_items_plain _ _ _ _ Hown) as Hden2.
  destruct (snapshot fuel h2 d _ ts rk (proj1 G6) Ed Hnd Hden2 Hdep Hrk) as [h3 [h4 [r [S2 [R2 [J1 [J2 [J3 [J4 [J5 [J6 J7]]]]]]]]]]].
  pose proof (J3 _ _ Ed) as Ed4.
  set (oc := mkObj at_ (Some (mkCfg ro fr nst attrs ck rk r)) its (if attrs then its else [])).
  assert (E : config_init (Datatypes.S fuel) at_ dct None ro fr nst false attrs ck rk h = (h4 ++ [oc], Done (List.length h4))).
  { cbn [config_init]. rewrite (andThen_done _ _ _ _ _ _ _ G1), (andThen_done _ _ _ _ _ _ _ G2), (andThen_done _ _ _ _ _ _ _ (load_done _ _ _ Ed)).
    rewrite (andThen_done _ _ (ret tt) _ _ _ _ eq_refl). rewrite (andThen_done _ _ _ _ _ _ _ J1), (andThen_done _ _ _ _ _ _ _ J2), (andThen_done _ _ _ _ _ _ _ (load_done _ _ _ Ed4)). reflexivity. }
  exists (h4 ++ [oc]), (List.length h4). split; [exact E|].
  assert (Hu : unchanged h h4) by (eapply unchanged_trans; eauto).
  assert (Hu5 : unchanged h4 (h4 ++ [oc])) by apply unchanged_app.
  pose proof (unchanged_length _ _ Hu) as Hlen. pose proof (unchanged_length _ _ J3) as Hlen2.
  assert (Hna : nth_error (h4 ++ [oc]) (List.length h4) = Some oc) by (rewrite nth_error_app2, Nat.sub_diag by lia; reflexivity).
  split; [eapply unchanged_trans; eauto|]. split; [exact Hlen|]. split.
  - exists oc. split; [exact Hna|]. split; [exact Hnd|]. cbn [oc o_items]. eapply den_unchanged; [exact Hu5|]. eapply den_unchanged; [exact J3|exact Hden2].
  - assert (Hfi : fine R2 h4 its). { eapply fine_old; [exact J3|exact J7|]. intros k b Hb. exact (proj1 G6 d _ k b Ed Hb). }
    pose proof (quiet_alloc R2 h4 oc J6 Hfi) as Q. exists R2, S2, oc, (mkCfg ro fr nst attrs ck rk r). split; [exact Hna|]. split; [reflexivity|]. split; [exact Hrk|].
    split; [apply (owned_frame _ h4); [|exact J4]; intros x Hx; destruct Q as [_ [_ [Q _]]]; apply Q; auto|]. split; [exact J5|]. split; [apply Q|].
    assert (HR2 : forall x, In x R2 -> x < List.length h4) by (destruct J6 as [_ [H _]]; exact H).
    split; [intros H; apply HR2 in H; lia|]. split; [|exact Hdep2]. intros x [Hx| ->]; rewrite app_length; cbn.
    + split; [lia|]. intros H. apply J7 in H. pose proof (unchanged_length _ _ G3). lia.
    + split; [lia|]. intros H. apply HR2 in H. lia.
Qed.
Lemma reset_history : forall fuel h dct ts at_ ro fr nst attrs ck rk, closed h -> holds h dct ts -> depth (TDict false ts) <= fuel -> depth (TDict false ts) <= depth_limit ->
  cp_nested ck = true -> cp_nested rk = true ->
  exists h1 a, config_init (S fuel) at_ dct None ro fr nst false attrs ck rk h = (h1, Done a) /\ unchanged h h1 /\ holds h1 a ts /\
    forall h2 ts2, history a h1 (fun b => b < List.length h \/ b = a) ts h2 ts2 ->
      exists h3, call a OReset true h2 = (h3, Done tt) /\ holds h3 a ts2.
Proof.
  intros fuel h dct ts at_ ro fr nst attrs ck rk H1 H2 H3 H4 H5 H6.
  destruct (saved_init fuel h dct ts at_ ro fr nst attrs ck rk H1 H2 H3 H4 H5 H6) as [h1 [a [G1 [G2 [_ [G3 G4]]]]]].
  exists h1, a. split; [exact G1|]. split; [exact G2|]. split; [exact G3|]. intros h2 ts2 Hh.
  destruct (saved_history _ _ _ _ _ _ Hh G4) as [roots' Hs]. pose proof Hs as Hs'. destruct Hs' as [R [S [o [c [E1 [E2 _]]]]]].
  destruct (saved_reset h2 a roots' ts2 o c true Hs E1 E2 eq_refl) as [h3 [F1 [F2 _]]]. eauto.
Qed.
