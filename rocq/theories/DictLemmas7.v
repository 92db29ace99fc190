(** * Reset of configs: lemmas *)
From Coq Require Import String ZArith Bool List Arith Lia.
From Verif Require Import Base Dicts DictSpec DictLemmas DictLemmas2 DictLemmas3 DictLemmas4 DictLemmas5 DictLemmas6.
Import ListNotations.
Local Open Scope list_scope.
Local Open Scope nat_scope.

(** ** A private region *)
Definition fine (R : list nat) (h : Heap) (items : list (string * Val)) : Prop :=
  forall k b, In (k, VRef b) items -> b < List.length h /\ ~ In b R.
Definition sep (R : list nat) (h : Heap) : Prop :=
  closed h /\ (forall b, In b R -> b < List.length h) /\ forall a o, nth_error h a = Some o -> ~ In a R -> fine R h (o_items o).
(** what edits outside the region do *)
Definition quiet (R : list nat) (h h' : Heap) : Prop :=
  sep R h' /\ List.length h <= List.length h' /\ (forall b, In b R -> nth_error h' b = nth_error h b) /\
  forall b o, nth_error h b = Some o -> exists o', nth_error h' b = Some o' /\ o_cfg o' = o_cfg o.
Lemma quiet_refl : forall R h, sep R h -> quiet R h h.
Proof. intros R h H. split; [exact H|]. split; [lia|]. split; [auto|]. intros b o Hb. eauto. Qed.
Lemma quiet_trans : forall R h1 h2 h3, quiet R h1 h2 -> quiet R h2 h3 -> quiet R h1 h3.
Proof.
  intros R h1 h2 h3 [S1 [L1 [E1 C1]]] [S2 [L2 [E2 C2]]]. split; [exact S2|]. split; [lia|]. split.
  - intros b Hb. rewrite E2, E1; auto.
  - intros b o Hb. destruct (C1 b o Hb) as [o1 [H1 H2]]. destruct (C2 b o1 H1) as [o2 [H3 H4]]. exists o2. split; [exact H3|congruence].
Qed.
Lemma fine_mono : forall R h h' items, List.length h <= List.length h' -> fine R h items -> fine R h' items.
Proof. intros R h h' items Hl H k b Hb. destruct (H k b Hb). split; [lia|auto]. Qed.
Lemma fine_load : forall R h a o, sep R h -> nth_error h a = Some o -> ~ In a R -> fine R h (o_items o).
Proof. intros R h a o [_ [_ H]]. eauto. Qed.
Lemma fine_sub : forall R h d d', (forall k v, In (k, v) d' -> In (k, v) d) -> fine R h d -> fine R h d'.
Proof. intros R h d d' H Hf k b Hb. eauto. Qed.
Definition fine_val (R : list nat) (h : Heap) (v : Val) : Prop := match v with VRef b => b < List.length h /\ ~ In b R | VAtom _ => True end.
Lemma in_dict_set : forall V (d : list (string * V)) k v k' v', In (k', v') (dict_set d k v) -> In (k', v') d \/ (k' = k /\ v' = v).
Proof.
  induction d as [|[k0 v0] d IH]; intros k v k' v' H; cbn in *.
  - destruct H as [H|[]]. injection H as <- <-. auto.
  - destruct (String.eqb_spec k k0) as [->|_]; cbn in H.
    + destruct H as [H|H]; [injection H as <- <-; auto|auto].
    + destruct H as [H|H]; [auto|]. destruct (IH _ _ _ _ H); auto.
Qed.
Lemma fine_set : forall R h d k v, fine R h d -> fine_val R h v -> fine R h (dict_set d k v).
Proof. intros R h d k v Hf Hv k' b Hb. apply in_dict_set in Hb. destruct Hb as [Hb|[_ Hb]]; [eauto|]. subst v. exact Hv. Qed.
Lemma fine_sets : forall R h l d, fine R h d -> fine R h l -> fine R h (fold_left (fun d kv => dict_set d (fst kv) (snd kv)) l d).
Proof.
  intros R h. induction l as [|[k v] l IH]; intros d Hd Hl; [exact Hd|]. cbn. apply IH.
  - apply fine_set; [exact Hd|]. destruct v as [z|b]; [exact I|]. apply (Hl k b). now left.
  - intros k' b Hb. apply (Hl k' b). now right.
Qed.
Lemma in_del : forall V (d : list (string * V)) k k' v', In (k', v') (dict_del d k) -> In (k', v') d.
Proof. induction d as [|[k0 v0] d IH]; intros k k' v' H; cbn in *; [exact H|]. destruct (String.eqb k k0); [auto|]. destruct H as [H|H]; eauto. Qed.
Lemma in_removelast : forall A (d : list A) x, In x (removelast d) -> In x d.
Proof. induction d as [|y d IH]; intros x H; [exact H|]. cbn in H. destruct d as [|z d]; [destruct H|]. destruct H as [H|H]; [now left|]. right. now apply IH. Qed.

Lemma quiet_store : forall R h a o o', sep R h -> nth_error h a = Some o -> ~ In a R -> o_cfg o' = o_cfg o -> fine R h (o_items o') -> quiet R h (upd h a o').
Proof.
  intros R h a o o' [Hc [Hl Hs]] E Ha Hcfg Hf. split; [split; [|split]|].
  - intros b ob k c Hb Hin. rewrite upd_length. destruct (Nat.eq_dec b a) as [->|Hd].
    + rewrite (upd_same _ _ _ _ _ E) in Hb. injection Hb as <-. apply (Hf k c Hin).
    + rewrite upd_other in Hb by exact Hd. eauto.
  - intros b Hb. rewrite upd_length. auto.
  - intros b ob Hb Hnb k c Hin. rewrite upd_length. destruct (Nat.eq_dec b a) as [->|Hd].
    + rewrite (upd_same _ _ _ _ _ E) in Hb. injection Hb as <-. apply (Hf k c Hin).
    + rewrite upd_other in Hb by exact Hd. apply (Hs b ob Hb Hnb k c Hin).
  - split; [rewrite upd_length; lia|]. split.
    + intros b Hb. apply upd_other. intros ->. contradiction.
    + intros b ob Hb. destruct (Nat.eq_dec b a) as [->|Hd].
      * rewrite (upd_same _ _ _ _ _ E). rewrite E in Hb. injection Hb as <-. eauto.
      * rewrite upd_other by exact Hd. eauto.
Qed.
Lemma quiet_alloc : forall R h o, sep R h -> fine R h (o_items o) -> quiet R h (h ++ [o]).
Proof.
  intros R h o [Hc [Hl Hs]] Hf.
  assert (Hn : forall b ob, nth_error (h ++ [o]) b = Some ob -> nth_error h b = Some ob \/ ob = o).
  { intros b ob Hb. destruct (Nat.lt_ge_cases b (List.length h)); [rewrite nth_error_app1 in Hb by lia; auto|].
    rewrite nth_error_app2 in Hb by lia. destruct (b - List.length h) as [|[|j]]; cbn in Hb; try discriminate. injection Hb as <-. auto. }
  split; [split; [|split]|].
  - intros b ob k c Hb Hin. rewrite app_length. destruct (Hn b ob Hb) as [H| ->]; [pose proof (Hc _ _ _ _ H Hin); lia|]. destruct (Hf k c Hin). lia.
  - intros b Hb. rewrite app_length. pose proof (Hl b Hb). lia.
  - intros b ob Hb Hnb k c Hin. rewrite app_length. destruct (Hn b ob Hb) as [H| ->]; [destruct (Hs b ob H Hnb k c Hin)|destruct (Hf k c Hin)]; split; auto; lia.
  - split; [rewrite app_length; lia|]. split.
    + intros b Hb. rewrite nth_error_app1; [reflexivity|auto].
    + intros b ob Hb. rewrite nth_error_app1 by (eapply nth_error_len; exact Hb). eauto.
Qed.
Lemma quiet_set_raw : forall R h a k v, sep R h -> ~ In a R -> fine_val R h v -> quiet R h (fst (set_raw a k v h)).
Proof.
  intros R h a k v Hs Ha Hv. unfold set_raw, andThen, load. destruct (nth_error h a) as [o|] eqn:E; [|now apply quiet_refl]. cbn.
  eapply quiet_store; eauto. cbn. apply fine_set; [|exact Hv]. eapply fine_load; eauto.
Qed.
Lemma quiet_setitem : forall R h a c k v force, sep R h -> ~ In a R -> fine_val R h v -> quiet R h (fst (config_setitem a c k v force h)).
Proof.
  intros R h a c k v force Hs Ha Hv. unfold config_setitem, andThen, load. destruct (nth_error h a) as [o|] eqn:E; [|now apply quiet_refl].
  destruct (negb force && c_readonly c); [now apply quiet_refl|].
  destruct (negb force && c_frozen c && negb (has_key (o_items o) k)); [now apply quiet_refl|]. now apply quiet_set_raw.
Qed.
Lemma quiet_set_item : forall R h a k v force, sep R h -> ~ In a R -> fine_val R h v -> quiet R h (fst (set_dict_item a k v force h)).
Proof.
  intros R h a k v force Hs Ha Hv. unfold set_dict_item, andThen, load. destruct (nth_error h a) as [o|] eqn:E; [|now apply quiet_refl].
  destruct (o_cfg o); [now apply quiet_setitem|now apply quiet_set_raw].
Qed.
Lemma quiet_sep : forall R h h', quiet R h h' -> sep R h'.
Proof. intros R h h' [H _]. exact H. Qed.
Lemma quiet_len : forall R h h', quiet R h h' -> List.length h <= List.length h'.
Proof. intros R h h' [_ [H _]]. exact H. Qed.
Lemma fine_get : forall R h d k v, fine R h d -> In (k, v) d -> fine_val R h v.
Proof. intros R h d k [z|b] Hf Hi; [exact I|]. exact (Hf k b Hi). Qed.
Lemma quiet_update : forall R fuel h x y nested force sk, sep R h -> ~ In x R -> ~ In y R -> quiet R h (fst (update_dict fuel x y nested force sk h)).
Proof.
  intros R. induction fuel as [|fuel IH]; intros h x y nested force sk Hs Hx Hy; cbn [update_dict]; [now apply quiet_refl|].
  unfold andThen at 1, load at 1. destruct (nth_error h y) as [oy|] eqn:Ey; [|now apply quiet_refl].
  pose proof (fine_load _ _ _ _ Hs Ey Hy) as Hfy. clear Ey. revert h Hs Hfy. induction (o_items oy) as [|[k v] items IHl]; intros h Hs Hfy; [now apply quiet_refl|].
  cbn [each]. match goal with |- quiet R h (fst (andThen ?m _ h)) => assert (Hq : quiet R h (fst (m h))) end.
  { unfold andThen at 1, load at 1. destruct (nth_error h x) as [ox|] eqn:Ex; [|now apply quiet_refl]. cbn zeta.
    pose proof (fine_get _ _ _ _ _ Hfy (or_introl eq_refl)) as Hv.
    assert (Hset : quiet R h (fst ((if sk && negb (has_key (o_items ox) k) then ret tt else set_dict_item x k v force) h))).
    { destruct (sk && negb (has_key (o_items ox) k)); [now apply quiet_refl|now apply quiet_set_item]. }
    destruct (dict_get (o_items ox) k) as [[z|xk]|] eqn:Eg; try exact Hset. destruct v as [z|c]; [exact Hset|].
    unfold andThen, load. destruct (nth_error h c) as [oc|]; [|now apply quiet_refl]. destruct (nested && negb (o_atomic oc)); [|exact Hset].
    apply IH; [exact Hs| |apply Hv]. apply dict_get_In in Eg. apply (fine_load _ _ _ _ Hs Ex Hx k xk Eg). }
  unfold andThen at 1. match goal with |- context [match ?m with (_, _) => _ end] => destruct m as [h1 [u|e]] end; cbn [fst] in Hq |- *; [|exact Hq].
  eapply quiet_trans; [exact Hq|]. apply IHl; [now apply quiet_sep in Hq|].
  apply (fine_mono R h); [now apply quiet_len in Hq|]. intros k' b Hb. apply (Hfy k' b). now right.
Qed.
Lemma quiet_convert : forall R fuel h a nested h' out, sep R h -> ~ In a R -> convert_to_dict fuel a nested h = (h', out) ->
  quiet R h h' /\ forall a', out = Done a' -> a' < List.length h' /\ ~ In a' R.
Proof.
  intros R. induction fuel as [|fuel IH]; intros h a nested h' out Hs Ha Ec; cbn [convert_to_dict] in Ec.
  { injection Ec as <- <-. split; [now apply quiet_refl|discriminate]. }
  unfold andThen at 1, load at 1 in Ec. destruct (nth_error h a) as [o|] eqn:E; [|injection Ec as <- <-; split; [now apply quiet_refl|discriminate]].
  pose proof (fine_load _ _ _ _ Hs E Ha) as Hf. unfold andThen at 1, alloc at 1 in Ec.
  set (h1 := h ++ [mkObj (o_atomic o) None (o_items o) []]) in *.
  assert (Q1 : quiet R h h1) by (apply quiet_alloc; auto).
  assert (Hfresh : ~ In (List.length h) R) by (intros H; destruct Hs as [_ [Hl _]]; apply Hl in H; lia).
  assert (Hl1 : List.length h < List.length h1) by (unfold h1; rewrite app_length; cbn; lia).
  destruct (negb nested); [injection Ec as <- <-; split; [exact Q1|intros a' H; injection H as <-; auto]|].
  match type of Ec with andThen ?m _ h1 = _ => assert (Hq : quiet R h1 (fst (m h1))) end.
  { pose proof (quiet_sep _ _ _ Q1) as S1. pose proof (fine_mono R h h1 _ (quiet_len _ _ _ Q1) Hf) as F1. clear - IH S1 F1 Hfresh.
    generalize dependent h1. induction (o_items o) as [|[k v] items IHl]; intros h1 S1 F1; [now apply quiet_refl|]. cbn [each].
    match goal with |- quiet R h1 (fst (andThen ?m _ h1)) => assert (Hq : quiet R h1 (fst (m h1))) end.
    { pose proof (fine_get _ _ _ _ _ F1 (or_introl eq_refl)) as Hv. destruct v as [z|c]; [now apply quiet_set_raw|].
      unfold andThen. destruct (convert_to_dict fuel c nested h1) as [h2 o2] eqn:E2. destruct (IH h1 c nested h2 o2 S1 (proj2 Hv) E2) as [J1 J2].
      destruct o2 as [c'|e]; cbn [fst] in *; [|exact J1].
      eapply quiet_trans; [exact J1|]. apply quiet_set_raw; [now apply quiet_sep in J1|exact Hfresh|]. exact (J2 c' eq_refl). }
    unfold andThen at 1. match goal with |- context [match ?m with (_, _) => _ end] => destruct m as [h2 [u|e]] end; cbn [fst] in Hq |- *; [|exact Hq].
    eapply quiet_trans; [exact Hq|]. apply IHl; [now apply quiet_sep in Hq|].
    apply (fine_mono R h1); [now apply quiet_len in Hq|]. intros k' b Hb. apply (F1 k' b). now right. }
  unfold andThen at 1 in Ec. match type of Ec with (match ?m with (_, _) => _ end) = _ => destruct m as [h2 [u|e]] end; cbn [fst] in Hq; injection Ec as <- <-.
  - split; [eapply quiet_trans; eauto|]. intros a' H. injection H as <-. pose proof (quiet_len _ _ _ Hq). split; [lia|exact Hfresh].
  - split; [eapply quiet_trans; eauto|discriminate].
Qed.

Lemma reach_out : forall R h (roots : nat -> Prop) b, sep R h -> (forall x, roots x -> x < List.length h /\ ~ In x R) -> reach h roots b -> b < List.length h /\ ~ In b R.
Proof.
  intros R h roots b Hs Hr H. induction H as [b Hb|b o k c Hb IH Hn Hi]; [auto|]. apply (fine_load _ _ _ _ Hs Hn (proj2 IH) k c Hi).
Qed.
Lemma reach_val_out : forall R h (roots : nat -> Prop) v, sep R h -> (forall x, roots x -> x < List.length h /\ ~ In x R) -> reach_val h roots v -> fine_val R h v.
Proof. intros R h roots [z|b] Hs Hr H; [exact I|]. eapply reach_out; eauto. Qed.
Lemma quiet_edit : forall R h (roots : nat -> Prop) b op force, sep R h -> (forall x, roots x -> x < List.length h /\ ~ In x R) -> edit h roots b op ->
  quiet R h (fst (call b op force h)).
Proof.
  intros R h roots b op force Hs Hr [Hb Hop]. destruct (reach_out _ _ _ _ Hs Hr Hb) as [_ Hnb].
  assert (Hout : forall other, reach h roots other -> ~ In other R) by (intros other H; eapply reach_out; eauto).
  assert (Hval : forall v, reach_val h roots v -> fine_val R h v) by (intros v H; eapply reach_val_out; eauto).
  unfold call, andThen at 1, load at 1. destruct (nth_error h b) as [o|] eqn:E; [|now apply quiet_refl].
  pose proof (fine_load _ _ _ _ Hs E Hnb) as Hf.
  assert (Hst : forall items attrs, fine R h items -> quiet R h (upd h b (mkObj (o_atomic o) (o_cfg o) items attrs))).
  { intros items attrs Hi. eapply quiet_store; eauto. }
  assert (Hdelf : forall k, fine R h (dict_del (o_items o) k)) by (intros k; apply (fine_sub R h (o_items o)); [intros k' v'; apply in_del|exact Hf]).
  assert (Hlastf : fine R h (removelast (o_items o))) by (apply (fine_sub R h (o_items o)); [intros k' v'; apply in_removelast|exact Hf]).
  assert (Hnilf : fine R h []) by (intros k c []).
  assert (Hsd : forall k v, reach_val h roots v -> fine R h (o_items o ++ [(k, v)])).
  { intros k v Hv k' c Hi. apply in_app_or in Hi. destruct Hi as [Hi|[Hi|[]]]; [eauto|]. injection Hi as -> ->. exact (Hval _ Hv). }
  assert (Hior : forall other, reach h roots other -> quiet R h (fst ((andThen (load other) (fun oo =>
     store b (with_items o (fold_left (fun d kv => dict_set d (fst kv) (snd kv)) (o_items oo) (o_items o))))) h))).
  { intros other Hother. unfold andThen, load. destruct (nth_error h other) as [oo|] eqn:Eo; [|now apply quiet_refl]. cbn. apply Hst.
    apply fine_sets; [exact Hf|]. eapply fine_load; eauto. }
  assert (Hsk : forall A (m : M A), quiet R h (fst (m h)) -> quiet R h (fst (skip_result m h))).
  { intros A m H. unfold skip_result, andThen. destruct (m h) as [h1 [x|e]]; exact H. }
  pose proof (quiet_refl _ _ Hs) as Hrefl.
  destruct (o_cfg o) as [c|] eqn:Ec; rewrite ?Ec in *.
  - assert (Hdel : forall k f, quiet R h (fst (config_delitem b c k f h))).
    { intros k f. unfold config_delitem. destruct (negb f && c_readonly c); [exact Hrefl|]. destruct (negb f && c_frozen c); [exact Hrefl|].
      unfold andThen, load. rewrite E. destruct (has_key (o_items o) k); [|exact Hrefl]. cbn. rewrite Ec. now apply Hst. }
    destruct op as [k v|k|k v|k|k d| | |other nst| | | |nst|k v|other]; try contradiction.
    + apply quiet_setitem; auto.
    + apply Hdel.
    + destruct (c_as_attrs c); [apply quiet_setitem; auto|exact Hrefl].
    + destruct (c_as_attrs c); [apply Hdel|exact Hrefl].
    + apply Hsk. unfold config_pop. destruct (negb force && c_readonly c); [exact Hrefl|]. destruct (negb force && c_frozen c); [exact Hrefl|].
      unfold andThen, load. rewrite E. destruct (dict_get (o_items o) k); cbn; [rewrite Ec; now apply Hst|]. destruct d; exact Hrefl.
    + apply Hsk. unfold config_popitem. destruct (negb force && c_readonly c); [exact Hrefl|]. destruct (negb force && c_frozen c); [exact Hrefl|].
      unfold andThen, load. rewrite E. destruct (rev (o_items o)); cbn; [exact Hrefl|]. rewrite Ec. now apply Hst.
    + unfold config_clear. destruct (negb force && c_readonly c); [exact Hrefl|]. destruct (negb force && c_frozen c); [exact Hrefl|].
      unfold andThen, load. rewrite E. cbn. rewrite Ec. now apply Hst.
    + unfold config_update, dict_of, andThen at 1 2, load at 1. destruct (nth_error h other) as [oo|] eqn:Eo; [|exact Hrefl]. cbn [alloc].
      assert (Q1 : quiet R h (h ++ [plain (o_items oo)])) by (apply quiet_alloc; [exact Hs|]; exact (fine_load _ _ _ _ Hs Eo (Hout other Hop))).
      eapply quiet_trans; [exact Q1|]. apply quiet_update; [now apply quiet_sep in Q1|exact Hnb|]. intros H. destruct Hs as [_ [Hl _]]. apply Hl in H. lia.
    + apply Hsk. destruct (convert_to_dict depth_limit b nst h) as [h1 out] eqn:E1. exact (proj1 (quiet_convert _ _ _ _ _ _ _ Hs Hnb E1)).
    + destruct (has_key (o_items o) k); [exact Hrefl|]. cbn. unfold with_items. rewrite Ec. apply Hst. now apply Hsd.
    + now apply Hior.
  - destruct op as [k v|k|k v|k|k d| | |other nst| | | |nst|k v|other]; try contradiction; cbn [dict_call]; try exact Hrefl.
    + apply quiet_set_raw; auto.
    + destruct (has_key (o_items o) k); [|exact Hrefl]. cbn. unfold with_items. rewrite Ec. now apply Hst.
    + destruct (has_key (o_items o) k); [|destruct d; exact Hrefl]. cbn. unfold with_items. rewrite Ec. now apply Hst.
    + destruct (o_items o) eqn:Ei; [exact Hrefl|]. cbn [store fst]. unfold with_items. rewrite Ec. now apply Hst.
    + cbn. unfold with_items. rewrite Ec. now apply Hst.
    + now apply Hior.
    + destruct (has_key (o_items o) k); [exact Hrefl|]. cbn. unfold with_items. rewrite Ec. apply Hst. now apply Hsd.
    + now apply Hior.
Qed.
