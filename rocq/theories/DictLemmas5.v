(** * Read-only and frozen configs: lemmas *)
From Coq Require Import String ZArith Bool List Arith Lia.
From Verif Require Import Base Dicts DictSpec DictLemmas DictLemmas2 DictLemmas3.
Import ListNotations.
Local Open Scope list_scope.
Local Open Scope nat_scope.

(** Same object apart from items, attributes and the dictionary to reset to *)
Definition same_flags (c c' : Cfg) : Prop :=
  c_readonly c' = c_readonly c /\ c_frozen c' = c_frozen c /\ c_nested c' = c_nested c /\ c_as_attrs c' = c_as_attrs c /\
  c_copy c' = c_copy c /\ c_reset_copy c' = c_reset_copy c.
Definition same_kind (o o' : Obj) : Prop :=
  o_atomic o' = o_atomic o /\
  match o_cfg o, o_cfg o' with Some c, Some c' => same_flags c c' | None, None => True | _, _ => False end.
Definition up_to_reset (o o' : Obj) : Prop := same_kind o o' /\ o_items o' = o_items o /\ o_attrs o' = o_attrs o.
Definition obeys_ro (o o' : Obj) : Prop :=
  same_kind o o' /\ (read_only o -> o_items o' = o_items o /\ o_attrs o' = o_attrs o).
Definition obeys (o o' : Obj) : Prop := obeys_ro o o' /\ (frozen o -> keys (o_items o') = keys (o_items o)).

Lemma same_kind_refl : forall o, same_kind o o.
Proof. intros o. unfold same_kind, same_flags. destruct (o_cfg o); tauto. Qed.
Lemma same_kind_trans : forall a b c, same_kind a b -> same_kind b c -> same_kind a c.
Proof.
  unfold same_kind, same_flags. intros a b c [H1 H2] [H3 H4]. split; [congruence|]. destruct (o_cfg a), (o_cfg b), (o_cfg c); try contradiction; auto.
  intuition congruence.
Qed.
Lemma same_kind_ro : forall a b, same_kind a b -> (read_only b <-> read_only a).
Proof.
  intros a b [_ H]. unfold read_only. destruct (o_cfg a) as [c|], (o_cfg b) as [c'|]; try contradiction.
  - destruct H as [H _]. split; intros [x [E Hx]]; injection E as <-; eexists; (split; [reflexivity|congruence]).
  - split; intros [x [E Hx]]; discriminate.
Qed.
Lemma same_kind_fr : forall a b, same_kind a b -> (frozen b <-> frozen a).
Proof.
  intros a b [_ H]. unfold frozen. destruct (o_cfg a) as [c|], (o_cfg b) as [c'|]; try contradiction.
  - destruct H as [_ [H _]]. split; intros [x [E Hx]]; injection E as <-; eexists; (split; [reflexivity|congruence]).
  - split; intros [x [E Hx]]; discriminate.
Qed.
Lemma utr_refl : forall o, up_to_reset o o.
Proof. intros o. split; [apply same_kind_refl|auto]. Qed.
Lemma utr_obeys : forall a b, up_to_reset a b -> obeys a b.
Proof. intros a b [H1 [H2 H3]]. split; [split; auto|]. intros _. now rewrite H2. Qed.
Lemma obeys_trans : forall a b c, obeys a b -> obeys b c -> obeys a c.
Proof.
  intros a b c [[K1 R1] F1] [[K2 R2] F2]. split; [split; [eapply same_kind_trans; eauto|]|].
  - intros H. destruct (R1 H) as [E1 E2]. destruct (R2 (proj2 (same_kind_ro _ _ K1) H)). split; congruence.
  - intros H. rewrite F2, F1; auto. now apply (same_kind_fr _ _ K1).
Qed.
Lemma utr_trans : forall a b c, up_to_reset a b -> up_to_reset b c -> up_to_reset a c.
Proof. intros a b c [K1 [I1 A1]] [K2 [I2 A2]]. split; [eapply same_kind_trans; eauto|]. split; congruence. Qed.
Lemma ro_trans : forall a b c, obeys_ro a b -> obeys_ro b c -> obeys_ro a c.
Proof.
  intros a b c [K1 R1] [K2 R2]. split; [eapply same_kind_trans; eauto|].
  intros H. destruct (R1 H) as [E1 E2]. destruct (R2 (proj2 (same_kind_ro _ _ K1) H)). split; congruence.
Qed.

(** ** What happens to the first [n] objects *)
Definition frame (R : Obj -> Obj -> Prop) (n : nat) (h h' : Heap) : Prop :=
  List.length h <= List.length h' /\ forall a o, a < n -> nth_error h a = Some o -> exists o', nth_error h' a = Some o' /\ R o o'.
Definition Trans (R : Obj -> Obj -> Prop) := forall a b c, R a b -> R b c -> R a c.
Lemma frame_refl : forall (R : Obj -> Obj -> Prop) n h, (forall o, R o o) -> frame R n h h.
Proof. intros R n h H. split; [lia|]. intros a o _ Ha. eauto. Qed.
Lemma frame_trans : forall R n h1 h2 h3, Trans R -> frame R n h1 h2 -> frame R n h2 h3 -> frame R n h1 h3.
Proof.
  intros R n h1 h2 h3 HT [L1 F1] [L2 F2]. split; [lia|]. intros a o Ha Hn. destruct (F1 a o Ha Hn) as [o1 [H1 R1]].
  destruct (F2 a o1 Ha H1) as [o2 [H2 R2]]. eauto.
Qed.
Lemma frame_weaken : forall (R R' : Obj -> Obj -> Prop) n h h', (forall a b, R a b -> R' a b) -> frame R n h h' -> frame R' n h h'.
Proof. intros R R' n h h' H [L F]. split; [exact L|]. intros a o Ha Hn. destruct (F a o Ha Hn) as [o' [H1 H2]]. eauto. Qed.

(** a computation that keeps the first [n] objects up to [R], started with at
    least [n] objects *)
Definition resp (R : Obj -> Obj -> Prop) (n : nat) {A} (m : M A) : Prop := forall h, n <= List.length h -> frame R n h (fst (m h)).
(** ... and returns a later address *)
Definition resp_new (R : Obj -> Obj -> Prop) (n : nat) (m : M nat) : Prop :=
  resp R n m /\ forall h h' a, n <= List.length h -> m h = (h', Done a) -> n <= a.

Lemma resp_bind : forall R n A B (m : M A) (f : A -> M B), Trans R -> resp R n m -> (forall a, resp R n (f a)) -> resp R n (andThen m f).
Proof.
  intros R n A B m f HT Hm Hf h Hl. unfold andThen. specialize (Hm h Hl). destruct (m h) as [h1 [a|e]]; cbn [fst] in *; [|exact Hm].
  eapply frame_trans; [exact HT|exact Hm|]. apply Hf. destruct Hm. lia.
Qed.
Lemma resp_bind_new : forall R n B (m : M nat) (f : nat -> M B), Trans R -> resp_new R n m -> (forall a, n <= a -> resp R n (f a)) -> resp R n (andThen m f).
Proof.
  intros R n B m f HT [Hm Hn] Hf h Hl. unfold andThen. specialize (Hm h Hl). specialize (Hn h). destruct (m h) as [h1 [a|e]]; cbn [fst] in *; [|exact Hm].
  eapply frame_trans; [exact HT|exact Hm|]. apply Hf; [eapply Hn; [exact Hl|reflexivity]|destruct Hm; lia].
Qed.
Lemma resp_ret : forall (R : Obj -> Obj -> Prop) n A (a : A), (forall o, R o o) -> resp R n (ret a).
Proof. intros R n A a H h Hl. now apply frame_refl. Qed.
Lemma resp_raise : forall (R : Obj -> Obj -> Prop) n A e, (forall o, R o o) -> resp R n (@raise A e).
Proof. intros R n A e H h Hl. now apply frame_refl. Qed.
Lemma resp_load : forall (R : Obj -> Obj -> Prop) n a, (forall o, R o o) -> resp R n (load a).
Proof. intros R n a H h Hl. unfold load. destruct (nth_error h a); now apply frame_refl. Qed.
Lemma resp_alloc : forall (R : Obj -> Obj -> Prop) n o, (forall o, R o o) -> resp_new R n (alloc o).
Proof.
  intros R n o H. split.
  - intros h Hl. cbn. split; [rewrite app_length; lia|]. intros a oa Ha Hn. exists oa. split; [|apply H]. rewrite nth_error_app1 by lia. exact Hn.
  - intros h h' a Hl E. cbn in E. injection E as <- <-. exact Hl.
Qed.
Lemma resp_load_store : forall (R : Obj -> Obj -> Prop) n a (g : Obj -> Obj), (forall o, R o o) -> n <= a \/ (forall o, R o (g o)) ->
  resp R n (andThen (load a) (fun o => store a (g o))).
Proof.
  intros R n a g Hr Hc h Hl. unfold andThen, load. destruct (nth_error h a) as [o|] eqn:E; [|now apply frame_refl]. cbn.
  split; [rewrite upd_length; lia|]. intros b ob Hb Hn. destruct (Nat.eq_dec b a) as [->|Hd].
  - destruct Hc as [Hc|Hc]; [lia|]. rewrite (upd_same _ _ _ _ _ E). rewrite E in Hn. injection Hn as <-. eauto.
  - rewrite upd_other by exact Hd. eauto.
Qed.
Lemma resp_each : forall R n A (f : A -> M unit) l, Trans R -> (forall o, R o o) -> (forall a, resp R n (f a)) -> resp R n (each f l).
Proof. intros R n A f l HT Hr Hf. induction l as [|a l IH]; cbn [each]; [now apply resp_ret|]. apply resp_bind; auto. Qed.
Lemma resp_weaken : forall (R R' : Obj -> Obj -> Prop) n A (m : M A), (forall a b, R a b -> R' a b) -> resp R n m -> resp R' n m.
Proof. intros R R' n A m H Hm h Hl. eapply frame_weaken; eauto. Qed.

(** ** Copies leave everything up to the dictionary to reset to *)
Local Notation U := up_to_reset.
Lemma dict_of_new : forall n a, resp_new U n (dict_of a).
Proof.
  intros n a. split.
  - apply resp_bind; [exact utr_trans|apply resp_load, utr_refl|]. intros o. apply resp_alloc, utr_refl.
  - intros h h' b Hl E. unfold dict_of, andThen, load in E. destruct (nth_error h a); [|discriminate]. cbn in E. injection E as <- <-. exact Hl.
Qed.
Lemma copy_object_new : forall n a, resp_new U n (copy_object a).
Proof.
  intros n a. split.
  - apply resp_bind; [exact utr_trans|apply resp_load, utr_refl|]. intros o. destruct (o_cfg o); apply resp_alloc, utr_refl.
  - intros h h' b Hl E. unfold copy_object, andThen, load in E. destruct (nth_error h a) as [o|]; [|discriminate].
    destruct (o_cfg o); cbn in E; injection E as <- <-; exact Hl.
Qed.
Lemma set_raw_new : forall n a k v, n <= a -> resp U n (set_raw a k v).
Proof. intros n a k v Ha. unfold set_raw. apply resp_load_store; [apply utr_refl|now left]. Qed.
Lemma set_item_new : forall n a k v force, n <= a -> resp U n (set_dict_item a k v force).
Proof.
  intros n a k v force Ha. unfold set_dict_item. apply resp_bind; [exact utr_trans|apply resp_load, utr_refl|]. intros o.
  destruct (o_cfg o) as [c|]; [|now apply set_raw_new]. unfold config_setitem.
  apply resp_bind; [exact utr_trans|apply resp_load, utr_refl|]. intros o'.
  destruct (negb force && c_readonly c); [apply resp_raise, utr_refl|].
  destruct (negb force && c_frozen c && negb (has_key (o_items o') k)); [apply resp_raise, utr_refl|now apply set_raw_new].
Qed.
Lemma force_items_new : forall n a items, n <= a -> resp U n (force_items a items).
Proof. intros n a items Ha. apply resp_each; [exact utr_trans|exact utr_refl|]. intros kv. now apply set_item_new. Qed.
Lemma set_reset_utr : forall n a r, resp U n (set_reset a r).
Proof.
  intros n a r h Hl. unfold set_reset, andThen, load. destruct (nth_error h a) as [o|] eqn:E; [|apply frame_refl, utr_refl].
  destruct (o_cfg o) as [c|] eqn:Ec; cbn; [|apply frame_refl, utr_refl]. split; [rewrite upd_length; lia|].
  intros b ob Hb Hn. destruct (Nat.eq_dec b a) as [->|Hd].
  - rewrite (upd_same _ _ _ _ _ E). rewrite E in Hn. injection Hn as <-. eexists. split; [reflexivity|]. unfold up_to_reset, same_kind, same_flags.
    cbn. rewrite Ec. cbn. tauto.
  - rewrite upd_other by exact Hd. eexists. split; [exact Hn|apply utr_refl].
Qed.
Ltac rbind := apply resp_bind; [exact utr_trans| |intros ?].
Ltac rbindn := apply resp_bind_new; [exact utr_trans| |intros ? ?].
Lemma returns_last : forall n (m : M unit) a, n <= a -> forall h h' b, andThen m (fun _ => ret a) h = (h', Done b) -> n <= b.
Proof. intros n m a Ha h h' b E. unfold andThen in E. destruct (m h) as [h1 [u|e]]; [|discriminate]. cbn in E. injection E as <- <-. exact Ha. Qed.
Lemma new_bind : forall R n A (m : M A) (f : A -> M nat), Trans R -> resp R n m -> (forall a, resp_new R n (f a)) -> resp_new R n (andThen m f).
Proof.
  intros R n A m f HT Hm Hf. split; [apply resp_bind; auto; intros a; apply Hf|]. intros h h' b Hl E. unfold andThen in E.
  specialize (Hm h Hl). destruct (m h) as [h1 [a|e]]; [|discriminate]. cbn in Hm. destruct Hm as [Hm _].
  destruct (Hf a) as [_ Hn]. apply (Hn h1 h' b); [lia|exact E].
Qed.
Lemma new_bind_new : forall R n (m : M nat) (f : nat -> M nat), Trans R -> resp_new R n m -> (forall a, n <= a -> resp_new R n (f a)) -> resp_new R n (andThen m f).
Proof.
  intros R n m f HT [Hm Hmn] Hf. split; [apply resp_bind_new; auto; [split; auto|intros a Ha; now apply Hf]|]. intros h h' b Hl E. unfold andThen in E.
  specialize (Hm h Hl). specialize (Hmn h). destruct (m h) as [h1 [a|e]]; [|discriminate]. cbn in Hm. destruct Hm as [Hm _].
  destruct (Hf a (Hmn h1 a Hl eq_refl)) as [_ Hn]. apply (Hn h1 h' b); [lia|exact E].
Qed.
Lemma new_ret : forall n a, n <= a -> resp_new U n (ret a).
Proof. intros n a Ha. split; [apply resp_ret, utr_refl|]. intros h h' b _ E. injection E as <- <-. exact Ha. Qed.
Ltac nbind := apply new_bind; [exact utr_trans| |intros ?].
Ltac nbindn := apply new_bind_new; [exact utr_trans| |intros ? ?].
Lemma new_raise : forall n e, resp_new U n (raise e).
Proof. intros n e. split; [apply resp_raise, utr_refl|]. intros h h' b _ E. discriminate. Qed.
Lemma copy_dict_new : forall fuel n a kw, resp_new U n (copy_dict fuel a kw).
Proof.
  induction fuel as [|fuel IH]; intros n a kw; cbn [copy_dict]; [apply new_raise|].
  nbind; [apply resp_load, utr_refl|]. destruct (o_cfg a0) as [c|].
  - nbindn; [apply copy_object_new|]. nbindn; [apply dict_of_new|]. nbindn; [apply IH|]. nbind; [apply set_reset_utr|]. nbindn; [apply dict_of_new|].
    nbindn; [apply IH|]. nbind; [apply resp_load, utr_refl|]. nbind; [now apply force_items_new|]. now apply new_ret.
  - nbindn; [apply copy_object_new|]. nbind; [|now apply new_ret].
    apply resp_each; [exact utr_trans|exact utr_refl|]. intros [k [z|c]]; [now apply set_item_new|].
    destruct (cp_nested kw); [rbindn; [apply IH|now apply set_item_new]|].
    destruct (cp_mode kw); [now apply set_item_new|]. rbindn; [apply copy_object_new|now apply set_item_new].
Qed.
Lemma convert_new : forall fuel n a nested, resp_new U n (convert_to_dict fuel a nested).
Proof.
  induction fuel as [|fuel IH]; intros n a nested; cbn [convert_to_dict]; [apply new_raise|].
  nbind; [apply resp_load, utr_refl|]. nbindn; [apply resp_alloc, utr_refl|]. destruct (negb nested); [now apply new_ret|].
  nbind; [|now apply new_ret]. apply resp_each; [exact utr_trans|exact utr_refl|]. intros [k [z|c]]; [now apply set_raw_new|].
  rbindn; [apply IH|now apply set_raw_new].
Qed.

(** ** Unforced changes *)
Lemma obeys_refl : forall o, obeys o o.
Proof. intros o. apply utr_obeys, utr_refl. Qed.
Ltac obind := apply resp_bind; [exact obeys_trans| |intros ?].
Lemma set_item_obeys : forall n a k v, resp obeys n (set_dict_item a k v false).
Proof.
  intros n a k v h Hl. unfold set_dict_item, andThen, load. destruct (nth_error h a) as [o|] eqn:E; [|apply frame_refl, obeys_refl].
  destruct (o_cfg o) as [c|] eqn:Ec.
  - unfold config_setitem, andThen, load. rewrite E. cbn [negb andb]. destruct (c_readonly c) eqn:Er; [apply frame_refl, obeys_refl|].
    destruct (c_frozen c && negb (has_key (o_items o) k)) eqn:Ef; [apply frame_refl, obeys_refl|].
    unfold set_raw, andThen, load. rewrite E. cbn. split; [rewrite upd_length; lia|]. intros b ob Hb Hn. destruct (Nat.eq_dec b a) as [->|Hd].
    + rewrite (upd_same _ _ _ _ _ E). rewrite E in Hn. injection Hn as <-. eexists. split; [reflexivity|]. split; [split|].
      * unfold same_kind, same_flags. cbn. rewrite Ec. tauto.
      * intros [c' [E1 E2]]. rewrite Ec in E1. injection E1 as <-. congruence.
      * intros [c' [E1 E2]]. rewrite Ec in E1. injection E1 as <-. cbn. rewrite E2 in Ef. cbn in Ef. apply negb_false_iff in Ef. apply keys_set_in. now apply has_key_spec.
    + rewrite upd_other by exact Hd. eexists. split; [exact Hn|apply obeys_refl].
  - unfold set_raw, andThen, load. rewrite E. cbn. split; [rewrite upd_length; lia|]. intros b ob Hb Hn. destruct (Nat.eq_dec b a) as [->|Hd].
    + rewrite (upd_same _ _ _ _ _ E). rewrite E in Hn. injection Hn as <-. eexists. split; [reflexivity|]. split; [split|].
      * unfold same_kind. cbn. rewrite Ec. tauto.
      * intros [c' [E1 E2]]. congruence.
      * intros [c' [E1 E2]]. congruence.
    + rewrite upd_other by exact Hd. eexists. split; [exact Hn|apply obeys_refl].
Qed.
Lemma update_obeys : forall fuel n x y nested sk, resp obeys n (update_dict fuel x y nested false sk).
Proof.
  induction fuel as [|fuel IH]; intros n x y nested sk; cbn [update_dict]; [apply resp_raise, obeys_refl|].
  obind; [apply resp_load, obeys_refl|]. apply resp_each; [exact obeys_trans|exact obeys_refl|]. intros [k v].
  obind; [apply resp_load, obeys_refl|]. cbn zeta.
  assert (Hset : resp obeys n (if sk && negb (has_key (o_items a0) k) then ret tt else set_dict_item x k v false)).
  { destruct (sk && negb (has_key (o_items a0) k)); [apply resp_ret, obeys_refl|apply set_item_obeys]. }
  destruct (dict_get (o_items a0) k) as [[z|xk]|]; try exact Hset. destruct v as [z|c]; [exact Hset|].
  obind; [apply resp_load, obeys_refl|]. destruct (nested && negb (o_atomic a1)); [apply IH|exact Hset].
Qed.

(** Changes to an object that is neither read-only nor (for keys) frozen *)
Lemma store_free : forall (R : Obj -> Obj -> Prop) n h a o o', (forall o, R o o) -> nth_error h a = Some o -> R o o' -> frame R n h (upd h a o').
Proof.
  intros R n h a o o' Hr E H. split; [rewrite upd_length; lia|]. intros b ob Hb Hn. destruct (Nat.eq_dec b a) as [->|Hd].
  - rewrite (upd_same _ _ _ _ _ E). rewrite E in Hn. injection Hn as <-. eauto.
  - rewrite upd_other by exact Hd. eauto.
Qed.
Lemma obeys_free : forall o o' c, o_cfg o = Some c -> o_cfg o' = Some c -> o_atomic o' = o_atomic o -> c_readonly c = false -> c_frozen c = false -> obeys o o'.
Proof.
  intros o o' c H1 H2 H3 H4 H5. split; [split|].
  - unfold same_kind, same_flags. rewrite H1, H2. tauto.
  - intros [c' [E1 E2]]. congruence.
  - intros [c' [E1 E2]]. congruence.
Qed.
Lemma obeys_plain : forall o o', o_cfg o = None -> o_cfg o' = None -> o_atomic o' = o_atomic o -> obeys o o'.
Proof.
  intros o o' H1 H2 H3. split; [split|].
  - unfold same_kind. rewrite H1, H2. tauto.
  - intros [c' [E1 E2]]. congruence.
  - intros [c' [E1 E2]]. congruence.
Qed.
Lemma dict_call_obeys : forall fuel n a o op h, n <= List.length h -> nth_error h a = Some o -> o_cfg o = None ->
  frame obeys n h (fst (dict_call fuel a o op h)).
Proof.
  intros fuel n a o op h Hl E Ec.
  assert (Hst : forall items, frame obeys n h (fst (store a (with_items o items) h))).
  { intros items. cbn. eapply store_free; [apply obeys_refl|exact E|]. now apply obeys_plain. }
  assert (Hraise : forall e, frame obeys n h (fst (@raise unit e h))) by (intros e; apply frame_refl, obeys_refl).
  assert (Hret : frame obeys n h (fst (ret tt h))) by apply frame_refl, obeys_refl.
  destruct op as [k v|k|k v|k|k d| | |other nst| | | |nst|k v|other]; cbn [dict_call]; auto.
  - unfold set_raw, andThen, load. rewrite E. cbn. eapply store_free; [apply obeys_refl|exact E|]. now apply obeys_plain.
  - destruct (has_key (o_items o) k); auto.
  - destruct (has_key (o_items o) k); auto. destruct d; auto.
  - destruct (o_items o); auto.
  - unfold andThen, load. destruct (nth_error h other); auto.
  - unfold skip_result. apply resp_bind; [exact obeys_trans| |intros; apply resp_ret, obeys_refl|exact Hl].
    apply (resp_weaken U obeys); [exact utr_obeys|apply copy_object_new].
  - destruct (has_key (o_items o) k); auto.
  - unfold andThen, load. destruct (nth_error h other); auto.
Qed.

Lemma resp_U_obeys : forall n A (m : M A), resp U n m -> resp obeys n m.
Proof. intros n A m. apply resp_weaken, utr_obeys. Qed.
Lemma config_copy_utr : forall fuel n a c, resp U n (config_copy fuel a c).
Proof.
  intros fuel n a c. unfold config_copy. rbindn; [apply copy_object_new|]. rbindn; [apply dict_of_new|]. rbindn; [apply copy_dict_new|]. rbind; [apply set_reset_utr|].
  rbindn; [apply dict_of_new|]. rbindn; [apply copy_dict_new|]. rbind; [apply resp_load, utr_refl|]. rbind; [now apply force_items_new|]. apply resp_ret, utr_refl.
Qed.
Lemma call_obeys : forall n a op h, n <= List.length h -> unforced (a, op, false) -> op <> OReset -> frame obeys n h (fst (call a op false h)).
Proof.
  intros n a op h Hl Hu Hr. unfold call, andThen, load. destruct (nth_error h a) as [o|] eqn:E; [|apply frame_refl, obeys_refl].
  destruct (o_cfg o) as [c|] eqn:Ec; [|now apply dict_call_obeys].
  assert (Hraise : forall A e, frame obeys n h (fst (@raise A e h))) by (intros A e; apply frame_refl, obeys_refl).
  assert (Hset : forall k v, frame obeys n h (fst (config_setitem a c k v false h))).
  { intros k v. pose proof (set_item_obeys n a k v h Hl) as H. unfold set_dict_item, andThen, load in H. rewrite E, Ec in H. exact H. }
  assert (Hfree : forall o', o_cfg o' = Some c -> o_atomic o' = o_atomic o -> c_readonly c = false -> c_frozen c = false -> frame obeys n h (upd h a o')).
  { intros o' H1 H2 H3 H4. eapply store_free; [apply obeys_refl|exact E|]. eapply obeys_free; eauto. }
  assert (Hdel : forall k, frame obeys n h (fst (config_delitem a c k false h))).
  { intros k. unfold config_delitem. cbn [negb andb]. destruct (c_readonly c) eqn:E1; [apply frame_refl, obeys_refl|]. destruct (c_frozen c) eqn:E2; [apply frame_refl, obeys_refl|].
    unfold andThen, load. rewrite E. destruct (has_key (o_items o) k); [|apply frame_refl, obeys_refl]. cbn. apply Hfree; auto. }
  assert (Hskip : forall A (m : M A), frame obeys n h (fst (m h)) -> frame obeys n h (fst (skip_result m h))).
  { intros A m H. unfold skip_result, andThen. destruct (m h) as [h1 [x|e]]; exact H. }
  destruct op as [k v|k|k v|k|k d| | |other nst| | | |nst|k v|other]; try contradiction; try congruence.
  - apply Hset.
  - apply Hdel.
  - destruct (c_as_attrs c); [apply Hset|apply frame_refl, obeys_refl].
  - destruct (c_as_attrs c); [apply Hdel|apply frame_refl, obeys_refl].
  - apply Hskip. unfold config_pop. cbn [negb andb]. destruct (c_readonly c) eqn:E1; [apply frame_refl, obeys_refl|]. destruct (c_frozen c) eqn:E2; [apply frame_refl, obeys_refl|].
    unfold andThen, load. rewrite E. destruct (dict_get (o_items o) k); cbn; [apply Hfree; auto|]. destruct d; [apply frame_refl, obeys_refl|apply frame_refl, obeys_refl].
  - apply Hskip. unfold config_popitem. cbn [negb andb]. destruct (c_readonly c) eqn:E1; [apply frame_refl, obeys_refl|]. destruct (c_frozen c) eqn:E2; [apply frame_refl, obeys_refl|].
    unfold andThen, load. rewrite E. destruct (rev (o_items o)); cbn; [apply frame_refl, obeys_refl|]. apply Hfree; auto.
  - unfold config_clear. cbn [negb andb]. destruct (c_readonly c) eqn:E1; [apply frame_refl, obeys_refl|]. destruct (c_frozen c) eqn:E2; [apply frame_refl, obeys_refl|].
    unfold andThen, load. rewrite E. cbn. apply Hfree; auto.
  - unfold config_update. apply resp_bind; [exact obeys_trans| |intros; apply update_obeys|exact Hl]. apply resp_U_obeys, dict_of_new.
  - apply Hskip. apply resp_U_obeys; [apply config_copy_utr|exact Hl].
  - unfold config_make_checkpoint. cbn [negb andb]. destruct (c_readonly c); [apply frame_refl, obeys_refl|]. apply resp_U_obeys; [|exact Hl].
    rbindn; [apply dict_of_new|]. rbindn; [apply copy_dict_new|]. apply set_reset_utr.
  - apply Hskip. apply resp_U_obeys; [apply convert_new|exact Hl].
Qed.

(** ** Reset changes only configs that are not read-only *)
Lemma ro_refl : forall o, obeys_ro o o.
Proof. intros o. apply obeys_refl. Qed.
Lemma set_raw_ro : forall n a k v h, n <= List.length h -> (forall o, nth_error h a = Some o -> ~ read_only o) ->
  frame obeys_ro n h (fst (set_raw a k v h)) /\ (forall o, nth_error (fst (set_raw a k v h)) a = Some o -> ~ read_only o).
Proof.
  intros n a k v h Hl Hn. unfold set_raw, andThen, load. destruct (nth_error h a) as [o|] eqn:E; cbn.
  - assert (Hk : same_kind o (mkObj (o_atomic o) (o_cfg o) (dict_set (o_items o) k v)
      match o_cfg o with Some c => if c_as_attrs c then dict_set (o_attrs o) k v else o_attrs o | None => o_attrs o end)).
    { unfold same_kind, same_flags. cbn. destruct (o_cfg o); tauto. }
    split.
    + eapply store_free; [apply ro_refl|exact E|]. split; [exact Hk|]. intros H. exfalso. eapply Hn; eauto.
    + intros o' Ho'. rewrite (upd_same _ _ _ _ _ E) in Ho'. injection Ho' as <-. intros H. apply (same_kind_ro _ _ Hk) in H. eapply Hn; eauto.
  - split; [apply frame_refl, ro_refl|]. rewrite E. exact Hn.
Qed.
Lemma force_items_ro : forall n a items h, n <= List.length h -> (forall o, nth_error h a = Some o -> ~ read_only o) ->
  frame obeys_ro n h (fst (force_items a items h)).
Proof.
  intros n a items. induction items as [|[k v] items IH]; intros h Hl Hn; [apply frame_refl, ro_refl|].
  unfold force_items in *. cbn [each fst snd]. 
  assert (E : fst (set_dict_item a k v true h) = fst (set_raw a k v h)).
  { unfold set_dict_item, andThen at 1, load at 1. destruct (nth_error h a) as [o|] eqn:E; cbn.
    - destruct (o_cfg o); [|reflexivity]. unfold config_setitem, andThen at 1, load at 1. rewrite E. reflexivity.
    - unfold set_raw, andThen, load. rewrite E. reflexivity. }
  destruct (set_raw_ro n a k v h Hl Hn) as [F1 F2]. rewrite <- E in F1, F2. unfold andThen at 1.
  destruct (set_dict_item a k v true h) as [h1 [u|e]]; cbn [fst] in *; [|exact F1].
  eapply frame_trans; [exact ro_trans|exact F1|]. apply IH; [destruct F1; lia|exact F2].
Qed.
Lemma call_ro : forall n a op h, n <= List.length h -> unforced (a, op, false) -> frame obeys_ro n h (fst (call a op false h)).
Proof.
  intros n a op h Hl Hu.
  assert (Hop : op <> OReset \/ op = OReset) by (destruct op; auto; left; discriminate). destruct Hop as [Hop| ->].
  { eapply frame_weaken; [|apply call_obeys; auto]. intros x y [H _]. exact H. }
  unfold call, andThen at 1, load at 1. destruct (nth_error h a) as [o|] eqn:E; [|apply frame_refl, ro_refl].
  destruct (o_cfg o) as [c|] eqn:Ec; [|apply frame_refl, ro_refl].
  unfold config_reset. cbn [negb andb]. destruct (c_readonly c) eqn:Er; [apply frame_refl, ro_refl|].
  assert (HU : forall x y, U x y -> obeys_ro x y) by (intros x y H; now apply utr_obeys).
  (* the copies *)
  destruct (dict_of_new n (c_reset c)) as [D1 _]. specialize (D1 h Hl). unfold andThen at 1.
  destruct (dict_of (c_reset c) h) as [h1 [r0|e]] eqn:E1; cbn [fst] in *; [|eapply frame_weaken; eauto].
  destruct (copy_dict_new depth_limit n r0 (c_reset_copy c)) as [D2 _]. specialize (D2 h1 ltac:(destruct D1; lia)). unfold andThen at 1.
  pose proof (frame_trans _ _ _ _ _ utr_trans D1 D2) as D12. 
  destruct (copy_dict depth_limit r0 (c_reset_copy c) h1) as [h2 [r|e]] eqn:E2; cbn [fst] in *; [|eapply frame_weaken; eauto].
  eapply frame_trans; [exact ro_trans|eapply frame_weaken; [exact HU|exact D12]|].
  (* the object is still not read-only *)
  assert (Hfull : frame U (List.length h) h h2).
  { pose proof (proj1 (dict_of_new (List.length h) (c_reset c)) h (le_n _)) as G1. rewrite E1 in G1.
    pose proof (proj1 (copy_dict_new depth_limit (List.length h) r0 (c_reset_copy c)) h1 ltac:(destruct D1; lia)) as G2. rewrite E2 in G2.
    exact (frame_trans _ _ _ _ _ utr_trans G1 G2). }
  destruct Hfull as [Hlen Hfull]. destruct (Hfull a o (nth_error_len _ _ _ _ E) E) as [o2 [H2 [K2 [I2 A2]]]].
  assert (Hnro : ~ read_only o2).
  { intros H. apply (same_kind_ro _ _ K2) in H. destruct H as [c' [E3 E4]]. congruence. }
  unfold andThen at 1. unfold config_clear at 1. cbn [negb andb]. unfold andThen at 1, load at 1. rewrite H2. cbn [store].
  set (o3 := mkObj (o_atomic o2) (o_cfg o2) [] (clear_attrs o2 c [])).
  assert (K3 : same_kind o2 o3). { unfold same_kind, same_flags. cbn. destruct (o_cfg o2); tauto. }
  assert (F3 : frame obeys_ro n h2 (upd h2 a o3)).
  { eapply store_free; [apply ro_refl|exact H2|]. split; [exact K3|]. intros H. contradiction. }
  eapply frame_trans; [exact ro_trans|exact F3|].
  assert (L3 : n <= List.length (upd h2 a o3)) by (rewrite upd_length; lia).
  unfold andThen at 1, load at 1. destruct (nth_error (upd h2 a o3) (c_reset c)) as [ores|]; [|apply frame_refl, ro_refl].
  pose proof (force_items_ro n a (o_items ores) (upd h2 a o3) L3) as F4.
  assert (Hno : forall o0, nth_error (upd h2 a o3) a = Some o0 -> ~ read_only o0).
  { intros o0 H0. rewrite (upd_same _ _ _ _ _ H2) in H0. injection H0 as <-. intros H. apply (same_kind_ro _ _ K3) in H. contradiction. }
  specialize (F4 Hno). unfold andThen. destruct (force_items a (o_items ores) (upd h2 a o3)) as [h4 [u|e]]; cbn [fst] in *; [|exact F4].
  eapply frame_trans; [exact ro_trans|exact F4|]. eapply frame_weaken; [exact HU|]. apply set_reset_utr. destruct F4. lia.
Qed.

Lemma calls_frame : forall (R : Obj -> Obj -> Prop) (P : nat * Op * bool -> Prop), (forall o, R o o) -> Trans R ->
  (forall n a op h force, n <= List.length h -> P (a, op, force) -> frame R n h (fst (call a op force h))) ->
  forall ops n h, n <= List.length h -> Forall P ops -> frame R n h (calls h ops).
Proof.
  intros R P Hr HT Hc. induction ops as [|[[a op] force] ops IH]; intros n h Hl Hp; cbn [calls]; [now apply frame_refl|].
  apply Forall_cons_iff in Hp. destruct Hp as [Hp Hps]. pose proof (Hc n a op h force Hl Hp) as F.
  eapply frame_trans; [exact HT|exact F|]. apply IH; [destruct F; lia|exact Hps].
Qed.
Lemma unforced_false : forall a op force, unforced (a, op, force) -> force = false.
Proof. intros a op force H. destruct op; try contradiction; exact H. Qed.
Lemma readonly_history : forall ops h a o, Forall unforced ops -> nth_error h a = Some o -> read_only o ->
  exists o', nth_error (calls h ops) a = Some o' /\ read_only o' /\ o_items o' = o_items o /\ o_attrs o' = o_attrs o.
Proof.
  intros ops h a o Hu Hn Hr.
  destruct (calls_frame obeys_ro unforced ro_refl ro_trans ltac:(intros n b op h0 force Hl Hp; pose proof (unforced_false _ _ _ Hp); subst; now apply call_ro) ops
    (List.length h) h (le_n _) Hu) as [_ F]. destruct (F a o (nth_error_len _ _ _ _ Hn) Hn) as [o' [H1 [K H2]]].
  exists o'. destruct (H2 Hr). split; [exact H1|]. split; [now apply (same_kind_ro _ _ K)|]. auto.
Qed.
Lemma frozen_history : forall ops h a o, Forall unforced ops -> Forall (fun c => ~ is_reset c) ops -> nth_error h a = Some o -> frozen o ->
  exists o', nth_error (calls h ops) a = Some o' /\ frozen o' /\ keys (o_items o') = keys (o_items o).
Proof.
  intros ops h a o Hu Hnr Hn Hr.
  destruct (calls_frame obeys (fun c => unforced c /\ ~ is_reset c) obeys_refl obeys_trans
    ltac:(intros n b op h0 force Hl [Hp Hq]; pose proof (unforced_false _ _ _ Hp); subst; apply call_obeys; [exact Hl|exact Hp|intros ->; apply Hq; reflexivity]) ops
    (List.length h) h (le_n _)) as [_ F].
  { rewrite Forall_forall in *. auto. }
  destruct (F a o (nth_error_len _ _ _ _ Hn) Hn) as [o' [H1 [[K _] H2]]]. exists o'. split; [exact H1|]. split; [now apply (same_kind_fr _ _ K)|auto].
Qed.
