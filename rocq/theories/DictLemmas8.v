(** * Reset of configs: the history lemma *)
From Coq Require Import String ZArith Bool List Arith Lia.
From Verif Require Import Base Dicts DictSpec DictLemmas DictLemmas2 DictLemmas3 DictLemmas4 DictLemmas5 DictLemmas6 DictLemmas7.
Import ListNotations.
Local Open Scope list_scope.
Local Open Scope nat_scope.

(** ** Copies leave no dangling references *)
Definition within (h : Heap) (items : list (string * Val)) : Prop := forall k b, In (k, VRef b) items -> b < List.length h.
Definition within_val (h : Heap) (v : Val) : Prop := match v with VRef b => b < List.length h | VAtom _ => True end.
Definition cl (h h' : Heap) : Prop := closed h' /\ List.length h <= List.length h'.
Lemma cl_refl : forall h, closed h -> cl h h.
Proof. intros h H. split; [exact H|lia]. Qed.
Lemma cl_trans : forall h1 h2 h3, cl h1 h2 -> cl h2 h3 -> cl h1 h3.
Proof. intros h1 h2 h3 [_ H1] [H2 H3]. split; [exact H2|lia]. Qed.
Lemma within_load : forall h a o, closed h -> nth_error h a = Some o -> within h (o_items o).
Proof. intros h a o Hc Hn k b Hb. eapply Hc; eauto. Qed.
Lemma within_mono : forall h h' items, List.length h <= List.length h' -> within h items -> within h' items.
Proof. intros h h' items Hl H k b Hb. pose proof (H k b Hb). lia. Qed.
Lemma within_get : forall h items k v, within h items -> In (k, v) items -> within_val h v.
Proof. intros h items k [z|b] H Hi; [exact I|]. exact (H k b Hi). Qed.
Lemma within_set : forall h d k v, within h d -> within_val h v -> within h (dict_set d k v).
Proof. intros h d k v Hd Hv k' b Hb. apply in_dict_set in Hb. destruct Hb as [Hb|[_ Hb]]; [eauto|]. subst v. exact Hv. Qed.
Lemma cl_store : forall h a o, closed h -> within h (o_items o) -> cl h (upd h a o).
Proof.
  intros h a o Hc Hw. split; [|rewrite upd_length; lia]. intros b ob k c Hb Hin. rewrite upd_length. rewrite nth_error_upd in Hb.
  destruct (Nat.eqb a b && Nat.ltb a (List.length h)); [injection Hb as <-; eauto|]. eauto.
Qed.
Lemma cl_alloc : forall h o, closed h -> within h (o_items o) -> cl h (h ++ [o]).
Proof.
  intros h o Hc Hw. split; [|rewrite app_length; lia]. intros b ob k c Hb Hin. rewrite app_length.
  destruct (Nat.lt_ge_cases b (List.length h)); [rewrite nth_error_app1 in Hb by lia; pose proof (Hc _ _ _ _ Hb Hin); lia|].
  rewrite nth_error_app2 in Hb by lia. destruct (b - List.length h) as [|[|j]]; cbn in Hb; try discriminate. injection Hb as <-. pose proof (Hw k c Hin). lia.
Qed.
(** a computation that keeps the heap closed and returns an object of it *)
Definition gv (m : M nat) (h : Heap) : Prop := cl h (fst (m h)) /\ forall h' a, m h = (h', Done a) -> a < List.length h'.
Definition gives (m : M nat) : Prop := forall h, closed h -> gv m h.
Lemma gv_load : forall a (f : Obj -> M nat) h, closed h -> (forall o, nth_error h a = Some o -> gv (f o) h) -> gv (andThen (load a) f) h.
Proof. intros a f h Hc H. unfold gv, andThen, load. destruct (nth_error h a) as [o|]; [exact (H o eq_refl)|]. split; [now apply cl_refl|discriminate]. Qed.
Lemma gv_raise : forall e h, closed h -> gv (raise e) h.
Proof. intros e h Hc. split; [now apply cl_refl|discriminate]. Qed.
Lemma gv_ret : forall n h, closed h -> n < List.length h -> gv (ret n) h.
Proof. intros n h Hc Hn. split; [now apply cl_refl|]. intros h' a H. injection H as <- <-. exact Hn. Qed.
Lemma cl_set_raw : forall h a k v, closed h -> within_val h v -> cl h (fst (set_raw a k v h)).
Proof.
  intros h a k v Hc Hv. unfold set_raw, andThen, load. destruct (nth_error h a) as [o|] eqn:E; [|now apply cl_refl]. cbn.
  apply cl_store; [exact Hc|]. cbn. apply within_set; [|exact Hv]. eapply within_load; eauto.
Qed.
Lemma cl_set_item : forall h a k v force, closed h -> within_val h v -> cl h (fst (set_dict_item a k v force h)).
Proof.
  intros h a k v force Hc Hv. unfold set_dict_item, andThen, load. destruct (nth_error h a) as [o|] eqn:E; [|now apply cl_refl].
  destruct (o_cfg o) as [c|]; [|now apply cl_set_raw]. unfold config_setitem, andThen, load. rewrite E.
  destruct (negb force && c_readonly c); [now apply cl_refl|]. destruct (negb force && c_frozen c && negb (has_key (o_items o) k)); [now apply cl_refl|now apply cl_set_raw].
Qed.
Lemma cl_force_items : forall items h a, closed h -> within h items -> cl h (fst (force_items a items h)).
Proof.
  unfold force_items. induction items as [|[k v] items IH]; intros h a Hc Hw; [now apply cl_refl|]. cbn [each fst snd]. unfold andThen at 1.
  pose proof (cl_set_item h a k v true Hc (within_get _ _ _ _ Hw (or_introl eq_refl))) as H1. destruct (set_dict_item a k v true h) as [h1 [u|e]]; cbn [fst] in *; [|exact H1].
  eapply cl_trans; [exact H1|]. apply IH; [apply H1|]. apply (within_mono h); [apply H1|]. intros k' b Hb. apply (Hw k' b). now right.
Qed.
Lemma gives_dict_of : forall a, gives (dict_of a).
Proof.
  intros a h Hc. unfold gv, dict_of, andThen, load. destruct (nth_error h a) as [o|] eqn:E; cbn.
  - split; [apply cl_alloc; [exact Hc|]; exact (within_load _ _ _ Hc E)|]. intros h' b H. injection H as <- <-. rewrite app_length. cbn. lia.
  - split; [now apply cl_refl|discriminate].
Qed.
Lemma gives_copy_object : forall a, gives (copy_object a).
Proof.
  intros a h Hc. unfold gv, copy_object, andThen, load. destruct (nth_error h a) as [o|] eqn:E; cbn; [|split; [now apply cl_refl|discriminate]].
  pose proof (within_load _ _ _ Hc E). destruct (o_cfg o); cbn; (split; [now apply cl_alloc|]); intros h' b Hb; injection Hb as <- <-; rewrite app_length; cbn; lia.
Qed.
Lemma cl_set_reset : forall h a r, closed h -> cl h (fst (set_reset a r h)).
Proof.
  intros h a r Hc. unfold set_reset, andThen, load. destruct (nth_error h a) as [o|] eqn:E; [|now apply cl_refl]. destruct (o_cfg o); [|now apply cl_refl].
  cbn. apply cl_store; [exact Hc|]. exact (within_load _ _ _ Hc E).
Qed.
Lemma gives_bind : forall (m f : _), gives m -> (forall n, forall h, closed h -> n < List.length h -> gv (f n) h) ->
  gives (andThen m f).
Proof.
  intros m f Hm Hf h Hc. unfold gv, andThen. destruct (Hm h Hc) as [H1 H2]. destruct (m h) as [h1 [n|e]]; cbn [fst] in *; [|split; [exact H1|discriminate]].
  destruct (Hf n h1 (proj1 H1) (H2 h1 n eq_refl)) as [H3 H4]. split; [eapply cl_trans; eauto|exact H4].
Qed.
Lemma keep_bind : forall A (m : M A) (f : A -> M nat) h n, closed h -> n < List.length h -> cl h (fst (m h)) ->
  (forall a h', closed h' -> n < List.length h' -> gv (f a) h') ->
  gv (andThen m f) h.
Proof.
  intros A m f h n Hc Hn Hm Hf. unfold gv, andThen. destruct (m h) as [h1 [a|e]]; cbn [fst] in *; [|split; [exact Hm|discriminate]].
  destruct (Hf a h1 (proj1 Hm) ltac:(destruct Hm; lia)) as [H3 H4]. split; [eapply cl_trans; eauto|exact H4].
Qed.
Lemma gives_bind_n : forall (m f : _) h n, closed h -> n < List.length h -> gives m ->
  (forall a h', closed h' -> n < List.length h' -> gv (f a) h') ->
  gv (andThen m f) h.
Proof. intros m f h n Hc Hn Hm Hf. apply (keep_bind nat m f h n Hc Hn); [apply Hm; exact Hc|exact Hf]. Qed.
Lemma gives_copy_dict : forall fuel a kw, gives (copy_dict fuel a kw).
Proof.
  induction fuel as [|fuel IH]; intros a kw h Hc; cbn [copy_dict]; [now apply gv_raise|].
  apply gv_load; [exact Hc|]. intros o E.
  pose proof (within_load _ _ _ Hc E) as Hw.
  revert h Hc E Hw. destruct (o_cfg o) as [c|]; intros h Hc E Hw.
  - apply gives_bind; [apply gives_copy_object| |exact Hc]. intros a' h1 Hc1 Hl1.
    apply (gives_bind_n _ _ h1 a' Hc1 Hl1); [apply gives_dict_of|]. intros r0 h2 Hc2 Hl2.
    apply (gives_bind_n _ _ h2 a' Hc2 Hl2); [apply IH|]. intros r h3 Hc3 Hl3.
    apply (keep_bind unit _ _ h3 a' Hc3 Hl3); [now apply cl_set_reset|]. intros _ h4 Hc4 Hl4.
    apply (gives_bind_n _ _ h4 a' Hc4 Hl4); [apply gives_dict_of|]. intros d0 h5 Hc5 Hl5.
    apply (gives_bind_n _ _ h5 a' Hc5 Hl5); [apply IH|]. intros d h6 Hc6 Hl6.
    apply gv_load; [exact Hc6|]. intros od E6.
    apply (keep_bind unit _ _ h6 a' Hc6 Hl6); [apply cl_force_items; [exact Hc6|exact (within_load _ _ _ Hc6 E6)]|].
    intros _ h7 Hc7 Hl7. now apply gv_ret.
  - assert (Hcopy : exists o', copy_object a h = (h ++ [o'], Done (List.length h)) /\ within h (o_items o')).
    { unfold copy_object, andThen, load. rewrite E. destruct (o_cfg o); eexists; (split; [reflexivity|exact Hw]). }
    destruct Hcopy as [o' [E1 W1]]. unfold gv. rewrite (andThen_done _ _ _ _ _ _ _ E1). pose proof (cl_alloc h o' Hc W1) as C1.
    match goal with |- cl h (fst (andThen ?m _ _)) /\ _ => assert (Hq : cl (h ++ [o']) (fst (m (h ++ [o'])))) end.
    { pose proof (within_mono h (h ++ [o']) _ (proj2 C1) Hw) as W2. destruct C1 as [C1 _]. clear - IH C1 W2. revert C1 W2. generalize (List.length h) at 2.
      generalize (h ++ [o']). intros h1 a' C1 W1. revert h1 C1 W1. induction (o_items o) as [|[k v] items IHl]; intros h1 C1 W1; [now apply cl_refl|]. cbn [each].
      match goal with |- cl h1 (fst (andThen ?m _ h1)) => assert (Hq : cl h1 (fst (m h1))) end.
      { pose proof (within_get _ _ _ _ W1 (or_introl eq_refl)) as Hv. destruct v as [z|c]; [now apply cl_set_item|].
        destruct (cp_nested kw).
        - unfold andThen. destruct (IH c kw h1 C1) as [J1 J2]. destruct (copy_dict fuel c kw h1) as [h2 [c'|e]]; cbn [fst] in *; [|exact J1].
          eapply cl_trans; [exact J1|]. apply cl_set_item; [apply J1|]. exact (J2 h2 c' eq_refl).
        - destruct (cp_mode kw); [now apply cl_set_item|]. unfold andThen. destruct (gives_copy_object c h1 C1) as [J1 J2].
          destruct (copy_object c h1) as [h2 [c'|e]]; cbn [fst] in *; [|exact J1].
          eapply cl_trans; [exact J1|]. apply cl_set_item; [apply J1|]. exact (J2 h2 c' eq_refl). }
      unfold andThen at 1. match goal with |- context [match ?m with (_, _) => _ end] => destruct m as [h2 [u|e]] end; cbn [fst] in Hq |- *; [|exact Hq].
      eapply cl_trans; [exact Hq|]. apply IHl; [apply Hq|]. apply (within_mono h1); [apply Hq|]. intros k' b Hb. apply (W1 k' b). now right. }
    match goal with |- cl h (fst (andThen ?m _ ?hh)) /\ _ => destruct (m hh) as [h2 [u|e]] eqn:E2 end; cbn [fst] in Hq.
    + rewrite (andThen_done _ _ _ _ _ _ _ E2). split; [eapply cl_trans; eauto|]. intros h' b H. injection H as <- <-. destruct Hq as [_ Hq]. rewrite app_length in Hq. cbn in Hq. lia.
    + unfold andThen at 1. rewrite E2. split; [eapply cl_trans; eauto|]. intros h' b H. unfold andThen in H. 
      match type of H with (match ?m with _ => _ end) = _ => replace m with (h2, @Raise unit e) in H end. discriminate.
Qed.
