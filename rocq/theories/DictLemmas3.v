(** * Conversion and merging of dictionaries: lemmas *)
From Coq Require Import String ZArith Bool List Arith Lia.
From Verif Require Import Base Dicts DictSpec DictLemmas DictLemmas2.
Import ListNotations.
Local Open Scope list_scope.
Local Open Scope nat_scope.

Lemma unchanged_refl : forall h, unchanged h h.
Proof. intros h a o H. exact H. Qed.
Lemma unchanged_trans : forall h1 h2 h3, unchanged h1 h2 -> unchanged h2 h3 -> unchanged h1 h3.
Proof. intros h1 h2 h3 H1 H2 a o H. auto. Qed.
Lemma unchanged_length : forall h h', unchanged h h' -> List.length h <= List.length h'.
Proof.
  intros h h' H. destruct (List.length h) as [|n] eqn:E; [lia|]. destruct (nth_error h n) as [o|] eqn:Eo.
  - apply H, nth_error_len in Eo. lia.
  - apply nth_error_None in Eo. lia.
Qed.
Lemma unchanged_app : forall h l, unchanged h (h ++ l).
Proof. intros h l a o H. rewrite nth_error_app1; [exact H|]. eapply nth_error_len; exact H. Qed.
Lemma unchanged_upd : forall h h' a o, unchanged h h' -> List.length h <= a -> unchanged h (upd h' a o).
Proof. intros h h' a o H Hl b ob Hb. rewrite upd_other; [auto|]. apply nth_error_len in Hb. lia. Qed.

Definition den_items (kind : Obj -> Prop) (h : Heap) : list (string * Val) -> list (string * Tree) -> Prop :=
  Forall2 (fun kv kt => fst kv = fst kt /\ denotes kind h (snd kv) (snd kt)).
Lemma denotes_dict : forall kind h v b ts, denotes kind h v (TDict b ts) <->
  exists a o, v = VRef a /\ nth_error h a = Some o /\ kind o /\ o_atomic o = b /\ NoDup (keys ts) /\ den_items kind h (o_items o) ts.
Proof.
  intros kind h v b ts. cbn. 
  assert (H : forall its, (fix items its ts {struct ts} := match its, ts with
        | [], [] => True
        | (k, v) :: its, (k', t) :: ts => k = k' /\ denotes kind h v t /\ items its ts
        | _, _ => False
        end) its ts <-> den_items kind h its ts).
  { induction ts as [|[k t] ts IH]; intros [|[k' v'] its]; cbn.
    - split; [constructor|auto].
    - split; [tauto|intros H; inversion H].
    - split; [tauto|intros H; inversion H].
    - rewrite IH. split.
      + intros [-> [H1 H2]]. constructor; [cbn; auto|exact H2].
      + intros H. inversion H as [|? ? ? ? [H1 H2] H3]; subst. cbn in *. subst. auto. }
  split; intros [a [o [H1 [H2 [H3 [H4 [H5 H6]]]]]]]; exists a, o; (split; [exact H1|]); (split; [exact H2|]); (split; [exact H3|]);
    (split; [exact H4|]); (split; [exact H5|]); now apply H.
Qed.
Lemma denotes_unchanged : forall t kind h h' v, unchanged h h' -> denotes kind h v t -> denotes kind h' v t.
Proof.
  induction t as [z|b l IH] using Tree_ind'; intros kind h h' v Hu H; [exact H|]. apply denotes_dict in H. apply denotes_dict.
  destruct H as [a [o [H1 [H2 [H3 [H4 [H5 H6]]]]]]]. exists a, o. split; [exact H1|]. split; [now apply Hu|]. split; [exact H3|]. split; [exact H4|].
  split; [exact H5|]. clear - IH H6 Hu. unfold den_items in *. revert IH H6. generalize (o_items o). induction l as [|[k t] l IHl]; intros its IH H6; inversion H6 as [|? ? ? ? [J1 J2] J3]; subst; constructor.
  - apply Forall_cons_iff in IH. destruct IH as [IHt _]. split; [exact J1|]. eapply IHt; eauto.
  - apply IHl; [now apply Forall_cons_iff in IH|assumption].
Qed.
Lemma own_items_app : forall td h d S k v t Sv, own_items h d td S -> owned h v t Sv -> (forall x, In x S -> In x Sv -> False) ->
  own_items h (d ++ [(k, v)]) (td ++ [(k, t)]) (S ++ Sv).
Proof.
  induction td as [|[k0 t0] td IH]; intros h [|[k' v0] d] S k v t Sv H Ho Hd; cbn in *; try contradiction.
  - subst S. cbn. split; [reflexivity|]. exists Sv, []. rewrite app_nil_r. auto.
  - destruct H as [-> [S1 [S2 [-> [Hd' [Ho' Hr]]]]]]. split; [reflexivity|]. exists S1, (S2 ++ Sv). rewrite app_assoc. split; [reflexivity|]. split.
    + intros x H1 H2. apply in_app_or in H2. destruct H2 as [H2|H2]; [eauto|]. apply (Hd x); [apply in_or_app; now left|exact H2].
    + split; [exact Ho'|]. apply IH; auto. intros x H1 H2. apply (Hd x); [apply in_or_app; now right|exact H2].
Qed.
Lemma set_middle : forall V (d : list (string * V)) k v w r, ~ In k (keys d) -> dict_set (d ++ (k, v) :: r) k w = d ++ (k, w) :: r.
Proof.
  intros V d k v w r. induction d as [|[k0 v0] d IH]; cbn; intros H; [now rewrite String.eqb_refl|].
  destruct (String.eqb_spec k k0) as [->|]; [tauto|]. f_equal. apply IH. tauto.
Qed.
Lemma owned_in : forall t h v S a, owned h v t S -> In a S -> a < List.length h.
Proof.
  induction t as [z|b l IH] using Tree_ind'; intros h v S a Ho Ha; [destruct Ho as [_ ->]; destruct Ha|]. apply owned_dict in Ho.
  destruct Ho as [a0 [its [S' [_ [H2 [-> [_ [_ H6]]]]]]]]. destruct Ha as [->|Ha]; [eapply nth_error_len; exact H2|].
  clear - IH H6 Ha. revert its S' H6 Ha. induction l as [|[k t] l IHl]; intros [|[k' v] its] S' H6 Ha; cbn in *; try contradiction; [subst; destruct Ha|].
  apply Forall_cons_iff in IH. destruct IH as [IHt IHr]. destruct H6 as [_ [S1 [S2 [-> [_ [Ho Hr]]]]]]. apply in_app_or in Ha. destruct Ha as [Ha|Ha]; [eapply IHt; eauto|eapply IHl; eauto].
Qed.
Lemma own_items_in : forall ts h its S a, own_items h its ts S -> In a S -> a < List.length h.
Proof.
  induction ts as [|[k t] ts IH]; intros h [|[k' v] its] S a H Ha; cbn in *; try contradiction; [subst; destruct Ha|].
  destruct H as [_ [S1 [S2 [-> [_ [Ho Hr]]]]]]. apply in_app_or in Ha. destruct Ha as [Ha|Ha]; [eapply owned_in; eauto|eapply IH; eauto].
Qed.

(** Making a fresh copy of [c] in [h1] *)
Definition makes_fresh (kind : Obj -> Prop) (f : nat -> M nat) (t : Tree) (h1 : Heap) (c : nat) : Prop :=
  exists h2 c' S, f c h1 = (h2, Done c') /\ unchanged h1 h2 /\ owned h2 (VRef c') t S /\ (forall z, In z S -> List.length h1 <= z).

Lemma fresh_loop : forall (kind : Obj -> Prop) (f : nat -> M nat) (setter : nat -> string -> Val -> M unit) h a b,
  (forall h a b its k v, nth_error h a = Some (mkObj b None its []) ->
     setter a k v h = (upd h a (mkObj b None (dict_set its k v) []), Done tt)) ->
  a = List.length h ->
  forall trest rest, den_items kind h rest trest ->
  Forall (fun kt => is_dict (snd kt) -> forall h1 c, denotes kind h1 (VRef c) (snd kt) -> makes_fresh kind f (snd kt) h1 c) trest ->
  forall done tdone h1 S, unchanged h h1 -> nth_error h1 a = Some (mkObj b None (done ++ rest) []) -> own_items h1 done tdone S ->
  (forall z, In z S -> a < z) -> NoDup (keys (done ++ rest)) ->
  exists h2 its S', each (fun kv : string * Val => let '(k, v) := kv in
      match v with
      | VRef c => andThen (f c) (fun c' => setter a k (VRef c'))
      | VAtom _ => setter a k v
      end) rest h1 = (h2, Done tt) /\ unchanged h h2 /\ nth_error h2 a = Some (mkObj b None its []) /\
    own_items h2 its (tdone ++ trest) S' /\ (forall z, In z S' -> a < z).
Proof.
  intros kind f setter h a b Hset Ha trest. induction trest as [|[k t] trest IH]; intros rest Hd Hf done tdone h1 S Hu Hn Ho Hz Hnd.
  - inversion Hd; subst. exists h1, done, S. rewrite app_nil_r in *. cbn. auto.
  - inversion Hd as [|[k' v] ? rest' ? [Hk Hv] Hr]; subst. cbn in Hk, Hv. subst k'. apply Forall_cons_iff in Hf. destruct Hf as [Hft Hfr]. cbn [snd] in Hft.
    assert (Hnk : ~ In k (keys done)).
    { intros H. unfold keys in Hnd. rewrite map_app in Hnd. cbn in Hnd. apply NoDup_remove_2 in Hnd. apply Hnd, in_or_app. now left. }
    assert (Hstep : exists h2 v' Sv, (match v with
        | VRef c => andThen (f c) (fun c' => setter (List.length h) k (VRef c'))
        | VAtom _ => setter (List.length h) k v end) h1 = (h2, Done tt) /\ unchanged h h2 /\
        nth_error h2 (List.length h) = Some (mkObj b None (done ++ (k, v') :: rest') []) /\ own_items h2 done tdone S /\ owned h2 v' t Sv /\
        (forall z, In z Sv -> List.length h < z) /\ (forall z, In z S -> In z Sv -> False)).
    { destruct t as [z|bt lt].
      - cbn in Hv. subst v. exists h1, (VAtom z), []. split.
        { rewrite (Hset _ _ _ _ _ _ Hn), set_middle by exact Hnk. f_equal.
          clear - Hn. revert Hn. generalize (List.length h). induction h1 as [|o h1 IH]; intros [|n] H; cbn in *; try discriminate; [injection H as ->; reflexivity|].
          f_equal. auto. }
        split; [exact Hu|]. split; [exact Hn|]. split; [exact Ho|]. split; [cbn; auto|]. split; [intros ? []|intros ? ? []].
      - pose proof Hv as Hv'. apply denotes_dict in Hv'. destruct Hv' as [c [o [-> _]]].
        destruct (Hft ltac:(exists bt, lt; reflexivity) h1 c (denotes_unchanged _ _ _ _ _ Hu Hv)) as [h2 [c' [Sv [F1 [F2 [F3 F4]]]]]].
        pose proof (F2 _ _ Hn) as Hn2. assert (Hlen : List.length h < List.length h1) by (eapply nth_error_len; exact Hn).
        exists (upd h2 (List.length h) (mkObj b None (done ++ (k, VRef c') :: rest') [])), (VRef c'), Sv. split.
        { rewrite (andThen_done _ _ _ _ _ _ _ F1), (Hset _ _ _ _ _ _ Hn2), set_middle by exact Hnk. reflexivity. }
        split; [apply unchanged_upd; [eapply unchanged_trans; eauto|lia]|]. split; [eapply upd_same; exact Hn2|]. split.
        { apply (own_items_frame tdone h1); [|exact Ho]. intros x Hx. rewrite upd_other by (apply Hz in Hx; lia).
          pose proof (own_items_in _ _ _ _ _ Ho Hx) as Hl. destruct (nth_error h1 x) eqn:E; [now apply F2|]. apply nth_error_None in E. lia. }
        split; [apply (owned_frame _ h2); [|exact F3]; intros x Hx; apply upd_other; apply F4 in Hx; lia|].
        split; [intros z Hx; apply F4 in Hx; lia|]. intros z H1 H2. apply F4 in H2. pose proof (own_items_in _ _ _ _ _ Ho H1). lia. }
    destruct Hstep as [h2 [v' [Sv [G1 [G2 [G3 [G4 [G5 [G6 G7]]]]]]]]].
    destruct (IH rest' Hr Hfr (done ++ [(k, v')]) (tdone ++ [(k, t)]) h2 (S ++ Sv)) as [h3 [its [S' [J1 [J2 [J3 [J4 J5]]]]]]].
    + exact G2.
    + rewrite <- app_assoc. exact G3.
    + now apply own_items_app.
    + intros z Hin. apply in_app_or in Hin. destruct Hin; auto.
    + rewrite <- app_assoc. cbn [app]. unfold keys in *. rewrite map_app in *. exact Hnd.
    + exists h3, its, S'. split; [cbn [each]; rewrite (andThen_done _ _ _ _ _ _ _ G1); exact J1|]. split; [exact J2|]. split; [exact J3|].
      split; [rewrite <- app_assoc in J4; exact J4|exact J5].
Qed.

Lemma fresh_dict : forall kind f setter h o b ts,
  (forall h a b its k v, nth_error h a = Some (mkObj b None its []) ->
     setter a k v h = (upd h a (mkObj b None (dict_set its k v) []), Done tt)) ->
  NoDup (keys ts) -> den_items kind h (o_items o) ts ->
  Forall (fun kt => is_dict (snd kt) -> forall h1 c, denotes kind h1 (VRef c) (snd kt) -> makes_fresh kind f (snd kt) h1 c) ts ->
  exists h2 S, andThen (each (fun kv : string * Val => let '(k, v) := kv in
      match v with
      | VRef c => andThen (f c) (fun c' => setter (List.length h) k (VRef c'))
      | VAtom _ => setter (List.length h) k v
      end) (o_items o)) (fun _ => ret (List.length h)) (h ++ [mkObj b None (o_items o) []]) = (h2, Done (List.length h)) /\
    unchanged h h2 /\ owned h2 (VRef (List.length h)) (TDict b ts) S /\ (forall z, In z S -> List.length h <= z).
Proof.
  intros kind f setter h o b ts Hset Hnd Hden Hf.
  assert (Hk : keys (o_items o) = keys ts).
  { clear - Hden. unfold den_items, keys in *. induction Hden as [|[k v] [k' t] l l' [H1 H2] H IH]; [reflexivity|]. cbn in *. now rewrite H1, IH. }
  destruct (fresh_loop kind f setter h (List.length h) b Hset eq_refl ts (o_items o) Hden Hf [] [] (h ++ [mkObj b None (o_items o) []]) [])
    as [h2 [its [S [G1 [G2 [G3 [G4 G5]]]]]]].
  - apply unchanged_app.
  - rewrite nth_error_app2, Nat.sub_diag by lia. reflexivity.
  - reflexivity.
  - intros z [].
  - cbn [app]. now rewrite Hk.
  - exists h2, (List.length h :: S). split; [now rewrite (andThen_done _ _ _ _ _ _ _ G1)|]. split; [exact G2|]. split.
    + apply owned_dict. exists (List.length h), its, S. split; [reflexivity|]. split; [exact G3|]. split; [reflexivity|].
      split; [intros H; apply G5 in H; lia|]. split; [exact Hnd|exact G4].
    + intros z [<-|Hz]; [lia|]. apply G5 in Hz. lia.
Qed.

Lemma convert_fresh : forall t fuel h a, depth t <= fuel -> is_dict t -> denotes any_dict h (VRef a) t ->
  makes_fresh any_dict (fun c => convert_to_dict fuel c true) t h a.
Proof.
  induction t as [z|b ts IH] using Tree_ind'; intros fuel h a Hdep Hd H; [destruct Hd as [? [? Hd]]; discriminate|].
  apply denotes_dict in H. destruct H as [a' [o [E [H2 [_ [H4 [H5 H6]]]]]]]. injection E as <-.
  destruct fuel as [|fuel]; [cbn in Hdep; lia|].
  destruct (fresh_dict any_dict (fun c => convert_to_dict fuel c true) set_raw h o b ts) as [h2 [S [G1 [G2 [G3 G4]]]]].
  - intros h0 a0 b0 its k v Hn. now apply set_raw_plain.
  - exact H5.
  - exact H6.
  - rewrite Forall_forall in IH |- *. intros [k t] Hin. cbn. intros Hdt h1 c Hc. apply (IH (k, t) Hin); [|exact Hdt|exact Hc].
    exact (proj1 (depth_items b ts fuel) Hdep k t Hin).
  - exists h2, (List.length h), S. split; [|split; [exact G2|split; [exact G3|exact G4]]].
    cbn [convert_to_dict]. rewrite (andThen_done _ _ _ _ _ _ _ (load_done _ _ _ H2)). rewrite H4. unfold andThen at 1, alloc at 1. cbn [negb].
    exact G1.
Qed.

Definition plain_dict (o : Obj) : Prop := o_cfg o = None /\ o_attrs o = [].
Lemma copy_fresh : forall t fuel h a mode, depth t <= fuel -> is_dict t -> denotes plain_dict h (VRef a) t ->
  makes_fresh plain_dict (fun c => copy_dict fuel c (mkCopyKwargs mode true)) t h a.
Proof.
  induction t as [z|b ts IH] using Tree_ind'; intros fuel h a mode Hdep Hd H; [destruct Hd as [? [? Hd]]; discriminate|].
  apply denotes_dict in H. destruct H as [a' [o [E [H2 [[Hc Hat] [H4 [H5 H6]]]]]]]. injection E as <-.
  destruct fuel as [|fuel]; [cbn in Hdep; lia|].
  destruct (fresh_dict plain_dict (fun c => copy_dict fuel c (mkCopyKwargs mode true)) (fun a k v => set_dict_item a k v true) h o b ts) as [h2 [S [G1 [G2 [G3 G4]]]]].
  - intros h0 a0 b0 its k v Hn. now apply set_plain.
  - exact H5.
  - exact H6.
  - rewrite Forall_forall in IH |- *. intros [k t] Hin. cbn. intros Hdt h1 c Hcc. apply (IH (k, t) Hin); [|exact Hdt|exact Hcc].
    exact (proj1 (depth_items b ts fuel) Hdep k t Hin).
  - exists h2, (List.length h), S. split; [|split; [exact G2|split; [exact G3|exact G4]]].
    cbn [copy_dict]. rewrite (andThen_done _ _ _ _ _ _ _ (load_done _ _ _ H2)). rewrite Hc.
    assert (Hcp : copy_object a h = (h ++ [mkObj b None (o_items o) []], Done (List.length h))).
    { unfold copy_object. rewrite (andThen_done _ _ _ _ _ _ _ (load_done _ _ _ H2)). rewrite Hc. destruct o as [oa oc oi ot]. cbn in *. subst. reflexivity. }
    rewrite (andThen_done _ _ _ _ _ _ _ Hcp). exact G1.
Qed.
