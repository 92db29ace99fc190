(** * Merging dictionaries: lemmas *)
From Coq Require Import String ZArith Bool List Arith Lia.
From Verif Require Import Base Dicts DictSpec.
Import ListNotations.
Local Open Scope list_scope.
Local Open Scope nat_scope.

(** ** Trees *)
Lemma Tree_ind' : forall P : Tree -> Prop, (forall z, P (TAtom z)) ->
  (forall b l, Forall (fun kt => P (snd kt)) l -> P (TDict b l)) -> forall t, P t.
Proof.
  intros P Ha Hd. fix IH 1. intros [z|b l]; [apply Ha|]. apply Hd. induction l as [|[k t] l IHl]; constructor; [apply IH|exact IHl].
Qed.

(** ** dict functions *)
Lemma dict_get_In : forall V (l : list (string * V)) k v, dict_get l k = Some v -> In (k, v) l.
Proof.
  intros V l k v. induction l as [|[k' v'] l IH]; cbn; [discriminate|]. destruct (String.eqb_spec k k') as [->|]; [intros [= ->]; now left|right; auto].
Qed.
Lemma In_dict_get : forall V (l : list (string * V)) k v, NoDup (keys l) -> In (k, v) l -> dict_get l k = Some v.
Proof.
  intros V l k v. induction l as [|[k' v'] l IH]; cbn; [tauto|]. intros Hn [H|H].
  - injection H as -> ->. now rewrite String.eqb_refl.
  - apply NoDup_cons_iff in Hn. destruct Hn as [Hx Hn]. destruct (String.eqb_spec k k') as [->|]; [|auto].
    exfalso. apply Hx. change k' with (fst (k', v)). now apply in_map.
Qed.
Lemma dict_get_keys : forall V (l : list (string * V)) k, dict_get l k <> None <-> In k (keys l).
Proof.
  intros V l k. induction l as [|[k' v'] l IH]; cbn; [tauto|]. destruct (String.eqb_spec k k') as [->|Hd].
  - split; [auto|discriminate].
  - rewrite IH. split; [auto|]. intros [H|H]; [congruence|exact H].
Qed.
Lemma dict_get_none : forall V (l : list (string * V)) k, dict_get l k = None <-> ~ In k (keys l).
Proof.
  intros V l k. rewrite <- dict_get_keys. destruct (dict_get l k); split; try congruence; try tauto. intros H. exfalso. apply H. discriminate.
Qed.
Lemma has_key_spec : forall V (l : list (string * V)) k, has_key l k = true <-> In k (keys l).
Proof. intros V l k. rewrite <- dict_get_keys. unfold has_key. destruct (dict_get l k); split; congruence. Qed.
Lemma keys_set_in : forall V (l : list (string * V)) k v, In k (keys l) -> keys (dict_set l k v) = keys l.
Proof.
  intros V l k v. induction l as [|[k' v'] l IH]; cbn; [tauto|]. destruct (String.eqb_spec k k') as [->|]; [reflexivity|].
  intros [H|H]; [congruence|]. cbn. f_equal. apply IH, H.
Qed.
Lemma set_not_in : forall V (l : list (string * V)) k v, ~ In k (keys l) -> dict_set l k v = l ++ [(k, v)].
Proof.
  intros V l k v. induction l as [|[k' v'] l IH]; cbn; [reflexivity|]. intros H. destruct (String.eqb_spec k k') as [->|]; [tauto|].
  f_equal. apply IH. tauto.
Qed.
Lemma keys_set : forall V (l : list (string * V)) k v k', In k' (keys (dict_set l k v)) <-> k' = k \/ In k' (keys l).
Proof.
  intros V l k v k'. destruct (in_dec string_dec k (keys l)) as [H|H].
  - rewrite keys_set_in by exact H. split; [auto|]. intros [->|]; auto.
  - rewrite set_not_in by exact H. unfold keys. rewrite map_app, in_app_iff. cbn. intuition.
Qed.
Lemma nodup_set : forall V (l : list (string * V)) k v, NoDup (keys l) -> NoDup (keys (dict_set l k v)).
Proof.
  intros V l k v Hn. destruct (in_dec string_dec k (keys l)) as [H|H]; [now rewrite keys_set_in|].
  rewrite set_not_in by exact H. unfold keys in *. rewrite map_app.
  cbn. clear - Hn H. induction (map fst l) as [|x m IH]; cbn in *; [constructor; [tauto|constructor]|].
  apply NoDup_cons_iff in Hn. constructor; [rewrite in_app_iff; cbn; intuition|]. apply IH; tauto.
Qed.
Lemma get_set_same : forall V (l : list (string * V)) k v, dict_get (dict_set l k v) k = Some v.
Proof.
  intros V l k v. induction l as [|[k' v'] l IH]; cbn; [now rewrite String.eqb_refl|].
  destruct (String.eqb k k') eqn:E; cbn; rewrite E; auto.
Qed.
Lemma get_set_other : forall V (l : list (string * V)) k k' v, k' <> k -> dict_get (dict_set l k v) k' = dict_get l k'.
Proof.
  intros V l k k' v Hd. induction l as [|[k0 v0] l IH]; cbn.
  - destruct (String.eqb_spec k' k); congruence.
  - destruct (String.eqb_spec k k0) as [->|]; cbn; [destruct (String.eqb_spec k' k0); congruence|]. now rewrite IH.
Qed.

(** ** Merging of trees as a function *)
Definition merged_value (f : Tree -> Tree -> Tree) (old : option Tree) (u : Tree) : Tree :=
  match old, u with Some (TDict b l), TDict false _ => f u (TDict b l) | _, _ => u end.
Fixpoint tupd (t2 t1 : Tree) {struct t2} : Tree :=
  match t2, t1 with
  | TDict _ l2, TDict b1 l1 =>
      TDict b1 ((fix go l2 l1 {struct l2} := match l2 with
        | [] => l1
        | (k, u) :: l2' => go l2' (dict_set l1 k
            match dict_get l1 k, u with Some (TDict b l), TDict false _ => tupd u (TDict b l) | _, _ => u end)
        end) l2 l1)
  | _, _ => t1
  end.
Fixpoint tgo (l2 l1 : list (string * Tree)) : list (string * Tree) :=
  match l2 with
  | [] => l1
  | (k, u) :: l2' => tgo l2' (dict_set l1 k
      match dict_get l1 k, u with Some (TDict b l), TDict false _ => tupd u (TDict b l) | _, _ => u end)
  end.
Lemma tupd_dict : forall b2 l2 b1 l1, tupd (TDict b2 l2) (TDict b1 l1) = TDict b1 (tgo l2 l1).
Proof. intros b2 l2 b1 l1. reflexivity. Qed.

Definition mval (old : option Tree) (u : Tree) : Tree :=
  match old, u with Some (TDict b l), TDict false _ => tupd u (TDict b l) | _, _ => u end.
Lemma tgo_cons : forall k u l2 l1, tgo ((k, u) :: l2) l1 = tgo l2 (dict_set l1 k (mval (dict_get l1 k) u)).
Proof. reflexivity. Qed.
Lemma tgo_keys : forall l2 l1 k, In k (keys (tgo l2 l1)) <-> In k (keys l1) \/ In k (keys l2).
Proof.
  induction l2 as [|[k0 u] l2 IH]; intros l1 k; [cbn; tauto|]. rewrite tgo_cons, IH, keys_set. cbn. intuition.
Qed.
Lemma tgo_nodup : forall l2 l1, NoDup (keys l1) -> NoDup (keys (tgo l2 l1)).
Proof. induction l2 as [|[k0 u] l2 IH]; intros l1 H; [exact H|]. rewrite tgo_cons. apply IH, nodup_set, H. Qed.
Lemma tgo_get_old : forall l2 l1 k, ~ In k (keys l2) -> dict_get (tgo l2 l1) k = dict_get l1 k.
Proof.
  induction l2 as [|[k0 u] l2 IH]; intros l1 k H; [reflexivity|]. rewrite tgo_cons, IH by (cbn in H; tauto).
  apply get_set_other. cbn in H. intuition.
Qed.
Lemma tgo_get_new : forall l2 l1 k u, NoDup (keys l2) -> In (k, u) l2 -> dict_get (tgo l2 l1) k = Some (mval (dict_get l1 k) u).
Proof.
  induction l2 as [|[k0 u0] l2 IH]; intros l1 k u Hn Hin; [destruct Hin|]. rewrite tgo_cons. cbn in Hn. apply NoDup_cons_iff in Hn.
  destruct Hn as [Hx Hn]. destruct Hin as [H|H].
  - injection H as -> ->. rewrite tgo_get_old by exact Hx. apply get_set_same.
  - rewrite (IH _ k u Hn H). rewrite get_set_other; [reflexivity|]. intros ->. apply Hx. change k0 with (fst (k0, u)). now apply in_map.
Qed.

(** well-formed: no key twice *)
Fixpoint wf (t : Tree) : Prop :=
  match t with
  | TAtom _ => True
  | TDict _ l => NoDup (keys l) /\ (fix all l := match l with [] => True | (_, t) :: l => wf t /\ all l end) l
  end.
Lemma wf_dict : forall b l, wf (TDict b l) <-> NoDup (keys l) /\ forall k t, In (k, t) l -> wf t.
Proof.
  intros b l. cbn. apply and_iff_compat_l. induction l as [|[k t] l IH]; cbn; [tauto|]. rewrite IH. clear IH. split.
  - intros [H1 H2] k' t' [H|H]; [injection H as <- <-; exact H1|eauto].
  - intros H. split; [apply (H k t); auto|eauto].
Qed.

Lemma tupd_overlay : forall t2 b1 l1, wf t2 -> wf (TDict b1 l1) -> is_dict t2 -> overlay (TDict b1 l1) t2 (tupd t2 (TDict b1 l1)).
Proof.
  induction t2 as [z|b2 l2 IH] using Tree_ind'; intros b1 l1 H2 H1 Hd; [destruct Hd as [b [l Hd]]; discriminate|].
  rewrite tupd_dict. apply wf_dict in H1, H2. destruct H1 as [N1 W1], H2 as [N2 W2].
  assert (Nl : NoDup (keys (tgo l2 l1))) by now apply tgo_nodup.
  constructor; [exact Nl|intros k; apply tgo_keys| | |].
  - intros k t Hin Hk. apply (In_dict_get _ _ _ _ Nl) in Hin. rewrite tgo_get_old in Hin by exact Hk. now apply dict_get_In.
  - intros k t Hin Hk. assert (Hin2 : In k (keys l2)).
    { destruct (proj1 (tgo_keys l2 l1 k)) as [H|H]; [|tauto|exact H]. change k with (fst (k, t)). now apply in_map. }
    apply in_map_iff in Hin2. destruct Hin2 as [[k' u] [Hk' Hin2]]. cbn in Hk'. subst k'.
    apply (In_dict_get _ _ _ _ Nl) in Hin. rewrite (tgo_get_new _ _ _ u N2 Hin2) in Hin.
    apply dict_get_none in Hk. rewrite Hk in Hin. cbn in Hin. injection Hin as <-. exact Hin2.
  - intros k t1 t2 t I1 I2 I. apply (In_dict_get _ _ _ _ Nl) in I. rewrite (tgo_get_new _ _ _ t2 N2 I2) in I.
    rewrite (In_dict_get _ _ _ _ N1 I1) in I. injection I as <-. unfold mval.
    destruct t1 as [z|b l]; [right; split; [intros [[? [? ?]] _]; discriminate|reflexivity]|].
    destruct t2 as [z|[] l']; try (right; split; [intros [_ [? ?]]; discriminate|reflexivity]).
    left. split; [exists b, l; reflexivity|]. split; [exists l'; reflexivity|].
    rewrite Forall_forall in IH. apply (IH (k, TDict false l') I2); [apply (W2 k), I2|apply (W1 k), I1|exists false, l'; reflexivity].
Qed.
Lemma tupd_wf : forall t2 t1, wf t2 -> wf t1 -> wf (tupd t2 t1).
Proof.
  induction t2 as [z|b2 l2 IH] using Tree_ind'; intros t1 H2 H1; [exact H1|]. destruct t1 as [z|b1 l1]; [exact H1|].
  rewrite tupd_dict. apply wf_dict in H1, H2. apply wf_dict. destruct H1 as [N1 W1], H2 as [N2 W2]. split; [now apply tgo_nodup|].
  intros k t Hin. pose proof (tgo_nodup l2 l1 N1) as Nl. apply (In_dict_get _ _ _ _ Nl) in Hin.
  destruct (in_dec string_dec k (keys l2)) as [Hk|Hk].
  - apply in_map_iff in Hk. destruct Hk as [[k' u] [E Hu]]. cbn in E. subst k'. rewrite (tgo_get_new _ _ _ u N2 Hu) in Hin. injection Hin as <-.
    unfold mval. destruct (dict_get l1 k) as [[z|b l]|] eqn:E; try (apply (W2 k), Hu). destruct u as [z|[] l']; try (apply (W2 k), Hu).
    rewrite Forall_forall in IH. apply (IH _ Hu); [apply (W2 k), Hu|apply (W1 k), dict_get_In, E].
  - rewrite tgo_get_old in Hin by exact Hk. apply (W1 k), dict_get_In, Hin.
Qed.

(** ** Ownership *)
Fixpoint owned (h : Heap) (v : Val) (t : Tree) (S : list nat) {struct t} : Prop :=
  match t with
  | TAtom z => v = VAtom z /\ S = []
  | TDict b ts =>
      exists a its S', v = VRef a /\ nth_error h a = Some (mkObj b None its []) /\ S = a :: S' /\ ~ In a S' /\ NoDup (keys ts) /\
      (fix own (its : list (string * Val)) (ts : list (string * Tree)) (S : list nat) {struct ts} : Prop := match its, ts with
        | [], [] => S = @nil nat
        | (k, v) :: its, (k', t) :: ts => k = k' /\ exists S1 S2, S = S1 ++ S2 /\ (forall x, In x S1 -> In x S2 -> False) /\ owned h v t S1 /\ own its ts S2
        | _, _ => False
        end) its ts S'
  end.
Fixpoint own_items (h : Heap) (its : list (string * Val)) (ts : list (string * Tree)) (S : list nat) {struct ts} : Prop :=
  match its, ts with
  | [], [] => S = @nil nat
  | (k, v) :: its, (k', t) :: ts =>
      k = k' /\ exists S1 S2, S = S1 ++ S2 /\ (forall x, In x S1 -> In x S2 -> False) /\ owned h v t S1 /\ own_items h its ts S2
  | _, _ => False
  end.
Lemma own_fix : forall h its ts S,
  (fix own (its : list (string * Val)) (ts : list (string * Tree)) (S : list nat) {struct ts} : Prop := match its, ts with
        | [], [] => S = @nil nat
        | (k, v) :: its, (k', t) :: ts => k = k' /\ exists S1 S2, S = S1 ++ S2 /\ (forall x, In x S1 -> In x S2 -> False) /\ owned h v t S1 /\ own its ts S2
        | _, _ => False
        end) its ts S <-> own_items h its ts S.
Proof.
  intros h its ts. revert its. induction ts as [|[k t] ts IH]; intros [|[k' v] its] S; cbn; try tauto.
  apply and_iff_compat_l. split; intros [S1 [S2 [H1 [H2 [H3 H4]]]]]; exists S1, S2; split; auto; split; auto; split; auto; now apply IH.
Qed.
Lemma owned_dict : forall h v b ts S, owned h v (TDict b ts) S <->
  exists a its S', v = VRef a /\ nth_error h a = Some (mkObj b None its []) /\ S = a :: S' /\ ~ In a S' /\ NoDup (keys ts) /\ own_items h its ts S'.
Proof.
  intros h v b ts S. cbn. split; intros [a [its [S' [H1 [H2 [H3 [H4 [H5 H6]]]]]]]]; exists a, its, S'; (split; [exact H1|]); (split; [exact H2|]);
    (split; [exact H3|]); (split; [exact H4|]); (split; [exact H5|]); now apply own_fix.
Qed.
Lemma owned_frame : forall t h h' v S, (forall a, In a S -> nth_error h' a = nth_error h a) -> owned h v t S -> owned h' v t S.
Proof.
  induction t as [z|b l IH] using Tree_ind'; intros h h' v S Hf Ho; [exact Ho|]. apply owned_dict in Ho. apply owned_dict.
  destruct Ho as [a [its [S' [H1 [H2 [H3 [H4 [H5 H6]]]]]]]]. subst S. exists a, its, S'. split; [exact H1|].
  split; [rewrite Hf by (now left); exact H2|]. split; [reflexivity|]. split; [exact H4|]. split; [exact H5|].
  assert (Hf' : forall x, In x S' -> nth_error h' x = nth_error h x) by (intros x Hx; apply Hf; now right).
  clear - IH H6 Hf'. revert its S' H6 Hf'. induction l as [|[k t] l IHl]; intros [|[k' v] its] S' H6 Hf'; cbn in *; try exact H6.
  apply Forall_cons_iff in IH. destruct IH as [IHt IHr]. destruct H6 as [-> [S1 [S2 [-> [Hd [Ho Hr]]]]]]. split; [reflexivity|].
  exists S1, S2. split; [reflexivity|]. split; [exact Hd|]. split.
  - apply (IHt h h'); [|exact Ho]. intros x Hx. apply Hf'. apply in_or_app. now left.
  - apply IHl; [exact IHr|exact Hr|]. intros x Hx. apply Hf'. apply in_or_app. now right.
Qed.
Lemma own_items_frame : forall ts h h' its S, (forall a, In a S -> nth_error h' a = nth_error h a) -> own_items h its ts S -> own_items h' its ts S.
Proof.
  induction ts as [|[k t] ts IH]; intros h h' [|[k' v] its] S Hf H; cbn in *; try exact H. destruct H as [-> [S1 [S2 [-> [Hd [Ho Hr]]]]]].
  split; [reflexivity|]. exists S1, S2. split; [reflexivity|]. split; [exact Hd|]. split.
  - apply (owned_frame t h h'); [|exact Ho]. intros x Hx. apply Hf, in_or_app. now left.
  - apply (IH h h'); [|exact Hr]. intros x Hx. apply Hf, in_or_app. now right.
Qed.
Lemma owned_wf : forall t h v S, owned h v t S -> wf t.
Proof.
  induction t as [z|b l IH] using Tree_ind'; intros h v S Ho; [exact I|]. apply owned_dict in Ho.
  destruct Ho as [a [its [S' [_ [_ [_ [_ [H5 H6]]]]]]]]. apply wf_dict. split; [exact H5|]. clear - IH H6.
  revert its S' H6. induction l as [|[k t] l IHl]; intros [|[k' v] its] S' H6; cbn in *; try contradiction.
  apply Forall_cons_iff in IH. destruct IH as [IHt IHr]. destruct H6 as [_ [S1 [S2 [_ [_ [Ho Hr]]]]]].
  intros k0 t0 [H|H]; [injection H as <- <-; eauto|eauto].
Qed.
Lemma owned_denotes : forall t h v S, owned h v t S -> denotes no_config h v t.
Proof.
  induction t as [z|b l IH] using Tree_ind'; intros h v S Ho; [apply Ho|]. apply owned_dict in Ho.
  destruct Ho as [a [its [S' [H1 [H2 [_ [_ [H5 H6]]]]]]]]. cbn. exists a, (mkObj b None its []). split; [exact H1|]. split; [exact H2|].
  split; [reflexivity|]. split; [reflexivity|]. split; [exact H5|]. cbn. clear - IH H6.
  revert its S' H6. induction l as [|[k t] l IHl]; intros [|[k' v] its] S' H6; cbn in *; try exact H6; try exact I.
  apply Forall_cons_iff in IH. destruct IH as [IHt IHr]. destruct H6 as [-> [S1 [S2 [_ [_ [Ho Hr]]]]]]. split; [reflexivity|].
  split; [exact (IHt h v S1 Ho)|exact (IHl IHr its S2 Hr)].
Qed.
Lemma denotes_weaken : forall t (P Q : Obj -> Prop) h v, (forall o, P o -> Q o) -> denotes P h v t -> denotes Q h v t.
Proof.
  induction t as [z|b l IH] using Tree_ind'; intros P Q h v HPQ H; [exact H|]. cbn in *. destruct H as [a [o [H1 [H2 [H3 [H4 [H5 H6]]]]]]].
  exists a, o. split; [exact H1|]. split; [exact H2|]. split; [auto|]. split; [exact H4|]. split; [exact H5|]. clear - IH HPQ H6.
  revert H6. generalize (o_items o). induction l as [|[k t] l IHl]; intros [|[k' v] its] H6; try exact H6.
  apply Forall_cons_iff in IH. destruct IH as [IHt IHr]. destruct H6 as [-> [Ho Hr]]. split; [reflexivity|]. split; [exact (IHt P Q h v HPQ Ho)|exact (IHl IHr its Hr)].
Qed.
Lemma owned_atom_or_ref : forall t h v S, owned h v t S -> (exists z, t = TAtom z /\ v = VAtom z /\ S = []) \/ exists b l a, t = TDict b l /\ v = VRef a.
Proof.
  intros [z|b l] h v S H; [left; destruct H; eauto|right]. apply owned_dict in H. destruct H as [a [its [S' [-> _]]]]. eauto.
Qed.

(** Looking at one key *)
Lemma own_items_get_none : forall ts h its S k, own_items h its ts S -> dict_get ts k = None -> dict_get its k = None.
Proof.
  induction ts as [|[k0 t] ts IH]; intros h [|[k' v] its] S k H E; cbn in *; try contradiction; [reflexivity|].
  destruct H as [-> [S1 [S2 [_ [_ [_ Hr]]]]]]. destruct (String.eqb k k0); [discriminate|]. eauto.
Qed.
Lemma own_items_focus : forall ts h its S k t, own_items h its ts S -> dict_get ts k = Some t ->
  exists v Sk, dict_get its k = Some v /\ owned h v t Sk /\ incl Sk S /\
    forall h' t' v' Sk', (forall a, In a S -> ~ In a Sk -> nth_error h' a = nth_error h a) -> owned h' v' t' Sk' ->
      (forall a, In a Sk' -> In a Sk \/ ~ In a S) ->
      exists S', own_items h' (dict_set its k v') (dict_set ts k t') S' /\ incl S' (S ++ Sk').
Proof.
  induction ts as [|[k0 t0] ts IH]; intros h [|[k' v0] its] S k t H E; cbn [own_items dict_get] in *; try contradiction; [discriminate|].
  destruct H as [-> [S1 [S2 [-> [Hd [Ho Hr]]]]]]. cbn [dict_set]. destruct (String.eqb_spec k k0) as [->|Hk].
  - injection E as ->. exists v0, S1. split; [reflexivity|]. split; [exact Ho|]. split; [now apply incl_appl|].
    intros h' t' v' Sk' Hf Ho' Hin. exists (Sk' ++ S2). split.
    + cbn. split; [reflexivity|]. exists Sk', S2. split; [reflexivity|]. split.
      * intros x H1 H2. destruct (Hin x H1) as [H|H]; [eapply Hd; eauto|]. apply H, in_or_app. now right.
      * split; [exact Ho'|]. apply (own_items_frame ts h h'); [|exact Hr]. intros x Hx. apply Hf; [apply in_or_app; now right|].
        intros H1. eapply Hd; eauto.
    + intros x Hx. apply in_app_or in Hx. rewrite !in_app_iff. tauto.
  - destruct (IH h its S2 k t Hr E) as [v [Sk [G1 [G2 [G3 G4]]]]]. exists v, Sk. split; [exact G1|]. split; [exact G2|].
    split; [now apply incl_appr|]. intros h' t' v' Sk' Hf Ho' Hin.
    destruct (G4 h' t' v' Sk') as [S' [J1 J2]].
    + intros a Ha Hn. apply Hf; [apply in_or_app; now right|exact Hn].
    + exact Ho'.
    + intros a Ha. destruct (Hin a Ha) as [H|H]; [now left|right]. intros H2. apply H, in_or_app. now right.
    + exists (S1 ++ S'). split.
      * cbn. split; [reflexivity|]. exists S1, S'. split; [reflexivity|]. split.
        -- intros x H1 H2. apply J2, in_app_or in H2. destruct H2 as [H2|H2]; [eapply Hd; eauto|].
           destruct (Hin x H2) as [H|H]; [eapply Hd; [exact H1|]; now apply G3|]. apply H, in_or_app. now left.
        -- split; [|exact J1]. apply (owned_frame t0 h h'); [|exact Ho]. intros x Hx. apply Hf; [apply in_or_app; now left|].
           intros H2. eapply Hd; [exact Hx|]. now apply G3.
      * intros x Hx. apply in_app_or in Hx. rewrite !in_app_iff. destruct Hx as [Hx|Hx]; [auto|]. apply J2, in_app_or in Hx. tauto.
Qed.
Lemma own_items_new : forall ts h its S k v t Sv, own_items h its ts S -> dict_get ts k = None -> owned h v t Sv ->
  (forall x, In x S -> In x Sv -> False) ->
  own_items h (dict_set its k v) (dict_set ts k t) (S ++ Sv).
Proof.
  induction ts as [|[k0 t0] ts IH]; intros h [|[k' v0] its] S k v t Sv H E Ho Hd; cbn [own_items dict_get dict_set] in *; try contradiction.
  - subst S. cbn. split; [reflexivity|]. exists Sv, []. rewrite app_nil_r. auto.
  - destruct H as [-> [S1 [S2 [-> [Hd' [Ho' Hr]]]]]]. destruct (String.eqb k k0) eqn:Ek; [discriminate|].
    cbn. split; [reflexivity|]. exists S1, (S2 ++ Sv). rewrite app_assoc. split; [reflexivity|]. split.
    + intros x H1 H2. apply in_app_or in H2. destruct H2 as [H2|H2]; [eauto|]. eapply Hd; [apply in_or_app; left|]; eauto.
    + split; [exact Ho'|]. apply IH; auto. intros x H1 H2. eapply Hd; [apply in_or_app; right|]; eauto.
Qed.
