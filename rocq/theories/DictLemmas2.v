(** * Merging dictionaries in the heap: lemmas *)
From Coq Require Import String ZArith Bool List Arith Lia.
From Verif Require Import Base Dicts DictSpec DictLemmas.
Import ListNotations.
Local Open Scope list_scope.
Local Open Scope nat_scope.

Lemma andThen_done : forall A B (m : M A) (f : A -> M B) h h1 a, m h = (h1, Done a) -> andThen m f h = f a h1.
Proof. intros A B m f h h1 a H. unfold andThen. now rewrite H. Qed.
Lemma load_done : forall h a o, nth_error h a = Some o -> load a h = (h, Done o).
Proof. intros h a o H. unfold load. now rewrite H. Qed.
Lemma nth_error_len : forall A (l : list A) i x, nth_error l i = Some x -> i < List.length l.
Proof. intros A l i x H. apply nth_error_Some. congruence. Qed.
Lemma upd_same : forall A (l : list A) i x v, nth_error l i = Some x -> nth_error (upd l i v) i = Some v.
Proof.
  intros A l i x v H. rewrite nth_error_upd, Nat.eqb_refl. apply nth_error_len in H. apply Nat.ltb_lt in H. now rewrite H.
Qed.
Lemma upd_other : forall A (l : list A) i j v, j <> i -> nth_error (upd l i v) j = nth_error l j.
Proof. intros A l i j v H. rewrite nth_error_upd. destruct (Nat.eqb_spec i j); [congruence|reflexivity]. Qed.
Lemma set_plain : forall h a b its k v force, nth_error h a = Some (mkObj b None its []) ->
  set_dict_item a k v force h = (upd h a (mkObj b None (dict_set its k v) []), Done tt).
Proof.
  intros h a b its k v force H. unfold set_dict_item. rewrite (andThen_done _ _ _ _ _ _ _ (load_done _ _ _ H)). cbn [o_cfg].
  unfold set_raw. rewrite (andThen_done _ _ _ _ _ _ _ (load_done _ _ _ H)). reflexivity.
Qed.
Lemma set_raw_plain : forall h a b its k v, nth_error h a = Some (mkObj b None its []) ->
  set_raw a k v h = (upd h a (mkObj b None (dict_set its k v) []), Done tt).
Proof. intros h a b its k v H. unfold set_raw. rewrite (andThen_done _ _ _ _ _ _ _ (load_done _ _ _ H)). reflexivity. Qed.

(** The loop of [update_dict] on trees, with [same_keys] *)
Fixpoint tgo_sk (sk : bool) (l2 l1 : list (string * Tree)) : list (string * Tree) :=
  match l2 with
  | [] => l1
  | (k, u) :: l2' =>
      tgo_sk sk l2' (match dict_get l1 k, u with
                     | Some (TDict b l), TDict false _ => dict_set l1 k (tupd u (TDict b l))
                     | None, _ => if sk then l1 else dict_set l1 k u
                     | _, _ => dict_set l1 k u
                     end)
  end.
Lemma tgo_sk_false : forall l2 l1, tgo_sk false l2 l1 = tgo l2 l1.
Proof.
  induction l2 as [|[k u] l2 IH]; intros l1; [reflexivity|]. cbn. rewrite IH. destruct (dict_get l1 k) as [[z|b l]|]; try reflexivity.
  destruct u as [z|[] l']; reflexivity.
Qed.
Lemma tgo_sk_true : forall l2 l1, tgo_sk true l2 l1 = tgo (filter (fun kt => has_key l1 (fst kt)) l2) l1.
Proof.
  assert (Hf : forall l2 (l1 l1' : list (string * Tree)), keys l1 = keys l1' -> filter (fun kt : string * Tree => has_key l1 (fst kt)) l2 = filter (fun kt => has_key l1' (fst kt)) l2).
  { intros l2 l1 l1' He. apply filter_ext. intros [k t]. cbn. apply eq_true_iff_eq. rewrite !has_key_spec, He. tauto. }
  induction l2 as [|[k u] l2 IH]; intros l1; [reflexivity|]. cbn [tgo_sk filter fst]. rewrite IH. unfold has_key at 2.
  destruct (dict_get l1 k) as [t1|] eqn:E; [|reflexivity].
  assert (Hk : In k (keys l1)) by (apply dict_get_keys; congruence).
  assert (He : forall v, filter (fun kt : string * Tree => has_key (dict_set l1 k v) (fst kt)) l2 = filter (fun kt => has_key l1 (fst kt)) l2).
  { intros v. apply Hf. now apply keys_set_in. }
  rewrite tgo_cons, E. unfold mval. destruct t1 as [z|b l]; [now rewrite He|]. destruct u as [z|[] l']; now rewrite He.
Qed.

Definition upd_ok (ty : Tree) : Prop := forall fuel h x y tx Sx Sy, depth ty <= fuel -> is_dict ty ->
  owned h (VRef x) tx Sx -> owned h (VRef y) ty Sy -> (forall z, In z Sx -> In z Sy -> False) ->
  exists h' S', update_dict fuel x y true true false h = (h', Done tt) /\ List.length h' = List.length h /\
    (forall a, ~ In a Sx -> ~ In a Sy -> nth_error h' a = nth_error h a) /\
    owned h' (VRef x) (tupd ty tx) S' /\ incl S' (Sx ++ Sy).

Lemma depth_items : forall b l fuel, depth (TDict b l) <= S fuel <-> forall k t, In (k, t) l -> depth t <= fuel.
Proof.
  intros b l fuel. cbn. rewrite <- Nat.succ_le_mono. induction l as [|[k t] l IH]; cbn; [split; [tauto|lia]|]. rewrite Nat.max_lub_iff, IH. split.
  - intros [H1 H2] k' t' [H|H]; [injection H as <- <-; exact H1|eauto].
  - intros H. split; [eapply H; left; reflexivity|intros k' t' Hin; eapply H; right; exact Hin].
Qed.

Lemma upd_loop : forall sk ts fuel, Forall (fun kt => upd_ok (snd kt)) ts -> (forall k t, In (k, t) ts -> depth t <= fuel) ->
  forall its S2 h x b1 l1 itsx Sx, own_items h its ts S2 -> nth_error h x = Some (mkObj b1 None itsx []) -> ~ In x Sx ->
  own_items h itsx l1 Sx -> (forall z, In z (x :: Sx) -> In z S2 -> False) ->
  exists h' itsx' S', each (fun kv : string * Val =>
        let '(k, v) := kv in
        andThen (load x) (fun ox =>
        let set := if sk && negb (has_key (o_items ox) k) then ret tt else set_dict_item x k v true in
        match dict_get (o_items ox) k, v with
        | Some (VRef xk), VRef c =>
            andThen (load c) (fun oc =>
            if true && negb (o_atomic oc) then update_dict fuel xk c true true false else set)
        | _, _ => set
        end)) its h = (h', Done tt) /\ List.length h' = List.length h /\
    (forall a, ~ In a (x :: Sx) -> ~ In a S2 -> nth_error h' a = nth_error h a) /\
    nth_error h' x = Some (mkObj b1 None itsx' []) /\ ~ In x S' /\ own_items h' itsx' (tgo_sk sk ts l1) S' /\ incl S' (Sx ++ S2).
Proof.
  intros sk ts fuel. induction ts as [|[k u] ts IH]; intros Hok Hdep its S2 h x b1 l1 itsx Sx Hy Hx Hnx Hox Hdis.
  { destruct its as [|[? ?] ?]; [|destruct Hy]. cbn in Hy. subst S2. exists h, itsx, Sx. cbn. rewrite app_nil_r. repeat split; auto. apply incl_refl. }
  destruct its as [|[k' v] its]; [destruct Hy|]. cbn in Hy. destruct Hy as [-> [S1 [S2' [-> [Hd12 [Hov Hr]]]]]].
  apply Forall_cons_iff in Hok. destruct Hok as [Hoku Hokr]. cbn [snd] in Hoku.
  assert (Hdepr : forall k0 t, In (k0, t) ts -> depth t <= fuel) by (intros k0 t Hin; apply (Hdep k0 t); now right).
  assert (Hdepu : depth u <= fuel) by (apply (Hdep k u); now left).
  specialize (IH Hokr Hdepr).
  (* after one step the object of [x] owns the updated items *)
  assert (Hstep : exists h1 itsx1 S', forall (rest : M unit),
    andThen ((fun kv : string * Val => let '(k, v) := kv in
        andThen (load x) (fun ox =>
        let set := if sk && negb (has_key (o_items ox) k) then ret tt else set_dict_item x k v true in
        match dict_get (o_items ox) k, v with
        | Some (VRef xk), VRef c =>
            andThen (load c) (fun oc =>
            if true && negb (o_atomic oc) then update_dict fuel xk c true true false else set)
        | _, _ => set
        end)) (k, v)) (fun _ => rest) h = rest h1 /\ List.length h1 = List.length h /\
    (forall a, ~ In a (x :: Sx) -> ~ In a S1 -> nth_error h1 a = nth_error h a) /\
    nth_error h1 x = Some (mkObj b1 None itsx1 []) /\ ~ In x S' /\
    own_items h1 itsx1 (match dict_get l1 k, u with
                     | Some (TDict b l), TDict false _ => dict_set l1 k (tupd u (TDict b l))
                     | None, _ => if sk then l1 else dict_set l1 k u
                     | _, _ => dict_set l1 k u
                     end) S' /\ incl S' (Sx ++ S1)).
  { assert (HxS1 : ~ In x S1) by (intros H; apply (Hdis x); [now left|apply in_or_app; now left]).
    assert (HSx1 : forall z, In z Sx -> In z S1 -> False) by (intros z H1 H2; apply (Hdis z); [now right|apply in_or_app; now left]).
    (* setting the item *)
    assert (Hset : dict_get l1 k <> None \/ sk = false ->
      (let set := if sk && negb (has_key itsx k) then ret tt else set_dict_item x k v true in set h)
        = (upd h x (mkObj b1 None (dict_set itsx k v) []), Done tt) /\
      exists S', ~ In x S' /\ own_items (upd h x (mkObj b1 None (dict_set itsx k v) [])) (dict_set itsx k v) (dict_set l1 k u) S' /\ incl S' (Sx ++ S1)).
    { intros Hcase. split.
      - assert (Hb : sk && negb (has_key itsx k) = false).
        { destruct Hcase as [H|H]; [|now rewrite H]. destruct (dict_get l1 k) as [t|] eqn:E; [|congruence].
          destruct (own_items_focus _ _ _ _ _ _ Hox E) as [v0 [Sk [G1 _]]]. unfold has_key. rewrite G1. apply andb_false_r. }
        cbn zeta. rewrite Hb. now apply set_plain.
      - destruct (dict_get l1 k) as [t|] eqn:E.
        + destruct (own_items_focus _ _ _ _ _ _ Hox E) as [v0 [Sk [G1 [G2 [G3 G4]]]]].
          destruct (G4 (upd h x (mkObj b1 None (dict_set itsx k v) [])) u v S1) as [S' [J1 J2]].
          * intros a Ha _. apply upd_other. intros ->. tauto.
          * apply (owned_frame u h); [|exact Hov]. intros a Ha. apply upd_other. intros ->. tauto.
          * intros a Ha. right. intros H. eapply HSx1; eauto.
          * exists S'. split; [|auto]. intros H. apply J2, in_app_or in H. tauto.
        + exists (Sx ++ S1). split; [intros H; apply in_app_or in H; tauto|]. split; [|apply incl_refl].
          apply own_items_new; auto.
          * apply (own_items_frame l1 h); [|exact Hox]. intros a Ha. apply upd_other. intros ->. tauto.
          * apply (owned_frame u h); [|exact Hov]. intros a Ha. apply upd_other. intros ->. tauto. }
    assert (Hdone : forall m : M unit, dict_get l1 k <> None \/ sk = false -> m h = (upd h x (mkObj b1 None (dict_set itsx k v) []), Done tt) ->
      exists h1 itsx1 S', forall rest : M unit, andThen m (fun _ => rest) h = rest h1 /\ List.length h1 = List.length h /\
      (forall a, ~ In a (x :: Sx) -> ~ In a S1 -> nth_error h1 a = nth_error h a) /\
      nth_error h1 x = Some (mkObj b1 None itsx1 []) /\ ~ In x S' /\ own_items h1 itsx1 (dict_set l1 k u) S' /\ incl S' (Sx ++ S1)).
    { intros m Hc Hm. destruct (Hset Hc) as [_ [S' [G1 [G2 G3]]]]. exists (upd h x (mkObj b1 None (dict_set itsx k v) [])), (dict_set itsx k v), S'.
      intros rest. split; [now rewrite (andThen_done _ _ _ _ _ _ _ Hm)|]. split; [apply upd_length|].
      split; [intros a Ha _; apply upd_other; intros ->; apply Ha; now left|]. split; [eapply upd_same; exact Hx|]. auto. }
    cbn beta iota. pose proof (andThen_done _ unit (load x) (fun ox =>
        let set := if sk && negb (has_key (o_items ox) k) then ret tt else set_dict_item x k v true in
        match dict_get (o_items ox) k, v with
        | Some (VRef xk), VRef c =>
            andThen (load c) (fun oc =>
            if true && negb (o_atomic oc) then update_dict fuel xk c true true false else set)
        | _, _ => set
        end) h h _ (load_done _ _ _ Hx)) as Hload. cbn [o_items] in Hload.
    destruct (dict_get l1 k) as [t1|] eqn:E.
    - destruct (own_items_focus _ _ _ _ _ _ Hox E) as [v0 [Sk [G1 [G2 [G3 G4]]]]]. rewrite G1 in Hload.
      assert (Hc : Some t1 <> None \/ sk = false) by (left; discriminate).
      destruct (owned_atom_or_ref _ _ _ _ G2) as [[z [-> [-> ->]]]|[b [l [xk [-> ->]]]]].
      { apply Hdone; [exact Hc|]. exact (eq_trans Hload (proj1 (Hset Hc))). }
      destruct (owned_atom_or_ref _ _ _ _ Hov) as [[z [-> [-> ->]]]|[bu [lu [c [-> ->]]]]].
      { apply Hdone; [exact Hc|]. exact (eq_trans Hload (proj1 (Hset Hc))). }
      pose proof Hov as Hov'. apply owned_dict in Hov'. destruct Hov' as [c' [itsc [Sc [Ec [Hc' [-> [Hnc [Hnd Hoc]]]]]]]]. injection Ec as <-.
      rewrite (andThen_done _ _ _ _ _ _ _ (load_done _ _ _ Hc')) in Hload. cbn [o_atomic] in Hload.
      destruct bu; cbn [negb andb] in Hload.
      { apply Hdone; [exact Hc|]. exact (eq_trans Hload (proj1 (Hset Hc))). }
      (* nested update *)
      destruct (Hoku fuel h xk c (TDict b l) Sk (c :: Sc) Hdepu) as [h1 [Sk' [U1 [U2 [U3 [U4 U5]]]]]];
        [exists false, lu; reflexivity|exact G2|exact Hov|intros z H1 H2; apply (HSx1 z); [now apply G3|exact H2]|].
      destruct (G4 h1 (tupd (TDict false lu) (TDict b l)) (VRef xk) Sk') as [S' [J1 J2]].
      { intros a Ha Hn. apply U3; [exact Hn|]. intros H. eapply HSx1; eauto. }
      { exact U4. }
      { intros a Ha. apply U5, in_app_or in Ha. destruct Ha as [Ha|Ha]; [now left|right]. intros H. eapply HSx1; eauto. }
      assert (Hxk : ~ In x Sk) by (intros H; apply Hnx; now apply G3).
      exists h1, itsx, S'. intros rest. split; [exact (andThen_done _ _ _ _ _ h1 tt (eq_trans Hload U1))|]. split; [exact U2|].
      split; [intros a Ha Hn; apply U3; [intros H; apply Ha; right; now apply G3|exact Hn]|].
      split; [rewrite U3; [exact Hx|exact Hxk|exact HxS1]|].
      split; [intros H; apply J2, in_app_or in H; destruct H as [H|H]; [tauto|]; apply U5, in_app_or in H; tauto|].
      assert (Hsame : dict_set itsx k (VRef xk) = itsx).
      { clear - G1. induction itsx as [|[k0 v0] its IH]; cbn in *; [discriminate|]. destruct (String.eqb k k0); [injection G1 as ->; reflexivity|].
        f_equal. auto. }
      rewrite Hsame in J1. split; [exact J1|]. intros a Ha. apply J2, in_app_or in Ha. destruct Ha as [Ha|Ha]; [apply in_or_app; now left|].
      apply U5, in_app_or in Ha. apply in_or_app. destruct Ha as [Ha|Ha]; [left; now apply G3|now right].
    - pose proof (own_items_get_none _ _ _ _ _ Hox E) as Gn. rewrite Gn in Hload.
      assert (Hl2 : forall w, match v with VRef _ => w | VAtom _ => w end = w :> (Heap * out unit)) by (intros; now destruct v).
      assert (Hload' : andThen (load x) (fun ox =>
        let set := if sk && negb (has_key (o_items ox) k) then ret tt else set_dict_item x k v true in
        match dict_get (o_items ox) k, v with
        | Some (VRef xk), VRef c =>
            andThen (load c) (fun oc =>
            if true && negb (o_atomic oc) then update_dict fuel xk c true true false else set)
        | _, _ => set
        end) h = (if sk && negb (has_key itsx k) then ret tt else set_dict_item x k v true) h) by exact Hload.
      clear Hload Hl2. unfold has_key in Hload'. rewrite Gn in Hload'. cbn [negb] in Hload'. rewrite andb_true_r in Hload'.
      destruct sk.
      + exists h, itsx, Sx. intros rest. split; [exact (andThen_done _ _ _ _ _ h tt Hload')|].
        split; [reflexivity|]. split; [auto|]. split; [exact Hx|]. split; [exact Hnx|]. split; [|now apply incl_appl].
        destruct u as [z|[] l']; exact Hox.
      + assert (Hd := Hdone _ (or_intror eq_refl) (eq_trans Hload' (set_plain _ _ _ _ _ _ _ Hx))).
        destruct Hd as [h1 [itsx1 [S' Hd]]]. exists h1, itsx1, S'. intros rest. destruct (Hd rest) as [D1 [D2 [D3 [D4 [D5 [D6 D7]]]]]].
        split; [exact D1|]. split; [exact D2|]. split; [exact D3|]. split; [exact D4|]. split; [exact D5|]. split; [|exact D7].
        destruct u as [z|[] l']; exact D6. }
  destruct Hstep as [h1 [itsx1 [S' Hstep]]]. cbn [each].
  match goal with |- exists h' itsx' S', andThen _ (fun _ => ?rest) h = _ /\ _ => destruct (Hstep rest) as [E1 [E2 [E3 [E4 [E5 [E6 E7]]]]]] end.
  clear Hstep.
  assert (HS' : forall z, In z S' -> In z S2' -> False).
  { intros z H1 H2. apply E7, in_app_or in H1. destruct H1 as [H1|H1]; [|eauto]. apply (Hdis z); [now right|apply in_or_app; now right]. }
  match type of E6 with own_items _ _ ?l _ => destruct (IH its S2' h1 x b1 l itsx1 S') as [h2 [itsx2 [S'' [F1 [F2 [F3 [F4 [F5 [F6 F7]]]]]]]]] end.
  - apply (own_items_frame ts h); [|exact Hr]. intros a Ha. apply E3.
    + intros [->|H]; [apply (Hdis a); [now left|apply in_or_app; now right]|apply (Hdis a); [now right|apply in_or_app; now right]].
    + intros H. eauto.
  - exact E4.
  - exact E5.
  - exact E6.
  - intros z [->|H1] H2; [apply (Hdis z); [now left|apply in_or_app; now right]|eauto].
  - exists h2, itsx2, S''. split; [exact (eq_trans E1 F1)|]. split; [congruence|]. split.
    { intros a Ha Hn. rewrite F3; [apply E3; [exact Ha|intros H; apply Hn, in_or_app; now left]| |].
      - intros [->|H]; [apply Ha; now left|]. apply E7, in_app_or in H. destruct H as [H|H]; [apply Ha; now right|apply Hn, in_or_app; now left].
      - intros H. apply Hn, in_or_app. now right. }
    split; [exact F4|]. split; [exact F5|]. split; [exact F6|].
    intros a Ha. apply F7, in_app_or in Ha. rewrite !in_app_iff. destruct Ha as [Ha|Ha]; [|auto]. apply E7, in_app_or in Ha. tauto.
Qed.

Lemma upd_owned_top : forall sk fuel h x y b1 l1 b2 l2 Sx Sy, depth (TDict b2 l2) <= fuel -> Forall (fun kt => upd_ok (snd kt)) l2 ->
  owned h (VRef x) (TDict b1 l1) Sx -> owned h (VRef y) (TDict b2 l2) Sy -> (forall z, In z Sx -> In z Sy -> False) ->
  exists h' S', update_dict fuel x y true true sk h = (h', Done tt) /\ List.length h' = List.length h /\
    (forall a, ~ In a Sx -> ~ In a Sy -> nth_error h' a = nth_error h a) /\
    (NoDup (keys (tgo_sk sk l2 l1)) -> owned h' (VRef x) (TDict b1 (tgo_sk sk l2 l1)) S') /\ incl S' (Sx ++ Sy).
Proof.
  intros sk fuel h x y b1 l1 b2 l2 Sx Sy Hdep IH Hx Hy Hdis.
  apply owned_dict in Hx, Hy. destruct Hx as [x' [itsx [Sx' [Ex [Hx [-> [Hnx [Ndx Ox]]]]]]]]. injection Ex as <-.
  destruct Hy as [y' [itsy [Sy' [Ey [Hy [-> [Hny [Ndy Oy]]]]]]]]. injection Ey as <-.
  destruct fuel as [|fuel]; [cbn in Hdep; lia|].
  destruct (upd_loop sk l2 fuel IH (proj1 (depth_items b2 l2 fuel) Hdep) itsy Sy' h x b1 l1 itsx Sx' Oy Hx Hnx Ox) as
    [h' [itsx' [S' [F1 [F2 [F3 [F4 [F5 [F6 F7]]]]]]]]].
  { intros z H1 H2. apply (Hdis z H1). now right. }
  exists h', (x :: S'). split.
  { cbn [update_dict]. rewrite (andThen_done _ _ _ _ _ _ _ (load_done _ _ _ Hy)). exact F1. }
  split; [exact F2|]. split; [intros a Ha Hn; apply F3; [exact Ha|intros H; apply Hn; now right]|].
  split.
  - intros Hn. apply owned_dict. exists x, itsx', S'. split; [reflexivity|]. split; [exact F4|]. split; [reflexivity|]. split; [exact F5|]. split; [exact Hn|exact F6].
  - intros a [->|Ha]; [now left|]. apply F7, in_app_or in Ha. right. apply in_or_app. destruct Ha as [Ha|Ha]; [now left|]. right. now right.
Qed.
Lemma upd_owned : forall ty, upd_ok ty.
Proof.
  induction ty as [z|b2 l2 IH] using Tree_ind'; intros fuel h x y tx Sx Sy Hdep Hd Hx Hy Hdis; [destruct Hd as [? [? Hd]]; discriminate|].
  destruct tx as [z|b1 l1]; [destruct Hx; discriminate|].
  destruct (upd_owned_top false fuel h x y b1 l1 b2 l2 Sx Sy Hdep IH Hx Hy Hdis) as [h' [S' [F1 [F2 [F3 [F4 F5]]]]]].
  exists h', S'. split; [exact F1|]. split; [exact F2|]. split; [exact F3|]. split; [|exact F5].
  rewrite tupd_dict. rewrite tgo_sk_false in F4. apply F4, tgo_nodup. apply owned_wf in Hx. apply wf_dict in Hx. apply Hx.
Qed.
