(** * Merging dictionaries: main lemmas *)
From Coq Require Import String ZArith Bool List Arith Lia.
From Verif Require Import Base Dicts DictSpec DictLemmas DictLemmas2 DictLemmas3.
Import ListNotations.
Local Open Scope list_scope.
Local Open Scope nat_scope.

Definition nk (d : nat) : string * Val := (EmptyString, VRef d).
Definition nt (t : Tree) : string * Tree := (EmptyString, t).

Lemma denotes_ref_dict : forall kind h a t, denotes kind h (VRef a) t -> is_dict t.
Proof. intros kind h a [z|b l] H; [discriminate H|exists b, l; reflexivity]. Qed.

Lemma resolve_none_ok : forall dicts ts h, Forall2 (argument h) dicts ts ->
  exists h' ds, resolve_none dicts h = (h', Done ds) /\ unchanged h h' /\ Forall2 (fun d t => denotes any_dict h' (VRef d) t) ds ts.
Proof.
  induction dicts as [|d dicts IH]; intros ts h H; inversion H as [|? t ? ts' H1 H2]; subst.
  - exists h, []. cbn. split; [reflexivity|]. split; [apply unchanged_refl|constructor].
  - assert (Hs : exists h1 a, or_empty d h = (h1, Done a) /\ unchanged h h1 /\ denotes any_dict h1 (VRef a) t).
    { destruct d as [a|]; cbn in *.
      - exists h, a. split; [reflexivity|]. split; [apply unchanged_refl|exact H1].
      - subst t. exists (h ++ [plain []]), (List.length h). split; [reflexivity|]. split; [apply unchanged_app|]. apply denotes_dict.
        exists (List.length h), (plain []). split; [reflexivity|]. split; [now rewrite nth_error_app2, Nat.sub_diag by lia|].
        split; [exact I|]. split; [reflexivity|]. split; [constructor|constructor]. }
    destruct Hs as [h1 [a [E1 [U1 D1]]]].
    assert (H2' : Forall2 (argument h1) dicts ts').
    { clear - H2 U1. induction H2 as [|d t l l' H H' IH]; constructor; [|exact IH]. destruct d as [a|]; cbn in *; [|exact H]. eapply denotes_unchanged; eauto. }
    destruct (IH ts' h1 H2') as [h2 [ds [E2 [U2 D2]]]]. exists h2, (a :: ds). split.
    { cbn [resolve_none]. now rewrite (andThen_done _ _ _ _ _ _ _ E1), (andThen_done _ _ _ _ _ _ _ E2). }
    split; [eapply unchanged_trans; eauto|]. constructor; [eapply denotes_unchanged; eauto|exact D2].
Qed.

Lemma each_dict_fresh : forall kind f ds ts h, Forall2 (fun d t => denotes kind h (VRef d) t) ds ts ->
  Forall (fun t => forall h1 c, denotes kind h1 (VRef c) t -> makes_fresh kind f t h1 c) ts ->
  exists h' ds' S, each_dict f ds h = (h', Done ds') /\ unchanged h h' /\ List.length ds' = List.length ds /\
    own_items h' (map nk ds') (map nt ts) S /\ (forall z, In z S -> List.length h <= z).
Proof.
  intros kind f ds. induction ds as [|d ds IH]; intros ts h H Hf; inversion H as [|? t ? ts' H1 H2]; subst.
  - exists h, [], []. cbn. split; [reflexivity|]. split; [apply unchanged_refl|]. split; [reflexivity|]. split; [reflexivity|]. intros z [].
  - apply Forall_cons_iff in Hf. destruct Hf as [Hft Hfr]. destruct (Hft h d H1) as [h1 [d' [S1 [E1 [U1 [O1 L1]]]]]].
    destruct (IH ts' h1) as [h2 [ds' [S2 [E2 [U2 [N2 [O2 L2]]]]]]]; [|exact Hfr|].
    { clear - H2 U1. induction H2; constructor; [eapply denotes_unchanged; eauto|assumption]. }
    exists h2, (d' :: ds'), (S1 ++ S2). split.
    { cbn [each_dict]. now rewrite (andThen_done _ _ _ _ _ _ _ E1), (andThen_done _ _ _ _ _ _ _ E2). }
    split; [eapply unchanged_trans; eauto|]. split; [cbn; lia|]. split.
    + cbn. split; [reflexivity|]. exists S1, S2. split; [reflexivity|]. split; [|split; [|exact O2]].
      * intros x H3 H4. apply L2 in H4. pose proof (owned_in _ _ _ _ _ O1 H3). lia.
      * apply (owned_frame t h1); [|exact O1]. intros x Hx. pose proof (owned_in _ _ _ _ _ O1 Hx). destruct (nth_error h1 x) eqn:E; [now apply U2|].
        apply nth_error_None in E. lia.
    + intros z Hz. apply in_app_or in Hz. destruct Hz as [Hz|Hz]; [auto|]. apply L2 in Hz. apply unchanged_length in U1. lia.
Qed.

Lemma overlay_empty : forall l, NoDup (keys l) -> overlay (TDict false []) (TDict false l) (TDict false l).
Proof.
  intros l Hn. constructor; [exact Hn|intros k; cbn; tauto| | |].
  - intros k t Hin Hk. exfalso. apply Hk. change k with (fst (k, t)). now apply in_map.
  - intros k t Hin _. exact Hin.
  - intros k t1 t2 t [].
Qed.

(** how two dictionaries are merged, by flag *)
Definition two (sk : bool) := if sk then merge_on_first_keys else merge_of_two.
(** with [same_keys] the first is not empty and both are open *)
Definition two_pre (sk : bool) (t1 t2 : Tree) : Prop :=
  sk = true -> (exists kt l, t1 = TDict false (kt :: l)) /\ is_open t2.

Lemma merge_two_ok : forall sk fuel h h0 x y tx ty Sx Sy, depth ty <= fuel -> is_dict ty -> two_pre sk tx ty ->
  owned h (VRef x) tx Sx -> owned h (VRef y) ty Sy -> (forall z, In z Sx -> In z Sy -> False) ->
  unchanged h0 h -> (forall z, In z Sx \/ In z Sy -> List.length h0 <= z) ->
  exists h' r t S', merge_two fuel x y true sk h = (h', Done r) /\ unchanged h0 h' /\
    (forall a, ~ In a Sx -> ~ In a Sy -> nth_error h' a = nth_error h a) /\
    owned h' (VRef r) t S' /\ incl S' (Sx ++ Sy) /\ two sk tx ty t.
Proof.
  intros sk fuel h h0 x y tx ty Sx Sy Hdep Hdy Hpre Hx Hy Hdis Hu Hl.
  destruct tx as [z|b1 l1]; [destruct Hx; discriminate|]. destruct ty as [z|b2 l2]; [destruct Hy; discriminate|].
  pose proof Hx as Hx'. pose proof Hy as Hy'. apply owned_dict in Hx', Hy'.
  destruct Hx' as [x' [itsx [Sx' [Ex [Nx [-> [Hnx [Ndx Ox]]]]]]]]. injection Ex as <-.
  destruct Hy' as [y' [itsy [Sy' [Ey [Ny [-> [Hny [Ndy Oy]]]]]]]]. injection Ey as <-.
  unfold merge_two. rewrite (andThen_done _ _ _ _ _ _ _ (load_done _ _ _ Nx)), (andThen_done _ _ _ _ _ _ _ (load_done _ _ _ Ny)).
  unfold is_plain. cbn [o_atomic o_cfg o_items].
  assert (Hret : ~ (is_open (TDict b1 l1) /\ is_open (TDict b2 l2)) \/ (b1 = false /\ b2 = false /\ l1 = []) ->
    exists h' r t S', ret y h = (h', Done r) /\ unchanged h0 h' /\
    (forall a, ~ In a (x :: Sx') -> ~ In a (y :: Sy') -> nth_error h' a = nth_error h a) /\
    owned h' (VRef r) t S' /\ incl S' ((x :: Sx') ++ y :: Sy') /\ two sk (TDict b1 l1) (TDict b2 l2) t).
  { intros Hc. exists h, y, (TDict b2 l2), (y :: Sy'). split; [reflexivity|]. split; [exact Hu|]. split; [auto|]. split; [exact Hy|].
    split; [apply incl_appr, incl_refl|]. destruct sk.
    - destruct (Hpre eq_refl) as [[kt [l E]] [l' E']]. destruct Hc as [Hc|[_ [_ Hc]]]; [exfalso; apply Hc; split; [exists (kt :: l); exact E|exists l'; exact E']|].
      injection E as -> E. congruence.
    - destruct Hc as [Hc|[-> [-> ->]]]; [right; auto|left]. split; [exists []; reflexivity|]. split; [exists l2; reflexivity|]. now apply overlay_empty. }
  destruct b1; cbn [negb andb orb].
  { apply Hret. left. intros [[l E] _]. discriminate. }
  destruct b2; cbn [negb andb orb].
  { apply Hret. left. intros [_ [l E]]. discriminate. }
  destruct itsx as [|kv itsx].
  { apply Hret. right. destruct l1 as [|[? ?] ?]; [auto|destruct Ox]. }
  destruct (upd_owned_top sk fuel h x y false l1 false l2 (x :: Sx') (y :: Sy') Hdep) as [h' [S' [F1 [F2 [F3 [F4 F5]]]]]].
  { apply Forall_forall. intros kt _. apply upd_owned. }
  { exact Hx. } { exact Hy. } { exact Hdis. }
  rewrite (andThen_done _ _ _ _ _ _ _ F1).
  exists h', x, (TDict false (tgo_sk sk l2 l1)), S'. split; [reflexivity|]. split.
  { intros a o Ha. rewrite F3; [now apply Hu| |]; intros H.
    - specialize (Hl a (or_introl H)). apply nth_error_len in Ha. lia.
    - specialize (Hl a (or_intror H)). apply nth_error_len in Ha. lia. }
  split; [exact F3|].
  pose proof (owned_wf _ _ _ _ Hx) as Wx. pose proof (owned_wf _ _ _ _ Hy) as Wy.
  destruct sk.
  - rewrite tgo_sk_true in *. split; [apply F4, tgo_nodup, Ndx|]. split; [exact F5|].
    exists l1, l2, (filter (fun kt : string * Tree => has_key l1 (fst kt)) l2). split; [reflexivity|]. split; [reflexivity|].
    split; [intros kt; rewrite filter_In, has_key_spec; tauto|].
    rewrite <- (tupd_dict false (filter (fun kt : string * Tree => has_key l1 (fst kt)) l2) false l1).
    apply tupd_overlay; [|exact Wx|eexists; eexists; reflexivity]. apply wf_dict. apply wf_dict in Wy. destruct Wy as [Wn Wi]. split.
    + clear - Wn. unfold keys in *. induction l2 as [|[k t] l IH]; [constructor|]. cbn in *. apply NoDup_cons_iff in Wn. destruct Wn as [W1 W2].
      destruct (has_key l1 k); [|auto]. cbn. constructor; [|auto]. intros H. apply W1. apply in_map_iff in H. destruct H as [kt [H3 H4]].
      apply filter_In in H4. rewrite <- H3. apply in_map. tauto.
    + intros k t Hin. apply filter_In in Hin. apply (Wi k). tauto.
  - rewrite tgo_sk_false in *. split; [apply F4, tgo_nodup, Ndx|]. split; [exact F5|]. left.
    split; [exists l1; reflexivity|]. split; [exists l2; reflexivity|]. rewrite <- (tupd_dict false l2 false l1).
    apply tupd_overlay; [exact Wy|exact Wx|exists false, l2; reflexivity].
Qed.

Lemma overlay_keys_first : forall l1 l2 l2' t, (forall kt, In kt l2' <-> In kt l2 /\ In (fst kt) (keys l1)) ->
  overlay (TDict false l1) (TDict false l2') t -> exists l, t = TDict false l /\ (forall k, In k (keys l) <-> In k (keys l1)).
Proof.
  intros l1 l2 l2' t Hl H. inversion H as [b1 b2 m1 m2 l Hn Hk _ _ _]; subst. exists l. split; [reflexivity|]. intros k. rewrite Hk. split; [|auto].
  intros [H1|H1]; [exact H1|]. apply in_map_iff in H1. destruct H1 as [kt [<- H1]]. apply Hl in H1. tauto.
Qed.

Lemma merge_rest_ok : forall sk fuel h0 ds ts h x tx Sx S, (forall t, In t ts -> depth t <= fuel /\ is_dict t) ->
  (sk = true -> (exists kt l, tx = TDict false (kt :: l)) /\ forall t, In t ts -> is_open t) -> ts <> [] ->
  owned h (VRef x) tx Sx -> own_items h (map nk ds) (map nt ts) S -> (forall z, In z Sx -> In z S -> False) ->
  unchanged h0 h -> (forall z, In z Sx \/ In z S -> List.length h0 <= z) ->
  exists h' r t S', merge_rest fuel x ds true sk h = (h', Done r) /\ unchanged h0 h' /\ owned h' (VRef r) t S' /\ merge_of (two sk) (tx :: ts) t.
Proof.
  intros sk fuel h0 ds. induction ds as [|y ds IH]; intros ts h x tx Sx S Hts Hpre Hne Hx Hds Hdis Hu Hl.
  { destruct ts; [congruence|destruct Hds]. }
  destruct ts as [|ty ts]; [congruence|]. cbn [map own_items] in Hds. destruct Hds as [_ [S1 [S2 [-> [Hd12 [Hy Hr]]]]]].
  destruct (Hts ty (or_introl eq_refl)) as [Hdep Hdy].
  destruct (merge_two_ok sk fuel h h0 x y tx ty Sx S1 Hdep Hdy) as [h1 [r [t [S' [F1 [F2 [F3 [F4 [F5 F6]]]]]]]]].
  { intros E. destruct (Hpre E) as [P1 P2]. split; [exact P1|]. apply P2. now left. }
  { exact Hx. } { exact Hy. } { intros z H1 H2. apply (Hdis z H1), in_or_app. now left. } { exact Hu. }
  { intros z [H|H]; apply Hl; [now left|right; apply in_or_app; now left]. }
  destruct ts as [|t3 ts].
  { destruct ds; [|destruct Hr]. cbn in Hr. subst S2. exists h1, r, t, S'. split; [cbn [merge_rest]; now rewrite (andThen_done _ _ _ _ _ _ _ F1)|].
    split; [exact F2|]. split; [exact F4|]. constructor. exact F6. }
  assert (HS' : forall z, In z S' -> In z S2 -> False).
  { intros z H1 H2. apply F5, in_app_or in H1. destruct H1 as [H1|H1]; [apply (Hdis z H1), in_or_app; now right|eauto]. }
  destruct (IH (t3 :: ts) h1 r t S' S2) as [h2 [r2 [t2 [S'' [G1 [G2 [G3 G4]]]]]]].
  - intros u Hu'. apply Hts. now right.
  - intros E. destruct (Hpre E) as [P1 P2]. split; [|intros u Hu'; apply P2; now right].
    rewrite E in F6. cbn in F6. destruct F6 as [l1 [l2 [l2' [-> [_ [Hl2 Ho]]]]]]. destruct (overlay_keys_first _ _ _ _ Hl2 Ho) as [l [-> Hk]].
    destruct P1 as [kt [l0 P1]]. injection P1 as ->. destruct l as [|kt' l]; [|eauto]. exfalso.
    apply (proj2 (Hk (fst kt))). now left.
  - discriminate.
  - exact F4.
  - apply (own_items_frame _ h); [|exact Hr]. intros a Ha. apply F3; intros H; [apply (Hdis a H), in_or_app; now right|eauto].
  - exact HS'.
  - exact F2.
  - intros z [H|H]; [apply F5, in_app_or in H; apply Hl; destruct H as [H|H]; [now left|right; apply in_or_app; now left]|].
    apply Hl. right. apply in_or_app. now right.
  - exists h2, r2, t2, S''. split; [cbn [merge_rest]; now rewrite (andThen_done _ _ _ _ _ _ _ F1)|]. split; [exact G2|]. split; [exact G3|].
    econstructor; [exact F6|exact G4].
Qed.

Lemma own_items_den : forall ts h ds S, own_items h (map nk ds) (map nt ts) S -> Forall2 (fun d t => denotes plain_dict h (VRef d) t) ds ts.
Proof.
  assert (H : forall t h v S, owned h v t S -> denotes plain_dict h v t).
  { induction t as [z|b l IH] using Tree_ind'; intros h v S Ho; [apply Ho|]. apply owned_dict in Ho. apply denotes_dict.
    destruct Ho as [a [its [S' [H1 [H2 [_ [_ [H5 H6]]]]]]]]. exists a, (mkObj b None its []). split; [exact H1|]. split; [exact H2|].
    split; [split; reflexivity|]. split; [reflexivity|]. split; [exact H5|]. cbn [o_items]. clear - IH H6.
    revert its S' H6. induction l as [|[k t] l IHl]; intros [|[k' v] its] S' H6; cbn in H6; try contradiction; [constructor|].
    apply Forall_cons_iff in IH. destruct IH as [IHt IHr]. destruct H6 as [-> [S1 [S2 [_ [_ [Ho Hr]]]]]].
    constructor; [cbn; split; [reflexivity|exact (IHt h v S1 Ho)]|exact (IHl IHr its S2 Hr)]. }
  induction ts as [|t ts IH]; intros h [|d ds] S Ho; cbn in Ho; try contradiction; [constructor|].
  destruct Ho as [_ [S1 [S2 [_ [_ [H1 H2]]]]]]. constructor; eauto.
Qed.

Lemma merge_dicts_ok : forall sk fuel dicts ts mode h, 2 <= List.length dicts -> Forall2 (argument h) dicts ts ->
  Forall (fun t => depth t <= fuel) ts ->
  (sk = true -> (exists kt l rest, ts = TDict false (kt :: l) :: rest) /\ forall t, In t ts -> is_open t) ->
  exists h' r t, merge_dicts fuel dicts true mode true sk h = (h', Done r) /\ unchanged h h' /\
    denotes no_config h' (VRef r) t /\ merge_of (two sk) ts t.
Proof.
  intros sk fuel dicts ts mode h Hlen Hargs Hdep Hsk.
  destruct (resolve_none_ok _ _ _ Hargs) as [h1 [ds [E1 [U1 D1]]]].
  assert (Hd : Forall is_dict ts).
  { clear - D1. induction D1 as [|d t l l' H H' IH]; constructor; [eapply denotes_ref_dict; exact H|exact IH]. }
  destruct (each_dict_fresh any_dict (fun d => convert_to_dict fuel d true) ds ts h1 D1) as [h2 [ds2 [S2 [E2 [U2 [N2 [O2 L2]]]]]]].
  { rewrite Forall_forall in *. intros t Hin h' c Hc. apply convert_fresh; [now apply Hdep|now apply Hd|exact Hc]. }
  assert (Hcopy : exists h3 ds3 S3, (match mode with
           | None => ret ds2
           | Some mode =>
               if negb true || match mode with Shallow => false | Hybrid => true end
               then each_dict (fun d => copy_dict fuel d (mkCopyKwargs mode true)) ds2 else ret ds2
           end) h2 = (h3, Done ds3) /\ unchanged h2 h3 /\ List.length ds3 = List.length ds2 /\ own_items h3 (map nk ds3) (map nt ts) S3 /\
           (forall z, In z S3 -> List.length h1 <= z)).
  { assert (Hno : exists h3 ds3 S3, ret ds2 h2 = (h3, Done ds3) /\ unchanged h2 h3 /\ List.length ds3 = List.length ds2 /\
      own_items h3 (map nk ds3) (map nt ts) S3 /\ (forall z, In z S3 -> List.length h1 <= z)).
    { exists h2, ds2, S2. split; [reflexivity|]. split; [apply unchanged_refl|]. auto. }
    destruct mode as [[]|]; cbn [negb orb]; [exact Hno| |exact Hno].
    destruct (each_dict_fresh plain_dict (fun d => copy_dict fuel d (mkCopyKwargs Hybrid true)) ds2 ts h2) as [h3 [ds3 [S3 [E3 [U3 [N3 [O3 L3]]]]]]].
    - eapply own_items_den; exact O2.
    - rewrite Forall_forall in *. intros t Hin h' c Hc. apply copy_fresh; [now apply Hdep|now apply Hd|exact Hc].
    - exists h3, ds3, S3. split; [exact E3|]. split; [exact U3|]. split; [exact N3|]. split; [exact O3|]. intros z Hz. apply L3 in Hz.
      apply unchanged_length in U2. lia. }
  destruct Hcopy as [h3 [ds3 [S3 [E3 [U3 [N3 [O3 L3]]]]]]].
  assert (Hl : List.length ts = List.length dicts /\ List.length ds = List.length dicts).
  { split; [symmetry|]; [clear - Hargs; induction Hargs; cbn; congruence|]. 
    transitivity (List.length ts); [clear - D1; induction D1; cbn; congruence|symmetry; clear - Hargs; induction Hargs; cbn; congruence]. }
  destruct ts as [|t1 [|t2 ts]]; [cbn in Hl; lia|cbn in Hl; lia|]. destruct ds3 as [|x [|y rest]]; [cbn in *; lia|cbn in *; lia|].
  pose proof O3 as O3'. cbn [map own_items] in O3. destruct O3 as [_ [Sx [S [-> [Hdis [Ox Or]]]]]].
  destruct (merge_rest_ok sk fuel h1 (y :: rest) (t2 :: ts) h3 x t1 Sx S) as [h4 [r [t [S' [F1 [F2 [F3 F4]]]]]]].
  - intros u Hu. rewrite Forall_forall in Hdep, Hd. split; [apply Hdep; now right|apply Hd; now right].
  - intros E. destruct (Hsk E) as [[kt [l [r0 P1]]] P2]. injection P1 as -> _. split; [eauto|]. intros u Hu. apply P2. now right.
  - discriminate.
  - exact Ox.
  - exact Or.
  - exact Hdis.
  - eapply unchanged_trans; eauto.
  - intros z [H|H]; apply L3, in_or_app; [now left|now right].
  - exists h4, r, t. split.
    { unfold merge_dicts. rewrite (andThen_done _ _ _ _ _ _ _ E1), (andThen_done _ _ _ _ _ _ _ E2), (andThen_done _ _ _ _ _ _ _ E3). exact F1. }
    split; [eapply unchanged_trans; eauto|]. split; [eapply owned_denotes; exact F3|exact F4].
Qed.

(** ** Paths *)
Lemma unique_value : forall (l : list (string * Tree)) k t t', NoDup (keys l) -> In (k, t) l -> In (k, t') l -> t = t'.
Proof. intros l k t t' Hn H1 H2. apply (In_dict_get _ _ _ _ Hn) in H1, H2. congruence. Qed.
Lemma in_keys : forall V (l : list (string * V)) k, In k (keys l) -> exists t, In (k, t) l.
Proof. intros V l k H. apply in_map_iff in H. destruct H as [[k' t] [E H]]. cbn in E. subst. eauto. Qed.
Lemma keys_in : forall V (l : list (string * V)) k t, In (k, t) l -> In k (keys l).
Proof. intros V l k t H. change k with (fst (k, t)). now apply in_map. Qed.

Lemma overlay_leaf : forall t1 t2 t p u, wf t2 -> overlay t1 t2 t -> at_path t2 p u -> is_leaf u -> p <> [] -> at_path t p u.
Proof.
  intros t1 t2 t p u Hw Ho Hp. revert t1 t Hw Ho. induction Hp as [t2|b l k t2 p u Hin Hp IH]; intros t1 t Hw Ho Hu Hne; [congruence|].
  inversion Ho as [b1 b2 l1 l2 l0 Hn Hk H1 H2 H3]; subst. apply wf_dict in Hw. destruct Hw as [Nl Wl].
  destruct (in_keys _ _ _ (proj2 (Hk k) (or_intror (keys_in _ _ _ _ Hin)))) as [t0 Hk0].
  destruct (in_dec string_dec k (keys l1)) as [Hi|Hi].
  - apply in_keys in Hi. destruct Hi as [t1' Hi]. destruct (H3 k t1' t2 t0 Hi Hin Hk0) as [[D1 [D2 D3]]|[_ ->]].
    + econstructor; [exact Hk0|]. destruct p as [|k2 p]; [inversion Hp; subst; contradiction|]. eapply IH; eauto. discriminate.
    + econstructor; eauto.
  - rewrite <- (unique_value _ _ _ _ Nl Hin (H2 k t0 Hk0 Hi)) in Hk0. econstructor; eauto.
Qed.
Lemma overlay_kept : forall t2 p, silent t2 p -> forall t1 t u, wf t1 -> wf t2 -> overlay t1 t2 t -> (at_path t p u <-> at_path t1 p u).
Proof.
  intros t2 p H. induction H as [l k p Hk|l k t2 p Hin Hs IH]; intros t1 t u W1 W2 Ho;
    inversion Ho as [b1 b2 l1 l2 l0 Hn Hkk H1 H2 H3]; subst; apply wf_dict in W1, W2; destruct W1 as [N1 W1], W2 as [N2 W2].
  - split; intros Hp; inversion Hp as [|b l' k' t' p' u' Hi Hp']; subst.
    + econstructor; [apply H1; eauto|exact Hp'].
    + destruct (in_keys _ _ _ (proj2 (Hkk k) (or_introl (keys_in _ _ _ _ Hi)))) as [t0 Hi0].
      rewrite (unique_value _ _ _ _ N1 Hi (H1 k t0 Hi0 Hk)) in Hp'. econstructor; eauto.
  - assert (Hopen : is_open t2) by (inversion Hs; eexists; reflexivity).
    destruct (in_dec string_dec k (keys l1)) as [Hi|Hi].
    + apply in_keys in Hi. destruct Hi as [t1' Hi]. destruct (in_keys _ _ _ (proj2 (Hkk k) (or_intror (keys_in _ _ _ _ Hin)))) as [t0 Hi0].
      destruct (H3 k t1' t2 t0 Hi Hin Hi0) as [[D1 [D2 D3]]|[D1 ->]].
      * specialize (IH t1' t0 u (W1 k _ Hi) (W2 k _ Hin) D3). split; intros Hp; inversion Hp as [|b l' k' t' p' u' Hj Hp']; subst.
        -- rewrite (unique_value _ _ _ _ Hn Hj Hi0) in Hp'. econstructor; [exact Hi|]. now apply IH.
        -- rewrite (unique_value _ _ _ _ N1 Hj Hi) in Hp'. econstructor; [exact Hi0|]. now apply IH.
      * (* the first has a value here that is not a dictionary *)
        assert (Hnd : ~ is_dict t1') by (intros H; apply D1; auto).
        assert (Hpn : p <> []) by (inversion Hs; discriminate).
        split; intros Hp; inversion Hp as [|b l' k' t' p' u' Hj Hp']; subst.
        -- exfalso. rewrite (unique_value _ _ _ _ Hn Hj Hi0) in Hp'. clear - Hs Hp' W2 Hin. 
           assert (Hwf : wf t2) by (apply (W2 k), Hin). clear W2 Hin. revert Hwf u Hp'.
           induction Hs as [lx k0 p Hk|lx k0 t p Hin Hs IH]; intros Hwf u Hp'; inversion Hp' as [|b l' k' t' p' u' Hj Hp'']; subst.
           ++ apply Hk. eapply keys_in; eauto.
           ++ apply wf_dict in Hwf. destruct Hwf as [Nw Ww]. rewrite (unique_value _ _ _ _ Nw Hj Hin) in Hp''. eapply IH; eauto.
        -- exfalso. rewrite (unique_value _ _ _ _ N1 Hj Hi) in Hp'. inversion Hp'; subst; [congruence|]. apply Hnd. eexists; eexists; reflexivity.
    + destruct (in_keys _ _ _ (proj2 (Hkk k) (or_intror (keys_in _ _ _ _ Hin)))) as [t0 Hi0].
      pose proof (unique_value _ _ _ _ N2 Hin (H2 k t0 Hi0 Hi)) as E. subst t0.
      split; intros Hp; inversion Hp as [|b l' k' t' p' u' Hj Hp']; subst; [|exfalso; apply Hi; eapply keys_in; eauto].
      exfalso. rewrite (unique_value _ _ _ _ Hn Hj Hi0) in Hp'. clear - Hs Hp' W2 Hin.
      assert (Hwf : wf t2) by (apply (W2 k), Hin). clear W2 Hin. revert Hwf u Hp'.
      induction Hs as [lx k0 p Hk|lx k0 t p Hin Hs IH]; intros Hwf u Hp'; inversion Hp' as [|b l' k' t' p' u' Hj Hp'']; subst.
      * apply Hk. eapply keys_in; eauto.
      * apply wf_dict in Hwf. destruct Hwf as [Nw Ww]. rewrite (unique_value _ _ _ _ Nw Hj Hin) in Hp''. eapply IH; eauto.
Qed.
Lemma denotes_wf : forall t kind h v, denotes kind h v t -> wf t.
Proof.
  induction t as [z|b l IH] using Tree_ind'; intros kind h v H; [exact I|]. apply denotes_dict in H. destruct H as [a [o [_ [_ [_ [_ [H5 H6]]]]]]].
  apply wf_dict. split; [exact H5|]. clear - IH H6. unfold den_items in H6. revert H6. generalize (o_items o).
  induction l as [|[k t] l IHl]; intros its H6 k' t' Hin; [destruct Hin|]. inversion H6 as [|? ? ? ? [_ J2] J3]; subst.
  apply Forall_cons_iff in IH. destruct IH as [IHt IHr]. destruct Hin as [E|Hin]; [injection E as <- <-; eapply IHt; exact J2|eapply IHl; eauto].
Qed.

Lemma merge_leaf : forall fuel d1 d2 t1 t2 mode h, argument h d1 t1 -> argument h d2 t2 -> depth t1 <= fuel -> depth t2 <= fuel ->
  is_open t1 -> is_open t2 ->
  exists h' r t, merge_dicts fuel [d1; d2] true mode true false h = (h', Done r) /\ denotes no_config h' (VRef r) t /\
    (forall p u, p <> [] -> at_path t2 p u -> is_leaf u -> at_path t p u) /\
    (forall p u, silent t2 p -> (at_path t p u <-> at_path t1 p u)).
Proof.
  intros fuel d1 d2 t1 t2 mode h A1 A2 D1 D2 O1 O2.
  destruct (merge_dicts_ok false fuel [d1; d2] [t1; t2] mode h) as [h' [r [t [F1 [F2 [F3 F4]]]]]].
  { cbn. lia. } { repeat constructor; assumption. } { repeat constructor; assumption. } { discriminate. }
  exists h', r, t. split; [exact F1|]. split; [exact F3|].
  assert (Hw : forall d u, argument h d u -> wf u).
  { intros [a|] u Hu; cbn in Hu; [eapply denotes_wf; exact Hu|subst u; cbn; split; [constructor|exact I]]. }
  inversion F4 as [? ? ? Ht|]; subst. cbn in Ht. destruct Ht as [[_ [_ Ho]]|[Hn _]]; [|tauto].
  split; [intros p u Hne Hp Hl; eapply overlay_leaf; eauto|]. intros p u Hs. eapply overlay_kept; eauto.
Qed.
