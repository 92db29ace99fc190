(** * Indicators over parameters: which combinations *)
From Coq Require Import String ZArith Bool List Arith Lia.
From Verif Require Import Base Grouper IndexFns IndexSpec BaseFnsLemmas4 Indicator IndicatorSpec IndicatorLemmas.
Import ListNotations.
Local Open Scope nat_scope.

Lemma expand_broadcast : forall {P} (ps params : list (list P)) cols, expand_params ps false false cols = Ok params -> 0 < n_values params ->
  Forall2 (stretched (n_values params)) ps params.
Proof.
  intros P ps params cols H Hn. pose proof (expand_rect _ _ _ _ _ H ltac:(discriminate)) as Hr. unfold expand_params in H. rewrite andb_false_r in H.
  destruct ps as [|p ps]; [injection H as <-; constructor|]. unfold broadcast_params in H. set (k := fold_left _ _ _) in H.
  assert (Hk : k = n_values params).
  { assert (Hd : k <> 0 \/ forall q, In q (p :: ps) -> length q <> 1).
    { destruct k eqn:E; [|left; lia]. right. intros q Hq Hl. pose proof (fold_max_in _ 0 _ (in_map (@length P) _ _ Hq)) as Hle. fold k in Hle. lia. }
    pose proof (broadcast_all_len k _ _ H Hd) as L. destruct params as [|q qs]; [|symmetry; apply L; now left].
    cbn [broadcast_all] in H. destruct (broadcast_one k p); cbn [bind] in H; [|discriminate]. destruct (broadcast_all k ps); cbn [bind] in H; discriminate. }
  rewrite <- Hk. apply broadcast_all_spec; [lia|exact H].
Qed.
Lemma broadcast_same : forall {A} n (ls : list (list A)), Forall (fun l => length l = n) ls -> broadcast_all n ls = Ok ls.
Proof.
  intros A n ls H. induction H as [|l ls Hl H IH]; [reflexivity|]. cbn [broadcast_all]. unfold broadcast_one. rewrite Hl, Nat.eqb_refl, orb_true_r, Nat.ltb_irrefl.
  cbn [bind]. rewrite IH. reflexivity.
Qed.
Lemma fold_max_const : forall l n a, Forall (fun x => x = n) l -> l <> [] -> a <= n -> fold_left Nat.max l a = n.
Proof.
  intros l n a H. revert a. induction H as [|x l Hx H IH]; intros a Hne Ha; [congruence|]. cbn [fold_left]. subst x.
  destruct l; [cbn; lia|]. apply IH; [discriminate|lia].
Qed.
Lemma combinations_pos : forall {A} (ls : list (list A)), Forall (fun l => l <> []) ls -> 0 < combinations ls.
Proof. intros A ls H. induction H as [|l ls Hl H IH]; [cbn; lia|]. cbn [combinations]. destruct l; [congruence|]. cbn [length]. nia. Qed.
Lemma expand_product : forall {P} (ps params : list (list P)) cols, 1 < length ps -> Forall (fun l => l <> []) ps ->
  expand_params ps true false cols = Ok params ->
  n_values params = combinations ps /\
  forall c, Forall2 (fun x l => In x l) c ps <-> exists p, p < n_values params /\ row params p = c.
Proof.
  intros P ps params cols Hl Hne H. unfold expand_params in H. destruct (Nat.ltb_spec 1 (length ps)); [|lia]. cbn [andb] in H. cbv zeta in H.
  destruct (cpp_shape ps Hne) as [L1 L2]. set (cp := create_param_product ps) in *.
  assert (Hcp : cp <> []) by (intros E; rewrite E in L1; cbn in L1; lia).
  assert (E : params = cp).
  { destruct cp as [|c0 cp'] eqn:Ecp; [congruence|]. unfold broadcast_params in H.
    rewrite (fold_max_const _ (combinations ps) 0) in H; [|rewrite Forall_map; exact L2|discriminate|lia]. rewrite (broadcast_same _ _ L2) in H. congruence. }
  subst params. assert (Hn : n_values cp = combinations ps). { destruct cp; [congruence|]. cbn [n_values]. inversion L2. assumption. }
  split; [exact Hn|]. intros c. rewrite (cpp_every ps c Hne). fold cp. rewrite Hn.
  assert (G : forall k, k < combinations ps -> combination cp k = map Some (row cp k)).
  { intros k Hk. unfold combination, row. clear - L2 Hk. induction L2 as [|l ls Hl _ IH]; [reflexivity|]. cbn [map flat_map]. destruct (nth_error l k) eqn:E; [|apply nth_error_None in E; lia].
    cbn [map app]. f_equal. exact IH. }
  split; intros (k & Hk & E); exists k; (split; [exact Hk|]).
  - rewrite (G k Hk) in E. clear - E. revert c E. generalize (row cp k). induction l as [|x l IH]; intros [|y c] E; cbn in E; try discriminate; [reflexivity|]. injection E as -> E. f_equal. auto.
  - rewrite (G k Hk), E. reflexivity.
Qed.
