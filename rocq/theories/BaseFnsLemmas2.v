(** * Column groupers: proofs *)
From Coq Require Import String ZArith Bool List Arith Lia Sorted.
From Verif Require Import Base Reshape Grouper BaseFnsSpec BaseFnsLemmas.
Import ListNotations.
Local Open Scope nat_scope.

(** ** From codes back to labels *)
Lemma map_repeat' : forall {A B} (f : A -> B) x n, map f (repeat x n) = repeat (f x) n.
Proof. induction n; cbn; congruence. Qed.
Lemma map_runs : forall {A B} (f : A -> B) xs ns, map f (runs xs ns) = runs (map f xs) ns.
Proof.
  induction xs as [|x xs IH]; intros [|n ns]; try reflexivity. cbn [map]. rewrite !runs_cons, map_app, map_repeat', IH. reflexivity.
Qed.
Lemma runs_in : forall {A} (xs : list A) ns x, length xs = length ns -> Forall (fun k => 1 <= k) ns -> In x xs -> In x (runs xs ns).
Proof.
  induction xs as [|y xs IH]; intros [|n ns] x Hl Hp Hin; cbn in Hl; try lia; [destruct Hin|].
  rewrite runs_cons, in_app_iff. inversion Hp; subst. destruct Hin as [->|Hin].
  - left. destruct n; [lia|]. left. reflexivity.
  - right. apply IH; auto.
Qed.

Lemma labels_from_codes : forall ls, let '(codes, us) := factorize (map Some ls) in
  ls = map (fun c => nth (Z.to_nat c) us (LInt 0)) codes /\ forall c, In c codes -> (0 <= c)%Z /\ Z.to_nat c < length us.
Proof.
  intros ls. pose proof (factorize_inv ls) as H. destruct (factorize (map Some ls)) as [codes us].
  destruct H as [Hl [Hnd [Hc _]]]. split.
  - apply nth_ext with (d := LInt 0) (d' := nth (Z.to_nat 0) us (LInt 0)); [rewrite map_length; congruence|].
    intros i Hi. destruct (nth_error_lt' ls i Hi) as [x Hx]. destruct (Hc _ _ Hx) as [k [Hk1 Hk2]].
    rewrite (map_nth (fun c => nth (Z.to_nat c) us (LInt 0)) codes 0%Z i).
    rewrite (nth_error_nth _ _ _ Hx), (nth_error_nth _ _ _ Hk1), Nat2Z.id. symmetry. now apply nth_error_nth.
  - intros c Hin. apply In_nth_error in Hin. destruct Hin as [i Hi].
    destruct (nth_error_lt' ls i) as [x Hx]. { rewrite <- Hl. apply nth_error_Some. congruence. }
    destruct (Hc _ _ Hx) as [k [Hk1 Hk2]]. rewrite Hi in Hk1. injection Hk1 as ->. rewrite Nat2Z.id. split; [lia|].
    apply nth_error_Some. congruence.
Qed.

Lemma sorted_lt_nodup : forall gs, StronglySorted Z.lt gs -> NoDup gs.
Proof.
  induction gs as [|g gs IH]; intros H; constructor; apply StronglySorted_inv in H; destruct H as [H1 H2].
  - intros Hin. rewrite Forall_forall in H2. apply H2 in Hin. lia.
  - auto.
Qed.

Lemma NoDup_map_on : forall {A B} (f : A -> B) l, NoDup l ->
  (forall x y, In x l -> In y l -> f x = f y -> x = y) -> NoDup (map f l).
Proof.
  induction l as [|x l IH]; intros Hnd Hf; cbn; constructor; inversion Hnd; subst.
  - rewrite in_map_iff. intros [y [Hy Hin]]. apply Hf in Hy; [subst; contradiction|now right|now left].
  - apply IH; auto. intros a b Ha Hb. apply Hf; now right.
Qed.

Lemma code_runs_are_label_runs : forall ls lens, 
  get_group_lens_nb (fst (factorize (map Some ls))) = Ok lens ->
  exists us, NoDup us /\ length us = length lens /\ ls = runs us lens /\ Forall (fun k => 1 <= k) lens.
Proof.
  intros ls lens H. destruct (get_group_lens_nb_sound _ _ (factorize_nonneg ls) H) as [gs [Hl [Hs [Hr Hp]]]].
  pose proof (labels_from_codes ls) as Hf. pose proof (factorize_inv ls) as Hi.
  destruct (factorize (map Some ls)) as [codes us]. cbn [fst] in Hr. destruct Hf as [Hf Hin]. destruct Hi as [_ [Hnd _]].
  exists (map (fun c => nth (Z.to_nat c) us (LInt 0)) gs). repeat split.
  - apply NoDup_map_on; [now apply sorted_lt_nodup|]. intros a b Ha Hb Hab.
    assert (Ha' := Hin a ltac:(rewrite Hr; apply runs_in; auto)). assert (Hb' := Hin b ltac:(rewrite Hr; apply runs_in; auto)).
    apply (proj1 (NoDup_nth us (LInt 0)) Hnd) in Hab; lia.
  - rewrite map_length. exact Hl.
  - rewrite Hf, Hr at 1. apply map_runs.
  - exact Hp.
Qed.

(** ** From labels to codes *)
Lemma index_of_app : forall l x t, ~ In x l -> index_of x (l ++ x :: t) = Some (length l).
Proof.
  induction l as [|y l IH]; intros x t H; cbn.
  - rewrite label_eqb_refl. reflexivity.
  - destruct (label_eqb x y) eqn:E; [apply label_eqb_spec in E; subst; exfalso; apply H; now left|].
    rewrite IH; [reflexivity|]. intros Hi. apply H. now right.
Qed.

Lemma factorize_repeat_known : forall n x codes us, ~ In x us ->
  fold_left factorize_step (repeat (Some x) n) (codes, us ++ [x]) = (codes ++ repeat (Z.of_nat (length us)) n, us ++ [x]).
Proof.
  induction n as [|n IH]; intros x codes us H; cbn [repeat fold_left].
  - rewrite app_nil_r. reflexivity.
  - unfold factorize_step at 2. rewrite index_of_app by exact H. rewrite IH by exact H. rewrite <- app_assoc. reflexivity.
Qed.
Lemma factorize_repeat_new : forall n x codes us, ~ In x us -> 1 <= n ->
  fold_left factorize_step (repeat (Some x) n) (codes, us) = (codes ++ repeat (Z.of_nat (length us)) n, us ++ [x]).
Proof.
  intros [|n] x codes us H Hn; [lia|]. cbn [repeat fold_left]. unfold factorize_step at 2.
  rewrite (proj2 (index_of_none us x) H). rewrite factorize_repeat_known by exact H. rewrite <- app_assoc. reflexivity.
Qed.

Lemma NoDup_app_head : forall {A} (U : list A) x us, NoDup (U ++ x :: us) -> ~ In x U /\ NoDup ((U ++ [x]) ++ us).
Proof.
  intros A U x us H. split.
  - apply NoDup_remove_2 in H. intros Hin. apply H. apply in_or_app. now left.
  - rewrite <- app_assoc. exact H.
Qed.

Lemma factorize_runs_from : forall us ns codes U, NoDup (U ++ us) -> length us = length ns -> Forall (fun k => 1 <= k) ns ->
  fold_left factorize_step (map Some (runs us ns)) (codes, U)
  = (codes ++ runs (map Z.of_nat (seq (length U) (length us))) ns, U ++ us).
Proof.
  induction us as [|x us IH]; intros [|n ns] codes U Hnd Hl Hp; cbn [length] in Hl; try lia.
  - cbn. rewrite !app_nil_r. reflexivity.
  - inversion Hp; subst. destruct (NoDup_app_head _ _ _ Hnd) as [Hx Hnd']. cbn [length seq map].
    rewrite !runs_cons, map_app, map_repeat', fold_left_app, factorize_repeat_new by assumption.
    rewrite IH by (auto || lia). rewrite !app_length. cbn [length]. rewrite Nat.add_1_r, <- !app_assoc. reflexivity.
Qed.

Lemma factorize_runs : forall us ns, NoDup us -> length us = length ns -> Forall (fun k => 1 <= k) ns ->
  fst (factorize (map Some (runs us ns))) = runs (map Z.of_nat (seq 0 (length us))) ns.
Proof. intros. unfold factorize. rewrite factorize_runs_from by auto. reflexivity. Qed.

Lemma loop_repeat_last : forall l c k acc, (0 <= c)%Z -> 1 <= l -> group_lens_loop (repeat c l) c k acc = Ok (acc ++ [k + l]).
Proof.
  induction l as [|l IH]; intros c k acc Hc Hl; [lia|]. cbn [repeat group_lens_loop].
  rewrite Z.ltb_irrefl, Z.eqb_refl. cbn [raise_if negb]. cbv beta iota. destruct l as [|l].
  - reflexivity.
  - change (group_lens_loop (repeat c (S l)) c (k + 1) acc = Ok (acc ++ [k + S (S l)])). rewrite IH by lia. do 3 f_equal. lia.
Qed.
Lemma loop_repeat_more : forall l c k acc R, (0 <= c)%Z -> R <> [] ->
  group_lens_loop (repeat c l ++ R) c k acc = group_lens_loop R c (k + l) acc.
Proof.
  induction l as [|l IH]; intros c k acc R Hc HR.
  - cbn. rewrite Nat.add_0_r. reflexivity.
  - cbn [repeat app group_lens_loop]. rewrite Z.ltb_irrefl, Z.eqb_refl. cbn [raise_if negb]. cbv beta iota.
    destruct (repeat c l ++ R) as [|y t] eqn:E.
    + apply app_eq_nil in E. destruct E. contradiction.
    + rewrite <- E, IH by assumption. f_equal. lia.
Qed.

Lemma loop_runs : forall gs ls g n acc, StronglySorted Z.lt (g :: gs) -> (0 <= g)%Z -> length gs = length ls ->
  Forall (fun k => 1 <= k) ls -> gs <> [] -> group_lens_loop (runs gs ls) g n acc = Ok (acc ++ n :: ls).
Proof.
  induction gs as [|c gs IH]; intros [|l ls] g n acc Hs Hg Hl Hp Hne; cbn [length] in Hl; try lia; [congruence|].
  inversion Hp; subst. destruct l as [|l]; [lia|]. rewrite runs_cons. cbn [repeat app group_lens_loop].
  apply StronglySorted_inv in Hs. destruct Hs as [Hs Hlt]. inversion Hlt; subst.
  replace (Z.ltb c g) with false by (symmetry; apply Z.ltb_ge; lia).
  replace (Z.eqb c g) with false by (symmetry; apply Z.eqb_neq; lia).
  replace (Z.eqb g (-1)) with false by (symmetry; apply Z.eqb_neq; lia). cbn [raise_if negb]. cbv beta iota.
  assert (Hc : (0 <= c)%Z) by lia.
  destruct gs as [|c' gs].
  - destruct ls; [|discriminate]. replace (runs [] (@nil nat)) with (@nil Z) by reflexivity. rewrite app_nil_r.
    destruct l as [|l]; [cbn; rewrite <- app_assoc; reflexivity|].
    change (group_lens_loop (repeat c (S l)) c (0 + 1) (acc ++ [n]) = Ok (acc ++ [n; S (S l)])).
    rewrite loop_repeat_last by lia. rewrite <- app_assoc. reflexivity.
  - destruct ls as [|l' ls]; [discriminate|].
    assert (HR : runs (c' :: gs) (l' :: ls) <> []).
    { rewrite runs_cons. inversion H2; subst. destruct l'; [lia|discriminate]. }
    destruct (repeat c l ++ runs (c' :: gs) (l' :: ls)) as [|y t] eqn:E.
    + apply app_eq_nil in E. destruct E. contradiction.
    + rewrite <- E, loop_repeat_more by assumption. rewrite IH; auto; try discriminate. rewrite <- app_assoc. reflexivity.
Qed.

Lemma get_group_lens_nb_runs : forall gs ls, StronglySorted Z.lt gs -> Forall (fun g => (0 <= g)%Z) gs -> length gs = length ls ->
  Forall (fun k => 1 <= k) ls -> get_group_lens_nb (runs gs ls) = Ok ls.
Proof.
  intros [|c gs] [|l ls] Hs Hnn Hl Hp; cbn [length] in Hl; try lia; [reflexivity|].
  inversion Hp; subst. inversion Hnn; subst. destruct l as [|l]; [lia|]. rewrite runs_cons. cbn [repeat app].
  unfold get_group_lens_nb. cbn [group_lens_loop].
  replace (Z.ltb c (-1)) with false by (symmetry; apply Z.ltb_ge; lia).
  replace (Z.eqb c (-1)) with false by (symmetry; apply Z.eqb_neq; lia). rewrite Z.eqb_refl. cbn [raise_if negb]. cbv beta iota.
  destruct gs as [|c' gs].
  - destruct ls; [|discriminate]. replace (runs [] (@nil nat)) with (@nil Z) by reflexivity. rewrite app_nil_r.
    destruct l as [|l]; [reflexivity|].
    change (group_lens_loop (repeat c (S l)) c (0 + 1) [] = Ok [S (S l)]). rewrite loop_repeat_last by lia. reflexivity.
  - destruct ls as [|l' ls]; [discriminate|].
    assert (HR : runs (c' :: gs) (l' :: ls) <> []).
    { rewrite runs_cons. inversion H2; subst. destruct l'; [lia|discriminate]. }
    destruct (repeat c l ++ runs (c' :: gs) (l' :: ls)) as [|y t] eqn:E.
    + apply app_eq_nil in E. destruct E. contradiction.
    + rewrite <- E, loop_repeat_more by assumption. rewrite loop_runs; auto. discriminate.
Qed.

Lemma seq_sorted : forall n k, StronglySorted Z.lt (map Z.of_nat (seq k n)).
Proof.
  induction n as [|n IH]; intros k; cbn; constructor; [apply IH|].
  rewrite Forall_forall. intros z Hz. apply in_map_iff in Hz. destruct Hz as [j [<- Hj]]. apply in_seq in Hj. lia.
Qed.

Lemma label_runs_are_code_runs : forall us lens, NoDup us -> length us = length lens -> Forall (fun k => 1 <= k) lens ->
  get_group_lens_nb (fst (factorize (map Some (runs us lens)))) = Ok lens.
Proof.
  intros us lens Hnd Hl Hp. rewrite factorize_runs by assumption. apply get_group_lens_nb_runs; auto.
  - apply seq_sorted.
  - rewrite Forall_forall. intros z Hz. apply in_map_iff in Hz. destruct Hz as [j [<- _]]. lia.
  - rewrite map_length, seq_length. exact Hl.
Qed.

(** ** The grouper *)
Lemma make_grouper_inv : forall n g e d m s, make_grouper n g e d m = Ok s ->
  g_columns s = n /\ g_allow_enable s = e /\ g_allow_disable s = d /\ g_allow_modify s = m /\
  match g with
  | GNone | GFalse => g_group_by s = None
  | GTrue => g_group_by s = Some (repeat (Some (LStr "group")) n)
  | GIndex l | GSeq l => g_group_by s = Some l /\ length l = n
  end.
Proof.
  intros n g e d m s H. unfold make_grouper, group_by_to_index in H. destruct g as [| | |l|l].
  - injection H as <-. cbn. tauto.
  - injection H as <-. cbn. tauto.
  - rewrite repeat_length, Nat.eqb_refl in H. injection H as <-. cbn. tauto.
  - destruct (Nat.eqb_spec (length l) n); [|discriminate]. injection H as <-. cbn. tauto.
  - destruct (Nat.eqb_spec (length l) n); [|discriminate]. injection H as <-. cbn. tauto.
Qed.

Definition well_formed_grouper (s : Grouper) : Prop := forall l, g_group_by s = Some l -> length l = g_columns s.
Lemma make_grouper_wf : forall n g e d m s, make_grouper n g e d m = Ok s -> well_formed_grouper s.
Proof.
  intros n g e d m s H. apply make_grouper_inv in H. destruct H as [Hn [_ [_ [_ H]]]]. intros l Hl. destruct g; try congruence.
  - assert (l = repeat (Some (LStr "group")) n) by congruence. subst. rewrite repeat_length. reflexivity.
  - destruct H. congruence.
  - destruct H. congruence.
Qed.

Lemma modified_index : forall s own l, g_group_by s = Some own -> length l = g_columns s -> 
  is_grouping_modified s (GIndex l) = Ok (negb (codes_eqb (fst (factorize l)) (fst (factorize own)))) /\
  is_grouping_modified s (GSeq l) = is_grouping_modified s (GIndex l).
Proof.
  intros s own l Ho Hl. unfold is_grouping_modified, group_by_to_index. rewrite Ho, Hl, Nat.eqb_refl. cbn [negb raise_if bind].
  split; [|reflexivity]. destruct (labels_eqb l own) eqn:E; [|reflexivity]. apply labels_eqb_spec in E. subst.
  cbn [negb]. rewrite (proj2 (codes_eqb_spec _ _) eq_refl). reflexivity.
Qed.

Lemma resolve_own : forall s own, well_formed_grouper s -> g_group_by s = Some own ->
  resolve_group_by s GNone = Ok (RIndex own) /\ resolve_group_by s (GIndex own) = Ok (RIndex own).
Proof.
  intros s own Hwf Ho. pose proof (Hwf _ Ho) as Hl.
  assert (H : resolve_group_by s (GIndex own) = Ok (RIndex own)).
  { unfold resolve_group_by, check_group_by, is_grouping_enabled, is_grouping_disabled, self_grouped. rewrite Ho. cbn [negb andb is_grouped].
    rewrite (proj1 (modified_index s own own Ho Hl)). rewrite (proj2 (codes_eqb_spec _ _) eq_refl). cbn [bind negb].
    unfold group_by_to_index. rewrite Hl, Nat.eqb_refl. reflexivity. }
  split; [|exact H]. unfold resolve_group_by in *. rewrite Ho in *. exact H.
Qed.

Lemma grouper_lens_own : forall s own, well_formed_grouper s -> g_group_by s = Some own ->
  get_group_lens s GNone =
  raise_if (negb (is_sorted (fst (factorize own)))) (ValueError "group_by must lead to groups that are coherent and sorted")
    (get_group_lens_nb (fst (factorize own))).
Proof.
  intros s own Hwf Ho. destruct (resolve_own s own Hwf Ho) as [H1 H2]. unfold get_group_lens. rewrite H1. cbn [bind of_resolved].
  unfold grouper_groups. rewrite H2. cbn [bind of_resolved get_groups]. unfold group_by_to_index. rewrite (Hwf _ Ho), Nat.eqb_refl. reflexivity.
Qed.

Lemma grouper_lens_iff : forall n g e d m s ls lens, make_grouper n g e d m = Ok s -> g_group_by s = Some (map Some ls) ->
  get_group_lens s GNone = Ok lens <->
  exists us, NoDup us /\ length us = length lens /\ ls = runs us lens /\ Forall (fun k => 1 <= k) lens.
Proof.
  intros n g e d m s ls lens Hm Ho. rewrite (grouper_lens_own s _ (make_grouper_wf _ _ _ _ _ _ Hm) Ho). split.
  - intros H. apply raise_if_inv in H. apply code_runs_are_label_runs. apply H.
  - intros [us [Hnd [Hl [-> Hp]]]]. pose proof (label_runs_are_code_runs us lens Hnd Hl Hp) as H.
    assert (Hs : is_sorted (fst (factorize (map Some (runs us lens)))) = true).
    { apply get_group_lens_nb_accepts; [|eauto]. eapply Forall_impl; [|apply factorize_nonneg]. cbn. intros. lia. }
    rewrite Hs. exact H.
Qed.

Lemma grouper_lens_rejects : forall n g e d m s ls, make_grouper n g e d m = Ok s -> g_group_by s = Some (map Some ls) ->
  (exists lens, get_group_lens s GNone = Ok lens) \/ (exists msg, get_group_lens s GNone = Err (ValueError msg)).
Proof.
  intros n g e d m s ls Hm Ho. rewrite (grouper_lens_own s _ (make_grouper_wf _ _ _ _ _ _ Hm) Ho).
  destruct (is_sorted (fst (factorize (map Some ls)))) eqn:E; cbn [negb raise_if]; [|right; eauto].
  left. apply get_group_lens_nb_accepts in E; [exact E|]. eapply Forall_impl; [|apply factorize_nonneg]. cbn. intros. lia.
Qed.

Lemma grouper_lens_none : forall n g e d m s, make_grouper n g e d m = Ok s -> g_group_by s = None ->
  get_group_lens s GNone = Ok (repeat 1 n).
Proof.
  intros n g e d m s Hm Ho. apply make_grouper_inv in Hm. destruct Hm as [<- _].
  assert (Hr : resolve_group_by s GNone = Ok RNone).
  { unfold resolve_group_by, check_group_by, is_grouping_enabled, is_grouping_disabled, self_grouped. rewrite Ho. cbn. rewrite Ho. reflexivity. }
  unfold get_group_lens. rewrite Hr. cbn [bind of_resolved]. unfold grouper_groups. rewrite Hr. cbn [bind of_resolved get_groups].
  replace (is_sorted (map Z.of_nat (seq 0 (g_columns s)))) with true; [reflexivity|]. symmetry. apply is_sorted_spec.
  pose proof (seq_sorted (g_columns s) 0) as H. induction H as [|z l H IH Hf]; constructor; auto.
  eapply Forall_impl; [|exact Hf]. cbn. intros. lia.
Qed.

(** ** Restrictions *)
Lemma enable_check : forall n g0 e d m s g l, make_grouper n g0 e d m = Ok s -> g_group_by s = None -> labels_of n g = Some l ->
  (check_group_by s g = Ok tt <-> e = true).
Proof.
  intros n g0 e d m s g l Hm Ho Hl. apply make_grouper_inv in Hm. destruct Hm as [_ [He _]].
  assert (Hg : is_grouping_enabled s g = true).
  { unfold is_grouping_enabled, self_grouped, is_grouped. rewrite Ho. destruct g; cbn in Hl; try discriminate; reflexivity. }
  unfold check_group_by. rewrite Hg, He. destruct e; cbn; split; congruence.
Qed.
Lemma disable_check : forall n g0 e d m s own, make_grouper n g0 e d m = Ok s -> g_group_by s = Some own ->
  (check_group_by s GFalse = Ok tt <-> d = true).
Proof.
  intros n g0 e d m s own Hm Ho. apply make_grouper_inv in Hm. destruct Hm as [_ [_ [Hd _]]].
  unfold check_group_by, is_grouping_enabled, is_grouping_disabled, self_grouped. rewrite Ho, Hd. cbn. destruct d; cbn; split; congruence.
Qed.
Lemma modify_check : forall n g0 e d m s own g l, make_grouper n g0 e d m = Ok s -> g_group_by s = Some (map Some own) ->
  labels_of n g = Some (map Some l) -> length l = n ->
  (check_group_by s g = Ok tt <-> m = true \/ same_partition l own).
Proof.
  intros n g0 e d m s own g l Hm Ho Hg Hl. pose proof (make_grouper_inv _ _ _ _ _ _ Hm) as [Hn [_ [_ [Hmod _]]]].
  assert (Hmd : is_grouping_modified s g = Ok (negb (codes_eqb (fst (factorize (map Some l))) (fst (factorize (map Some own)))))).
  { destruct g; cbn in Hg; try discriminate.
    - unfold is_grouping_modified, group_by_to_index. rewrite Ho. injection Hg as Hg. rewrite Hn, Hg, map_length, Hl, Nat.eqb_refl. cbn [negb raise_if bind].
      destruct (labels_eqb (map Some l) (map Some own)) eqn:E; [|reflexivity]. apply labels_eqb_spec in E. rewrite E. cbn [negb].
      rewrite (proj2 (codes_eqb_spec _ _) eq_refl). reflexivity.
    - injection Hg as ->. apply modified_index; [exact Ho|]. rewrite map_length. lia.
    - injection Hg as ->. rewrite (proj2 (modified_index s _ (map Some l) Ho ltac:(rewrite map_length; lia))).
      apply modified_index; [exact Ho|]. rewrite map_length. lia. }
  assert (He : is_grouping_enabled s g = false) by (unfold is_grouping_enabled, self_grouped; rewrite Ho; reflexivity).
  assert (Hd : is_grouping_disabled s g = false).
  { unfold is_grouping_disabled, is_grouped. destruct g; cbn in Hg; try discriminate; apply andb_false_r. }
  unfold check_group_by. rewrite He, Hd, Hmd. cbn [bind]. rewrite Hmod, <- same_codes_iff, <- codes_eqb_spec.
  destruct (codes_eqb (fst (factorize (map Some l))) (fst (factorize (map Some own)))); destruct m; cbn; split; intros H; auto; try discriminate.
  destruct H; discriminate.
Qed.
Lemma keep_check : forall n g0 e d m s, make_grouper n g0 e d m = Ok s ->
  check_group_by s GNone = Ok tt /\ (g_group_by s = None -> check_group_by s GFalse = Ok tt).
Proof.
  intros n g0 e d m s Hm. unfold check_group_by, is_grouping_enabled, is_grouping_disabled, self_grouped, is_grouped. split.
  - destruct (g_group_by s); reflexivity.
  - intros Ho. unfold is_grouping_modified. rewrite Ho. reflexivity.
Qed.

Lemma groups_partition : forall n g0 e d m s g l codes, make_grouper n g0 e d m = Ok s -> labels_of n g = Some (map Some l) -> 
  grouper_groups s g = Ok codes -> same_partition l codes.
Proof.
  intros n g0 e d m s g l codes Hm Hg H. pose proof (make_grouper_inv _ _ _ _ _ _ Hm) as [Hn _].
  unfold grouper_groups in H. destruct (resolve_group_by s g) as [r|] eqn:Er; [|discriminate]. cbn [bind] in H.
  assert (Hr : r = RIndex (map Some l) /\ length l = n).
  { unfold resolve_group_by in Er. destruct g; cbn in Hg; try discriminate; destruct (check_group_by s _) in Er; try discriminate;
    cbn [bind] in Er; unfold group_by_to_index in Er; injection Hg as Hg; rewrite Hn, Hg, map_length in Er;
    (destruct (Nat.eqb_spec (length l) n) as [E|E]; [|discriminate]); cbn in Er; injection Er as <-; auto. }
  destruct Hr as [-> Hl]. cbn [of_resolved get_groups] in H. unfold group_by_to_index in H. rewrite map_length, Hl, Hn, Nat.eqb_refl in H.
  cbn in H. injection H as <-. apply factorize_partition.
Qed.

(** ** Start and end of every group *)
Lemma cumsum_nth : forall ls acc k, k < length ls -> nth_error (cumsum acc ls) k = Some (acc + total (firstn (S k) ls)).
Proof.
  induction ls as [|l ls IH]; intros acc k Hk; [cbn in Hk; lia|]. cbn [cumsum]. destruct k as [|k].
  - cbn. do 2 f_equal. lia.
  - cbn [nth_error]. rewrite IH by (cbn in Hk; lia). f_equal. cbn [firstn total]. lia.
Qed.
Lemma cumsum_length : forall ls acc, length (cumsum acc ls) = length ls.
Proof. induction ls; intros; cbn; auto. Qed.

Lemma nth_error_combine' : forall {A B} (a : list A) (b : list B) k x y, nth_error a k = Some x -> nth_error b k = Some y ->
  nth_error (combine a b) k = Some (x, y).
Proof. induction a; intros [|b0 b] [|k] x y Ha Hb; cbn in *; try discriminate; auto. congruence. Qed.

Lemma total_firstn_S : forall ls k l, nth_error ls k = Some l -> total (firstn (S k) ls) = total (firstn k ls) + l.
Proof. induction ls as [|x ls IH]; intros [|k] l H; cbn in H; try discriminate; cbn [firstn total]. 
  - injection H as ->. cbn. lia.
  - change (x + total (firstn (S k) ls) = x + total (firstn k ls) + l). rewrite (IH _ _ H). lia. Qed.

Lemma start_end_nth : forall lens k l, nth_error lens k = Some l ->
  nth_error (get_group_start_idxs lens) k = Some (total (firstn k lens)) /\
  nth_error (get_group_end_idxs lens) k = Some (total (firstn k lens) + l).
Proof.
  intros lens k l H. assert (Hk : k < length lens) by (apply nth_error_Some; congruence).
  pose proof (cumsum_nth lens 0 k Hk) as Hc. rewrite (total_firstn_S _ _ _ H) in Hc. cbn [Nat.add] in Hc. split; [|exact Hc].
  unfold get_group_start_idxs, minus_each. rewrite nth_error_map, (nth_error_combine' _ _ _ _ _ Hc H). cbn. f_equal. lia.
Qed.

Lemma runs_nth : forall {A} (xs : list A) ns k x n j, length xs = length ns -> nth_error xs k = Some x -> nth_error ns k = Some n ->
  j < n -> nth_error (runs xs ns) (total (firstn k ns) + j) = Some x.
Proof.
  induction xs as [|y xs IH]; intros [|m ns] [|k] x n j Hl Hx Hn Hj; cbn in Hx, Hn, Hl; try discriminate; rewrite runs_cons.
  - injection Hx as ->. injection Hn as ->. cbn [firstn total]. rewrite nth_error_app1 by (rewrite repeat_length; lia).
    apply nth_error_repeat'. exact Hj.
  - cbn [firstn total]. rewrite nth_error_app2; rewrite repeat_length; [|lia].
    replace (m + total (firstn k ns) + j - m) with (total (firstn k ns) + j) by lia. eapply IH; eauto.
Qed.

Lemma runs_nth_inv : forall {A} (xs : list A) ns i x, length xs = length ns -> NoDup xs -> nth_error (runs xs ns) i = Some x ->
  exists k n, nth_error xs k = Some x /\ nth_error ns k = Some n /\ total (firstn k ns) <= i < total (firstn k ns) + n.
Proof.
  induction xs as [|y xs IH]; intros [|m ns] i x Hl Hnd H; cbn in Hl; try lia.
  - destruct i; discriminate.
  - rewrite runs_cons in H. destruct (Nat.lt_ge_cases i m) as [Hi|Hi].
    + rewrite nth_error_app1 in H by (rewrite repeat_length; exact Hi). rewrite nth_error_repeat' in H by exact Hi.
      injection H as <-. exists 0, m. cbn. repeat split; lia.
    + rewrite nth_error_app2 in H by (rewrite repeat_length; exact Hi). rewrite repeat_length in H. inversion Hnd; subst.
      destruct (IH ns (i - m) x ltac:(lia) ltac:(assumption) H) as [k [n [H1 [H4 H5]]]].
      exists (S k), n. cbn [nth_error firstn total]. repeat split; auto; lia.
Qed.

(** The columns of a group are those between its start and its end. *)
Lemma group_columns : forall {A} (us : list A) lens k x s e i, NoDup us -> length us = length lens ->
  nth_error us k = Some x -> nth_error (get_group_start_idxs lens) k = Some s -> nth_error (get_group_end_idxs lens) k = Some e ->
  (nth_error (runs us lens) i = Some x <-> s <= i < e).
Proof.
  intros A us lens k x s e i Hnd Hl Hx Hs He. assert (Hk : k < length lens) by (rewrite <- Hl; apply nth_error_Some; congruence).
  destruct (nth_error_lt' lens k Hk) as [n Hn]. destruct (start_end_nth _ _ _ Hn) as [Hs' He']. rewrite Hs' in Hs. rewrite He' in He.
  injection Hs as <-. injection He as <-. split.
  - intros H. destruct (runs_nth_inv _ _ _ _ Hl Hnd H) as [k' [n' [H1 [H2 H3]]]].
    assert (k' = k). { apply (proj1 (NoDup_nth_error us) Hnd); [apply nth_error_Some; congruence|congruence]. }
    subst. rewrite Hn in H2. injection H2 as ->. exact H3.
  - intros H. replace i with (total (firstn k lens) + (i - total (firstn k lens))) by lia. eapply runs_nth; eauto. lia.
Qed.
