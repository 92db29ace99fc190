(** * Labels of broadcast objects *)
From Coq Require Import String ZArith Bool List Arith Lia.
From Verif Require Import Base Grouper Reshape IndexFns IndexSpec Broadcast BroadcastSpec BaseFnsLemmas BaseFnsLemmas4 BaseFnsLemmas5 BroadcastLemmas.
Import ListNotations.
Local Open Scope nat_scope.

(** ** Equality *)
Lemma same_levels_spec : forall a b, same_levels a b = true <-> a = b.
Proof.
  induction a as [|x a IH]; intros [|y b]; cbn [same_levels]; try (split; [discriminate|discriminate]); [tauto|].
  rewrite andb_true_iff, level_eqb_spec, IH. split; [intros [-> ->]; reflexivity|intros H; inversion H; auto].
Qed.
Lemma is_index_equal_spec : forall a b, is_index_equal a b = true <-> a = b.
Proof.
  intros [x|xs] [y|ys]; cbn [is_index_equal]; try (split; discriminate).
  - rewrite level_eqb_spec. split; [intros ->; reflexivity|intros H; inversion H; auto].
  - rewrite same_levels_spec. split; [intros ->; reflexivity|intros H; inversion H; auto].
Qed.
Lemma level_default_spec : forall l, level_is_default l = true <-> is_range l.
Proof.
  intros l. unfold level_is_default, is_range. rewrite andb_true_iff, name_eqb_spec, values_eqb_spec. reflexivity.
Qed.
Lemma is_default_spec : forall x, is_default_index x = true <-> default_index x.
Proof.
  intros [l|ls]; cbn [is_default_index]; unfold default_index.
  - rewrite level_default_spec. split; [eauto|]. intros [l' [E H]]. inversion E; subst; exact H.
  - split; [discriminate|]. intros [l' [E _]]. discriminate.
Qed.
Lemma redundant_uninformative : forall l, is_redundant l = true -> uninformative l.
Proof.
  intros l H. unfold is_redundant in H. apply orb_true_iff in H. destruct H as [H|H]; [|left; now apply level_default_spec].
  rewrite !andb_true_iff, Nat.ltb_lt, name_eqb_spec in H. destruct H as [[H1 H2] H3]. right. split; [exact H3|]. split; [exact H1|].
  unfold single_valued in H2. destruct (lv_values l) as [|v vs]; [discriminate|]. exists v. constructor; [reflexivity|].
  apply Forall_forall. intros w Hw. rewrite forallb_forall in H2. apply label_eqb_spec, H2, Hw.
Qed.

(** ** Parts of a list, in order *)
Inductive sublist {A} : list A -> list A -> Prop :=
| sub_nil : sublist [] []
| sub_skip : forall x a b, sublist a b -> sublist a (x :: b)
| sub_take : forall x a b, sublist a b -> sublist (x :: a) (x :: b).
Lemma sublist_refl : forall {A} (l : list A), sublist l l.
Proof. induction l; [constructor|apply sub_take; auto]. Qed.
Lemma sublist_nil : forall {A} (l : list A), sublist [] l.
Proof. induction l; constructor; auto. Qed.
Lemma sublist_trans : forall {A} (a b c : list A), sublist b c -> sublist a b -> sublist a c.
Proof.
  intros A a b c H. revert a. induction H as [|x b c H IH|x b c H IH]; intros a Ha; [exact Ha|constructor; auto|].
  inversion Ha; subst; [apply sub_skip|apply sub_take]; auto.
Qed.
Lemma sublist_in : forall {A} (a b : list A) x, sublist a b -> In x a -> In x b.
Proof. intros A a b x H. induction H; cbn; [auto| |]; intros Hi; [right; auto|]. destruct Hi; auto. Qed.
Lemma filter_combine_sub : forall (f : nat * Level -> bool) ls k, sublist (map snd (filter f (combine (seq k (length ls)) ls))) ls.
Proof.
  intros f. induction ls as [|l ls IH]; intros k; cbn [length seq combine filter]; [constructor|].
  destruct (f (k, l)); cbn [map snd]; [apply sub_take|apply sub_skip]; apply IH.
Qed.
Lemma droplevel_sub : forall ls drop, sublist (levels_of (droplevel ls drop)) ls.
Proof.
  intros ls [|d drop]; cbn [droplevel]; [apply sublist_refl|]. pose proof (filter_combine_sub (fun p => negb (existsb (Nat.eqb (fst p)) (d :: drop))) ls 0) as H.
  set (k := map snd _) in *. destruct k as [|a [|b k]]; exact H.
Qed.

(** ** Stacking *)
Lemma drop_redundant_spec : forall x, levels_of x <> [] ->
  sublist (levels_of (drop_redundant_levels x)) (levels_of x) /\ levels_of (drop_redundant_levels x) <> [] /\
  forall l, In l (levels_of x) -> In l (levels_of (drop_redundant_levels x)) \/ uninformative l.
Proof.
  intros [l0|ls] Hne; cbn [drop_redundant_levels]; [split; [apply sublist_refl|split; auto]|].
  set (drop := map fst _). destruct (Nat.ltb_spec (length drop) (length ls)) as [Hlt|Hge]; [|split; [apply sublist_refl|split; auto]].
  cbn [levels_of] in *. destruct (droplevel_levels ls drop) as [kept [Ek Hk]]. split; [apply droplevel_sub|]. rewrite Ek.
  assert (Hd : forall i l, nth_error ls i = Some l -> In i drop -> is_redundant l = true).
  { intros i l Hi Hin. unfold drop in Hin. apply in_map_iff in Hin. destruct Hin as [[i' l'] [E Hf]]. cbn in E. subst i'.
    apply filter_In in Hf. destruct Hf as [Hc Hr]. apply combine_seq_in in Hc. rewrite Nat.sub_0_r in Hc. destruct Hc as [_ Hc]. cbn in Hr. congruence. }
  split.
  - intros E. assert (Hall : forall i, i < length ls -> In i drop).
    { intros i Hi. destruct (in_dec Nat.eq_dec i drop); [assumption|]. exfalso. apply nth_error_Some in Hi. destruct (nth_error ls i) as [l|] eqn:En; [|congruence].
      assert (In l kept) by (apply Hk; eauto). rewrite E in *. contradiction. }
    assert (length (seq 0 (length ls)) <= length drop); [|rewrite seq_length in *; lia].
    apply NoDup_incl_length; [apply seq_NoDup|]. intros i Hi. apply in_seq in Hi. apply Hall. lia.
  - intros l Hl. apply In_nth_error in Hl. destruct Hl as [i Hi]. destruct (in_dec Nat.eq_dec i drop) as [Hin|Hn].
    + right. apply redundant_uninformative. eauto.
    + left. apply Hk. eauto.
Qed.

Lemma drop_duplicates_sub : forall x keep, sublist (levels_of (drop_duplicate_levels x keep)) (levels_of x).
Proof. intros [l|ls] keep; cbn [drop_duplicate_levels]; [apply sublist_refl|]. apply droplevel_sub. Qed.
Lemma drop_duplicates_ne : forall x keep, levels_of x <> [] -> levels_of (drop_duplicate_levels x keep) <> [].
Proof.
  intros x keep H. destruct (levels_of x) as [|l ls] eqn:E; [congruence|]. intros E'.
  assert (In l (levels_of (drop_duplicate_levels x keep))) by (apply drop_duplicates_spec; rewrite E; now left). rewrite E' in *. contradiction.
Qed.

Definition of_length (n : nat) (x : Index) : Prop := levels_of x <> [] /\ Forall (fun l => length (lv_values l) = n) (levels_of x).
Lemma of_length_proper : forall n x, of_length n x <-> proper_index x /\ index_len x = n.
Proof.
  intros n x. unfold of_length, proper_index, well_formed. split.
  - intros [H1 H2]. pose proof (index_len_levels x n H1 H2) as E. rewrite E. auto.
  - intros [[H1 H2] <-]. auto.
Qed.
Lemma of_length_sub : forall n x y, sublist (levels_of y) (levels_of x) -> levels_of y <> [] -> of_length n x -> of_length n y.
Proof.
  intros n x y Hs Hne [_ H]. split; [exact Hne|]. apply Forall_forall. intros l Hl. eapply Forall_forall in H; [exact H|]. eapply sublist_in; eauto.
Qed.

Lemma stack_spec : forall a b dd kf dr n, of_length n a -> of_length n b ->
  exists s, stack_indexes [a; b] dd kf dr = Ok s /\ of_length n s /\ sublist (levels_of s) (levels_of a ++ levels_of b) /\
    forall l, In l (levels_of a ++ levels_of b) -> In l (levels_of s) \/ (dr = true /\ uninformative l).
Proof.
  intros a b dd kf dr n [Ha1 Ha2] [Hb1 Hb2]. unfold stack_indexes. cbn [flat_map]. rewrite app_nil_r.
  set (ls := levels_of a ++ levels_of b). assert (Hls : of_length n (Multi ls)).
  { split; cbn [levels_of]; unfold ls; [destruct (levels_of a); [congruence|discriminate]|apply Forall_app; auto]. }
  destruct Hls as [Hne Hall]. cbn [levels_of] in Hne, Hall. rewrite (same_lengths_all n ls Hall). cbn [negb raise_if]. unfold raise_if.
  set (x1 := if dd then drop_duplicate_levels (Multi ls) kf else Multi ls).
  assert (H1 : levels_of x1 <> [] /\ sublist (levels_of x1) ls /\ forall l, In l ls -> In l (levels_of x1)).
  { unfold x1. destruct dd; [|split; [exact Hne|split; [apply sublist_refl|auto]]]. split; [apply drop_duplicates_ne; exact Hne|].
    split; [apply (drop_duplicates_sub (Multi ls))|]. intros l Hl. apply drop_duplicates_spec. exact Hl. }
  destruct H1 as [Hx1 [Hx2 Hx3]]. eexists. split; [reflexivity|]. destruct dr.
  - destruct (drop_redundant_spec x1 Hx1) as [Hr1 [Hr2 Hr3]]. assert (Hs : sublist (levels_of (drop_redundant_levels x1)) ls) by (eapply sublist_trans; eauto).
    split; [|split; [exact Hs|]].
    + apply (of_length_sub n (Multi ls)); auto. split; auto.
    + intros l Hl. destruct (Hr3 l (Hx3 l Hl)); auto.
  - split; [|split; [exact Hx2|intros l Hl; left; auto]]. apply (of_length_sub n (Multi ls)); auto. split; auto.
Qed.
Lemma same_lengths_inv : forall ls a b, same_lengths ls = true -> In a ls -> In b ls -> length (lv_values a) = length (lv_values b).
Proof.
  intros ls. assert (H : same_lengths ls = true -> forall b, In b ls -> match ls with a :: _ => length (lv_values a) = length (lv_values b) | [] => True end).
  { induction ls as [|a ls IH]; [intros _ b []|]. intros H b [<-|Hb]; [reflexivity|]. destruct ls as [|c t]; [contradiction|].
    change (Nat.eqb (length (lv_values a)) (length (lv_values c)) && same_lengths (c :: t) = true) in H. apply andb_true_iff in H. destruct H as [He H].
    apply Nat.eqb_eq in He. rewrite He. apply IH; auto. }
  intros a b Hs Ha Hb. pose proof (H Hs a Ha). pose proof (H Hs b Hb). destruct ls; [contradiction|]. congruence.
Qed.
Lemma stack_lengths : forall a b dd kf dr s n m, of_length n a -> of_length m b -> stack_indexes [a; b] dd kf dr = Ok s -> n = m.
Proof.
  intros a b dd kf dr s n m [Ha1 Ha2] [Hb1 Hb2] H. unfold stack_indexes in H. cbn [flat_map] in H. rewrite app_nil_r in H.
  apply raise_if_ok in H. destruct H as [H _]. apply negb_false_iff in H.
  destruct (levels_of a) as [|la ta]; [congruence|]. destruct (levels_of b) as [|lb tb]; [congruence|].
  inversion Ha2; subst. inversion Hb2; subst. apply (same_lengths_inv _ la lb H); [now left|]. apply in_or_app. right. now left.
Qed.

(** ** Repeating *)
Lemma levels_map : forall f x, levels_of (map_levels f x) = map f (levels_of x).
Proof. intros f [l|ls]; reflexivity. Qed.
Lemma repeat_stretch : forall n l, length (lv_values l) = 1 -> n <> 1 -> repeat_level n l = stretch_level n l.
Proof. intros n l H Hn. unfold stretch_level, repeat_level. destruct (Nat.eqb_spec (length (lv_values l)) n); [congruence|reflexivity]. Qed.
Lemma stretch_id : forall n l, length (lv_values l) = n -> stretch_level n l = l.
Proof. intros n l H. unfold stretch_level. rewrite H, Nat.eqb_refl. reflexivity. Qed.
Lemma stretch_length : forall n l, length (lv_values l) = n \/ length (lv_values l) = 1 -> length (lv_values (stretch_level n l)) = n.
Proof.
  intros n l H. unfold stretch_level. destruct (Nat.eqb_spec (length (lv_values l)) n); [assumption|]. cbn. rewrite flat_repeat_length. lia.
Qed.
Lemma stretch_stretch : forall n m l, length (lv_values l) = n \/ length (lv_values l) = 1 -> n = m \/ n = 1 -> stretch_level m (stretch_level n l) = stretch_level m l.
Proof.
  intros n m l Hl Hn. destruct Hn as [->| ->].
  - apply stretch_id. now apply stretch_length.
  - rewrite (stretch_id 1 l); [reflexivity|]. lia.
Qed.
Lemma stretch_map_id : forall n ls, Forall (fun l => length (lv_values l) = n) ls -> map (stretch_level n) ls = ls.
Proof. intros n ls H. induction H; cbn; [reflexivity|]. rewrite stretch_id, IHForall; auto. Qed.
Lemma range_is_range : forall n, is_range (range_level n).
Proof. intros n. unfold is_range, range_level. cbn. split; [reflexivity|]. rewrite map_length, seq_length. reflexivity. Qed.
Lemma range_length : forall n, length (lv_values (range_level n)) = n.
Proof. intros n. cbn. now rewrite map_length, seq_length. Qed.
Lemma stretch_range : forall n l, 2 <= n -> length (lv_values l) = 1 -> is_range l -> uninformative (stretch_level n l).
Proof.
  intros n l Hn Hl [Hnm Hv]. right. unfold stretch_level. destruct (Nat.eqb_spec (length (lv_values l)) n); [lia|]. cbn. rewrite flat_repeat_length.
  split; [exact Hnm|]. split; [lia|]. destruct (lv_values l) as [|v [|]]; cbn in Hl; try lia. exists v. cbn. rewrite app_nil_r.
  apply Forall_forall. intros w Hw. apply repeat_spec in Hw. auto.
Qed.
Lemma stretch_uninformative : forall n m l, length (lv_values l) = n \/ length (lv_values l) = 1 -> n = m \/ (n = 1 /\ 2 <= m) ->
  uninformative (stretch_level n l) -> uninformative (stretch_level m l).
Proof.
  intros n m l Hl Hn H. destruct Hn as [->|[-> Hm]]; [exact H|]. assert (Hl1 : length (lv_values l) = 1) by lia. rewrite (stretch_id 1 l Hl1) in H.
  destruct H as [H|[_ [H _]]]; [|lia]. now apply stretch_range.
Qed.

Lemma repeat_index_spec : forall x n ig, of_length 1 x -> 2 <= n ->
  of_length n (repeat_index x n ig) /\
  ((repeat_index x n ig = Plain (range_level n) /\ ig = true /\ default_index x) \/ levels_of (repeat_index x n ig) = map (stretch_level n) (levels_of x)).
Proof.
  intros x n ig Hx Hn. unfold repeat_index. destruct (is_default_index x && ig) eqn:E.
  - apply andb_true_iff in E. destruct E as [E1 E2]. apply is_default_spec in E1. apply of_length_proper in Hx. destruct Hx as [_ ->].
    rewrite Nat.mul_1_l. split; [|left; auto]. split; [discriminate|]. constructor; [apply range_length|constructor].
  - destruct Hx as [Hx1 Hx2]. assert (Em : levels_of (map_levels (repeat_level n) x) = map (stretch_level n) (levels_of x)).
    { rewrite levels_map. apply map_ext_in. intros l Hl. apply repeat_stretch; [|lia]. eapply Forall_forall in Hx2; eauto. }
    split; [|right; exact Em]. split; rewrite Em; [destruct (levels_of x); [congruence|discriminate]|].
    apply Forall_forall. intros l Hl. apply in_map_iff in Hl. destruct Hl as [l0 [<- Hl]]. apply stretch_length. right. eapply Forall_forall in Hx2; eauto.
Qed.
Lemma repeat_index_empty : forall x n ig, of_length 0 x -> of_length 0 (repeat_index x n ig).
Proof.
  intros x n ig Hx. unfold repeat_index. destruct (is_default_index x && ig) eqn:E.
  - apply of_length_proper in Hx. destruct Hx as [_ ->]. split; [discriminate|]. constructor; [apply range_length|constructor].
  - destruct Hx as [H1 H2]. split; rewrite levels_map; [destruct (levels_of x); [congruence|discriminate]|]. apply Forall_forall. intros l Hl.
    apply in_map_iff in Hl. destruct Hl as [l0 [<- Hl]]. eapply Forall_forall in H2; [|exact Hl]. cbn. rewrite flat_repeat_length. lia.
Qed.

(** ** What a stacked index holds *)
Inductive drawn (n : nat) : list Level -> list Level -> Prop :=
| dr_nil : drawn n [] []
| dr_skip : forall rs s ss, drawn n rs ss -> drawn n rs (s :: ss)
| dr_take : forall r rs s ss, (r = stretch_level n s \/ (is_range r /\ 2 <= n)) -> drawn n rs ss -> drawn n (r :: rs) (s :: ss).
Lemma drawn_weaken : forall n rs ss, drawn n rs ss -> drawn_from n rs ss.
Proof. intros n rs ss H. induction H; [constructor|constructor; auto|]. apply drawn_take; [tauto|auto]. Qed.
Lemma drawn_nil_l : forall n ss, drawn n [] ss.
Proof. induction ss; constructor; auto. Qed.
Lemma drawn_app : forall n r1 s1 r2 s2, drawn n r1 s1 -> drawn n r2 s2 -> drawn n (r1 ++ r2) (s1 ++ s2).
Proof. intros n r1 s1 r2 s2 H H2. induction H; cbn; auto; [apply dr_skip|apply dr_take]; auto. Qed.
Lemma drawn_sub : forall n r r' s, drawn n r s -> sublist r' r -> drawn n r' s.
Proof.
  intros n r r' s H. revert r'. induction H as [|rs s ss H IH|r rs s ss Hr H IH]; intros r' Hs.
  - inversion Hs; subst. constructor.
  - constructor. auto.
  - inversion Hs; subst; [apply dr_skip; auto|]. apply dr_take; auto.
Qed.
Lemma drawn_map : forall n ss, drawn n (map (stretch_level n) ss) ss.
Proof. induction ss; cbn; [constructor|apply dr_take; auto]. Qed.
Lemma drawn_app_skip : forall n r s s', drawn n r s -> drawn n r (s ++ s').
Proof. intros n r s s' H. rewrite <- (app_nil_r r). apply drawn_app; [exact H|apply drawn_nil_l]. Qed.
Lemma drawn_skip_app : forall n r s s', drawn n r s -> drawn n r (s' ++ s).
Proof. intros n r s s' H. induction s'; cbn; [exact H|constructor; auto]. Qed.
Lemma drawn_stretch : forall m r s, drawn 1 r s -> Forall (fun l => length (lv_values l) = 1) s -> drawn m (map (stretch_level m) r) s.
Proof.
  intros m r s H. induction H as [|rs s ss H IH|r rs s ss Hr H IH]; intros Hs; [constructor| |]; inversion Hs; subst; cbn [map]; [apply dr_skip; auto|apply dr_take; auto].
  destruct Hr as [->|[_ Hr]]; [|lia]. left. rewrite (stretch_id 1 s); auto.
Qed.

(** [x] has [n] labels and holds the levels of [done]. *)
Definition holds (o : StackOpts) (done : list Index) (x : Index) : Prop :=
  let n := index_len x in
  proper_index x /\ done <> [] /\ (forall y, In y done -> proper_index y /\ (index_len y = n \/ index_len y = 1)) /\
  drawn n (levels_of x) (flat_map levels_of done) /\
  forall y l, In y done -> In l (levels_of y) -> In (stretch_level n l) (levels_of x) \/ (lossy o /\ uninformative (stretch_level n l)).

Lemma level_lengths : forall y l, proper_index y -> In l (levels_of y) -> length (lv_values l) = index_len y.
Proof. intros y l [H _] Hl. unfold well_formed in H. eapply Forall_forall in H; eauto. Qed.
Lemma flat_lengths : forall (done : list Index) n, (forall y, In y done -> proper_index y /\ index_len y = n) -> Forall (fun l => length (lv_values l) = n) (flat_map levels_of done).
Proof.
  intros done n H. apply Forall_forall. intros l Hl. apply in_flat_map in Hl. destruct Hl as [y [Hy Hl]]. destruct (H y Hy) as [Hp <-]. now apply level_lengths.
Qed.

Lemma holds_one : forall o x, proper_index x -> holds o [x] x.
Proof.
  intros o x Hx. split; [exact Hx|]. split; [discriminate|]. split; [intros y [<-|[]]; auto|]. cbn [flat_map]. rewrite app_nil_r.
  assert (Em : map (stretch_level (index_len x)) (levels_of x) = levels_of x) by (apply stretch_map_id; apply Hx). split.
  - rewrite <- Em at 1. apply drawn_map.
  - intros y l [<-|[]] Hl. left. rewrite stretch_id; [exact Hl|]. now apply level_lengths.
Qed.
Lemma holds_repeat : forall o done x n, holds o done x -> index_len x = 1 -> 2 <= n -> holds o done (repeat_index x n (so_ignore_default o)).
Proof.
  intros o done x n [Hp [Hd [Hy [Hdr Hk]]]] H1 Hn. rewrite H1 in *.
  assert (Hx : of_length 1 x) by (apply of_length_proper; auto). destruct (repeat_index_spec x n (so_ignore_default o) Hx Hn) as [Hof Hc].
  apply of_length_proper in Hof. destruct Hof as [Hp' Hl']. unfold holds. rewrite Hl'. split; [exact Hp'|]. split; [exact Hd|].
  split; [intros y Hin; destruct (Hy y Hin); split; auto; lia|].
  assert (Hys : Forall (fun l => length (lv_values l) = 1) (flat_map levels_of done)) by (apply flat_lengths; intros y Hin; destruct (Hy y Hin); split; auto; lia).
  assert (Hl1 : forall y l, In y done -> In l (levels_of y) -> length (lv_values l) = 1) by (intros y l Hin Hl; destruct (Hy y Hin); rewrite (level_lengths y l); auto; lia).
  destruct Hc as [[-> [Hig Hdef]]| ->].
  - cbn [levels_of]. split.
    + destruct done as [|y0 done]; [congruence|]. cbn [flat_map]. destruct (Hy y0 (or_introl eq_refl)) as [[_ Hne] _].
      destruct (levels_of y0) as [|l0 ls]; [congruence|]. cbn [app]. apply dr_take; [right; split; [apply range_is_range|exact Hn]|]. apply drawn_nil_l.
    + intros y l Hin Hl. right. split; [right; exact Hig|]. pose proof (Hl1 y l Hin Hl) as Hll. destruct Hdef as [l0 [-> Hr]]. cbn [levels_of] in Hk.
      destruct (Hk y l Hin Hl) as [[E|[]]|[_ Hu]].
      * apply stretch_range; auto. rewrite (stretch_id 1 l Hll) in E. congruence.
      * apply (stretch_uninformative 1 n); auto; lia.
  - split; [apply drawn_stretch; auto|]. intros y l Hin Hl. pose proof (Hl1 y l Hin Hl) as Hll. destruct (Hk y l Hin Hl) as [E|[Hlo Hu]].
    + left. rewrite (stretch_id 1 l Hll) in E. apply in_map. exact E.
    + right. split; [exact Hlo|]. apply (stretch_uninformative 1 n); auto; lia.
Qed.

Lemma holds_stack : forall o done x y y' s, holds o done x -> proper_index y -> (index_len y = index_len x \/ index_len y = 1) ->
  of_length (index_len x) y' -> levels_of y' = map (stretch_level (index_len x)) (levels_of y) ->
  stack_indexes [x; y'] (so_drop_dup o) (so_keep_first o) (so_drop_red o) = Ok s ->
  holds o (done ++ [y]) s /\ index_len s = index_len x.
Proof.
  intros o done x y y' s [Hp [Hd [Hy [Hdr Hk]]]] Hpy Hly Hof Hlev H.
  assert (Hofx : of_length (index_len x) x) by (apply of_length_proper; auto).
  destruct (stack_spec x y' (so_drop_dup o) (so_keep_first o) (so_drop_red o) _ Hofx Hof) as [s' [Es [Hofs [Hsub Hin]]]].
  rewrite Es in H. inversion H; subst s'. clear H. apply of_length_proper in Hofs. destruct Hofs as [Hps Hls]. split; [|exact Hls].
  unfold holds. rewrite Hls. split; [exact Hps|]. split; [destruct done; discriminate|]. split; [|split].
  - intros z Hz. apply in_app_or in Hz. destruct Hz as [Hz|[<-|[]]]; [apply Hy; exact Hz|]. split; [exact Hpy|]. tauto.
  - rewrite flat_map_app. cbn [flat_map]. rewrite app_nil_r. eapply drawn_sub; [|exact Hsub]. apply drawn_app; [exact Hdr|]. rewrite Hlev. apply drawn_map.
  - intros z l Hz Hl. assert (Hc : In (stretch_level (index_len x) l) (levels_of x ++ levels_of y') \/ (lossy o /\ uninformative (stretch_level (index_len x) l))).
    { apply in_app_or in Hz. destruct Hz as [Hz|[<-|[]]].
      - destruct (Hk z l Hz Hl) as [E|E]; [left; apply in_or_app; auto|right; exact E].
      - left. apply in_or_app. right. rewrite Hlev. now apply in_map. }
    destruct Hc as [Hc|Hc]; [|right; exact Hc]. destruct (Hin _ Hc) as [E|[E1 E2]]; [left; exact E|]. right. split; [left; exact E1|exact E2].
Qed.

Lemma stack_one_holds : forall o done x y s, holds o done x -> proper_index y -> ~ default_index y ->
  stack_one o false (Some x) y = Ok s -> exists x', s = Some x' /\ holds o (done ++ [y]) x'.
Proof.
  intros o done x y s Hh Hpy Hnd H. unfold stack_one in H. destruct (is_index_equal y x) eqn:Ee.
  - apply is_index_equal_spec in Ee. subst y. inversion H; subst. exists x. split; [reflexivity|].
    destruct Hh as [Hp [Hd [Hy [Hdr Hk]]]]. split; [exact Hp|]. split; [destruct done; discriminate|]. split; [|split].
    + intros z Hz. apply in_app_or in Hz. destruct Hz as [Hz|[<-|[]]]; [apply Hy; exact Hz|auto].
    + rewrite flat_map_app. apply drawn_app_skip. exact Hdr.
    + intros z l Hz Hl. apply in_app_or in Hz. destruct Hz as [Hz|[<-|[]]]; [apply (Hk z l Hz Hl)|]. left. rewrite stretch_id; [exact Hl|]. now apply level_lengths.
  - unfold raise_if at 1 in H. cbn [negb] in H. apply raise_if_ok in H. destruct H as [Hlen H]. cbv zeta in H. apply bind_ok in H. destruct H as [st [Hst H]]. inversion H; subst s. clear H.
    exists st. split; [reflexivity|].
    assert (Hpx : proper_index x) by exact (proj1 Hh).
    assert (Hnz : (index_len x = index_len y) \/ (index_len x < index_len y /\ index_len x <= 1) \/ (index_len y < index_len x /\ index_len y <= 1)).
    { apply andb_false_iff in Hlen. rewrite negb_false_iff, Nat.eqb_eq, andb_false_iff, !Nat.ltb_ge in Hlen. lia. }
    destruct Hnz as [E|[[Hlt Hle]|[Hlt Hle]]].
    + rewrite E, !Nat.ltb_irrefl in Hst. apply (holds_stack o done x y y st Hh); auto.
      * apply of_length_proper. auto.
      * rewrite stretch_map_id; [reflexivity|]. rewrite E. apply Hpy.
    + rewrite (proj2 (Nat.ltb_lt _ _) Hlt) in Hst. replace (Nat.ltb (index_len y) (index_len x)) with false in Hst by (symmetry; apply Nat.ltb_ge; lia).
      destruct (Nat.eq_dec (index_len x) 0) as [E0|Hn0].
      { exfalso. assert (Ho : of_length 0 (repeat_index x (index_len y) (so_ignore_default o))) by (apply repeat_index_empty; apply of_length_proper; auto).
        assert (Hoy : of_length (index_len y) y) by (apply of_length_proper; auto). pose proof (stack_lengths _ _ _ _ _ _ _ _ Ho Hoy Hst). lia. }
      assert (E1 : index_len x = 1) by lia. assert (H2 : 2 <= index_len y) by lia.
      pose proof (holds_repeat o done x (index_len y) Hh E1 H2) as Hr.
      assert (Hlr : index_len (repeat_index x (index_len y) (so_ignore_default o)) = index_len y).
      { assert (Ho : of_length 1 x) by (apply of_length_proper; auto). destruct (repeat_index_spec x _ (so_ignore_default o) Ho H2) as [Hof _]. apply of_length_proper in Hof. apply Hof. }
      apply (holds_stack o done _ y y st Hr); auto; rewrite Hlr; auto.
      * apply of_length_proper. auto.
      * rewrite stretch_map_id; [reflexivity|]. apply Hpy.
    + rewrite (proj2 (Nat.ltb_lt _ _) Hlt) in Hst. replace (Nat.ltb (index_len x) (index_len y)) with false in Hst by (symmetry; apply Nat.ltb_ge; lia).
      destruct (Nat.eq_dec (index_len y) 0) as [E0|Hn0].
      { exfalso. assert (Ho : of_length 0 (repeat_index y (index_len x) (so_ignore_default o))) by (apply repeat_index_empty; apply of_length_proper; auto).
        assert (Hox : of_length (index_len x) x) by (apply of_length_proper; auto). pose proof (stack_lengths _ _ _ _ _ _ _ _ Hox Ho Hst). lia. }
      assert (E1 : index_len y = 1) by lia. assert (H2 : 2 <= index_len x) by lia.
      assert (Ho : of_length 1 y) by (apply of_length_proper; auto). destruct (repeat_index_spec y _ (so_ignore_default o) Ho H2) as [Hof Hc].
      destruct Hc as [[_ [_ Hdef]]|Hc]; [contradiction|].
      apply (holds_stack o done x y _ st Hh Hpy (or_intror E1) Hof Hc Hst).
Qed.

Lemma stack_all_holds : forall o ys done x s, holds o done x -> Forall (fun y => proper_index y /\ ~ default_index y) ys ->
  foldM (stack_one o false) (Some x) ys = Ok s -> exists x', s = Some x' /\ holds o (done ++ ys) x'.
Proof.
  induction ys as [|y ys IH]; intros done x s Hh Hf H; cbn [foldM] in H.
  - inversion H; subst. exists x. rewrite app_nil_r. auto.
  - apply bind_ok in H. destruct H as [s1 [H1 H]]. inversion Hf as [|? ? [Hp Hn] Hf']; subst.
    destruct (stack_one_holds o done x y s1 Hh Hp Hn H1) as [x1 [-> Hh1]]. destruct (IH _ _ _ Hh1 Hf' H) as [x' [E Hx']]. exists x'. split; [exact E|].
    rewrite <- app_assoc in Hx'. exact Hx'.
Qed.

(** Stacking succeeds when all lengths are one or a common one. *)
Lemma stack_all_total : forall o ys done x m, holds o done x -> Forall (fun y => proper_index y /\ ~ default_index y) ys ->
  1 <= m -> (index_len x = m \/ index_len x = 1) -> Forall (fun y => index_len y = m \/ index_len y = 1) ys ->
  exists x', foldM (stack_one o false) (Some x) ys = Ok (Some x') /\ (index_len x' = m \/ index_len x' = 1).
Proof.
  induction ys as [|y ys IH]; intros done x m Hh Hf Hm Hx Hy; [exists x; auto|]. cbn [foldM].
  inversion Hf as [|? ? [Hp Hn] Hf']; subst. inversion Hy as [|? ? Hy0 Hy']; subst.
  assert (Hs : exists s, stack_one o false (Some x) y = Ok (Some s) /\ (index_len s = m \/ index_len s = 1)).
  { unfold stack_one. destruct (is_index_equal y x); [exists x; auto|]. unfold raise_if at 1.
    unfold raise_if. replace (negb _ && _) with false.
    2:{ symmetry. apply andb_false_iff. rewrite negb_false_iff, Nat.eqb_eq, andb_false_iff, !Nat.ltb_ge. lia. }
    cbv zeta. set (n := Nat.max (index_len x) (index_len y)).
    assert (Hpx : proper_index x) by exact (proj1 Hh).
    assert (Ha : of_length n (if Nat.ltb (index_len x) (index_len y) then repeat_index x (index_len y) (so_ignore_default o) else x)).
    { destruct (Nat.ltb_spec (index_len x) (index_len y)).
      - replace n with (index_len y) by (unfold n; lia). apply repeat_index_spec; [apply of_length_proper; split; [auto|lia]|lia].
      - apply of_length_proper. split; [auto|unfold n; lia]. }
    assert (Hb : of_length n (if Nat.ltb (index_len y) (index_len x) then repeat_index y (index_len x) (so_ignore_default o) else y)).
    { destruct (Nat.ltb_spec (index_len y) (index_len x)).
      - replace n with (index_len x) by (unfold n; lia). apply repeat_index_spec; [apply of_length_proper; split; [auto|lia]|lia].
      - apply of_length_proper. split; [auto|unfold n; lia]. }
    destruct (stack_spec _ _ (so_drop_dup o) (so_keep_first o) (so_drop_red o) n Ha Hb) as [s [-> [Hs _]]]. cbn [bind]. exists s. split; [reflexivity|].
    apply of_length_proper in Hs. destruct Hs as [_ ->]. unfold n. lia. }
  destruct Hs as [s [Es Hl]]. rewrite Es. cbn [bind]. destruct (stack_one_holds o done x y _ Hh Hp Hn Es) as [x1 [E1 Hh1]]. inversion E1; subst x1.
  apply (IH (done ++ [y]) s m); auto.
Qed.

(** When broadcasting is strict, all are the same. *)
Lemma stack_strict : forall o ys x s, foldM (stack_one o true) (Some x) ys = Ok s -> s = Some x /\ Forall (eq x) ys.
Proof.
  induction ys as [|y ys IH]; intros x s H; cbn [foldM] in H; [inversion H; auto|]. apply bind_ok in H. destruct H as [s1 [H1 H]].
  unfold stack_one in H1. destruct (is_index_equal y x) eqn:E; [|discriminate H1]. apply is_index_equal_spec in E. subst y. inversion H1; subst s1.
  destruct (IH _ _ H) as [-> Hf]. auto.
Qed.
Lemma stack_strict_total : forall o ys x, Forall (eq x) ys -> foldM (stack_one o true) (Some x) ys = Ok (Some x).
Proof.
  intros o ys x H. induction H as [|y ys <- H IH]; [reflexivity|]. cbn [foldM]. unfold stack_one at 1.
  replace (is_index_equal x x) with true by (symmetry; now apply is_index_equal_spec). exact IH.
Qed.

(** ** Conflicts *)
Lemma conflict_spec : forall xs y, index_conflict (Some y) xs = false <-> Forall (eq y) xs.
Proof.
  induction xs as [|x xs IH]; intros y; cbn [index_conflict]; [split; auto|]. rewrite orb_false_iff, negb_false_iff, is_index_equal_spec, IH. split.
  - intros [-> H]. constructor; auto.
  - intros H. inversion H; subst. auto.
Qed.
Lemma conflict_none : forall xs, index_conflict None xs = false <-> (xs = [] \/ exists x, Forall (eq x) xs /\ xs <> []).
Proof.
  intros [|x xs]; cbn [index_conflict orb]; [split; auto|]. rewrite conflict_spec. split.
  - intros H. right. exists x. split; [constructor; auto|discriminate].
  - intros [H|[z [H _]]]; [discriminate|]. inversion H; subst. assumption.
Qed.
Lemma last_all : forall (xs : list Index) x, Forall (eq x) xs -> xs <> [] -> last (map Some xs) None = Some x.
Proof.
  intros xs x H Hne. induction H as [|y xs <- H IH]; [congruence|]. destruct xs as [|z xs]; [reflexivity|].
  change (last (map Some (z :: xs)) None = Some x). apply IH. discriminate.
Qed.

Lemma pick_labels : forall {A} (args : list (BArg A)) c, pick_indexes args c = all_labels c args.
Proof.
  intros A args c. unfold pick_indexes, all_labels. apply flat_map_ext. intros [a|i nm l|i cs rows]; cbn [get_index labels_on]; auto.
  destruct c; [|reflexivity]. destruct nm as [[|x [|]]|]; reflexivity.
Qed.
Lemma label_proper : forall {A} (x : BArg A) c i, consistent x -> In i (labels_on c x) -> proper_index i.
Proof.
  intros A [a|ix nm l|ix cs rows] c i Hc Hi; cbn [labels_on] in Hi; [contradiction| |]; cbn in Hc.
  - destruct c; destruct Hi as [<-|[]]; [|apply Hc]. destruct Hc as [_ [_ Hn]].
    destruct nm as [[|x [|y ls]]|]; [congruence| | |]; split; try discriminate; repeat constructor; cbn.
    apply Forall_forall. intros v Hv. apply in_map_iff in Hv. destruct Hv as [w [<- _]]. reflexivity.
  - destruct c; destruct Hi as [<-|[]]; apply Hc.
Qed.
Lemma all_proper : forall {A} (args : list (BArg A)) c i, Forall consistent args -> In i (all_labels c args) -> proper_index i.
Proof.
  intros A args c i Hf Hi. apply in_flat_map in Hi. destruct Hi as [x [Hx Hi]]. eapply label_proper; [|exact Hi]. eapply Forall_forall in Hf; eauto.
Qed.
Lemma label_length : forall {A} (x : BArg A) c i two, consistent x -> In i (labels_on c x) -> index_len i = if c then width two x else height two x.
Proof.
  intros A [a|ix nm l|ix cs rows] c i two Hc Hi; cbn [labels_on] in Hi; [contradiction| |]; cbn in Hc.
  - destruct c; destruct Hi as [<-|[]]; cbn [height width]; [|apply Hc]. destruct Hc as [_ [_ Hn]]. destruct nm as [[|x [|y ls]]|]; [congruence| | |]; reflexivity.
  - destruct c; destruct Hi as [<-|[]]; cbn [height width]; [reflexivity|apply Hc].
Qed.
