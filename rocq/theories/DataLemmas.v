From Coq Require Import String ZArith Bool List Arith Lia Permutation Sorted.
From Verif Require Import Base Num Dicts Data DataSpec.
Import ListNotations.

Lemma label_eqb_eq a b : label_eqb a b = true <-> a = b.
Proof.
  destruct a, b; cbn; try (split; intro H; [discriminate H|discriminate H]).
  - rewrite Z.eqb_eq. split; intro H; [now subst|now injection H].
  - rewrite String.eqb_eq. split; intro H; [now subst|now injection H].
  - rewrite Z.eqb_eq. split; intro H; [now subst|now injection H].
  - rewrite Z.eqb_eq. split; intro H; [now subst|now injection H].
Qed.
Lemma label_eqb_refl a : label_eqb a a = true. Proof. now apply label_eqb_eq. Qed.
Lemma label_eqb_neq a b : a <> b -> label_eqb a b = false.
Proof. intro H. destruct (label_eqb a b) eqn:E; [|reflexivity]. apply label_eqb_eq in E. contradiction. Qed.
Lemma label_dec (a b : label) : {a = b} + {a <> b}.
Proof. destruct (label_eqb a b) eqn:E; [left; now apply label_eqb_eq|right; intros ->; now rewrite label_eqb_refl in E]. Qed.
Lemma mem_In a l : mem a l = true <-> In a l.
Proof.
  unfold mem. rewrite existsb_exists. split.
  - intros (x & Hx & E). apply label_eqb_eq in E. now subst.
  - intro H. exists a. split; [exact H|apply label_eqb_refl].
Qed.
Lemma mem_false a l : mem a l = false <-> ~ In a l.
Proof. rewrite <- mem_In. destruct (mem a l); split; intro H; try easy; now exfalso; apply H. Qed.
Lemma same_labels_eq a : forall b, same_labels a b = true <-> a = b.
Proof.
  induction a as [|x a IH]; intros [|y b]; cbn; try easy.
  rewrite andb_true_iff, label_eqb_eq, IH. split; [intros [-> ->]; reflexivity|intro H; injection H; auto].
Qed.
Lemma has_dups_NoDup l : has_dups l = false <-> NoDup l.
Proof.
  induction l as [|a l IH]; cbn; [split; [constructor|reflexivity]|].
  rewrite orb_false_iff, mem_false, IH. split; [intros [H1 H2]; now constructor|intro H; inversion H; auto].
Qed.

Lemma in_intersection r a b : In r (intersection a b) <-> In r a /\ In r b.
Proof. unfold intersection. now rewrite filter_In, mem_In. Qed.
Lemma insert_perm a l : Permutation (insert a l) (a :: l).
Proof.
  induction l as [|b l IH]; cbn; [reflexivity|]. destruct (label_leb a b); [reflexivity|].
  rewrite IH. apply perm_swap.
Qed.
Lemma sort_perm l : Permutation (sort_labels l) l.
Proof. induction l as [|a l IH]; cbn; [reflexivity|]. rewrite insert_perm. now constructor. Qed.
Definition all_of (a b : list label) : list label := a ++ filter (fun x => negb (mem x a)) b.
Lemma filter_true {A} (f : A -> bool) l : (forall x, In x l -> f x = true) -> filter f l = l.
Proof.
  induction l as [|a l IH]; cbn; intro H; [reflexivity|]. rewrite (H a) by now left. f_equal. apply IH. intros; apply H; now right.
Qed.
Lemma filter_false {A} (f : A -> bool) l : (forall x, In x l -> f x = false) -> filter f l = [].
Proof.
  induction l as [|a l IH]; cbn; intro H; [reflexivity|]. rewrite (H a) by now left. apply IH. intros; apply H; now right.
Qed.
Lemma union_perm a b : Permutation (union a b) (all_of a b).
Proof.
  unfold union, all_of. destruct a as [|x a].
  - cbn [app]. rewrite filter_true; [reflexivity|]. intros; reflexivity.
  - destruct b as [|y b]; [cbn [filter]; rewrite app_nil_r; reflexivity|].
    match goal with |- context [if ?c then _ else _] => destruct c end; [apply sort_perm|reflexivity].
Qed.
Lemma in_union r a b : In r (union a b) <-> In r a \/ In r b.
Proof.
  rewrite (Permutation_in' (eq_refl r) (union_perm a b)). unfold all_of.
  rewrite in_app_iff, filter_In. destruct (in_dec label_dec r a) as [H|H]; [tauto|].
  apply mem_false in H as H'. rewrite H'. cbn. tauto.
Qed.
Lemma all_of_nodup a b : NoDup a -> NoDup b -> NoDup (all_of a b).
Proof.
  intros Ha Hb. unfold all_of. induction a as [|x a IH]; cbn.
  - now apply NoDup_filter.
  - assert (G : forall l1 l2 : list label, NoDup l1 -> NoDup l2 -> (forall z, In z l1 -> ~ In z l2) -> NoDup (l1 ++ l2)).
    { clear. induction l1 as [|z l1 IH]; intros l2 H1 H2 H; cbn; [exact H2|]. inversion H1; subst. constructor.
      - rewrite in_app_iff. intros [Hz|Hz]; [contradiction|]. now apply (H z (or_introl eq_refl)).
      - apply IH; auto. intros; apply H; now right. }
    change (NoDup ((x :: a) ++ filter (fun x0 => negb (mem x0 (x :: a))) b)).
    apply G; [exact Ha|now apply NoDup_filter|]. intros z Hz Hz'. apply filter_In in Hz'. destruct Hz' as [_ Hn].
    apply mem_In in Hz. rewrite Hz in Hn. discriminate.
Qed.
Lemma union_nodup a b : NoDup a -> NoDup b -> NoDup (union a b).
Proof. intros Ha Hb. apply (Permutation_NoDup (Permutation_sym (union_perm a b))). now apply all_of_nodup. Qed.

Lemma filter_len_le {A} (f : A -> bool) l : List.length (filter f l) <= List.length l.
Proof. induction l as [|a l IH]; cbn; [lia|]. destruct (f a); cbn; lia. Qed.
Lemma filter_len_eq {A} (f : A -> bool) l : List.length (filter f l) = List.length l -> forall x, In x l -> f x = true.
Proof.
  induction l as [|a l IH]; cbn; intros H x Hx; [easy|]. destruct (f a) eqn:E; cbn in H.
  - destruct Hx as [->|Hx]; [exact E|]. apply IH; [lia|exact Hx].
  - pose proof (filter_len_le f l). lia.
Qed.
Lemma same_set_refl a : same_set a a. Proof. intro r; reflexivity. Qed.
Lemma same_set_sym a b : same_set a b -> same_set b a. Proof. intros H r; symmetry; apply H. Qed.
Lemma same_set_trans a b c : same_set a b -> same_set b c -> same_set a c.
Proof. intros H1 H2 r. rewrite (H1 r). apply H2. Qed.
(** equal sizes of intersection and union: the same labels *)
Lemma sizes_agree a b : Nat.eqb (List.length (intersection a b)) (List.length (union a b)) = true <-> same_set a b.
Proof.
  rewrite Nat.eqb_eq, (Permutation_length (union_perm a b)). unfold all_of, intersection. rewrite app_length. split.
  - intro H. pose proof (filter_len_le (fun x => mem x b) a) as H1.
    assert (E1 : List.length (filter (fun x => mem x b) a) = List.length a) by lia.
    assert (E2 : filter (fun x => negb (mem x a)) b = []).
    { destruct (filter (fun x => negb (mem x a)) b); [reflexivity|cbn in H; lia]. }
    intro r. split; intro Hr.
    + apply mem_In. exact (filter_len_eq _ _ E1 r Hr).
    + destruct (in_dec label_dec r a) as [Hi|Hi]; [exact Hi|]. exfalso.
      assert (Hf : In r (filter (fun x => negb (mem x a)) b)).
      { apply filter_In. split; [exact Hr|]. apply mem_false in Hi. now rewrite Hi. }
      rewrite E2 in Hf. exact Hf.
  - intro H. rewrite filter_true, filter_false; [cbn; lia| |].
    + intros x Hx. apply H in Hx. apply mem_In in Hx. now rewrite Hx.
    + intros x Hx. apply mem_In. now apply H.
Qed.

(** *** sorting *)
Definition le_label (a b : label) : Prop := label_leb a b = true.
Lemma comparable_refl a : comparable a a = true. Proof. now destruct a. Qed.
Lemma comparable_trans a b c : comparable a b = true -> comparable b c = true -> comparable a c = true.
Proof. now destruct a, b, c. Qed.
Lemma comparable_sym a b : comparable a b = true -> comparable b a = true.
Proof. now destruct a, b. Qed.
Lemma ascii_compare_trans a b c x : Ascii.compare a b = x -> Ascii.compare b c = x -> Ascii.compare a c = x.
Proof.
  unfold Ascii.compare. destruct x; intros H1 H2.
  - apply N.compare_eq in H1, H2. rewrite H1, H2. apply N.compare_refl.
  - rewrite N.compare_lt_iff in *. lia.
  - rewrite N.compare_gt_iff in *. lia.
Qed.
Lemma ascii_compare_eq a b : Ascii.compare a b = Eq -> a = b.
Proof. apply Ascii.compare_eq_iff. Qed.
Lemma ascii_compare_refl a : Ascii.compare a a = Eq.
Proof. unfold Ascii.compare. apply N.compare_refl. Qed.
Lemma string_lt_trans a : forall b c, String.compare a b = Lt -> String.compare b c = Lt -> String.compare a c = Lt.
Proof.
  induction a as [|x a IH]; intros [|y b] [|z c]; cbn; try easy.
  destruct (Ascii.compare x y) eqn:E1; [|intros _|easy].
  - apply ascii_compare_eq in E1. subst. destruct (Ascii.compare y z) eqn:E2; try easy. apply IH.
  - destruct (Ascii.compare y z) eqn:E2; [|intros _|easy].
    + apply ascii_compare_eq in E2. subst. now rewrite E1.
    + now rewrite (ascii_compare_trans _ _ _ Lt E1 E2).
Qed.
Lemma string_compare_eq a b : String.compare a b = Eq -> a = b. Proof. apply String.compare_eq_iff. Qed.
Lemma le_before a b : comparable a b = true -> le_label a b -> a <> b -> before a b.
Proof.
  unfold le_label. destruct a as [x|x|x|x], b as [y|y|y|y]; cbn; try easy; intros _ H Hn;
    try (apply Z.leb_le in H; assert (x <> y) by congruence; lia).
  destruct (String.compare x y) eqn:E; try easy. apply string_compare_eq in E. congruence.
Qed.
Lemma not_le_before a b : comparable a b = true -> label_leb a b = false -> before b a.
Proof.
  destruct a as [x|x|x|x], b as [y|y|y|y]; cbn; try easy; intros _ H; try (apply Z.leb_gt in H; lia).
  destruct (String.compare x y) eqn:E; try easy. rewrite String.compare_antisym, E. reflexivity.
Qed.
Lemma before_trans a b c : before a b -> before b c -> before a c.
Proof.
  destruct a as [x|x|x|x], b as [y|y|y|y], c as [z|z|z|z]; cbn; try easy; try lia. apply string_lt_trans.
Qed.
Lemma insert_sorted a l : (forall b, In b l -> comparable a b = true) -> ~ In a l ->
  StronglySorted before l -> StronglySorted before (insert a l).
Proof.
  induction l as [|b l IH]; cbn; intros Hc Hn Hs; [repeat constructor|].
  inversion Hs as [|? ? Hs' Hf]; subst. destruct (label_leb a b) eqn:E.
  - assert (Hab : before a b) by (apply le_before; [apply Hc; now left|exact E|intros ->; apply Hn; now left]).
    constructor; [exact Hs|]. constructor; [exact Hab|]. rewrite Forall_forall in *. intros z Hz.
    eapply before_trans; [exact Hab|now apply Hf].
  - assert (Hba : before b a) by (apply not_le_before; [apply Hc; now left|exact E]).
    constructor; [apply IH; [intros; apply Hc; now right|intro; apply Hn; now right|exact Hs']|].
    rewrite Forall_forall in *. intros z Hz. apply (Permutation_in _ (insert_perm a l)) in Hz.
    destruct Hz as [<-|Hz]; [exact Hba|now apply Hf].
Qed.
Lemma sort_sorted l : of_one_kind l -> NoDup l -> StronglySorted before (sort_labels l).
Proof.
  induction l as [|a l IH]; cbn; intros Hk Hn; [constructor|]. inversion Hn; subst. apply insert_sorted.
  - intros b Hb. apply Hk; [now left|right]. exact (Permutation_in _ (sort_perm l) Hb).
  - intro Hi. apply (Permutation_in _ (sort_perm l)) in Hi. contradiction.
  - apply IH; [|assumption]. intros x y Hx Hy. apply Hk; now right.
Qed.
Lemma ascending_of l : StronglySorted before l -> ascending l.
Proof.
  induction 1 as [|a l Hs IH Hf]; intros i j x y Hij Hi Hj; [destruct i; discriminate|].
  destruct j as [|j]; [lia|]. cbn in Hj. destruct i as [|i]; cbn in Hi.
  - injection Hi as <-. rewrite Forall_forall in Hf. apply Hf. exact (nth_error_In _ _ Hj).
  - apply (IH i j); auto. lia.
Qed.
Lemma sorted_union a b : a <> [] -> b <> [] -> NoDup a -> NoDup b -> of_one_kind (union a b) -> StronglySorted before (union a b).
Proof.
  intros Ha Hb Na Nb Hk. pose proof (all_of_nodup a b Na Nb) as Nd.
  assert (Hk' : of_one_kind (all_of a b)).
  { intros x y Hx Hy. apply Hk; [exact (Permutation_in _ (Permutation_sym (union_perm a b)) Hx)|exact (Permutation_in _ (Permutation_sym (union_perm a b)) Hy)]. }
  destruct a as [|x a]; [easy|]. destruct b as [|y b]; [easy|].
  change (union (x :: a) (y :: b)) with (if forallb (comparable x) (all_of (x :: a) (y :: b)) then sort_labels (all_of (x :: a) (y :: b)) else all_of (x :: a) (y :: b)).
  assert (E : forallb (comparable x) (all_of (x :: a) (y :: b)) = true).
  { apply forallb_forall. intros z Hz. apply Hk'; [now left|exact Hz]. }
  rewrite E. now apply sort_sorted.
Qed.

(** ** joining the labels of all symbols *)
Definition pairwise_same (ls : list (list label)) : Prop := forall x y, In x ls -> In y ls -> same_set x y.
(** what the loop knows after the lists [seen], none of them skipped *)
Record knows (missing : mode) (seen : list (list label)) (l : list label) : Prop := {
  kn_nodup : NoDup l;
  kn_nan : missing = MNan -> forall r, In r l <-> exists x, In x seen /\ In r x;
  kn_drop : missing = MDrop -> exists f, hd_error seen = Some f /\ exists keep_, l = filter keep_ f /\
              forall r, In r f -> (keep_ r = true <-> forall x, In x seen -> In r x);
  kn_same : pairwise_same seen -> hd_error seen = Some l;
  kn_sorted : missing = MNan -> ~ In [] seen -> of_one_kind l -> ~ pairwise_same seen -> StronglySorted before l;
  kn_raise : missing = MRaise \/ missing = MOther -> pairwise_same seen
}.
Lemma hd_error_app {A} (l : list A) x a : hd_error l = Some a -> hd_error (l ++ [x]) = Some a.
Proof. destruct l; cbn; congruence. Qed.
Lemma kn_same_set missing seen l x : knows missing seen l -> missing <> MDrop -> pairwise_same seen -> In x seen -> same_set l x.
Proof.
  intros K _ Hp Hx. pose proof (kn_same _ _ _ K Hp) as Hh. destruct seen as [|f seen]; [easy|]. cbn in Hh. injection Hh as ->.
  apply Hp; [now left|exact Hx].
Qed.
Lemma join_step_ok missing what seen l v acc' : seen <> [] -> NoDup v -> knows missing seen l ->
  join_step missing what (Some l) v = Ok acc' -> exists l', acc' = Some l' /\ knows missing (seen ++ [v]) l'.
Proof.
  intros Hne Hv K H. unfold join_step in H.
  destruct (Nat.eqb (List.length (intersection l v)) (List.length (union l v))) eqn:E.
  - apply sizes_agree in E. injection H as <-. exists l. split; [reflexivity|]. destruct K as [K1 K2 K3 K4 K5 K6]. constructor; auto.
    + intros Em r. rewrite (K2 Em r). split.
      * intros (x & Hx & Hr). exists x. split; [apply in_or_app; now left|exact Hr].
      * intros (x & Hx & Hr). apply in_app_or in Hx. destruct Hx as [Hx|[<-|[]]]; [now exists x|]. apply (K2 Em). now apply E.
    + intro Em. destruct (K3 Em) as (f & Hf & kp & -> & Hk). exists f. split; [now apply hd_error_app|]. exists kp. split; [reflexivity|].
      intros r Hr. rewrite (Hk r Hr). split.
      * intros Ha x Hx. apply in_app_or in Hx. destruct Hx as [Hx|[<-|[]]]; [now apply Ha|]. apply E. apply filter_In. split; [exact Hr|]. now apply Hk.
      * intros Ha x Hx. apply Ha. apply in_or_app. now left.
    + intro Hp. apply hd_error_app, K4. intros x y Hx Hy. apply Hp; apply in_or_app; now left.
    + intros Em Hn Hk Hp. apply K5; auto.
      * intro Hi. apply Hn. apply in_or_app. now left.
      * intro Hp'. apply Hp. pose proof (K4 Hp') as Hh. destruct seen as [|f seen]; [easy|]. cbn in Hh. injection Hh as ->.
        assert (Hall : forall x, In x ((l :: seen) ++ [v]) -> same_set l x).
        { intros x Hx. apply in_app_or in Hx. destruct Hx as [Hx|[<-|[]]]; [apply Hp'; [now left|exact Hx]|exact E]. }
        intros x y Hx Hy. eapply same_set_trans; [apply same_set_sym, Hall, Hx|now apply Hall].
    + intro Em. pose proof (K6 Em) as Hp'. pose proof (K4 Hp') as Hh. destruct seen as [|f seen]; [easy|]. cbn in Hh. injection Hh as ->.
      assert (Hall : forall x, In x ((l :: seen) ++ [v]) -> same_set l x).
      { intros x Hx. apply in_app_or in Hx. destruct Hx as [Hx|[<-|[]]]; [apply Hp'; [now left|exact Hx]|exact E]. }
      intros x y Hx Hy. eapply same_set_trans; [apply same_set_sym, Hall, Hx|now apply Hall].
  - assert (E' : ~ same_set l v) by (intro Hs; apply sizes_agree in Hs; congruence).
    destruct missing; try discriminate; injection H as <-.
    + exists (union l v). split; [reflexivity|]. destruct K as [K1 K2 K3 K4 K5 K6]. constructor; try easy.
      * now apply union_nodup.
      * intros _ r. rewrite in_union, (K2 eq_refl r). split.
        -- intros [(x & Hx & Hr)|Hr]; [exists x; split; [apply in_or_app; now left|exact Hr]|exists v; split; [apply in_or_app; right; now left|exact Hr]].
        -- intros (x & Hx & Hr). apply in_app_or in Hx. destruct Hx as [Hx|[<-|[]]]; [left; now exists x|now right].
      * intro Hp. exfalso. apply E'.
        assert (Hp' : pairwise_same seen) by (intros x y Hx Hy; apply Hp; apply in_or_app; now left).
        pose proof (K4 Hp') as Hh. destruct seen as [|f seen]; [easy|]. cbn in Hh. injection Hh as ->.
        apply Hp; apply in_or_app; [left|right]; now left.
      * intros _ Hn Hk _. apply sorted_union; auto.
        -- destruct seen as [|f seen]; [easy|]. intros ->. destruct f as [|z f]; [apply Hn; now left|].
           apply (proj2 (K2 eq_refl z)). exists (z :: f). split; now left.
        -- intros ->. apply Hn. apply in_or_app. right. now left.
      * now intros [? | ?].
    + exists (intersection l v). split; [reflexivity|]. destruct K as [K1 K2 K3 K4 K5 K6]. constructor; try easy.
      * unfold intersection. now apply NoDup_filter.
      * intros _. destruct (K3 eq_refl) as (f & Hf & kp & -> & Hk). exists f. split; [now apply hd_error_app|].
        exists (fun r => kp r && mem r v). split.
        -- unfold intersection. clear. induction f as [|z f IH]; cbn; [reflexivity|]. destruct (kp z); cbn; [|exact IH].
           destruct (mem z v); now rewrite IH.
        -- intros r Hr. rewrite andb_true_iff, mem_In, (Hk r Hr). split.
           ++ intros [Ha Hb] x Hx. apply in_app_or in Hx. destruct Hx as [Hx|[<-|[]]]; auto.
           ++ intro Ha. split; [intros x Hx; apply Ha, in_or_app; now left|apply Ha, in_or_app; right; now left].
      * intro Hp. exfalso. apply E'.
        assert (Hp' : pairwise_same seen) by (intros x y Hx Hy; apply Hp; apply in_or_app; now left).
        pose proof (K4 Hp') as Hh. destruct seen as [|f seen]; [easy|]. cbn in Hh. injection Hh as ->.
        apply Hp; apply in_or_app; [left|right]; now left.
      * now intros [? | ?].
Qed.
Lemma join_fold missing what rest : forall seen l l', seen <> [] -> Forall (@NoDup label) rest -> knows missing seen l ->
  foldM (join_step missing what) (Some l) rest = Ok l' -> exists m, l' = Some m /\ knows missing (seen ++ rest) m.
Proof.
  induction rest as [|v rest IH]; intros seen l l' Hne Hn K H; cbn [foldM] in H.
  - injection H as <-. exists l. now rewrite app_nil_r.
  - inversion Hn; subst. destruct (join_step missing what (Some l) v) as [acc'|] eqn:E; [|discriminate]. cbn [bind] in H.
    destruct (join_step_ok _ _ _ _ _ _ Hne H2 K E) as (l1 & -> & K1).
    apply (IH (seen ++ [v]) l1) in H; auto; [|now destruct seen].
    destruct H as (m & -> & Km). exists m. split; [reflexivity|]. now rewrite <- app_assoc in Km.
Qed.
Lemma knows_first missing v : NoDup v -> knows missing [v] v.
Proof.
  intro Hv. assert (Hp : pairwise_same [v]) by (intros x y [<-|[]] [<-|[]]; apply same_set_refl).
  constructor; try easy.
  - intros _ r. split; [intro Hr; exists v; split; [now left|exact Hr]|intros (x & [<-|[]] & Hr); exact Hr].
  - intros _. exists v. split; [reflexivity|]. exists (fun _ => true). split; [symmetry; now apply filter_true|].
    intros r Hr. split; [intros _ x [<-|[]]; exact Hr|reflexivity].
Qed.
Lemma knows_joined missing ls l : ls <> [] -> knows missing ls l -> joined missing ls l.
Proof.
  intros Hne K. split; [apply K|]. destruct ls as [|f ls]; [easy|]. destruct K as [K1 K2 K3 K4 K5 K6]. destruct missing.
  - split; [now apply K2|]. split.
    + intro Hp. pose proof (K4 Hp) as Hh. cbn in Hh. congruence.
    + intros x y Hx Hy Hd Hn Hk. apply ascending_of, K5; auto.
  - destruct (K3 eq_refl) as (g & Hg & kp & -> & Hk). cbn in Hg. injection Hg as <-. now exists kp.
  - specialize (K6 (or_introl eq_refl)). split; [exact K6|]. specialize (K4 K6). cbn in K4. congruence.
  - specialize (K6 (or_intror eq_refl)). split; [exact K6|]. specialize (K4 K6). cbn in K4. congruence.
Qed.
Lemma join_labels_joined missing what ls l : ls <> [] -> Forall (@NoDup label) ls ->
  join_labels missing what ls = Ok l -> joined missing ls l.
Proof.
  intros Hne Hn H. destruct ls as [|v rest]; [easy|]. inversion Hn; subst. unfold join_labels in H. cbn [foldM join_step] in H.
  cbn [bind] in H. destruct (foldM (join_step missing what) (Some v) rest) as [acc|] eqn:E; [|discriminate]. cbn in H. injection H as <-.
  destruct (join_fold missing what rest [v] v acc) as (m & -> & Km); auto; [easy|now apply knows_first|].
  now apply knows_joined.
Qed.
(** joining is refused only for different labels *)
Lemma join_fold_total missing what rest : forall l, (missing = MNan \/ missing = MDrop) \/ (forall x, In x rest -> same_set l x) ->
  exists m, foldM (join_step missing what) (Some l) rest = Ok (Some m).
Proof.
  induction rest as [|v rest IH]; intros l H; cbn; [now exists l|].
  destruct (Nat.eqb (List.length (intersection l v)) (List.length (union l v))) eqn:E; cbn.
  - apply IH. destruct H as [H|H]; [now left|right; intros; apply H; now right].
  - destruct H as [[ -> | -> ]|H].
    + cbn. apply IH. left; now left.
    + cbn. apply IH. left; now right.
    + exfalso. assert (Hs : same_set l v) by (apply H; now left). apply sizes_agree in Hs. congruence.
Qed.
Lemma join_labels_total missing what ls : (missing = MNan \/ missing = MDrop) \/ pairwise_same ls ->
  exists l, join_labels missing what ls = Ok l.
Proof.
  intro H. unfold join_labels. destruct ls as [|v rest]; [now exists []|]. cbn [foldM join_step bind].
  destruct (join_fold_total missing what rest v) as (m & ->).
  - destruct H as [H|H]; [now left|right]. intros x Hx. apply H; [now left|now right].
  - now exists m.
Qed.
