(** * Indicators over parameters: the raw results *)
From Coq Require Import String ZArith Bool List Arith Lia.
From Verif Require Import Base Grouper IndexFns BaseFnsLemmas4 BroadcastLemmas2 Indicator IndicatorSpec IndicatorLemmas.
Import ListNotations.
Local Open Scope nat_scope.

Section Pipeline.
Context {V P : Type}.
Variable peq : P -> P -> bool.
Variable hashable : P -> bool.

(** The arrays of output [k], one after the other *)
Definition blocks {R} (g : R -> list (Frame V)) (results : list R) (k : nat) : Frame V :=
  List.concat (map (fun r => nth k (g r) []) results).

Lemma nth_repeat_lt : forall {A} (x d : A) n i, i < n -> nth i (repeat x n) d = x.
Proof. induction n as [|n IH]; intros i Hi; [lia|]. destruct i; [reflexivity|]. apply IH. lia. Qed.

(** in-place outputs *)
Lemma given_all : forall (l : list (option (Frame V))), Forall (fun x => x <> None) l ->
  given_idxs l = seq 0 (length l) /\ map Some (given l) = l.
Proof.
  intros l H. split.
  - unfold given_idxs. generalize 0. induction H as [|x l Hx H IH]; intros s; [reflexivity|]. cbn [length seq combine filter snd].
    destruct x; [|congruence]. cbn [map fst]. f_equal. apply IH.
  - induction H as [|x l Hx H IH]; [reflexivity|]. destruct x; [|congruence]. unfold given in *. cbn [flat_map app map]. congruence.
Qed.
Lemma given_none : forall (l : list (option (Frame V))), Forall (fun x => x = None) l -> given_idxs l = [].
Proof.
  intros l H. unfold given_idxs. generalize 0. induction H as [|x l Hx H IH]; intros s; [reflexivity|]. subst. cbn [length seq combine filter snd]. apply IH.
Qed.
Lemma existsb_seq : forall i n, i < n -> existsb (Nat.eqb i) (seq 0 n) = true.
Proof. intros i n H. apply existsb_exists. exists i. split; [apply in_seq; lia|apply Nat.eqb_refl]. Qed.

Definition wide_of (new : nat -> nat -> Frame V) (pc : bool) (n c2 : nat) (q : nat * option (Frame V)) : Frame V :=
  match snd q with Some f => if pc then f else List.concat (repeat f n) | None => new (fst q) (c2 * n) end.
Lemma wide_all : forall new (fs : list (Frame V)) pc n c2 left i N, i + left <= N -> left + i = length fs ->
  wide_in_outputs new (seq 0 N) fs pc n c2 i i left = Ok (map (fun f => if pc then f else List.concat (repeat f n)) (skipn i fs)).
Proof.
  intros new fs pc n c2. induction left as [|left IH]; intros i N H Hl; cbn [wide_in_outputs].
  - rewrite skipn_all2 by lia. reflexivity.
  - rewrite existsb_seq by lia. destruct (nth_error fs i) as [f|] eqn:E; [|apply nth_error_None in E; lia].
    rewrite IH by lia. cbn [bind]. destruct (nth_error_split fs i E) as (l1 & l2 & -> & Hl1).
    rewrite !skipn_app. rewrite (@skipn_all2 _ i l1), (@skipn_all2 _ (S i) l1) by lia. replace (i - length l1) with 0 by lia. replace (S i - length l1) with 1 by lia. reflexivity.
Qed.
Lemma wide_none : forall new (fs : list (Frame V)) pc n c2 left i j,
  wide_in_outputs new [] fs pc n c2 i j left = Ok (map (fun k => new k (c2 * n)) (seq i left)).
Proof. intros new fs pc n c2. induction left as [|left IH]; intros i j; cbn [wide_in_outputs existsb]; [reflexivity|]. rewrite IH. reflexivity. Qed.

Lemma in_count : forall (l : list (option (Frame V))), Forall (fun x => x <> None) l \/ Forall (fun x => x = None) l ->
  match given_idxs l with [] => length l | _ => length (given_idxs l) end = length l.
Proof.
  intros l [H|H].
  - destruct (given_all l H) as [-> _]. rewrite seq_length. destruct (seq 0 (length l)); reflexivity.
  - rewrite (given_none l H). reflexivity.
Qed.
Lemma wide_some : forall new pc n c2 (fs : list (Frame V)) s,
  map (wide_of new pc n c2) (combine (seq s (length fs)) (map Some fs)) = map (fun f => if pc then f else List.concat (repeat f n)) fs.
Proof. intros new pc n c2. induction fs as [|f fs IH]; intros s; [reflexivity|]. cbn [length seq map combine]. f_equal. apply IH. Qed.
Lemma wide_spec : forall new pc n c2 (l : list (option (Frame V))), Forall (fun x => x <> None) l \/ Forall (fun x => x = None) l ->
  wide_in_outputs new (given_idxs l) (given l) pc n c2 0 0 (length l) = Ok (map (wide_of new pc n c2) (combine (seq 0 (length l)) l)).
Proof.
  intros new pc n c2 l [H|H].
  - destruct (given_all l H) as [Ei Eg]. rewrite Ei. assert (L : length (given l) = length l) by (rewrite <- Eg at 2; rewrite map_length; reflexivity).
    rewrite wide_all by lia. cbn [skipn]. f_equal. rewrite <- (wide_some new pc n c2 (given l) 0), L, Eg. reflexivity.
  - rewrite (given_none l H), wide_none. f_equal. generalize 0. induction H as [|x l Hx H IH]; intros s; [reflexivity|].
    subst. cbn [length seq map combine]. f_equal. apply IH.
Qed.

(** ** apply_func for every combination *)
Lemma from_apply_ok : forall m (apply : @Apply V P) inputs ready params ios outs rows cols n,
  keeps_shape m apply inputs rows cols -> n = n_values params -> rect params ->
  (forall l, In l ready -> length l = n) -> (forall p, p < n -> Forall (has_shape rows cols) (row ready p)) ->
  from_apply_func m apply inputs ready params = Ok (ios, outs) -> 0 < n ->
  exists results, length results = n /\
    (forall p, p < n -> apply inputs (row ready p) (row params p) = Ok (nth p results ([], []))) /\
    ios = map (fun k => map (fun r => nth k (fst r) []) results) (seq 0 (length ready)) /\
    outs = map (blocks snd results) (seq 0 m).
Proof.
  intros m apply inputs ready params ios outs rows cols n Hk Hn Hr Hready Hrs H Hpos. unfold from_apply_func in H. cbv zeta in H. rewrite <- Hn in H.
  destruct (mapM _ (seq 0 n)) as [results|] eqn:E; cbn [bind] in H; [|discriminate].
  destruct (mapM_seq _ n results ([], []) E) as [L Hp]. cbv beta in Hp.
  assert (Ha : forall p, p < n -> apply inputs (row ready p) (row params p) = Ok (nth p results ([], []))).
  { intros p Hlt. rewrite <- (Hp p Hlt). f_equal; symmetry; apply (zip_row _ n); auto. rewrite Hn. exact Hr. }
  exists results. split; [exact L|]. split; [exact Ha|].
  assert (Hs : forall r, In r results -> length (snd r) = m /\ length (fst r) = length ready).
  { intros r Hin. destruct (In_nth _ _ ([], []) Hin) as (p & Hlt & <-). rewrite L in Hlt. specialize (Ha p Hlt).
    destruct (nth p results ([], [])) as [io' os]. apply Hk in Ha; [|apply Hrs; exact Hlt]. destruct Ha as (A & B & _). cbn [fst snd]. split; [exact B|].
    rewrite A. rewrite (row_map ready n p []) by assumption. apply map_length. }
  assert (Hne : results <> []) by (intros ->; cbn in L; lia).
  destruct (match m with 0 => Ok [] | S _ => mapM hstack (zip_star (map snd results)) end) as [os|] eqn:F; cbn [bind] in H; [|discriminate].
  injection H as <- <-. split.
  - destruct ready as [|r0 ready]; [reflexivity|]. cbv iota beta.
    rewrite (@zip_star_spec (Frame V) [] (map fst results) (length (r0 :: ready))).
    + apply map_ext. intros k. apply map_map.
    + intros Hc. apply map_eq_nil in Hc. congruence.
    + intros r Hin. apply in_map_iff in Hin. destruct Hin as (x & <- & Hx). apply Hs. exact Hx.
  - destruct m as [|m]; [injection F as <-; reflexivity|]. apply mapM_hstack in F. rewrite F.
    rewrite (@zip_star_spec (Frame V) [] (map snd results) (S m)).
    + rewrite map_map. apply map_ext. intros k. unfold blocks. rewrite map_map. reflexivity.
    + intros Hc. apply map_eq_nil in Hc. congruence.
    + intros r Hin. apply in_map_iff in Hin. destruct Hin as (x & <- & Hx). apply Hs. exact Hx.
Qed.

Lemma same_length_shape : forall (fs : list (Frame V)) rows cols, Forall (has_shape rows cols) fs -> same_length (List.concat fs) = true.
Proof.
  intros fs rows cols H. assert (A : forall c, In c (List.concat fs) -> length c = rows).
  { intros c Hc. apply in_concat in Hc. destruct Hc as (f & Hf & Hc). eapply Forall_forall in H; [|exact Hf]. apply H. exact Hc. }
  unfold same_length. destruct (List.concat fs) as [|c rest]; [reflexivity|]. apply forallb_forall. intros d Hd. apply Nat.eqb_eq.
  rewrite (A d), (A c); [reflexivity|now left|now right].
Qed.
Lemma hstack_shape : forall (fs : list (Frame V)) rows cols, fs <> [] -> Forall (has_shape rows cols) fs -> hstack fs = Ok (List.concat fs).
Proof. intros [|f fs] rows cols Hne H; [congruence|]. unfold hstack. rewrite (same_length_shape _ rows cols H). reflexivity. Qed.
Lemma mapM_total : forall {A B} (f : A -> res B) (g : A -> B) l, (forall x, In x l -> f x = Ok (g x)) -> mapM f l = Ok (map g l).
Proof.
  intros A B f g. induction l as [|x l IH]; intros H; [reflexivity|]. cbn [mapM map]. rewrite (H x) by now left. cbn [bind].
  rewrite IH by (intros y Hy; apply H; now right). reflexivity.
Qed.

Lemma from_apply_total : forall m (apply : @Apply V P) inputs ready params rows cols n results,
  keeps_shape m apply inputs rows cols -> n = n_values params -> rect params ->
  (forall l, In l ready -> length l = n) -> (forall p, p < n -> Forall (has_shape rows cols) (row ready p)) -> 0 < n -> length results = n ->
  (forall p, p < n -> apply inputs (row ready p) (row params p) = Ok (nth p results ([], []))) ->
  from_apply_func m apply inputs ready params =
    Ok (map (fun k => map (fun r => nth k (fst r) []) results) (seq 0 (length ready)), map (blocks snd results) (seq 0 m)).
Proof.
  intros m apply inputs ready params rows cols n results Hk Hn Hr Hready Hrs Hpos L Ha. unfold from_apply_func. cbv zeta. rewrite <- Hn.
  rewrite (mapM_total _ (fun i => nth i results ([], []))).
  2: { intros p Hin. apply in_seq in Hin. rewrite <- (Ha p) by lia. f_equal; apply (zip_row _ n); auto; try lia. rewrite Hn. exact Hr. }
  assert (Er : map (fun i => nth i results ([], [])) (seq 0 n) = results).
  { rewrite <- L. clear. induction results as [|r results IH]; [reflexivity|]. cbn [length seq map nth]. f_equal.
    rewrite <- seq_shift, map_map. exact IH. }
  rewrite Er. cbn [bind].
  assert (Hs : forall r, In r results -> length (snd r) = m /\ length (fst r) = length ready /\ Forall (has_shape rows cols) (snd r)).
  { intros r Hin. destruct (In_nth _ _ ([], []) Hin) as (p & Hlt & <-). rewrite L in Hlt. specialize (Ha p Hlt).
    destruct (nth p results ([], [])) as [io' os]. apply Hk in Ha; [|apply Hrs; exact Hlt]. destruct Ha as (A & B & _ & C). cbn [fst snd]. split; [exact B|]. split; [|exact C].
    rewrite A. rewrite (row_map ready n p []) by assumption. apply map_length. }
  assert (Hne : results <> []) by (intros ->; cbn in L; lia).
  assert (F : match m with 0 => Ok [] | S _ => mapM hstack (zip_star (map snd results)) end = Ok (map (blocks snd results) (seq 0 m))).
  { destruct m as [|m]; [reflexivity|]. rewrite (@zip_star_spec (Frame V) [] (map snd results) (S m)).
    - rewrite (mapM_total _ (@List.concat (list V))).
      + f_equal. rewrite map_map. apply map_ext. intros k. unfold blocks. rewrite map_map. reflexivity.
      + intros fs Hin. apply in_map_iff in Hin. destruct Hin as (k & <- & Hk'). apply in_seq in Hk'. apply (hstack_shape _ rows cols).
        * intros Hc. apply map_eq_nil, map_eq_nil in Hc. congruence.
        * apply Forall_forall. intros f Hf. apply in_map_iff in Hf. destruct Hf as (os & <- & Ho). apply in_map_iff in Ho.
          destruct Ho as (r & <- & Hin). destruct (Hs r Hin) as (A & _ & C). eapply Forall_forall in C; [exact C|]. apply nth_In. lia.
    - intros Hc. apply map_eq_nil in Hc. congruence.
    - intros r Hin. apply in_map_iff in Hin. destruct Hin as (x & <- & Hx). apply Hs. exact Hx. }
  rewrite F. cbn [bind]. f_equal. f_equal. destruct ready as [|r0 ready]; [reflexivity|]. cbv iota beta.
  rewrite (@zip_star_spec (Frame V) [] (map fst results) (length (r0 :: ready))).
  - apply map_ext. intros k. apply map_map.
  - intros Hc. apply map_eq_nil in Hc. congruence.
  - intros r Hin. apply in_map_iff in Hin. destruct Hin as (x & <- & Hx). apply Hs. exact Hx.
Qed.
End Pipeline.
