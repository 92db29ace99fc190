(** * Indicators over parameters: proofs *)
From Coq Require Import String ZArith Bool List Arith Lia.
From Verif Require Import Base Grouper IndexFns BaseFnsLemmas4 BroadcastLemmas2 Indicator IndicatorSpec.
Import ListNotations.
Local Open Scope nat_scope.

Lemma mapM_ok : forall {A B} (f : A -> res B) l ys, mapM f l = Ok ys <-> Forall2 (fun x y => f x = Ok y) l ys.
Proof.
  intros A B f. induction l as [|x l IH]; intros ys; cbn [mapM].
  - split; [intros [= <-]; constructor|intros H; inversion H; reflexivity].
  - destruct (f x) as [y|] eqn:E; cbn [bind]; [|split; [discriminate|intros H; inversion H; congruence]].
    destruct (mapM f l) as [zs|] eqn:F; cbn [bind].
    + split; [intros [= <-]; constructor; [exact E|apply IH; reflexivity]|].
      intros H. inversion H as [|? ? ? zs' Hy Hz]; subst. apply IH in Hz. congruence.
    + split; [discriminate|]. intros H. inversion H as [|? ? ? zs' Hy Hz]; subst. apply IH in Hz. congruence.
Qed.
Lemma F2_len : forall {A B} (R : A -> B -> Prop) l l', Forall2 R l l' -> length l = length l'.
Proof. intros A B R l l' H. induction H; cbn; congruence. Qed.
Lemma F2_nth : forall {A B} (R : A -> B -> Prop) l l' i d e, Forall2 R l l' -> i < length l -> R (nth i l d) (nth i l' e).
Proof.
  intros A B R l l' i d e H. revert i. induction H; intros i Hi; cbn in *; [lia|]. destruct i; [assumption|]. apply IHForall2. lia.
Qed.
Lemma mapM_seq : forall {B} (f : nat -> res B) n ys d, mapM f (seq 0 n) = Ok ys ->
  length ys = n /\ forall i, i < n -> f i = Ok (nth i ys d).
Proof.
  intros B f n ys d H. apply mapM_ok in H. pose proof (F2_len _ _ _ H) as L. rewrite seq_length in L. split; [congruence|].
  intros i Hi. pose proof (F2_nth _ _ _ i 0 d H) as Hn. rewrite seq_length in Hn. specialize (Hn Hi). cbv beta in Hn.
  rewrite seq_nth in Hn by lia. exact Hn.
Qed.

Lemma hstack_ok : forall {V} (fs : list (Frame V)) f, hstack fs = Ok f -> f = List.concat fs /\ fs <> [].
Proof.
  intros V [|g fs] f H; cbn [hstack] in H; [discriminate|]. destruct (same_length _); [|discriminate].
  split; [congruence|discriminate].
Qed.
Lemma mapM_hstack : forall {V} (l : list (list (Frame V))) ys, mapM hstack l = Ok ys -> ys = map (@List.concat (list V)) l.
Proof.
  intros V l. induction l as [|x l IH]; intros ys; cbn [mapM map]; [intros [= <-]; reflexivity|].
  destruct (hstack x) as [y|] eqn:E; cbn [bind]; [|discriminate]. destruct (mapM hstack l) as [zs|] eqn:F; cbn [bind]; [|discriminate].
  intros [= <-]. rewrite (IH zs eq_refl). apply hstack_ok in E. destruct E as [-> _]. reflexivity.
Qed.

Lemma concat_len : forall {A} (fs : list (list A)) w, Forall (fun f => length f = w) fs -> length (List.concat fs) = length fs * w.
Proof. intros A fs w H. induction H; cbn [List.concat length]; [reflexivity|]. rewrite app_length, IHForall, H. lia. Qed.
Lemma concat_nth : forall {A} (fs : list (list A)) w p c d, Forall (fun f => length f = w) fs -> p < length fs -> c < w ->
  nth (p * w + c) (List.concat fs) d = nth c (nth p fs []) d.
Proof.
  intros A fs w p c d H. revert p. induction H as [|f fs Hf H IH]; intros p Hp Hc; cbn [length] in Hp; [lia|].
  destruct p as [|p]; cbn [List.concat nth].
  - rewrite app_nth1 by lia. reflexivity.
  - rewrite app_nth2 by lia. replace (S p * w + c - length f) with (p * w + c) by lia. apply IH; lia.
Qed.
Lemma concat_chunk : forall {A} (fs : list (list A)) w p, Forall (fun f => length f = w) fs -> p < length fs ->
  firstn w (skipn (p * w) (List.concat fs)) = nth p fs [].
Proof.
  intros A fs w p H. revert p. induction H as [|f fs Hf H IH]; intros p Hp; cbn [length] in Hp; [lia|].
  destruct p as [|p]; cbn [List.concat nth].
  - cbn [Nat.mul skipn]. rewrite firstn_app, Hf, Nat.sub_diag, firstn_O, app_nil_r. rewrite <- Hf. apply firstn_all.
  - rewrite skipn_app, skipn_all2 by lia. replace (S p * w - length f) with (p * w) by lia. cbn [app]. apply IH. lia.
Qed.

(** zip *)
Lemma zip_star_len : forall {A} (rows : list (list A)) w, rows <> [] -> (forall r, In r rows -> length r = w) -> length (zip_star rows) = w.
Proof.
  intros A rows w Hne H. destruct w as [|w].
  - destruct rows as [|r [|r' rows]]; [congruence|cbn [zip_star]; rewrite map_length; apply H; now left|].
    assert (E : r = []) by (apply length_zero_iff_nil, H; now left). subst. reflexivity.
  - destruct rows as [|r rows]; [congruence|]. pose proof (H r (or_introl eq_refl)) as Hr. destruct r as [|d r]; [discriminate|].
    rewrite (zip_star_spec d (( d :: r) :: rows) (S w) Hne H), map_length, seq_length. reflexivity.
Qed.
Lemma zip_star_nth : forall {A} (rows : list (list A)) w j d, rows <> [] -> (forall r, In r rows -> length r = w) -> j < w ->
  nth j (zip_star rows) [] = map (fun r => nth j r d) rows.
Proof.
  intros A rows w j d Hne H Hj. rewrite (zip_star_spec d rows w Hne H). apply (map_nth_map_seq (fun j => map (fun r => nth j r d) rows)). exact Hj.
Qed.
Lemma row_map : forall {P} (params : list (list P)) n p d, (forall l, In l params -> length l = n) -> p < n ->
  row params p = map (fun l => nth p l d) params.
Proof.
  intros P params n p d H Hp. unfold row. induction params as [|l params IH]; [reflexivity|]. cbn [flat_map map].
  rewrite (nth_error_nth' l d) by (rewrite (H l); [exact Hp|now left]). cbn [app]. f_equal. apply IH. intros l' Hl'. apply H. now right.
Qed.
Lemma zip_row : forall {P} (params : list (list P)) n p, (forall l, In l params -> length l = n) -> p < n ->
  nth p (zip_star params) [] = row params p.
Proof.
  intros P params n p H Hp. destruct params as [|l params]; [destruct p; reflexivity|].
  pose proof (H l (or_introl eq_refl)) as Hl. destruct l as [|d l]; [cbn in Hl; lia|].
  rewrite (zip_star_nth _ n p d); [|discriminate|exact H|exact Hp]. symmetry. apply (row_map _ n); assumption.
Qed.

(** Parameters have one length *)
Definition rect {P} (params : list (list P)) : Prop := forall l, In l params -> length l = n_values params.
Lemma broadcast_one_len : forall {A} n (ps qs : list A), broadcast_one n ps = Ok qs -> length qs = n \/ (length ps = 1 /\ n = 0).
Proof.
  intros A n ps qs H. unfold broadcast_one in H. destruct (Nat.eqb_spec (length ps) 1) as [E|E]; cbn [orb] in H.
  - destruct (Nat.ltb_spec (length ps) n); injection H as <-; [rewrite concat_repeat_length; nia|]. lia.
  - destruct (Nat.eqb_spec (length ps) n); [|discriminate]. destruct (Nat.ltb_spec (length ps) n); [lia|]. injection H as <-. auto.
Qed.
Lemma broadcast_all_len : forall {A} n (pl ql : list (list A)), broadcast_all n pl = Ok ql -> n <> 0 \/ (forall p, In p pl -> length p <> 1) ->
  forall q, In q ql -> length q = n.
Proof.
  intros A n. induction pl as [|p pl IH]; intros ql H Hn q Hq; cbn [broadcast_all] in H; [injection H as <-; contradiction|].
  destruct (broadcast_one n p) as [q0|] eqn:E; cbn [bind] in H; [|discriminate].
  destruct (broadcast_all n pl) as [qs|] eqn:F; cbn [bind] in H; [|discriminate]. injection H as <-.
  destruct Hq as [<-|Hq].
  - apply broadcast_one_len in E. destruct E as [E|[E1 E2]]; [exact E|]. destruct Hn as [Hn|Hn]; [lia|]. exfalso. apply (Hn p); [now left|exact E1].
  - apply (IH qs eq_refl); [|exact Hq]. destruct Hn as [Hn|Hn]; [now left|]. right. intros p' Hp'. apply Hn. now right.
Qed.
Lemma fold_max_le : forall l a, a <= fold_left Nat.max l a.
Proof. induction l as [|x l IH]; intros a; cbn [fold_left]; [lia|]. specialize (IH (Nat.max a x)). lia. Qed.
Lemma fold_max_in : forall l a x, In x l -> x <= fold_left Nat.max l a.
Proof.
  induction l as [|y l IH]; intros a x []; cbn [fold_left]; [subst|apply IH; assumption].
  pose proof (fold_max_le l (Nat.max a x)). lia.
Qed.
Lemma expand_rect : forall {P} (ps : list (list P)) pr pc n out, expand_params ps pr pc n = Ok out -> (pc = true -> n <> 0) -> rect out.
Proof.
  intros P ps pr pc n out H Hpc. unfold expand_params in H. cbv zeta in H.
  set (pl := if _ && pr then _ else _) in H. clearbody pl. destruct pl as [|p pl]; [injection H as <-; intros l []|].
  unfold broadcast_params in H. unfold rect. 
  assert (K : forall m, broadcast_all m (p :: pl) = Ok out -> m <> 0 \/ (forall q, In q (p :: pl) -> length q <> 1) -> forall l, In l out -> length l = n_values out).
  { intros m Hm Hd l Hl. pose proof (broadcast_all_len m _ _ Hm Hd) as L. rewrite (L l Hl). destruct out as [|q out]; [contradiction|].
    cbn [n_values]. symmetry. apply L. now left. }
  destruct pc.
  - apply (K n H). left. auto.
  - apply (K _ H). set (m := fold_left _ _ _). destruct m eqn:E; [|left; lia]. right. intros q Hq Hl.
    assert (In (length q) (map (@length P) (p :: pl))) by (apply in_map; exact Hq).
    pose proof (fold_max_in _ 0 _ H0) as Hle. fold m in Hle. lia.
Qed.
