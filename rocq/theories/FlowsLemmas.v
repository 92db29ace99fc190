(** * Lemmas about the long and short sides of an order history *)
From Coq Require Import ZArith QArith Qabs Qminmax Bool Lia Lqa List Setoid Morphisms Sorted.
From Verif Require Import Base Num MathNb TolSpec Order Account AccountSpec XQFacts OrderLemmas4 Replay ReplaySpec
  ReplayLemmas ReplayLemmas2 FlowsSpec.
Import ListNotations.

(** ** A flow known only while replaying: records that carry their flow as price *)
Definition mark (i : nat) (e : Q) : OrderRec XQ := mkOrderRec 0 0 i (Fin 0) (Fin e) (Fin 0) None.
Definition carried (r : OrderRec XQ) : Q := qty (or_price r).

Lemma until_all : forall i l, Forall (fun r => (or_idx r <= i)%nat) l -> until i l = l.
Proof.
  intros i l H. unfold until. induction H as [|r l Hr H IH]; [reflexivity|]. cbn [filter].
  apply Nat.leb_le in Hr. rewrite Hr, IH. reflexivity.
Qed.
Lemma until_none : forall i l, Forall (fun r => (i < or_idx r)%nat) l -> until i l = [].
Proof.
  intros i l H. unfold until. induction H as [|r l Hr H IH]; [reflexivity|]. cbn [filter].
  apply Nat.leb_gt in Hr. rewrite Hr, IH. reflexivity.
Qed.

(** Records that come bar by bar are those up to a bar and then those after it. *)
Lemma by_bar_split : forall i l, by_bar l ->
  exists l2, l = until i l ++ l2 /\ Forall (fun r => (i < or_idx r)%nat) l2 /\ Forall (fun r => (or_idx r <= i)%nat) (until i l).
Proof.
  intros i l H. induction H as [|r l H IH HF]; [exists []; repeat split; constructor|].
  destruct (Nat.leb (or_idx r) i) eqn:E.
  - destruct IH as (l2 & El & H2 & H1). exists l2. cbn [until filter]. rewrite E.
    fold (until i l). apply Nat.leb_le in E. split; [cbn; f_equal; exact El|]. split; auto.
  - apply Nat.leb_gt in E.
    assert (HA : Forall (fun r => (i < or_idx r)%nat) (r :: l)).
    { constructor; auto. rewrite Forall_forall in *. intros x Hx. specialize (HF x Hx). lia. }
    exists (r :: l). rewrite (until_none _ _ HA). repeat split; auto.
Qed.

Lemma asset_flow_later : forall dir i l s s', Forall (fun r => (i < or_idx r)%nat) l ->
  foldM (asset_flow_step dir) s l = Ok s' -> forall j, (j <= i)%nat -> snd s' j = snd s j :> XQ.
Proof.
  intros dir i l. induction l as [|r l IH]; intros s s' HF H j Hj.
  - injection H as <-. reflexivity.
  - inversion HF as [|? ? Hr HFl]; subst. cbn [foldM] in H. apply bind_ok in H as (s1 & H1 & H2).
    rewrite (IH _ _ HFl H2 j Hj). destruct s as [[last p] o]. unfold asset_flow_step, check_id in H1.
    apply raise_if_ok in H1 as [_ H1].
    apply f_equal with (f := fun x => match x with Ok y => snd y | Err _ => o end) in H1. cbn [snd] in H1.
    rewrite <- H1. cbn [snd]. apply fupd_other. lia.
Qed.

Lemma foldM_app_ok : forall {S A} (f : S -> A -> res S) l1 l2 s s',
  foldM f s (l1 ++ l2) = Ok s' -> exists s1, foldM f s l1 = Ok s1 /\ foldM f s1 l2 = Ok s'.
Proof.
  intros S A f l1. induction l1 as [|a l1 IH]; intros l2 s s' H; cbn [app foldM] in H.
  - exists s. split; [reflexivity|exact H].
  - apply bind_ok in H as (s0 & H0 & H1). apply IH in H1 as (s1 & H1 & H2). exists s1. split; auto.
    cbn [foldM]. rewrite H0. exact H1.
Qed.

Lemma fold_seq_ext : forall (o1 o2 : nat -> XQ) i a, (forall j, (j <= i)%nat -> o1 j = o2 j) ->
  fold_left (fun p j => add_nb p (o1 j)) (seq 0 (S i)) a = fold_left (fun p j => add_nb p (o2 j)) (seq 0 (S i)) a.
Proof.
  intros o1 o2 i a H.
  assert (G : forall l a, (forall j, In j l -> (j <= i)%nat) ->
    fold_left (fun p j => add_nb p (o1 j)) l a = fold_left (fun p j => add_nb p (o2 j)) l a).
  { induction l as [|x l IH]; intros b Hl; [reflexivity|]. cbn [fold_left].
    rewrite H by (apply Hl; left; reflexivity). apply IH. intros j Hj. apply Hl. right. exact Hj. }
  apply G. intros j Hj. apply in_seq in Hj. lia.
Qed.

(** ** One order's change of a side *)
Lemma held_cases : forall p, (0 <= p /\ held p == p) \/ (p < 0 /\ held p == 0).
Proof. intros p. unfold held. destruct (Q.max_spec p 0) as [[H E]|[H E]]; rewrite E; [right|left]; split; lra. Qed.
Lemma shorted_cases : forall p, (0 <= p /\ shorted p == 0) \/ (p < 0 /\ shorted p == - p).
Proof.
  intros p. unfold shorted. destruct (Qlt_le_dec p 0) as [H|H]; [right|left]; (split; [exact H|]).
  - apply Q.max_l. lra.
  - apply Q.max_r. lra.
Qed.

Ltac to_bools p p' :=
  change (leb (Fin p) zero) with (Qle_bool p 0); change (leb (Fin p') zero) with (Qle_bool p' 0);
  change (geb (Fin p) zero) with (Qle_bool 0 p); change (geb (Fin p') zero) with (Qle_bool 0 p');
  change (ltb (Fin p) zero) with (qlt_bool p 0); change (ltb (Fin p') zero) with (qlt_bool p' 0).
Lemma neg_fin : forall a, exists r, neg (Fin a) = Fin r /\ r == - a.
Proof. intros a. eexists. split; [reflexivity|]. cbn. try rewrite Qred_correct. reflexivity. Qed.
Lemma tolq_neg_r : forall a b c, c == - b -> tolq a c == tolq a b.
Proof. intros a b c H. unfold tolq. rewrite H, Qabs_opp. reflexivity. Qed.

Lemma long_size_fin : forall p p', exists e, get_long_size_nb (Fin p) (Fin p') = Fin e /\
  Qabs (e - (held p' - held p)) <= tolq p' p /\ Qabs e <= Qabs (p' - p).
Proof.
  intros p p'. unfold get_long_size_nb. pose proof (tolq_pos p' p) as Ht. to_bools p p'.
  destruct (neg_fin p) as (n & En & Hn). rewrite En.
  pose proof (held_cases p) as C1. pose proof (held_cases p') as C2.
  destruct (Qle_bool p 0) eqn:B1, (Qle_bool p' 0) eqn:B2, (Qle_bool 0 p) eqn:B3, (qlt_bool p' 0) eqn:B4,
    (qlt_bool p 0) eqn:B5, (Qle_bool 0 p') eqn:B6; cbn [andb]; change (@zero XQ XQnum) with (Fin 0); qb; try (exfalso; lra);
  try (eexists; split; [reflexivity|]; split; qabs_all; lra).
  all: destruct (add_nb_fin p' n) as (e & Ee & He); exists e; split; [exact Ee|];
    pose proof (approx_add_bound _ _ _ He) as HB; rewrite (tolq_neg_r p' p n Hn) in HB; split;
    [eapply Qle_trans; [|exact HB]; qabs_all; lra|].
  all: destruct He as [[He _]|[He _]]; qabs_all; lra.
Qed.

Lemma short_size_fin : forall p p', exists e, get_short_size_nb (Fin p) (Fin p') = Fin e /\
  Qabs (e - (shorted p' - shorted p)) <= tolq p' p /\ Qabs e <= Qabs (p' - p).
Proof.
  intros p p'. unfold get_short_size_nb. pose proof (tolq_pos p' p) as Ht. to_bools p p'.
  destruct (neg_fin p') as (n & En & Hn). rewrite En.
  assert (Hsym : tolq p p' == tolq p' p) by (unfold tolq; rewrite (Q.max_comm (Qabs p) (Qabs p')); reflexivity).
  pose proof (shorted_cases p) as C1. pose proof (shorted_cases p') as C2.
  destruct (Qle_bool 0 p) eqn:B3, (qlt_bool p' 0) eqn:B4,
    (qlt_bool p 0) eqn:B5, (Qle_bool 0 p') eqn:B6; cbn [andb]; change (@zero XQ XQnum) with (Fin 0); qb; try (exfalso; lra);
  try (eexists; split; [reflexivity|]; split; qabs_all; lra).
  all: destruct (add_nb_fin p n) as (e & Ee & He); exists e; split; [exact Ee|];
    pose proof (approx_add_bound _ _ _ He) as HB; rewrite (tolq_neg_r p p' n Hn), Hsym in HB; split;
    [eapply Qle_trans; [|exact HB]; qabs_all; lra|].
  all: destruct He as [[He _]|[He _]]; qabs_all; lra.
Qed.

Lemma position_move : forall p s p', approx_add p s p' -> Qabs (p' - p) <= 2 * Qabs s + (1 # 1000000000000).
Proof.
  intros p s p' [[H1 H2]|[H1 H2]].
  - apply tolq_le_iff in H2. qabs_all. lra.
  - qabs_all. lra.
Qed.

(** ** The flow of one side *)
Definition side_of (dir : Direction) (p : Q) : Q := match dir with LongOnly => held p | _ => shorted p end.
Lemma side_near : forall dir n m a b, within n m a b -> within n m (side_of dir a) (side_of dir b).
Proof.
  intros dir n m a b H. unfold within in *. eapply Qle_trans; [|exact H].
  destruct dir; cbn [side_of];
  [pose proof (held_cases a); pose proof (held_cases b)|pose proof (shorted_cases a); pose proof (shorted_cases b)|
   pose proof (shorted_cases a); pose proof (shorted_cases b)]; qabs_all; lra.
Qed.
Lemma side_flow : forall dir p p', dir <> BothDir -> exists e,
  match dir with LongOnly => get_long_size_nb (Fin p) (Fin p') | ShortOnly => get_short_size_nb (Fin p) (Fin p')
  | BothDir => Fin 0 end = Fin e /\
  Qabs (e - (side_of dir p' - side_of dir p)) <= tolq p' p /\ Qabs e <= Qabs (p' - p).
Proof. intros [| |] p p' H; [apply long_size_fin|apply short_size_fin|congruence]. Qed.

Lemma volume_app : forall l r, volume (l ++ [r]) == volume l + Qabs (bought_size r).
Proof. intros l r. unfold volume. rewrite total_app. cbn [total]. ring. Qed.
Lemma ledger_position_app : forall l r, ledger_position (l ++ [r]) == ledger_position l + bought_size r.
Proof. intros l r. unfold ledger_position. rewrite total_app. cbn [total]. ring. Qed.
Lemma volume_nonneg : forall l, 0 <= volume l.
Proof. intros l. apply total_abs_nonneg. Qed.

Definition side_inv (dir : Direction) (i : nat) (pre : list (OrderRec XQ)) (s : Z * XQ * (nat -> XQ)) : Prop :=
  exists p ms, snd (fst s) = Fin p /\ Qabs p <= volume pre /\
    within (length pre) (volume pre) p (ledger_position pre) /\
    Forall (fun r => (or_idx r <= i)%nat) ms /\ length ms = length pre /\
    recorded carried i ms (snd s) /\
    within (length pre) (volume pre) (total carried ms) (side_of dir p) /\
    total (fun r => Qabs (carried r)) ms <= reach pre.

Lemma side_step : forall dir i pre s r s', dir <> BothDir -> proper r -> (or_idx r <= i)%nat ->
  side_inv dir i pre s -> asset_flow_step dir s r = Ok s' -> side_inv dir i (pre ++ [r]) s'.
Proof.
  intros dir i pre [[last pos] o] r s' Hdir Hpr Hi (p & ms & Ep & Hp & Hw & Hms & Hl & Hrec & Hside & Hreach) H.
  cbn [fst snd] in *. subst pos. unfold asset_flow_step, check_id in H. apply raise_if_ok in H as [_ H].
  destruct (signed_size_fin r Hpr) as (q & Eq & Hq). rewrite Eq in H.
  destruct (add_nb_fin p q) as (p' & Ep' & Hp'). rewrite Ep' in H.
  destruct (side_flow dir p p' Hdir) as (e & Ee & He & Hea).
  assert (E : s' = (Z.of_nat (or_id r), Fin p', fupd o (or_idx r) (add_nb (o (or_idx r)) (Fin e)))).
  { rewrite <- Ee. destruct dir; [| |congruence]; injection H as <-; reflexivity. }
  clear H Ee. subst s'.
  pose proof (approx_add_le _ _ _ Hp') as Hle.
  pose proof (position_move _ _ _ Hp') as Hmv. pose proof (volume_nonneg pre) as HV.
  assert (Hqs : Qabs q == Qabs (bought_size r)) by (rewrite Hq; reflexivity).
  pose proof (volume_app pre r) as HVa.
  assert (Hp'V : Qabs p' <= volume (pre ++ [r])) by lra.
  assert (HpV : Qabs p <= volume (pre ++ [r])) by (pose proof (Qabs_nonneg (bought_size r)); lra).
  assert (HqV : Qabs q <= volume (pre ++ [r])) by lra.
  exists p', (ms ++ [mark (or_idx r) e]). cbn [fst snd]. rewrite !app_length, Hl. cbn [length].
  split; [reflexivity|]. split; [exact Hp'V|]. split; [|split; [|split; [reflexivity|split; [|split]]]].
  - rewrite Nat.add_comm. eapply within_trans with (b := p + bought_size r).
    + rewrite <- Hq. apply approx_add_within; auto.
    + eapply within_proper; [reflexivity|reflexivity|reflexivity|apply ledger_position_app|].
      apply within_shift. eapply within_le; [apply Nat.le_refl| |exact Hw].
      pose proof (Qabs_nonneg (bought_size r)). lra.
  - apply Forall_app. split; auto.
  - change (or_idx r) with (or_idx (mark (or_idx r) e)) at 2 3. apply recorded_step; [exact Hrec|reflexivity].
  - rewrite total_app. cbn [total carried mark or_price qty].
    rewrite Nat.add_comm.
    eapply within_trans with (b := total carried ms + (side_of dir p' - side_of dir p)).
    + apply within_one. eapply Qle_trans with (y := Qabs (e - (side_of dir p' - side_of dir p))).
      { apply Qle_lteq. right. apply Qabs_wd. ring. }
      eapply Qle_trans; [exact He|]. apply tolq_slack; auto.
    + eapply within_proper; [reflexivity|reflexivity|reflexivity| |
        apply (within_shift _ _ (total carried ms) (side_of dir p) (side_of dir p' - side_of dir p))].
      * ring.
      * eapply within_le; [apply Nat.le_refl| |exact Hside]. pose proof (Qabs_nonneg (bought_size r)). lra.
  - rewrite total_app. cbn [total carried mark or_price qty]. unfold reach in *. rewrite app_length, inject_add.
    cbn [length]. change (inject_Z (Z.of_nat 1)) with 1. lra.
Qed.

Lemma side_fold : forall dir i l pre s s', dir <> BothDir -> Forall proper l -> Forall (fun r => (or_idx r <= i)%nat) l ->
  side_inv dir i pre s -> foldM (asset_flow_step dir) s l = Ok s' -> side_inv dir i (pre ++ l) s'.
Proof.
  intros dir i l. induction l as [|r l IH]; intros pre s s' Hd HP HI Hs H.
  - injection H as <-. rewrite app_nil_r. exact Hs.
  - inversion HP; inversion HI; subst. cbn [foldM] in H. apply bind_ok in H as (s1 & Hs1 & Hs2).
    replace (pre ++ r :: l) with ((pre ++ [r]) ++ l) by (rewrite <- app_assoc; reflexivity).
    apply (IH _ s1); auto. eapply side_step; eauto.
Qed.

Lemma Forall_until : forall (P : OrderRec XQ -> Prop) i l, Forall P l -> Forall P (until i l).
Proof.
  intros P i l H. rewrite Forall_forall in *. intros x Hx. apply H. unfold until in Hx. apply filter_In in Hx. tauto.
Qed.

Lemma volume_le_reach : forall l, volume l <= reach l.
Proof.
  intros l. unfold reach. pose proof (volume_nonneg l). pose proof (inject_nonneg (length l)). lra.
Qed.

Lemma side_ledger : forall dir recs c flow i, dir <> BothDir ->
  Forall proper (of_col c recs) -> by_bar (of_col c recs) -> asset_flow_nb dir recs c = Ok flow ->
  exists q, assets_nb flow i = Fin q /\
    within (4 * length (until i (of_col c recs))) (reach (until i (of_col c recs)))
      q (side_of dir (ledger_position (until i (of_col c recs)))).
Proof.
  intros dir recs c flow i Hd HP HB H. unfold asset_flow_nb in H. apply bind_ok in H as (s & H & E).
  injection E as <-. rewrite column_records_of_col in H. set (l := of_col c recs) in *.
  destruct (by_bar_split i l HB) as (l2 & El & H2 & H1).
  rewrite El in H. apply foldM_app_ok in H as (s1 & Hs1 & Hs2).
  assert (Hi : side_inv dir i (until i l) s1).
  { refine (side_fold dir i (until i l) [] _ s1 Hd (Forall_until _ _ _ HP) H1 _ Hs1).
    exists 0, []. cbn [fst snd length]. split; [reflexivity|]. split; [apply Qle_refl|].
    split; [apply within_refl; reflexivity|]. split; [constructor|]. split; [reflexivity|].
    split; [apply recorded_init|]. split; [|vm_compute; discriminate].
    apply within_refl. destruct dir; cbn [side_of total]; reflexivity. }
  destruct Hi as (p & ms & Ep & Hp & Hw & Hms & Hl & Hrec & Hside & Hreach).
  destruct (recorded_cumulated _ _ _ _ Hrec 0) as (q & Eq & _ & Hq). specialize (Hq (Qeq_refl 0)).
  rewrite (until_all _ _ Hms) in Hq. rewrite Hl in Hq.
  exists q. split.
  { unfold assets_nb. rewrite <- Eq. apply fold_seq_ext. intros j Hj. apply (asset_flow_later _ _ _ _ _ H2 Hs2 j Hj). }
  set (n := length (until i l)) in *. pose proof (volume_le_reach (until i l)) as HVR.
  replace (4 * n)%nat with (2 * n + (n + n))%nat by lia.
  eapply within_trans; [eapply within_le; [apply Nat.le_refl| |exact Hq]; exact Hreach|].
  eapply within_trans; [eapply within_le; [apply Nat.le_refl| |exact Hside]; exact HVR|].
  apply side_near. eapply within_le; [apply Nat.le_refl| |exact Hw]. exact HVR.
Qed.
