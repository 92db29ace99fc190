(** * Lemmas on ranges between signals (C38) *)
From Coq Require Import ZArith Bool List Arith Lia Sorting.
From Verif Require Import Base Num SignalsNb SignalsSpec SignalsLemmas SignalsLemmas2.
Import ListNotations.
Open Scope list_scope.
Open Scope nat_scope.

(** ** Between signals *)
Lemma pair_up_in : forall l r, In r (pair_up l) <->
  rg_closed r = true /\ exists m, nth_error l m = Some (rg_start r) /\ nth_error l (S m) = Some (rg_end r).
Proof.
  intros l r. induction l as [|a l IH]; [cbn; split; [intros []|intros (_ & m & C & _); destruct m; discriminate]|].
  destruct l as [|b l].
  - cbn. split; [intros []|]. intros (_ & [|m] & _ & C); [discriminate|destruct m; discriminate].
  - change (pair_up (a :: b :: l)) with (mkRange a b true :: pair_up (b :: l)). cbn [In]. rewrite IH. split.
    + intros [<-|(H1 & m & H2 & H3)]; [split; auto; exists 0; auto|]. split; auto. exists (S m). auto.
    + intros (H1 & [|m] & H2 & H3).
      * left. destruct r as [s e c]. cbn in *. congruence.
      * right. split; auto. exists m. auto.
Qed.

Lemma pair_up_sorted : forall l, StronglySorted lt l -> StronglySorted (fun r r' => rg_start r < rg_start r') (pair_up l).
Proof.
  induction l as [|a l IH]; intros H; [constructor|]. destruct l as [|b l]; [constructor|].
  inversion H as [|? ? H1 H2]; subst. change (pair_up (a :: b :: l)) with (mkRange a b true :: pair_up (b :: l)).
  constructor; auto. apply Forall_forall. intros r Hr. apply pair_up_in in Hr as (_ & m & Hm & _). cbn.
  rewrite Forall_forall in H2. apply H2. eapply nth_error_In; eauto.
Qed.

Lemma next_true_unique : forall l e x y, next_true l e x -> next_true l e y -> x = y.
Proof.
  intros l e [x|] [y|] Hx Hy; cbn in Hx, Hy; auto.
  - destruct Hx as (A1 & A2 & A3), Hy as (B1 & B2 & B3). f_equal.
    destruct (Nat.lt_trichotomy x y) as [F|[F|F]]; auto; exfalso; [eapply B3|eapply A3]; eauto.
  - exfalso. eapply Hy; [|apply Hx]. apply Hx.
  - exfalso. eapply Hx; [|apply Hy]. apply Hy.
Qed.

Lemma between_ranges_spec : forall a, lists_exactly rg_start (is_between a) (between_ranges_nb a).
Proof.
  intros a. split; [|apply pair_up_sorted, flatnonzero_sorted]. intros r. unfold between_ranges_nb. rewrite pair_up_in. split.
  - intros (Hc & m & Hm & Hm'). pose proof (flatnonzero_next _ _ _ Hm) as Hn. rewrite Hm' in Hn. cbn in Hn.
    apply nth_error_In, flatnonzero_in in Hm. apply nth_error_In, flatnonzero_in in Hm'.
    repeat split; auto; apply Hn.
  - intros (Hc & Hs & He & Hlt & Hb). split; auto. apply flatnonzero_in, In_nth_error in Hs as (m & Hm). exists m. split; auto.
    eapply next_true_unique; [apply flatnonzero_next; eauto|]. cbn. auto.
Qed.

(** ** To the next signal of the other array *)
Lemma drop_below_in : forall x l b, StronglySorted lt l -> (In b (drop_below x l) <-> In b l /\ x <= b).
Proof.
  intros x l b H. induction H as [|y l Hl IH Hy]; cbn [drop_below]; [cbn; tauto|].
  destruct (Nat.ltb_spec y x) as [Hlt|Hge].
  - rewrite IH. cbn. intuition lia.
  - cbn. rewrite Forall_forall in Hy. split; [|tauto]. intros [<-|Hb]; auto. specialize (Hy _ Hb). split; auto. lia.
Qed.

Lemma drop_below_sorted : forall x l, StronglySorted lt l -> StronglySorted lt (drop_below x l).
Proof.
  intros x l H. induction H as [|y l Hl IH Hy]; cbn [drop_below]; [constructor|].
  destruct (Nat.ltb_spec y x); auto. constructor; auto.
Qed.

Lemma to_next_in : forall as_ bs r, StronglySorted lt as_ -> StronglySorted lt bs ->
  (In r (to_next as_ bs) <->
   rg_closed r = true /\ In (rg_start r) as_ /\ In (rg_end r) bs /\ rg_start r <= rg_end r /\
   forall b, In b bs -> rg_start r <= b -> rg_end r <= b).
Proof.
  intros as_ bs r Ha. revert bs. induction Ha as [|a as_ Ha IH Hf]; intros bs Hb; cbn [to_next]; [cbn; tauto|].
  rewrite Forall_forall in Hf. pose proof (drop_below_sorted a bs Hb) as Hd.
  assert (Hin : forall b, In b (drop_below a bs) <-> In b bs /\ a <= b) by (intros; apply drop_below_in; auto).
  assert (Hrest : In r (to_next as_ (drop_below a bs)) <->
     rg_closed r = true /\ In (rg_start r) as_ /\ In (rg_end r) bs /\ rg_start r <= rg_end r /\
     forall b, In b bs -> rg_start r <= b -> rg_end r <= b).
  { rewrite IH by auto. split.
    - intros (C1 & C2 & C3 & C4 & C5). repeat split; auto; [apply Hin; auto|]. intros b Hb' Hle. apply C5; auto.
      apply Hin. split; auto. specialize (Hf _ C2). lia.
    - intros (C1 & C2 & C3 & C4 & C5). specialize (Hf _ C2) as Hlt. repeat split; auto; [apply Hin; split; auto; lia|].
      intros b Hb' Hle. apply Hin in Hb' as [Hb' _]. auto. }
  destruct (drop_below a bs) as [|b bs'] eqn:E.
  - rewrite Hrest. cbn [In]. split; [tauto|]. intros (C1 & [->|C2] & C3 & C4 & C5); [|tauto].
    exfalso. apply (proj2 (Hin (rg_end r))). auto.
  - cbn [In]. rewrite Hrest. split.
    + intros [<-|(C1 & C2 & C3 & C4 & C5)]; [|tauto]. cbn [rg_closed rg_start rg_end].
      destruct (proj1 (Hin b) (or_introl eq_refl)) as [B1 B2]. repeat split; auto.
      intros b' B3 B4. assert (In b' (b :: bs')) as [<-|B5] by (apply Hin; auto); auto.
      inversion Hd as [|? ? _ Hf']; subst. rewrite Forall_forall in Hf'. specialize (Hf' _ B5). lia.
    + intros (C1 & [->|C2] & C3 & C4 & C5); [left|tauto].
      assert (In (rg_end r) (b :: bs')) as Hr by (apply Hin; auto).
      destruct (proj1 (Hin b) (or_introl eq_refl)) as [B1 B2]. specialize (C5 _ B1 B2).
      destruct r as [s e c]; cbn in *. subst c. f_equal. destruct Hr as [|Hr]; auto.
      inversion Hd as [|? ? _ Hf']; subst. rewrite Forall_forall in Hf'. specialize (Hf' _ Hr). lia.
Qed.

Lemma to_next_sorted : forall as_ bs, StronglySorted lt as_ -> StronglySorted lt bs ->
  StronglySorted (fun r r' => rg_start r < rg_start r') (to_next as_ bs).
Proof.
  intros as_ bs Ha. revert bs. induction Ha as [|a as_ Ha IH Hf]; intros bs Hb; cbn [to_next]; [constructor|].
  rewrite Forall_forall in Hf. pose proof (drop_below_sorted a bs Hb) as Hd.
  destruct (drop_below a bs) as [|b bs'] eqn:E; auto. constructor; auto.
  apply Forall_forall. intros r Hr. apply to_next_in in Hr; auto. cbn. apply Hf, Hr.
Qed.

(** ** From the previous signal of the other array *)
Lemma advance_sub : forall x l a, In a (advance x l) -> In a l.
Proof.
  intros x l a. induction l as [|y l IH]; [auto|]. destruct l as [|z l]; [auto|].
  cbn [advance]. destruct (Nat.leb z x); auto. intros H. right. auto.
Qed.
Lemma advance_dropped : forall x l a, StronglySorted lt l -> In a l ->
  In a (advance x l) \/ exists a', In a' (advance x l) /\ a < a' <= x.
Proof.
  intros x l a H. revert a. induction H as [|y l Hl IH Hy]; intros a; [auto|]. destruct l as [|z l]; [auto|].
  change (advance x (y :: z :: l)) with (if Nat.leb z x then advance x (z :: l) else y :: z :: l).
  destruct (Nat.leb_spec z x) as [Hz|Hz]; auto. intros [<-|Ha]; auto.
  right. rewrite Forall_forall in Hy. specialize (Hy z (or_introl eq_refl)).
  destruct (IH z (or_introl eq_refl)) as [I|(a' & I & J)]; [exists z; auto|exists a'; split; auto; lia].
Qed.
Lemma advance_sorted : forall x l, StronglySorted lt l -> StronglySorted lt (advance x l).
Proof.
  intros x l H. induction H as [|y l Hl IH Hy]; [constructor|]. destruct l as [|z l]; [constructor; auto|].
  change (advance x (y :: z :: l)) with (if Nat.leb z x then advance x (z :: l) else y :: z :: l).
  destruct (Nat.leb z x); auto. constructor; auto.
Qed.
Lemma advance_second : forall x l a b l', StronglySorted lt l -> advance x l = a :: b :: l' -> x < b.
Proof.
  intros x l a b l' H. revert a b l'. induction H as [|y l Hl IH Hy]; intros a b l' E; [discriminate|].
  destruct l as [|z l]; [discriminate|].
  change (advance x (y :: z :: l)) with (if Nat.leb z x then advance x (z :: l) else y :: z :: l) in E.
  destruct (Nat.leb_spec z x) as [Hz|Hz]; eauto. injection E as <- <- <-. auto.
Qed.

Lemma from_prev_in : forall bs as_ r, StronglySorted lt as_ -> StronglySorted lt bs ->
  (In r (from_prev as_ bs) <->
   rg_closed r = true /\ In (rg_start r) as_ /\ In (rg_end r) bs /\ rg_start r <= rg_end r /\
   forall a, In a as_ -> a <= rg_end r -> a <= rg_start r).
Proof.
  intros bs as_ r Ha Hb. revert as_ Ha. induction Hb as [|b bs Hb IH Hf]; intros as_ Ha; cbn [from_prev]; [cbn; tauto|].
  rewrite Forall_forall in Hf. pose proof (advance_sorted b as_ Ha) as Hd.
  assert (Hrest : In r (from_prev (advance b as_) bs) <->
     rg_closed r = true /\ In (rg_start r) as_ /\ In (rg_end r) bs /\ rg_start r <= rg_end r /\
     forall a, In a as_ -> a <= rg_end r -> a <= rg_start r).
  { rewrite IH by auto. split.
    - intros (C1 & C2 & C3 & C4 & C5). repeat split; auto; [eapply advance_sub; eauto|]. intros a Ha' Hle.
      destruct (advance_dropped b as_ a Ha Ha') as [I|(a' & I & J)]; auto.
      specialize (Hf _ C3). specialize (C5 _ I). lia.
    - intros (C1 & C2 & C3 & C4 & C5). specialize (Hf _ C3) as Hlt. repeat split; auto.
      + destruct (advance_dropped b as_ _ Ha C2) as [I|(a' & I & J)]; auto.
        apply advance_sub in I. specialize (C5 _ I). lia.
      + intros a Ha' Hle. apply advance_sub in Ha'. auto. }
  destruct (advance b as_) as [|a as'] eqn:E.
  - rewrite Hrest. cbn [In]. split; [tauto|]. intros (C1 & C2 & C3 & C4 & C5).
    destruct (advance_dropped b as_ _ Ha C2) as [I|(a' & I & _)]; rewrite E in I; destruct I.
  - assert (Hmax : forall x, In x as_ -> x <= b -> x <= a).
    { intros x Hx Hle. destruct (advance_dropped b as_ x Ha Hx) as [I|(a' & I & J)]; rewrite E in I.
      - destruct I as [<-|I]; auto. exfalso. destruct as' as [|z as']; [destruct I|].
        pose proof (advance_second b as_ a z as' Ha E). inversion Hd as [|? ? Hd' _]; subst.
        inversion Hd' as [|? ? _ Hz]; subst. rewrite Forall_forall in Hz. destruct I as [<-|I]; [lia|]. specialize (Hz _ I). lia.
      - destruct I as [<-|I]; [lia|]. exfalso. destruct as' as [|z as']; [destruct I|].
        pose proof (advance_second b as_ a z as' Ha E). inversion Hd as [|? ? Hd' _]; subst.
        inversion Hd' as [|? ? _ Hz]; subst. rewrite Forall_forall in Hz. destruct I as [<-|I]; [lia|]. specialize (Hz _ I). lia. }
    assert (Hain : In a as_) by (apply (advance_sub b); rewrite E; cbn; auto).
    destruct (Nat.leb_spec a b) as [Hab|Hab].
    + cbn [In]. rewrite Hrest. split.
      * intros [<-|C]; [|tauto]. cbn [rg_closed rg_start rg_end]. repeat split; auto.
      * intros (C1 & C2 & [Eb|C3] & C4 & C5); [left|tauto]. destruct r as [s e c]; cbn in *. subst.
        f_equal. specialize (Hmax _ C2 C4). specialize (C5 _ Hain Hab). lia.
    + rewrite Hrest. split; [cbn [In]; tauto|]. intros (C1 & C2 & [Eb|C3] & C4 & C5); [exfalso|tauto].
      rewrite <- Eb in C4. destruct (advance_dropped b as_ _ Ha C2) as [I|(a' & I & J)]; rewrite E in I.
      * destruct I as [->|I]; [lia|]. inversion Hd as [|? ? _ Hz]; subst. rewrite Forall_forall in Hz. specialize (Hz _ I). lia.
      * destruct I as [<-|I]; [lia|]. inversion Hd as [|? ? _ Hz]; subst. rewrite Forall_forall in Hz. specialize (Hz _ I). lia.
Qed.

Lemma from_prev_sorted : forall bs as_, StronglySorted lt as_ -> StronglySorted lt bs ->
  StronglySorted (fun r r' => rg_end r < rg_end r') (from_prev as_ bs).
Proof.
  intros bs as_ Ha Hb. revert as_ Ha. induction Hb as [|b bs Hb IH Hf]; intros as_ Ha; cbn [from_prev]; [constructor|].
  rewrite Forall_forall in Hf. pose proof (advance_sorted b as_ Ha) as Hd.
  destruct (advance b as_) as [|a as']; auto. destruct (Nat.leb a b); auto. constructor; auto.
  apply Forall_forall. intros r Hr. apply from_prev_in in Hr; auto. cbn. apply Hf, Hr.
Qed.

Lemma to_next_spec : forall a b, lists_exactly rg_start (is_to_next a b) (between_two_ranges_nb a b false).
Proof.
  intros a b. assert (E : between_two_ranges_nb a b false = to_next (flatnonzero a) (flatnonzero b)).
  { unfold between_two_ranges_nb. destruct (flatnonzero a) as [|x xs]; auto. destruct (flatnonzero b) as [|y ys]; auto.
    cbn [to_next drop_below]. induction xs as [|x' xs IH]; auto. }
  rewrite E. split; [|apply to_next_sorted; apply flatnonzero_sorted].
  intros r. rewrite to_next_in by apply flatnonzero_sorted. rewrite !flatnonzero_in. unfold is_to_next.
  split; intros (C1 & C2 & C3 & C4 & C5); repeat split; auto.
  - intros j Hj Ht. apply flatnonzero_in in Ht. specialize (C5 _ Ht). lia.
  - intros j Hj Hle. apply flatnonzero_in in Hj. destruct (Nat.lt_ge_cases j (rg_end r)); auto. exfalso. eapply C5; eauto.
Qed.

Lemma from_prev_spec : forall a b, lists_exactly rg_end (is_from_prev a b) (between_two_ranges_nb a b true).
Proof.
  intros a b. assert (E : between_two_ranges_nb a b true = from_prev (flatnonzero a) (flatnonzero b)).
  { unfold between_two_ranges_nb. destruct (flatnonzero a) as [|x xs]; [|destruct (flatnonzero b) as [|y ys]; auto].
    induction (flatnonzero b) as [|y ys IH]; auto. }
  rewrite E. split; [|apply from_prev_sorted; apply flatnonzero_sorted].
  intros r. rewrite from_prev_in by apply flatnonzero_sorted. rewrite !flatnonzero_in. unfold is_from_prev.
  split; intros (C1 & C2 & C3 & C4 & C5); repeat split; auto.
  - intros j Hj Ht. apply flatnonzero_in in Ht. specialize (C5 _ Ht). lia.
  - intros j Hj Hle. apply flatnonzero_in in Hj. destruct (Nat.le_gt_cases j (rg_start r)); auto. exfalso. eapply C5; eauto.
Qed.

(** ** Partitions *)
Lemma skipn_cons_nth : forall (l : list bool) i, i < length l -> skipn i l = nth i l false :: skipn (S i) l.
Proof.
  induction l as [|x l IH]; intros [|i] H; cbn in *; try lia; auto. apply IH. lia.
Qed.

Lemma tr_false : forall l i, nth i l false = false <-> ~ tr l i.
Proof. intros l i. unfold tr. destruct (nth i l false); split; congruence. Qed.

Definition part_ctx (a : list bool) (i : nat) (start : option nat) : Prop :=
  match start with
  | Some s => s < i /\ (s = 0 \/ ~ tr a (s - 1)) /\ forall j, s <= j < i -> tr a j
  | None => i = 0 \/ ~ tr a (i - 1)
  end.

(** In context [start], a run that contains bar [i - 1] starts there. *)
Lemma ctx_start : forall a i start s, part_ctx a i start -> s < i -> (s = 0 \/ ~ tr a (s - 1)) ->
  (forall j, s <= j < i -> tr a j) -> start = Some s.
Proof.
  intros a i [s0|] s Hc Hs Hb Hall; cbn in Hc.
  - destruct Hc as (A & B & C). f_equal. destruct (Nat.lt_trichotomy s0 s) as [F|[F|F]]; auto; exfalso.
    + destruct Hb as [->|Hb]; [lia|]. apply Hb, C. lia.
    + destruct B as [->|B]; [lia|]. apply B, Hall. lia.
  - exfalso. destruct Hc as [->|Hc]; [lia|]. apply Hc, Hall. lia.
Qed.

Lemma partition_loop_in : forall m a i start r, i + m = length a -> part_ctx a i start ->
  (In r (partition_loop i start (skipn i a)) <-> is_partition a r /\ i <= rg_end r < length a).
Proof.
  induction m as [|m IH]; intros a i start r Hm Hc.
  - rewrite skipn_all2 by lia. cbn. intuition lia.
  - rewrite skipn_cons_nth by lia. cbn [partition_loop].
    set (x := nth i a false). set (start' := if x then match start with None => Some i | s => s end else None).
    assert (Hc' : part_ctx a (S i) start').
    { unfold start'. destruct x eqn:Ex; cbn.
      - destruct start as [s|]; cbn in *.
        + destruct Hc as (A & B & C). split; [lia|]. split; auto. intros j Hj. destruct (Nat.eq_dec j i) as [->|]; [exact Ex|]. apply C. lia.
        + split; [lia|]. split; auto. intros j Hj. replace j with i by lia. exact Ex.
      - right. rewrite Nat.sub_0_r. apply tr_false. exact Ex. }
    set (out := if x then [] else match start with Some s => [mkRange s i true] | None => [] end).
    replace (if x then _ else _) with (start', out).
    2:{ unfold start', out. destruct x; auto. destruct start; auto. }
    rewrite !in_app_iff.
    assert (Hrec : In r (partition_loop (S i) start' (skipn (S i) a)) <-> is_partition a r /\ S i <= rg_end r < length a) by (apply IH; auto; lia).
    rewrite Hrec. clear Hrec IH.
    assert (Hout : In r out <-> is_partition a r /\ rg_end r = i /\ rg_closed r = true).
    { unfold out. split.
      - intros Hr. destruct x eqn:Ex; [destruct Hr|]. destruct start as [s|]; [|destruct Hr]. destruct Hr as [<-|[]].
        destruct Hc as (A & B & C). unfold is_partition. cbn. repeat split; auto; try lia; apply tr_false; exact Ex.
      - intros ((D0 & D1 & D2 & D3 & D4) & E1 & E2). rewrite E2 in D4. destruct D4 as [D4 D5]. rewrite E1 in *.
        assert (Ex : x = false) by (apply tr_false; auto). rewrite Ex.
        assert (rg_start r <> i) by (intros C; rewrite C in D2; auto).
        rewrite (ctx_start a i start (rg_start r) Hc) by (auto; lia). left. destruct r; cbn in *; congruence. }
    rewrite Hout. clear Hout out.
    assert (Hfin : In r (match skipn (S i) a, start' with [], Some s => [mkRange s i false] | _, _ => [] end) <->
       is_partition a r /\ rg_end r = i /\ rg_closed r = false).
    { split.
      - intros Hr. destruct (skipn (S i) a) eqn:Es; [|destruct Hr].
        assert (El : i = length a - 1). { assert (length (skipn (S i) a) = 0) by (rewrite Es; auto). rewrite skipn_length in H. lia. }
        destruct start' as [s|]; [|destruct Hr]. destruct Hr as [<-|[]]. destruct Hc' as (A & B & C).
        unfold is_partition. cbn. repeat split; auto; try lia; intros; apply C; lia.
      - intros ((D0 & D1 & D2 & D3 & D4) & E1 & E2). rewrite E2 in D4. destruct D4 as [D4 D5].
        rewrite skipn_all2 by lia. rewrite (ctx_start a (S i) start' (rg_start r) Hc'); auto; try lia.
        + left. destruct r; cbn in *; congruence.
        + intros j Hj. destruct (Nat.eq_dec j (rg_end r)) as [->|]; auto. apply D3. lia. }
    rewrite Hfin. clear Hfin. split.
    + intros [(H1 & H2 & H3)|[(H1 & H2 & H3)|(H1 & H2)]]; split; auto; lia.
    + intros [H1 H2]. destruct (Nat.eq_dec (rg_end r) i) as [E|E]; [|right; right; split; auto; lia].
      destruct (rg_closed r) eqn:Ec; auto.
Qed.

Lemma partition_loop_sorted : forall m a i start, i + m = length a -> part_ctx a i start ->
  StronglySorted (fun r r' => rg_start r < rg_start r') (partition_loop i start (skipn i a)).
Proof.
  induction m as [|m IH]; intros a i start Hm Hc.
  - rewrite skipn_all2 by lia. constructor.
  - rewrite skipn_cons_nth by lia. cbn [partition_loop].
    set (x := nth i a false). set (start' := if x then match start with None => Some i | s => s end else None).
    assert (Hc' : part_ctx a (S i) start').
    { unfold start'. destruct x eqn:Ex; cbn.
      - destruct start as [s|]; cbn in *.
        + destruct Hc as (A & B & C). split; [lia|]. split; auto. intros j Hj. destruct (Nat.eq_dec j i) as [->|]; [exact Ex|]. apply C. lia.
        + split; [lia|]. split; auto. intros j Hj. replace j with i by lia. exact Ex.
      - right. rewrite Nat.sub_0_r. apply tr_false. exact Ex. }
    specialize (IH a (S i) start' ltac:(lia) Hc').
    assert (Hlate : x = false -> forall s, s < i -> Forall (fun r => s < rg_start r) (partition_loop (S i) start' (skipn (S i) a))).
    { intros Ex s Hs. apply Forall_forall. intros r Hr. apply (partition_loop_in m a (S i)) in Hr as ((D0 & D1 & D2 & D3 & D4) & Hr); auto; [|lia].
      destruct (Nat.lt_ge_cases s (rg_start r)) as [|Hge]; auto. exfalso.
      apply (proj1 (tr_false a i) Ex). apply D3. lia. }
    destruct x eqn:Ex.
    + cbn [app]. destruct start as [s|].
      * destruct (skipn (S i) a) eqn:Es; [repeat constructor|exact IH].
      * destruct (skipn (S i) a) eqn:Es; [repeat constructor|exact IH].
    + unfold start'. destruct (skipn (S i) a) eqn:Es.
      * destruct start; cbn; repeat constructor.
      * destruct start as [s|]; cbn [app]; [|exact IH]. destruct Hc as (A & _). constructor; [exact IH|].
        cbn [rg_start]. apply (Hlate eq_refl s A).
Qed.

Lemma partition_end_lt : forall a r, is_partition a r -> rg_end r < length a.
Proof.
  intros a r (D0 & D1 & D2 & D3 & D4). pose proof (tr_lt _ _ D2). destruct (rg_closed r); [apply D4|]. destruct D4. lia.
Qed.

Lemma partition_spec : forall a, lists_exactly rg_start (is_partition a) (partition_ranges_nb a).
Proof.
  intros a. unfold partition_ranges_nb. split.
  - intros r. change a with (skipn 0 a) at 1. rewrite (partition_loop_in (length a)); auto; [|left; auto].
    split; [tauto|]. intros H. split; auto. apply partition_end_lt in H. lia.
  - change a with (skipn 0 a). apply (partition_loop_sorted (length a)); auto. left; auto.
Qed.

(** ** Gaps between partitions *)
Definition gap_ctx (a : list bool) (i : nat) (in_part : bool) (last_ : option nat) : Prop :=
  in_part = (negb (Nat.eqb i 0) && nth (i - 1) a false) /\
  match last_ with
  | Some s => s < i /\ tr a s /\ forall j, s < j < i -> ~ tr a j
  | None => forall j, j < i -> ~ tr a j
  end.

Lemma gap_ctx_step : forall a i in_part last_, gap_ctx a i in_part last_ ->
  gap_ctx a (S i) (nth i a false) (if nth i a false then Some i else last_).
Proof.
  intros a i in_part last_ (H1 & H2). split; [cbn; rewrite Nat.sub_0_r; auto|].
  destruct (nth i a false) eqn:E.
  - split; [lia|]. split; [exact E|]. lia.
  - apply tr_false in E. destruct last_ as [s|].
    + destruct H2 as (A & B & C). split; [lia|]. split; auto. intros j Hj. destruct (Nat.eq_dec j i) as [->|]; auto. apply C. lia.
    + intros j Hj. destruct (Nat.eq_dec j i) as [->|]; auto. apply H2. lia.
Qed.

Lemma gap_loop_in : forall m a i in_part last_ r, i + m = length a -> gap_ctx a i in_part last_ ->
  (In r (between_partition_loop i in_part last_ (skipn i a)) <-> is_gap a r /\ i <= rg_end r).
Proof.
  induction m as [|m IH]; intros a i in_part last_ r Hm Hc.
  - rewrite skipn_all2 by lia. cbn. split; [intros []|]. intros ((_ & _ & H & _) & Hle). apply tr_lt in H. lia.
  - rewrite skipn_cons_nth by lia. cbn [between_partition_loop].
    pose proof (gap_ctx_step _ _ _ _ Hc) as Hc'. specialize (IH a (S i) _ _ r ltac:(lia) Hc').
    destruct Hc as [H1 H2]. destruct (nth i a false) eqn:E.
    + rewrite in_app_iff, IH. clear IH.
      assert (Hout : In r (if in_part then [] else match last_ with Some s => [mkRange s i true] | None => [] end) <->
         is_gap a r /\ rg_end r = i).
      { split.
        - intros Hr. destruct in_part; [destruct Hr|]. destruct last_ as [s|]; [|destruct Hr]. destruct Hr as [<-|[]].
          destruct H2 as (A & B & C). unfold is_gap. cbn. repeat split; auto.
          assert (s <> i - 1); [|lia]. intros ->. unfold tr in B. rewrite B in H1. destruct (Nat.eqb_spec i 0); [lia|discriminate].
        - intros ((D1 & D2 & D3 & D4 & D5) & Ee). rewrite Ee in *.
          assert (Hn : ~ tr a (i - 1)) by (apply D5; lia). apply tr_false in Hn. rewrite Hn, andb_false_r in H1. rewrite H1.
          destruct last_ as [s|].
          + destruct H2 as (A & B & C). left. destruct r as [s' e c]; cbn in *. subst. f_equal.
            destruct (Nat.lt_trichotomy s s') as [F|[F|F]]; auto; exfalso; [apply (C s'); auto; lia|apply (D5 s); auto; lia].
          + exfalso. eapply H2; [|exact D2]. lia. }
      rewrite Hout. split; [intros [[A B]|[A B]]; split; auto; lia|]. intros [A B].
      destruct (Nat.eq_dec (rg_end r) i); [left; auto|right; split; auto; lia].
    + rewrite IH. split; [intros [A B]; split; auto; lia|]. intros [A B]. split; auto.
      apply tr_false in E. destruct (Nat.eq_dec (rg_end r) i) as [Ei|]; [|lia]. exfalso. apply E. rewrite <- Ei. apply A.
Qed.

Lemma gap_loop_sorted : forall m a i in_part last_, i + m = length a -> gap_ctx a i in_part last_ ->
  StronglySorted (fun r r' => rg_start r < rg_start r') (between_partition_loop i in_part last_ (skipn i a)).
Proof.
  induction m as [|m IH]; intros a i in_part last_ Hm Hc.
  - rewrite skipn_all2 by lia. constructor.
  - rewrite skipn_cons_nth by lia. cbn [between_partition_loop].
    pose proof (gap_ctx_step _ _ _ _ Hc) as Hc'. specialize (IH a (S i) _ _ ltac:(lia) Hc').
    destruct Hc as [H1 H2]. destruct (nth i a false) eqn:E; auto.
    destruct in_part; auto. destruct last_ as [s|]; auto. cbn [app]. constructor; auto.
    apply Forall_forall. intros r Hr. apply (gap_loop_in m a (S i)) in Hr as ((D1 & D2 & D3 & D4 & D5) & Hr); auto; [|lia].
    cbn. destruct (Nat.lt_ge_cases s (rg_start r)) as [|Hge]; auto. exfalso. apply (D5 i); [lia|exact E].
Qed.

Lemma gap_spec : forall a, lists_exactly rg_start (is_gap a) (between_partition_ranges_nb a).
Proof.
  intros a. assert (Hc : gap_ctx a 0 false None) by (split; [reflexivity|intros; lia]).
  unfold between_partition_ranges_nb. change a with (skipn 0 a) at 2. split.
  - intros r. rewrite (gap_loop_in (length a)); auto. intuition lia.
  - apply (gap_loop_sorted (length a)); auto.
Qed.
