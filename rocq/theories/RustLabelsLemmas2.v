(** * Lemmas about the Rust label generators, the period ahead (C102) *)
From Coq Require Import String ZArith QArith Bool List Lia Arith Lqa.
From Verif Require Import Base Num XQFacts OrdLaws GenericNb GenericSpec ReturnsNb GenericLemmas GenericLemmas2 ReduceLemmas RustGeneric RustGenericSpec RustGenericLemmas RustGenericLemmas2 RustGenericLemmas3 RustGenericLemmas4 ReturnsSpec.
From Verif Require Import LabelsNb LabelsSpec LabelsLemmas2 LabelsLemmas4 RustLabels RustLabelsSpec RustLabelsLemmas.
Import ListNotations.
Local Open Scope nat_scope.

Section Columns.
  Context {T : Type} {N : Num T}.

  Lemma combine_map_seq : forall A B (f : nat -> A) (g : nat -> B) l, combine (map f l) (map g l) = map (fun i => (f i, g i)) l.
  Proof. intros A B f g l. induction l as [|i l IH]; [reflexivity|]. cbn. rewrite IH. reflexivity. Qed.

  Lemma fixed_ok : forall nrows ncols n,
    by_column (fun src => rs_fixed_labels_c src nrows ncols n) (fun a => fixed_labels_apply_nb a n) nrows ncols.
  Proof.
    intros nrows ncols n. unfold rs_fixed_labels_c. apply rows_by_column.
    - intros src r _ _. destruct (r + n <? nrows); rewrite map_length, seq_length; reflexivity.
    - intros src c Hs Hc. unfold fixed_labels_apply_nb, relative_to. rewrite <- bshift_1d_eq. unfold rs_bshift_1d. rewrite column_length.
      unfold column at 2. rewrite combine_map_seq, map_map. cbn [fst snd]. apply map_ext_in. intros r Hr. apply in_seq in Hr.
      destruct (Nat.ltb_spec (r + n) nrows) as [H|H].
      + rewrite (nth_map_seq _ (fun col => div (sub (nth ((r + n) * ncols + col) src nan) (nth (r * ncols + col) src nan)) (nth (r * ncols + col) src nan))) by auto.
        rewrite column_nth by auto. reflexivity.
      + rewrite (nth_map_seq _ (fun col => div (sub nan (nth (r * ncols + col) src nan)) (nth (r * ncols + col) src nan))) by auto. reflexivity.
  Qed.

  (** ** Exponential statistics and strided arrays *)
  Lemma by_col_eq : forall (roll nb : list T -> res (list T)) close wait, roll (rev close) = nb (rev close) ->
    rs_future_by_col roll close wait = (let! out := nb (rev close) in Ok (maybe_bshift wait (rev out))).
  Proof.
    intros roll nb close wait E. unfold rs_future_by_col, maybe_bshift. rewrite E. destruct (nb (rev close)) as [out|e]; cbn [bind]; [|reflexivity].
    destruct (0 <? wait); [rewrite bshift_1d_eq|]; reflexivity.
  Qed.
  Lemma strided_eq : forall sqrt tol (close : list T) w wait ddof,
    rs_future_min_strided close w wait = future_min_apply_nb close w wait /\
    rs_future_max_strided close w wait = future_max_apply_nb close w wait /\
    rs_future_std_strided sqrt tol close w wait ddof = future_std_apply_nb sqrt tol close w wait (Z.of_nat ddof).
  Proof.
    intros sqrt tol close w wait ddof. split; [|split].
    - apply (by_col_eq _ (fun a => rolling_min_1d_nb a w (Some w))). apply rolling_extreme_eq.
    - apply (by_col_eq _ (fun a => rolling_max_1d_nb a w (Some w))). apply rolling_extreme_eq.
    - apply (by_col_eq _ (fun a => rolling_std_1d_nb sqrt tol a w (Some w) (Z.of_nat ddof))). apply rolling_std_eq.
  Qed.
  Lemma ewm_labels_eq : OrdLaws N -> forall (close : list T) w wait adjust, exact_span (T := T) w ->
    (forall out, future_mean_apply_nb close w true wait adjust = Ok out -> rs_future_ewm_mean close w wait adjust = Ok out) /\
    (forall out, mean_labels_apply_nb close w true wait adjust = Ok out -> rs_mean_labels_ewm close w wait adjust = Ok out).
  Proof.
    intros L close w wait adjust Hs.
    assert (K : forall out, future_mean_apply_nb close w true wait adjust = Ok out -> rs_future_ewm_mean close w wait adjust = Ok out /\ length out = length close).
    { intros out H. unfold future_mean_apply_nb in H. cbv iota in H. destruct (ewm_mean_1d_nb (rev close) w (Some w) adjust) as [o|e] eqn:E; [|discriminate].
      pose proof (ewm_mean_eq eqb_nan_refl (rev close) w (Some w) adjust o Hs E) as E2. cbn [or_default] in E2.
      split.
      - unfold rs_future_ewm_mean. rewrite (by_col_eq _ (fun a => ewm_mean_1d_nb a w (Some w) adjust)); [rewrite E; exact H|congruence].
      - cbn [bind] in H. injection H as <-. assert (Lo : length (rev o) = length close).
        { rewrite rev_length. unfold rs_ewm_mean in E2. apply raise_if_ok in E2 as [_ E2]. injection E2 as <-. unfold rs_ewm_mean_1d.
          rewrite <- (rev_length close). destruct (rev close); [reflexivity|]. destruct (rs_ewm_weights w adjust). cbn [length]. rewrite scan_length. reflexivity. }
        unfold maybe_bshift. destruct (0 <? wait); [unfold bshift_1d_nb; rewrite map_length, seq_length|]; auto. }
    split; [intros out H; apply K; auto|].
    intros out H. unfold mean_labels_apply_nb in H. destruct (future_mean_apply_nb close w true wait adjust) as [o|e] eqn:E; [|discriminate].
    destruct (K o eq_refl) as [E1 E2]. unfold rs_mean_labels_ewm. rewrite E1. cbn [bind] in *. rewrite <- H. f_equal. unfold relative_to.
    assert (Eo : o = map (fun i => nth i o nan) (seq 0 (length close))) by (rewrite <- E2; symmetry; apply map_nth_all).
    assert (Ec : close = map (fun i => nth i close nan) (seq 0 (length close))) by (symmetry; apply map_nth_all).
    assert (C : combine o close = combine (map (fun i => nth i o nan) (seq 0 (length close))) (map (fun i => nth i close nan) (seq 0 (length close))))
      by (rewrite <- Eo, <- Ec; reflexivity).
    rewrite C, combine_map_seq, map_map. cbn [fst snd]. reflexivity.
  Qed.

  (** ** Extremes *)
  Lemma extreme_of : forall better (at_ : nat -> T) rows v,
    rs_extreme_of better at_ rows v =
    if existsb isnan (map at_ rows) then None else Some (fold_left (fun m v => if better v m then v else m) (map at_ rows) v).
  Proof.
    intros better at_ rows. induction rows as [|r rows IH]; intros v; [reflexivity|]. cbn [rs_extreme_of map existsb fold_left].
    destruct (isnan (at_ r)); cbn [orb]; auto.
  Qed.

  Lemma next_bars_rows : forall (a : list T) w wait i, i + wait + w <= length a ->
    next_bars w wait i a = map (fun r => nth r a nan) (range (i + wait) (i + wait + w)).
  Proof. intros a w wait i H. rewrite <- slice_map by lia. unfold next_bars, slice. rewrite firstn_skipn_comm. reflexivity. Qed.

  Definition extreme_at (better : T -> T -> bool) (first : T) (a : list T) (w wait i : nat) : T :=
    let l := next_bars w wait i a in
    if Nat.ltb (length l) w || existsb isnan l then nan else fold_left (fun m v => if better v m then v else m) l first.

  Lemma next_bars_length : forall (a : list T) w wait i, length (next_bars w wait i a) = Nat.min w (length a - (i + wait)).
  Proof. intros. unfold next_bars. rewrite firstn_length, skipn_length. reflexivity. Qed.

  Lemma future_extreme_ok : forall better first nrows ncols w wait, 1 <= w ->
    by_column (fun src => rs_future_extreme_c better first src nrows ncols w wait)
      (fun a => map (extreme_at better first a w wait) (seq 0 (length a))) nrows ncols.
  Proof.
    intros better first nrows ncols w wait Hw. unfold rs_future_extreme_c. apply rows_by_column.
    - intros src r _ _. cbv zeta. destruct (nrows <? r + wait + w); [apply repeat_length|]. rewrite map_length, seq_length. reflexivity.
    - intros src c Hs Hc. rewrite column_length. apply map_ext_in. intros r Hr. apply in_seq in Hr. cbv zeta. unfold extreme_at.
      rewrite next_bars_length, column_length. destruct (Nat.ltb_spec nrows (r + wait + w)) as [H|H].
      + rewrite (proj2 (Nat.ltb_lt _ _)) by lia. cbn [orb]. apply nth_repeat.
      + rewrite (proj2 (Nat.ltb_ge _ _)) by lia. cbn [orb].
        rewrite (nth_map_seq _ (fun col => match rs_extreme_of better (fun r0 => nth (r0 * ncols + col) src nan) (range (r + wait) (r + wait + w)) first with
                           | Some v => v | None => nan end)) by auto.
        rewrite next_bars_rows by (rewrite column_length; auto). rewrite extreme_of.
        assert (E : map (fun r0 => nth (r0 * ncols + c) src nan) (range (r + wait) (r + wait + w)) =
                    map (fun r0 => nth r0 (column src nrows ncols c) nan) (range (r + wait) (r + wait + w))).
        { apply map_ext_in. intros j Hj. apply in_seq in Hj. rewrite column_nth by lia. reflexivity. }
        rewrite E. destruct (existsb isnan _); reflexivity.
  Qed.

  Context {L : OrdLaws N}.
  Variable I : one_infinity N.

  Lemma fold_min : forall l (m : T), isnan m = false -> (forall x, In x l -> isnan x = false) ->
    let r := fold_left (fun m v => if ltb v m then v else m) l m in
    In r (m :: l) /\ forall x, In x (m :: l) -> ltb x r = false.
  Proof.
    induction l as [|x l IH]; intros m Hm Hl; cbv zeta.
    - cbn. split; auto. intros x [<-|[]]. destruct (ltb m m) eqn:E; auto. pose proof (ol_asym _ _ E). congruence.
    - cbn [fold_left]. assert (Hx : isnan x = false) by (apply Hl; left; auto). destruct (ltb x m) eqn:E.
      + destruct (IH x Hx) as [H1 H2]; [intros; apply Hl; right; auto|]. split; [destruct H1; [right; left|right; right]; auto|].
        intros y [<-|Hy]; [|apply H2; auto]. apply (ol_negtrans m x); auto. { apply ol_asym. auto. } apply H2. left. auto.
      + destruct (IH m Hm) as [H1 H2]; [intros; apply Hl; right; auto|]. split; [destruct H1; [left|right; right]; auto|].
        intros y [<-|[<-|Hy]]; [apply H2; left; auto| |apply H2; right; auto]. apply (ol_negtrans x m); auto. apply H2. left. auto.
  Qed.
  Lemma fold_max : forall l (m : T), isnan m = false -> (forall x, In x l -> isnan x = false) ->
    let r := fold_left (fun m v => if gtb v m then v else m) l m in
    In r (m :: l) /\ forall x, In x (m :: l) -> ltb r x = false.
  Proof.
    unfold gtb. induction l as [|x l IH]; intros m Hm Hl; cbv zeta.
    - cbn. split; auto. intros x [<-|[]]. destruct (ltb m m) eqn:E; auto. pose proof (ol_asym _ _ E). congruence.
    - cbn [fold_left]. assert (Hx : isnan x = false) by (apply Hl; left; auto). destruct (ltb m x) eqn:E.
      + destruct (IH x Hx) as [H1 H2]; [intros; apply Hl; right; auto|]. split; [destruct H1; [right; left|right; right]; auto|].
        intros y [<-|Hy]; [|apply H2; auto]. apply (ol_negtrans _ x); auto. { apply H2. left. auto. } apply ol_asym. auto.
      + destruct (IH m Hm) as [H1 H2]; [intros; apply Hl; right; auto|]. split; [destruct H1; [left|right; right]; auto|].
        intros y [<-|[<-|Hy]]; [apply H2; left; auto| |apply H2; right; auto]. apply (ol_negtrans _ m); auto. apply H2. left. auto.
  Qed.

  Lemma from_infinity : forall x l, isnan x = false ->
    fold_left (fun m v => if ltb v m then v else m) (x :: l) pinf = fold_left (fun m v => if ltb v m then v else m) l x /\
    fold_left (fun m v => if gtb v m then v else m) (x :: l) ninf = fold_left (fun m v => if gtb v m then v else m) l x.
  Proof.
    destruct I as [I1 I2]. intros x l Ex. cbn [fold_left]. split; f_equal; [destruct (ltb x pinf) eqn:F; auto; symmetry; auto|].
    unfold gtb. destruct (ltb ninf x) eqn:F; auto; symmetry; auto.
  Qed.

  Lemma extreme_at_spec : forall (a : list T) w wait i, 1 <= w ->
    let l := next_bars w wait i a in
    (length l = w -> (forall z, In z l -> isnan z = false) ->
       is_min (extreme_at ltb pinf a w wait i) l /\ is_max (extreme_at gtb ninf a w wait i) l) /\
    (length l < w \/ (exists z, In z l /\ isnan z = true) ->
       isnan (extreme_at ltb pinf a w wait i) = true /\ isnan (extreme_at gtb ninf a w wait i) = true).
  Proof.
    intros a w wait i Hw. cbv zeta. unfold extreme_at. set (l := next_bars w wait i a). clearbody l. split.
    - intros Hl Hn. rewrite Hl, Nat.ltb_irrefl. cbn [orb].
      assert (E : existsb isnan l = false).
      { destruct (existsb isnan l) eqn:E; auto. apply existsb_exists in E as (z & Hz & Ez). rewrite Hn in Ez; auto. }
      rewrite E. destruct l as [|x l]; [cbn in Hl; lia|]. assert (Hx : isnan x = false) by (apply Hn; left; auto).
      destruct (from_infinity x l Hx) as [-> ->].
      destruct (fold_min l x Hx) as [M1 M2]; [intros; apply Hn; right; auto|]. destruct (fold_max l x Hx) as [M3 M4]; [intros; apply Hn; right; auto|].
      split; split; auto; intros y Hy; rewrite ol_leb; [rewrite M2 by auto|rewrite M4 by auto]; rewrite !Hn by auto; reflexivity.
    - intros H. assert (E : Nat.ltb (length l) w || existsb isnan l = true).
      { apply orb_true_iff. destruct H as [H|(z & Hz & Ez)]; [left; apply Nat.ltb_lt; auto|right; apply existsb_exists; eauto]. }
      rewrite E. split; apply ol_nan.
  Qed.

  Lemma same_min : forall (x y : T) l, is_min x l -> is_min y l -> eqb x y = true.
  Proof. intros x y l [H1 H2] [H3 H4]. rewrite ol_eqb, (H2 y), (H4 x) by auto. reflexivity. Qed.
  Lemma same_max : forall (x y : T) l, is_max x l -> is_max y l -> eqb x y = true.
  Proof. intros x y l [H1 H2] [H3 H4]. rewrite ol_eqb, (H4 x), (H2 y) by auto. reflexivity. Qed.

  Lemma future_extremes_agree : forall (src : list T) nrows ncols w wait c, c_order src nrows ncols -> c < ncols -> 1 <= w ->
    exists lo hi, future_min_apply_nb (column src nrows ncols c) w wait = Ok lo /\ future_max_apply_nb (column src nrows ncols c) w wait = Ok hi /\
      Forall2 as_number (column (rs_future_min_c src nrows ncols w wait) nrows ncols c) lo /\
      Forall2 as_number (column (rs_future_max_c src nrows ncols w wait) nrows ncols c) hi.
  Proof.
    intros src nrows ncols w wait c Hs Hc Hw.
    destruct (future_extremes (column src nrows ncols c) w wait Hw) as (lo & hi & E1 & E2 & L1 & L2 & H). exists lo, hi. split; auto. split; auto.
    unfold rs_future_min_c, rs_future_max_c.
    destruct (future_extreme_ok ltb pinf nrows ncols w wait Hw src Hs) as [_ K1]. destruct (future_extreme_ok gtb ninf nrows ncols w wait Hw src Hs) as [_ K2].
    rewrite K1, K2 by auto. set (a := column src nrows ncols c) in *.
    assert (G : forall i, i < length a -> exists x y, nth_error lo i = Some x /\ nth_error hi i = Some y /\
      as_number (extreme_at ltb pinf a w wait i) x /\ as_number (extreme_at gtb ninf a w wait i) y).
    { intros i Hi. destruct (H i Hi) as (x & y & Hx & Hy & A1 & A2). exists x, y. split; auto. split; auto.
      destruct (extreme_at_spec a w wait i Hw) as [B1 B2]. cbv zeta in *.
      assert (Hll : length (next_bars w wait i a) <= w) by (rewrite next_bars_length; lia).
      destruct (existsb isnan (next_bars w wait i a)) eqn:En; [|destruct (le_lt_dec w (length (next_bars w wait i a)))].
      - apply existsb_exists in En as (z & Hz & Ez). destruct A2 as [A3 A4]; eauto. destruct B2 as [B3 B4]; eauto. split; right; auto.
      - assert (Hn : forall z, In z (next_bars w wait i a) -> isnan z = false).
        { intros z Hz. destruct (isnan z) eqn:Ez; auto. rewrite <- En. symmetry. apply existsb_exists. eauto. }
        destruct A1 as [A3 A4]; [lia|auto|]. destruct B1 as [B3 B4]; [lia|auto|]. split; left; [eapply same_min|eapply same_max]; eauto.
      - destruct A2 as [A3 A4]; auto. destruct B2 as [B3 B4]; auto. split; right; auto. }
    split; apply Forall2_nth; rewrite ?map_length, ?seq_length; auto; intros i x y Hx Hy;
      assert (Hi := nth_error_lt _ _ _ Hx); rewrite map_length, seq_length in Hi;
      destruct (G i Hi) as (x' & y' & Hx' & Hy' & G1 & G2); rewrite nth_error_map_seq in Hx by auto; injection Hx as <-; congruence.
  Qed.
End Columns.
