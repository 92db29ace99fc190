(** * Lemmas about the Rust label generators, extrema and trends (C102) *)
From Coq Require Import String ZArith Bool List Lia Arith.
From Verif Require Import Base Num GenericNb ReturnsNb GenericLemmas RustGeneric RustGenericSpec RustGenericLemmas RustGenericLemmas2 LabelsNb LabelsSpec LabelsLemmas LabelsLemmas2 RustLabels RustLabelsSpec.
From Verif Require Import B64.
Import ListNotations.
Local Open Scope nat_scope.

Lemma xq_one_infinity : one_infinity XQnum.
Proof. split; intros [| | |q]; cbn; intros; congruence. Qed.
Lemma b64_one_infinity : one_infinity B64num.
Proof. split; intros [[]|[]| |[] m e h]; vm_compute; intros; congruence. Qed.

Section Extrema.
  Context {T : Type} {N : Num T}.

  Definition ext3 (s : Ext) : list Z * nat * Z := (x_out s, x_prev s, x_dir s).

  Lemma local_step_eq : forall (close : list T) pos_th neg_th s i,
    rs_local_extrema_step close pos_th neg_th (ext3 s) i = (let! s' := local_extrema_step close pos_th neg_th s i in Ok (ext3 s')).
  Proof.
    intros close pos_th neg_th [o p d] i. unfold rs_local_extrema_step, local_extrema_step, ext3. cbn [x_out x_prev x_dir].
    destruct (eqb (abs (pos_th p)) zero); [reflexivity|]. destruct (eqb (abs (neg_th p)) zero); [reflexivity|]. cbn [raise_if bind].
    f_equal.
    destruct (Z.eqb d 1) eqn:E1; [destruct (ltb _ _); [|destruct (geb _ _)]|destruct (Z.eqb d (-1)) eqn:E2;
      [destruct (gtb _ _); [|destruct (leb _ _)]|destruct (geb _ _); [|destruct (leb _ _)]]]; cbn [x_out x_prev x_dir];
      destruct (i =? _); cbn [andb x_out x_prev x_dir]; auto; destruct (negb _); auto.
  Qed.

  Lemma local_extrema_eq : forall (close : list T) pos_th neg_th, rs_local_extrema_apply close pos_th neg_th = local_extrema_apply_nb close pos_th neg_th.
  Proof.
    intros close pos_th neg_th. unfold rs_local_extrema_apply, local_extrema_apply_nb.
    set (s0 := mkExt (repeat 0%Z (List.length close)) 0 0%Z). change (repeat 0%Z (List.length close), 0, 0%Z) with (ext3 s0).
    generalize s0 (range 1 (List.length close)). clear s0. intros s l. revert s. induction l as [|i l IH]; intros s; [destruct s; reflexivity|].
    cbn [foldM]. rewrite local_step_eq. destruct (local_extrema_step close pos_th neg_th s i) as [s'|e]; cbn [bind]; [apply IH|reflexivity].
  Qed.
End Extrema.

Section Between.
  Context {T : Type} {N : Num T}.
  Variable check : nat -> res unit.
  Variable rlabel : nat -> nat -> nat -> T.
  Variable label : nat -> nat -> nat -> res T.

  Definition rs_turn (s : option nat * list T) (next_i : nat) : res (option nat * list T) :=
    match fst s with
    | None => Ok (Some next_i, snd s)
    | Some prev_i =>
        let! _ := check prev_i in
        Ok (Some next_i, fold_left (fun out i => upd out i (rlabel prev_i next_i i)) (range prev_i next_i) (snd s))
    end.

  Lemma foldM_skip : forall A S (c : A -> bool) (g : S -> A -> res S) l s,
    foldM (fun s a => if c a then Ok s else g s a) s l = foldM g s (filter (fun a => negb (c a)) l).
  Proof.
    intros A S c g. induction l as [|a l IH]; intros s; [reflexivity|]. cbn [foldM filter]. destruct (c a); cbn [bind negb foldM]; auto.
    destruct (g s a); cbn [bind]; auto.
  Qed.

  Lemma rs_between_idxs : forall n ext, length ext = n ->
    rs_between check rlabel n ext = (let! s := foldM rs_turn (None, repeat nan n) (flatnonzero ext) in Ok (snd s)).
  Proof.
    intros n ext <-. unfold rs_between, flatnonzero. rewrite <- (foldM_skip _ _ (fun i => Z.eqb (nth i ext 0%Z) 0) rs_turn). reflexivity.
  Qed.

  (** Between two extrema the check refuses what the label refuses; otherwise the
      label divides by zero or is the same. *)
  Definition pair_ok (p q : nat) : Prop := forall i, p <= i < q ->
    match check p with
    | Err e => label p q i = Err e
    | Ok _ => label p q i = Ok (rlabel p q i) \/ label p q i = Err ZeroDivision
    end.

  Lemma inner_ok : forall p q l out, (forall i, In i l -> label p q i = Ok (rlabel p q i) \/ label p q i = Err ZeroDivision) ->
    foldM (fun out i => let! v := label p q i in Ok (upd out i v)) out l = Err ZeroDivision \/
    foldM (fun out i => let! v := label p q i in Ok (upd out i v)) out l = Ok (fold_left (fun out i => upd out i (rlabel p q i)) l out).
  Proof.
    intros p q l. induction l as [|i l IH]; intros out H; [right; reflexivity|]. cbn [foldM fold_left].
    destruct (H i (or_introl eq_refl)) as [-> | ->]; cbn [bind]; [|left; reflexivity]. apply IH. intros j Hj. apply H. right. auto.
  Qed.

  Lemma pairs_ok : forall idxs p out, (forall a b, In (a, b) (combine (p :: idxs) idxs) -> a < b /\ pair_ok a b) ->
    let r := foldM (fun out pq => foldM (fun out i => let! v := label (fst pq) (snd pq) i in Ok (upd out i v)) out (range (fst pq) (snd pq)))
               out (combine (p :: idxs) idxs) in
    r = Err ZeroDivision \/ (let! s := foldM rs_turn (Some p, out) idxs in Ok (snd s)) = r.
  Proof.
    induction idxs as [|q idxs IH]; intros p out H; [right; reflexivity|]. cbv zeta. cbn [combine foldM fst snd].
    destruct (H p q (or_introl eq_refl)) as [Hlt Hpq]. unfold pair_ok in Hpq.
    assert (Hr : forall i, In i (range p q) -> p <= i < q) by (intros i Hi; apply in_seq in Hi; lia).
    unfold rs_turn at 1. cbn [fst snd]. destruct (check p) as [u|e]; cbn [bind].
    - destruct (inner_ok p q (range p q) out) as [E|E]; [auto| |]; rewrite E; cbn [bind]; [left; reflexivity|].
      apply IH. intros a b Hab. apply H. right. auto.
    - right. unfold range. replace (q - p) with (S (q - p - 1)) by lia. cbn [seq foldM]. rewrite (Hpq p) by lia. reflexivity.
  Qed.

  Lemma between_eq : forall n ext, length ext = n -> (forall p q, adjacent ext p q -> pair_ok p q) ->
    between_extrema label n ext = Err ZeroDivision \/ rs_between check rlabel n ext = between_extrema label n ext.
  Proof.
    intros n ext Hn H. rewrite rs_between_idxs by auto. unfold between_extrema. pose proof (pairs_adjacent ext) as P.
    destruct (flatnonzero ext) as [|p idxs]; [right; reflexivity|]. cbn [foldM]. unfold rs_turn at 1. cbn [fst snd bind tl] in *.
    apply pairs_ok. intros a b Hab. apply P in Hab. split; [destruct Hab; lia|auto].
  Qed.
End Between.

Section Trends.
  Context {T : Type} {N : Num T}.

  Lemma min_max_from : forall (close : list T) rows lo hi,
    rs_min_max_from close rows lo hi =
    if existsb isnan (map (fun i => nth i close nan) rows) then (nan, nan)
    else (fold_left (fun m v => if ltb v m then v else m) (map (fun i => nth i close nan) rows) lo,
          fold_left (fun m v => if gtb v m then v else m) (map (fun i => nth i close nan) rows) hi).
  Proof.
    intros close rows. induction rows as [|r rows IH]; intros lo hi; [reflexivity|]. cbn [rs_min_max_from map existsb fold_left].
    destruct (isnan (nth r close nan)); cbn [orb]; auto.
  Qed.

  Lemma slice_map : forall (close : list T) p q, p <= q -> q <= length close -> slice p q close = map (fun i => nth i close nan) (range p q).
  Proof.
    intros close p q Hp Hq. unfold range. replace q with (p + (q - p)) at 1 by lia. assert (Hm : p + (q - p) <= length close) by lia.
    revert Hm. clear Hq Hp. generalize (q - p) as m. induction m as [|m IH]; intros Hm.
    - unfold slice. cbn [seq map]. apply skipn_all2. rewrite firstn_length. lia.
    - replace (p + S m) with (S (p + m)) by lia. destruct (nth_error close (p + m)) as [x|] eqn:E; [|apply nth_error_None in E; lia].
      rewrite (slice_snoc close p (p + m) x) by (auto; lia). rewrite IH by lia. rewrite seq_S, map_app. cbn [map].
      rewrite (nth_error_nth _ _ nan E). reflexivity.
  Qed.

  Lemma slice_min_max_eq : one_infinity N -> forall (close : list T) p q, p <= q -> q < length close ->
    np_min (slice p (S q) close) = Ok (fst (rs_slice_min_max close p q)) /\ np_max (slice p (S q) close) = Ok (snd (rs_slice_min_max close p q)).
  Proof.
    intros [I1 I2] close p q Hp Hq. unfold rs_slice_min_max. rewrite min_max_from. rewrite <- (slice_map close p (S q)) by lia.
    rewrite (slice_head close p (S q)) by lia. set (x := nth p close nan). set (l := slice (S p) (S q) close). unfold np_min, np_max, np_extreme.
    destruct (existsb isnan (x :: l)) eqn:E; [split; reflexivity|]. cbn [existsb] in E. apply orb_false_iff in E as [Ex _]. cbn [fold_left fst snd].
    assert (E1 : (if ltb x pinf then x else pinf) = x) by (destruct (ltb x pinf) eqn:F; auto; symmetry; auto).
    assert (E2 : (if gtb x ninf then x else ninf) = x) by (unfold gtb; destruct (ltb ninf x) eqn:F; auto; symmetry; auto).
    rewrite E1, E2. split; reflexivity.
  Qed.

  (** ** The modes *)
  Lemma bn_eq : forall (close : list T) ext, length ext = length close -> rs_bn_trend_labels close ext = bn_trend_labels_nb close ext.
  Proof.
    intros close ext Hl. unfold rs_bn_trend_labels, bn_trend_labels_nb.
    destruct (between_eq (fun _ => Ok tt) (fun p q _ => if gtb (nth q close nan) (nth p close nan) then one else zero)
      (fun p q _ => Ok (if gtb (nth q close nan) (nth p close nan) then one else zero)) (length close) ext Hl) as [E|E]; auto.
    { intros p q _ i _. left. reflexivity. }
    exfalso. destruct (between_ok (fun p q _ => Ok (if gtb (nth q close nan) (nth p close nan) then one else zero)) (length close) ext Hl) as [o Ho].
    { intros. eauto. }
    rewrite Ho in E. discriminate.
  Qed.

  Lemma cont_eq : one_infinity N -> forall (close : list T) ext, length ext = length close -> rs_bn_cont_trend_labels close ext = bn_cont_trend_labels_nb close ext.
  Proof.
    intros I close ext Hl. unfold rs_bn_cont_trend_labels, bn_cont_trend_labels_nb. set (rl := fun p q i => _). set (lb := fun p q i => bind _ _).
    assert (K : forall p q i, adjacent ext p q -> lb p q i = Ok (rl p q i)).
    { intros p q i [Ha _]. destruct (slice_min_max_eq I close p q) as [E1 E2]; try lia. unfold lb, rl. rewrite E1, E2. cbn [bind].
      destruct (rs_slice_min_max close p q); reflexivity. }
    destruct (between_eq (fun _ => Ok tt) rl lb (length close) ext Hl) as [E|E]; auto.
    { intros p q Ha i _. left. auto. }
    exfalso. destruct (between_ok lb (length close) ext Hl) as [o Ho].
    { intros i p q [Ha _]. eauto. }
    rewrite Ho in E. discriminate.
  Qed.

  Lemma sdiv_ok : forall x y : T, sdiv x y = Ok (div x y) \/ sdiv x y = Err ZeroDivision.
  Proof. intros x y. unfold sdiv. destruct (eqb y zero); auto. Qed.

  Lemma sat_eq : one_infinity N -> forall (close : list T) ext pos_th neg_th, length ext = length close ->
    unless_zero_division (rs_bn_cont_sat_trend_labels close ext pos_th neg_th) (bn_cont_sat_trend_labels_nb close ext pos_th neg_th).
  Proof.
    intros I close ext pos_th neg_th Hl. unfold rs_bn_cont_sat_trend_labels, bn_cont_sat_trend_labels_nb, unless_zero_division.
    apply between_eq; auto. intros p q [Ha _] i Hi.
    destruct (eqb (abs (pos_th p)) zero); [reflexivity|]. destruct (eqb (abs (neg_th p)) zero); [reflexivity|]. cbn [raise_if].
    destruct (slice_min_max_eq I close p q) as [E1 E2]; try lia. rewrite E1, E2. cbn [bind]. destruct (rs_slice_min_max close p q) as [lo hi]. cbn [fst snd].
    destruct (gtb (nth q close nan) (nth p close nan)).
    - destruct (sdiv_ok hi (add one (abs (pos_th p)))) as [-> | ->]; cbn [bind]; auto.
      destruct (geb hi (mul lo (add one (abs (pos_th p)))) && leb (nth i close nan) (div hi (add one (abs (pos_th p))))); auto.
      destruct (sdiv_ok (sub (nth i close nan) (div hi (add one (abs (pos_th p))))) (sub hi (div hi (add one (abs (pos_th p)))))) as [-> | ->]; cbn [bind]; auto.
    - destruct (sdiv_ok lo (sub one (abs (neg_th p)))) as [-> | ->]; cbn [bind]; auto.
      destruct (leb lo (mul hi (sub one (abs (neg_th p)))) && geb (nth i close nan) (div lo (sub one (abs (neg_th p))))); auto.
      destruct (sdiv_ok (sub (nth i close nan) lo) (sub (div lo (sub one (abs (neg_th p)))) lo)) as [-> | ->]; cbn [bind]; auto.
  Qed.

  Lemma pct_eq : forall (close : list T) ext normalize, length ext = length close ->
    unless_zero_division (rs_pct_trend_labels close ext normalize) (pct_trend_labels_nb close ext normalize).
  Proof.
    intros close ext normalize Hl. unfold rs_pct_trend_labels, pct_trend_labels_nb, unless_zero_division.
    apply between_eq; auto. intros p q _ i Hi. cbv zeta. destruct (_ && _); apply sdiv_ok.
  Qed.

  Lemma local_extrema_length : forall (close : list T) pos_th neg_th ext, local_extrema_apply_nb close pos_th neg_th = Ok ext -> length ext = length close.
  Proof.
    intros close pos_th neg_th ext H. unfold local_extrema_apply_nb in H. apply bind_ok in H as (s & H & E). injection E as <-.
    apply (foldM_inv _ _ (fun s => length (x_out s) = length close)) in H; auto; [|cbn; apply repeat_length].
    intros s1 i s2 Hs Hi H1. unfold local_extrema_step in H1. apply raise_if_ok in H1 as [_ H1]. apply raise_if_ok in H1 as [_ H1].
    injection H1 as <-. repeat match goal with |- context [if ?c then _ else _] => destruct c end; cbn [x_out x_prev x_dir]; rewrite ?upd_length; auto.
  Qed.

  Lemma trend_eq : one_infinity N -> forall (close : list T) pos_th neg_th mode,
    unless_zero_division (rs_trend_labels_apply close pos_th neg_th mode) (trend_labels_apply_nb close pos_th neg_th mode).
  Proof.
    intros I close pos_th neg_th mode. unfold rs_trend_labels_apply, trend_labels_apply_nb. rewrite local_extrema_eq.
    destruct (local_extrema_apply_nb close pos_th neg_th) as [ext|e] eqn:E; [|right; reflexivity]. apply local_extrema_length in E. cbn [bind].
    destruct mode; [right; apply bn_eq|right; apply cont_eq|apply sat_eq|apply pct_eq|apply pct_eq]; auto.
  Qed.

  Lemma trend_binary_eq : one_infinity N -> forall (close : list T) pos_th neg_th mode, mode = Binary \/ mode = BinaryCont ->
    rs_trend_labels_apply close pos_th neg_th mode = trend_labels_apply_nb close pos_th neg_th mode.
  Proof.
    intros I close pos_th neg_th mode Hm. unfold rs_trend_labels_apply, trend_labels_apply_nb. rewrite local_extrema_eq.
    destruct (local_extrema_apply_nb close pos_th neg_th) as [ext|e] eqn:E; [|reflexivity]. apply local_extrema_length in E. cbn [bind].
    destruct Hm as [-> | ->]; [apply bn_eq|apply cont_eq]; auto.
  Qed.

  (** ** Breakouts *)
  Lemma first_breakout_eq : forall (close : list T) i pt nt js,
    rs_first_breakout close i pt nt js = ofZ (first_breakout close (nth i close nan) pt nt js).
  Proof.
    intros close i pt nt js. induction js as [|j js IH]; [reflexivity|]. cbn [rs_first_breakout first_breakout].
    destruct (_ && _); [reflexivity|]. destruct (_ && _); [reflexivity|]. auto.
  Qed.
  Lemma breakout_eq : forall (close : list T) window pos_th neg_th wait,
    rs_breakout_labels close window pos_th neg_th wait = map ofZ (breakout_labels_nb close window pos_th neg_th wait).
  Proof.
    intros close window pos_th neg_th wait. unfold rs_breakout_labels, breakout_labels_nb. rewrite map_map. apply map_ext. intros i. cbv zeta.
    rewrite first_breakout_eq. destruct (Nat.leb_spec (Nat.min (i + window + wait) (length close)) (i + wait)) as [H|H]; auto.
    unfold range. replace (Nat.min (i + window + wait) (length close) - (i + wait)) with 0 by lia. reflexivity.
  Qed.
End Trends.
