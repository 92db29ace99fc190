(** * Lemmas about the Rust label generators, means and deviations of the period ahead (C102) *)
From Coq Require Import String ZArith QArith Bool List Lia Arith Lqa.
From Verif Require Import Base Num XQFacts GenericNb GenericSpec ReturnsNb GenericLemmas GenericLemmas2 RustGeneric RustGenericSpec RustGenericLemmas RustGenericLemmas2 RustGenericLemmas3 RustGenericLemmas4 ReturnsSpec.
From Verif Require Import LabelsNb LabelsSpec LabelsLemmas2 LabelsLemmas4 RustLabels RustLabelsSpec RustLabelsLemmas RustLabelsLemmas2 B64.
Import ListNotations.
Local Open Scope nat_scope.

(** Going down the rows: what holds of the state after row [i] and of its output. *)
Lemma down_inv : forall {T} {N : Num T} S B (f : nat -> S -> T -> S * B) (x : nat -> T) (P : nat -> S -> Prop) (Q : nat -> B -> Prop) n s,
  P n s -> (forall i s, i < n -> P (Datatypes.S i) s -> P i (fst (f i s (x i))) /\ Q i (snd (f i s (x i)))) ->
  forall i, i < n -> exists y, nth_error (rev (scan_rows f x (rev (seq 0 n)) s)) i = Some y /\ Q i y.
Proof.
  intros T N S B f x P Q n. induction n as [|n IH]; intros s Hs H i Hi; [lia|].
  rewrite seq_S, rev_app_distr. cbn [rev app plus scan_rows]. destruct (H n s) as [H1 H2]; [lia|auto|].
  destruct (f n s (x n)) as [s' y] eqn:E. cbn [fst snd] in *. cbn [rev].
  assert (Len : forall rows s, length (rev (scan_rows f x rows s)) = length rows).
  { clear. intros rows. induction rows as [|r rows IH]; intros s; [reflexivity|]. cbn [scan_rows]. destruct (f r s (x r)). cbn [rev]. rewrite app_length, IH. cbn. lia. }
  destruct (Nat.eq_dec i n) as [->|Hne].
  - exists y. rewrite nth_error_app2 by (rewrite Len, rev_length, seq_length; auto). rewrite Len, rev_length, seq_length, Nat.sub_diag. split; auto.
  - rewrite nth_error_app1 by (rewrite Len, rev_length, seq_length; lia). apply (IH s'); auto; try lia.
Qed.

(** The column of a loop that runs from the last row to the first. *)
Lemma down_column : forall {T} {N : Num T} S (step : nat -> nat -> S -> T -> S * T) (s0 : S) src nrows ncols c, c < ncols ->
  column (concat (rev (row_loop step src ncols (rev (seq 0 nrows)) (repeat s0 ncols)))) nrows ncols c =
  rev (scan_rows (step c) (fun r => nth (r * ncols + c) src nan) (rev (seq 0 nrows)) s0).
Proof.
  intros T N S step s0 src nrows ncols c Hc. set (ls := row_loop _ _ _ _ _).
  assert (Hr : length (rev ls) = nrows) by (unfold ls; rewrite rev_length, row_loop_rows, rev_length, seq_length; auto).
  assert (Hf : Forall (fun l => length l = ncols) (rev ls)) by (apply Forall_rev; apply row_loop_cols; apply repeat_length).
  rewrite (column_concat (rev ls) nrows ncols c Hr Hf Hc). rewrite map_rev. unfold ls.
  rewrite (row_loop_col _ _ _ _ _ _ _ _ _ s0); [reflexivity|apply repeat_length|apply nth_error_repeat'; auto].
Qed.

(** Moving the period one bar back: a value may enter, another may leave. *)
Definition bar_at (a : list XQ) (r : nat) : list XQ := if Nat.ltb r (length a) then [nth r a nan] else [].
Lemma skipn_bar : forall (a : list XQ) r, skipn r a = bar_at a r ++ skipn (S r) a.
Proof.
  induction a as [|x a IH]; intros [|r]; try reflexivity. cbn [skipn]. rewrite IH. unfold bar_at. cbn [length nth].
  change (S r <? S (length a)) with (r <? length a). reflexivity.
Qed.
Lemma period_back : forall (a : list XQ) w s, 1 <= w -> exists mid,
  firstn w (skipn s a) = bar_at a s ++ mid /\ firstn w (skipn (S s) a) = mid ++ bar_at a (s + w).
Proof.
  intros a w s Hw. exists (firstn (w - 1) (skipn (S s) a)). split.
  - rewrite skipn_bar. unfold bar_at. destruct (Nat.ltb_spec s (length a)).
    + replace w with (S (w - 1)) at 1 by lia. reflexivity.
    + cbn [app]. rewrite !skipn_all2 by lia. rewrite !firstn_nil. reflexivity.
  - assert (G : forall (l : list XQ) m, firstn (S m) l = firstn m l ++ bar_at l m).
    { clear. induction l as [|x l IH]; intros [|m]; try reflexivity. cbn [firstn]. cbn [firstn] in IH. rewrite IH. reflexivity. }
    replace w with (S (w - 1)) at 1 by lia. rewrite G. f_equal. unfold bar_at. rewrite skipn_length.
    destruct (Nat.ltb_spec (w - 1) (length a - S s)), (Nat.ltb_spec (s + w) (length a)); try lia; auto.
    f_equal. replace (s + w) with (S s + (w - 1)) by lia. generalize (w - 1) as k, (S s) as m. intros k m. clear. revert a. induction m as [|m IH]; intros [|x a]; try reflexivity; [destruct k; reflexivity|]. apply (IH a).
Qed.

Definition ahead_state (a : list XQ) (w wait i : nat) (s : XQ * nat) : Prop :=
  let l := vals (next_bars w wait i a) in (exists q, fst s = Fin q /\ (q == sum l)%Q) /\ snd s = length l.
Definition ahead_state2 (a : list XQ) (w wait i : nat) (s : XQ * XQ * nat) : Prop :=
  let l := vals (next_bars w wait i a) in
  (exists q, fst (fst s) = Fin q /\ (q == sum l)%Q) /\ (exists q, snd (fst s) = Fin q /\ (q == sumsq l)%Q) /\ snd s = length l.

Lemma bar_known : forall a r, no_infinity a ->
  (Nat.ltb r (length a) && negb (isnan (nth r a nan)) = false /\ vals (bar_at a r) = []) \/
  (exists q, Nat.ltb r (length a) && negb (isnan (nth r a nan)) = true /\ nth r a nan = Fin q /\ vals (bar_at a r) = [q]).
Proof.
  intros a r H. unfold bar_at. destruct (Nat.ltb_spec r (length a)); [|left; auto]. cbn [andb].
  assert (Hr : nth_error a r = Some (nth r a nan)) by (apply nth_error_nth'; auto).
  destruct (known a r _ H Hr) as [[E1 E2]|(q & E1 & E2)]; rewrite E2; rewrite E1; [left|right; exists q]; auto.
Qed.

Lemma ahead_step_ok : forall a w wait i s, no_infinity a -> 1 <= w -> ahead_state a w wait (S i) s ->
  ahead_state a w wait i (rs_ahead_step (length a) w wait (fun r => nth r a nan) i s).
Proof.
  intros a w wait i [sm cnt] HT Hw [(q0 & E0 & H0) Hc]. cbn [fst snd] in E0, Hc. subst sm cnt.
  unfold ahead_state, rs_ahead_step, next_bars in *. cbn [plus] in *. destruct (period_back a w (i + wait) Hw) as (mid & E1 & E2). rewrite E1. rewrite E2 in *.
  clear E1 E2. rewrite !vals_app, ?app_length, sum_app in *.
  destruct (bar_known a (i + wait) HT) as [[K1 K2]|(q & K1 & K2 & K3)]; rewrite K1; [rewrite K2|rewrite K2, K3];
  destruct (bar_known a (i + wait + w) HT) as [[J1 J2]|(p & J1 & J2 & J3)]; rewrite J1; [rewrite J2 in *|rewrite J2, J3 in *|rewrite J2 in *|rewrite J2, J3 in *];
  cbn [fst snd app length sum] in *; (split; [eexists; split; [reflexivity|]; rewrite ?Qred_correct, H0; ring|lia]).
Qed.

Lemma ahead_step2_ok : forall a w wait i s, no_infinity a -> 1 <= w -> ahead_state2 a w wait (S i) s ->
  ahead_state2 a w wait i (rs_ahead_step2 (length a) w wait (fun r => nth r a nan) i s).
Proof.
  intros a w wait i [[sm sq] cnt] HT Hw ((q0 & E0 & H0) & (p0 & E1 & H1) & Hc). cbn [fst snd] in E0, E1, Hc. subst sm sq cnt.
  unfold ahead_state2, rs_ahead_step2, next_bars in *. cbn [plus] in *. destruct (period_back a w (i + wait) Hw) as (mid & E1 & E2). rewrite E1. rewrite E2 in *.
  clear E1 E2. rewrite !vals_app, ?app_length, ?sum_app, ?sumsq_app in *.
  destruct (bar_known a (i + wait) HT) as [[K1 K2]|(q & K1 & K2 & K3)]; rewrite K1; [rewrite K2|rewrite K2, K3];
  destruct (bar_known a (i + wait + w) HT) as [[J1 J2]|(p & J1 & J2 & J3)]; rewrite J1; [rewrite J2 in *|rewrite J2, J3 in *|rewrite J2 in *|rewrite J2, J3 in *];
  unfold sumsq in *; cbn [fst snd app length sum map] in *; (split; [eexists; split; [reflexivity|]; rewrite ?Qred_correct, H0; ring|split; [eexists; split; [reflexivity|]; rewrite ?Qred_correct, H1; ring|lia]]).
Qed.

Lemma ahead_step_ext : forall nrows w wait (f g : nat -> XQ) i s, (forall r, f r = g r) -> rs_ahead_step nrows w wait f i s = rs_ahead_step nrows w wait g i s.
Proof. intros nrows w wait f g i s H. unfold rs_ahead_step. rewrite !H. reflexivity. Qed.
Lemma ahead_step2_ext : forall nrows w wait (f g : nat -> XQ) i s, (forall r, f r = g r) -> rs_ahead_step2 nrows w wait f i s = rs_ahead_step2 nrows w wait g i s.
Proof. intros nrows w wait f g i s H. unfold rs_ahead_step2. rewrite !H. reflexivity. Qed.

Lemma ahead_start : forall a w wait, next_bars w wait (length a) a = @nil XQ.
Proof. intros. unfold next_bars. rewrite skipn_all2 by lia. apply firstn_nil. Qed.

Lemma future_mean_rs : forall src nrows ncols w wait c, c_order src nrows ncols -> c < ncols -> no_infinity (column src nrows ncols c) -> 1 <= w ->
  forall i, i < nrows -> exists y, nth_error (column (rs_future_mean_c src nrows ncols w wait) nrows ncols c) i = Some y /\
    let l := vals (next_bars w wait i (column src nrows ncols c)) in
    (length l < w -> y = NaN) /\ (length l = w -> exists q, y = Fin q /\ (q == mean l)%Q).
Proof.
  intros src nrows ncols w wait c Hs Hc HT Hw. unfold rs_future_mean_c. rewrite down_column by auto. set (a := column src nrows ncols c) in *.
  assert (La : length a = nrows) by (unfold a; apply column_length).
  apply (down_inv _ _ _ _ (ahead_state a w wait)).
  - unfold ahead_state. rewrite <- La, ahead_start. split; [exists 0%Q; split; reflexivity|reflexivity].
  - intros i s Hi Hst. rewrite (ahead_step_ext nrows w wait _ (fun r => nth r a nan)) by (intros r; unfold a; symmetry; apply column_nth_nan; auto).
    cbv zeta. rewrite <- La. pose proof (ahead_step_ok a w wait i s HT Hw Hst) as K. set (s' := rs_ahead_step _ _ _ _ _ _) in *. clearbody s'.
    cbn [fst snd]. split; auto. destruct s' as [sm cnt]. destruct K as [(q & E & Hq) Hcn]. cbn [fst snd] in *. subst sm cnt.
    set (l := vals (next_bars w wait i a)) in *. split; intros Hl.
    + rewrite (proj2 (Nat.leb_gt _ _)) by auto. reflexivity.
    + rewrite (proj2 (Nat.leb_le _ _)) by lia. apply divide_count; auto. intros E0. rewrite E0 in Hl. cbn in Hl. lia.
Qed.

Lemma variance_run : forall l q1 p1 ddof, l <> [] -> ddof < length l -> (q1 == sum l)%Q -> (p1 == sumsq l)%Q ->
  exists v, @abs XQ XQnum (div (add (sub (Fin p1) (mul (mul two (Fin q1)) (div (Fin q1) (ofZ (Z.of_nat (length l)))))) (mul (mul (ofZ (Z.of_nat (length l))) (div (Fin q1) (ofZ (Z.of_nat (length l))))) (div (Fin q1) (ofZ (Z.of_nat (length l))))))
                (ofZ (Z.of_nat (length l - ddof)))) = Fin v /\ (v == variance (Z.of_nat ddof) l)%Q.
Proof.
  intros l q1 p1 ddof Hl Hd Hq Hp.
  destruct (divide_count q1 l Hl Hq) as (mu & Em & Hmu). rewrite Em. pose proof (count_pos l Hl) as Hcp.
  set (num := Qred (Qred (p1 - Qred (Qred (inject_Z 2 * q1) * mu)) + Qred (Qred (inject_Z (Z.of_nat (length l)) * mu) * mu))).
  change (@add XQ XQnum (sub (Fin p1) (mul (mul two (Fin q1)) (Fin mu))) (mul (mul (ofZ (Z.of_nat (length l))) (Fin mu)) (Fin mu))) with (Fin num).
  assert (Hnum : (num == sumsq l - mu * sum l)%Q).
  { unfold num. rewrite !Qred_correct, Hq, Hp. change (inject_Z (Z.of_nat (length l))) with (count l).
    assert (Es : (sum l == mu * count l)%Q) by (rewrite Hmu; unfold mean; field; lra). rewrite Es. change (inject_Z 2) with 2%Q. ring. }
  clearbody num.
  assert (Hpos : (0 < inject_Z (Z.of_nat (length l - ddof)))%Q) by (change 0%Q with (inject_Z 0); rewrite <- Zlt_Qlt; lia).
  cbn [div ofZ XQnum xq_div]. assert (Ez : Qeq_bool (inject_Z (Z.of_nat (length l - ddof))) 0 = false) by (qbg; lra). rewrite Ez.
  cbn [abs XQnum].
  destruct (xq_abs_fin (Qred (num / inject_Z (Z.of_nat (length l - ddof))))) as (v & Ev & Hv). unfold fin. rewrite Ev.
  exists v. split; [reflexivity|]. rewrite Hv, Qred_correct, Hnum.
  assert (Evar : (variance (Z.of_nat ddof) l == (sumsq l - mu * sum l) / inject_Z (Z.of_nat (length l - ddof)))%Q).
  { unfold variance. rewrite (variance_alt l mu (Z.of_nat ddof) Hl) by (rewrite Hmu; unfold mean; field; lra).
    assert (Ec : (count l - inject_Z (Z.of_nat ddof) == inject_Z (Z.of_nat (length l - ddof)))%Q).
    { unfold count. rewrite Nat2Z.inj_sub by lia. unfold Qminus. rewrite <- inject_Z_opp, <- inject_Z_plus. reflexivity. }
    rewrite Ec. reflexivity. }
  rewrite <- Evar. apply Qabs.Qabs_pos. apply variance_nonneg. lia.
Qed.

Lemma future_std_rs : forall sqrt src nrows ncols w wait ddof c, c_order src nrows ncols -> c < ncols -> no_infinity (column src nrows ncols c) -> 1 <= w -> ddof < w ->
  forall i, i < nrows -> exists y, nth_error (column (rs_future_std_c sqrt src nrows ncols w wait ddof) nrows ncols c) i = Some y /\
    let l := vals (next_bars w wait i (column src nrows ncols c)) in
    (length l < w -> y = NaN) /\ (length l = w -> exists v, y = sqrt (Fin v) /\ (v == variance (Z.of_nat ddof) l)%Q).
Proof.
  intros sqrt src nrows ncols w wait ddof c Hs Hc HT Hw Hd. unfold rs_future_std_c. rewrite down_column by auto. set (a := column src nrows ncols c) in *.
  assert (La : length a = nrows) by (unfold a; apply column_length).
  apply (down_inv _ _ _ _ (ahead_state2 a w wait)).
  - unfold ahead_state2. rewrite <- La, ahead_start. split; [exists 0%Q; split; reflexivity|split; [exists 0%Q; split; reflexivity|reflexivity]].
  - intros i s Hi Hst. rewrite (ahead_step2_ext nrows w wait _ (fun r => nth r a nan)) by (intros r; unfold a; symmetry; apply column_nth_nan; auto).
    cbv zeta. rewrite <- La. pose proof (ahead_step2_ok a w wait i s HT Hw Hst) as K. set (s' := rs_ahead_step2 _ _ _ _ _ _) in *. clearbody s'.
    cbn [fst snd]. split; auto. destruct s' as [[sm sq] cnt]. destruct K as ((q & E & Hq) & (p & E2 & Hp) & Hcn). cbn [fst snd] in *. subst sm sq cnt.
    set (l := vals (next_bars w wait i a)) in *. unfold rs_ahead_std. split; intros Hl.
    + rewrite (proj2 (Nat.leb_gt _ _)) by auto. reflexivity.
    + rewrite (proj2 (Nat.leb_le _ _)) by lia. rewrite (proj2 (Nat.ltb_lt _ _)) by lia. cbn [andb]. cbv zeta.
      destruct (variance_run l q p ddof) as (v & Ev & Hv); auto; try lia; [intros E0; rewrite E0 in Hl; cbn in Hl; lia|].
      rewrite Ev. eauto.
Qed.

Lemma sub_same : forall p q c, (p == q)%Q -> @sub XQ XQnum (Fin p) c = sub (Fin q) c.
Proof.
  intros p q [| | |r] H; try reflexivity. cbn [sub XQnum]. unfold xq_sub. cbn [xq_neg]. cbn [xq_add]. unfold fin. f_equal. apply Qred_complete. rewrite H. reflexivity.
Qed.

Lemma agrees_refl : forall x, agrees x x.
Proof. intros [| | |q]; cbn; auto. reflexivity. Qed.

Lemma mean_at_most : forall w wait i a, length (vals (next_bars w wait i a)) <= w.
Proof. intros. pose proof (vals_length (next_bars w wait i a)). rewrite next_bars_length in *. lia. Qed.

Lemma column_len : forall (src : list XQ) nrows ncols c, length (column src nrows ncols c) = nrows.
Proof. intros. apply column_length. Qed.

Lemma future_mean_agrees : forall src nrows ncols w wait adjust c, c_order src nrows ncols -> c < ncols -> no_infinity (column src nrows ncols c) -> 1 <= w ->
  exists out, future_mean_apply_nb (column src nrows ncols c) w false wait adjust = Ok out /\
    Forall2 agrees (column (rs_future_mean_c src nrows ncols w wait) nrows ncols c) out.
Proof.
  intros src nrows ncols w wait adjust c Hs Hc HT Hw. destruct (future_mean_accepts _ w wait adjust HT Hw) as [out E]. exists out. split; auto.
  destruct (future_mean_run _ _ _ _ _ HT Hw E) as [L H]. rewrite column_len in *. apply Forall2_nth; [rewrite column_len; auto|]. intros i x y Hx Hy.
  assert (Hi := nth_error_lt _ _ _ Hx). rewrite column_len in Hi.
  destruct (H i Hi) as (y' & Ey & A1 & A2). destruct (future_mean_rs src nrows ncols w wait c Hs Hc HT Hw i Hi) as (x' & Ex & B1 & B2). cbv zeta in *.
  assert (x' = x) by congruence. assert (y' = y) by congruence. subst x' y'. pose proof (mean_at_most w wait i (column src nrows ncols c)).
  destruct (le_lt_dec w (length (vals (next_bars w wait i (column src nrows ncols c))))).
  - destruct A2 as (p & -> & Hp); [lia|]. destruct B2 as (q & -> & Hq); [lia|]. cbn. rewrite Hp, Hq. reflexivity.
  - rewrite A1, B1 by auto. exact I.
Qed.

Lemma mean_labels_loop : forall (src : list XQ) nrows ncols w wait c n i y s, i < n ->
  let step := fun (i : nat) (s : XQ * nat) => rs_ahead_step nrows w wait (fun r => nth (r * ncols + c) src nan) i s in
  nth_error (rev (scan_rows (fun i s _ => (step i s, if Nat.leb w (snd (step i s)) then div (fst (step i s)) (ofZ (Z.of_nat (snd (step i s)))) else nan))
    (fun r => nth (r * ncols + c) src nan) (rev (seq 0 n)) s)) i = Some y ->
  exists cnt, nth_error (rev (scan_rows (fun i s cur => (step i s, if Nat.leb w (snd (step i s)) then div (sub (div (fst (step i s)) (ofZ (Z.of_nat (snd (step i s))))) cur) cur else nan))
    (fun r => nth (r * ncols + c) src nan) (rev (seq 0 n)) s)) i =
    Some (if Nat.leb w cnt then div (sub y (nth (i * ncols + c) src nan)) (nth (i * ncols + c) src nan) else NaN) /\ (cnt < w -> y = NaN).
Proof.
  intros src nrows ncols w wait c n. induction n as [|n IH]; intros i y s Hi; [lia|].
  rewrite !seq_S, !rev_app_distr. cbv zeta. cbn [rev app plus scan_rows].
  set (s' := rs_ahead_step nrows w wait (fun r => nth (r * ncols + c) src nan) n s). cbn [rev].
  assert (Len : forall S B (f : nat -> S -> XQ -> S * B) x rows s, length (rev (scan_rows f x rows s)) = length rows).
  { clear. intros S B f x rows. induction rows as [|r rows IH]; intros s; [reflexivity|]. cbn [scan_rows]. destruct (f r s (x r)). cbn [rev]. rewrite app_length, IH. cbn. lia. }
  destruct (Nat.eq_dec i n) as [->|Hne].
  - rewrite !nth_error_app2 by (rewrite Len, rev_length, seq_length; auto). rewrite !Len, rev_length, seq_length, Nat.sub_diag. cbn [nth_error].
    intros E. injection E as <-. exists (snd s'). destruct (Nat.leb_spec w (snd s')); split; auto; lia.
  - rewrite !nth_error_app1 by (rewrite Len, rev_length, seq_length; lia). apply IH. lia.
Qed.
Lemma mean_labels_rs : forall src nrows ncols w wait c, c < ncols ->
  forall i y, i < nrows -> nth_error (column (rs_future_mean_c src nrows ncols w wait) nrows ncols c) i = Some y ->
  exists cnt, nth_error (column (rs_mean_labels_c src nrows ncols w wait) nrows ncols c) i =
    Some (if Nat.leb w cnt then div (sub y (nth (i * ncols + c) src nan)) (nth (i * ncols + c) src nan) else NaN) /\ (cnt < w -> y = NaN).
Proof.
  intros src nrows ncols w wait c Hc i y Hi. unfold rs_future_mean_c, rs_mean_labels_c. rewrite !down_column by auto.
  apply (mean_labels_loop src nrows ncols w wait c nrows i y (zero, 0) Hi).
Qed.

Lemma mean_labels_agrees : forall src nrows ncols w wait adjust c, c_order src nrows ncols -> c < ncols -> no_infinity (column src nrows ncols c) -> 1 <= w ->
  exists out, mean_labels_apply_nb (column src nrows ncols c) w false wait adjust = Ok out /\
    Forall2 agrees (column (rs_mean_labels_c src nrows ncols w wait) nrows ncols c) out.
Proof.
  intros src nrows ncols w wait adjust c Hs Hc HT Hw. destruct (future_mean_agrees src nrows ncols w wait adjust c Hs Hc HT Hw) as (out & E & HF).
  unfold mean_labels_apply_nb. rewrite E. cbn [bind]. eexists. split; [reflexivity|]. assert (L : length (column (rs_future_mean_c src nrows ncols w wait) nrows ncols c) = length out) by (clear - HF; induction HF; cbn; auto). rewrite column_len in L.
  assert (Lc : length (relative_to out (column src nrows ncols c)) = nrows).
  { unfold relative_to. rewrite map_length, combine_length, column_len. lia. }
  apply Forall2_nth; [rewrite column_len; auto|]. intros i x y Hx Hy. assert (Hi := nth_error_lt _ _ _ Hx). rewrite column_len in Hi.
  destruct (nth_error out i) as [m|] eqn:Em; [|apply nth_error_None in Em; lia].
  assert (Ec : nth_error (column src nrows ncols c) i = Some (nth (i * ncols + c) src nan)).
  { rewrite <- (column_nth src nrows ncols c i nan) by auto. apply nth_error_nth'. rewrite column_len. auto. }
  rewrite (relative_at _ _ _ _ _ Em Ec) in Hy. injection Hy as <-.
  destruct (nth_error (column (rs_future_mean_c src nrows ncols w wait) nrows ncols c) i) as [m'|] eqn:Em'; [|apply nth_error_None in Em'; rewrite column_len in Em'; lia].
  destruct (mean_labels_rs src nrows ncols w wait c Hc i m' Hi Em') as (cnt & Ex & Hcnt). rewrite Hx in Ex. injection Ex as ->.
  assert (Ha : agrees m' m).
  { clear - HF Em Em'. revert i Em Em'. induction HF as [|u v us vs Huv HF IH]; intros [|i] Em Em'; cbn in *; try discriminate; [congruence|eauto]. }
  destruct (Nat.leb_spec w cnt) as [Hle|Hlt].
  - destruct m', m; cbn in Ha; try contradiction; try apply agrees_refl. rewrite (sub_same _ _ _ Ha). apply agrees_refl.
  - rewrite (Hcnt Hlt) in Ha. destruct m; cbn in Ha; try contradiction. exact I.
Qed.

Lemma future_std_agrees : forall sqrt tol src nrows ncols w wait ddof c out, c_order src nrows ncols -> c < ncols -> no_infinity (column src nrows ncols c) -> 1 <= w -> ddof < w ->
  (forall p q, (p == q)%Q -> agrees (sqrt (Fin p)) (sqrt (Fin q))) ->
  future_std_apply_nb sqrt tol (column src nrows ncols c) w wait (Z.of_nat ddof) = Ok out ->
  Forall2 agrees (column (rs_future_std_c sqrt src nrows ncols w wait ddof) nrows ncols c) out.
Proof.
  intros sqrt tol src nrows ncols w wait ddof c out Hs Hc HT Hw Hd Hsq E.
  assert (Hz : (Z.of_nat ddof < Z.of_nat w)%Z) by lia.
  destruct (future_std_run _ _ _ _ _ _ _ HT Hw Hz E) as [L H]. rewrite column_len in *. apply Forall2_nth; [rewrite column_len; auto|]. intros i x y Hx Hy.
  assert (Hi := nth_error_lt _ _ _ Hx). rewrite column_len in Hi.
  destruct (H i Hi) as (y' & Ey & A1 & A2). destruct (future_std_rs sqrt src nrows ncols w wait ddof c Hs Hc HT Hw Hd i Hi) as (x' & Ex & B1 & B2). cbv zeta in *.
  assert (x' = x) by congruence. assert (y' = y) by congruence. subst x' y'. pose proof (mean_at_most w wait i (column src nrows ncols c)).
  destruct (le_lt_dec w (length (vals (next_bars w wait i (column src nrows ncols c))))).
  - destruct A2 as (p & -> & Hp); [lia|]. destruct B2 as (q & -> & Hq); [lia|]. apply Hsq. rewrite Hp, Hq. reflexivity.
  - rewrite A1, B1 by auto. exact I.
Qed.

(** ** Floating point *)
Definition first_is_b (r : res (list f64)) (v : f64) : bool := match r with Ok out => b64_eqb (hd (@nan _ B64num) out) v | Err _ => false end.
Lemma first_is_ok : forall r v, first_is_b r v = true -> exists out, r = Ok out /\ b64_eqb (hd (@nan _ B64num) out) v = true.
Proof. intros [out|e] v H; [eauto|discriminate]. Qed.
Lemma float_variances :
  let close := map b64_ofZ [1000000000; 1000000001]%Z in
  let quarter := b64_div (b64_ofZ 1) (b64_ofZ 4) in
  let tol := b64_div (b64_ofZ 1000) (b64_ofZ (2 ^ 52)) in
  let first_is := fun (out : list f64) v => b64_eqb (hd (@nan _ B64num) out) v = true in
  (exists out, @future_std_apply_nb _ B64num (fun v => v) tol close 2 0 0 = Ok out /\ first_is out quarter) /\
  (exists out, @rs_future_std_strided _ B64num (fun v => v) tol close 2 0 0 = Ok out /\ first_is out quarter) /\
  first_is (@rs_future_std_c _ B64num (fun v => v) close 2 1 2 0 0) (b64_ofZ 0).
Proof.
  cbv zeta. split; [apply first_is_ok; vm_compute; reflexivity|]. split; [apply first_is_ok; vm_compute; reflexivity|]. vm_compute. reflexivity.
Qed.
