(** * Lemmas about initial cash, benchmark, exposure and asset returns *)
From Coq Require Import ZArith QArith Qabs Qminmax Bool List Arith Lia Lqa Permutation.
From Verif Require Import Base Num TolSpec XQFacts MathNb GenericNb GenericSpec GenericLemmas GenericLemmas2 ReturnsNb ReturnsSpec
  ReturnsLemmas ReturnsLemmas2 ReturnsLemmas3 AccountSpec ReplaySpec ReplayLemmas Replay Simulate Performance PerformanceSpec
  PerformanceLemmas PerformanceLemmas2.
Import ListNotations.
Local Open Scope nat_scope.

Lemma returns_compound : forall nrows ncols (v : nat -> nat -> XQ) lens init cs empty out g len c0 vs,
  returns_in_sim_order_nb nrows ncols v lens init cs empty = Ok out ->
  each_called_once cs lens nrows -> nth_error lens g = Some len ->
  let in_order a := map (fun b => a (fst b) (snd b)) (calls cs (first_col lens g) len nrows) in
  init g = Fin c0 -> (0 < c0)%Q -> in_order v = map Fin vs -> (forall q, In q (removelast vs) -> (0 < q)%Q) ->
  exists rs, in_order out = map Fin rs /\ (compounded rs * c0 == last vs c0)%Q.
Proof.
  intros nrows ncols v lens init cs empty out g len c0 vs HO Hcs Hg in_order Hi H0 Hv Hpos.
  unfold in_order in *. rewrite (returns_while_simulating _ _ _ _ _ _ _ _ _ _ HO Hcs Hg), Hv, Hi.
  now apply telescope.
Qed.

(** ** Asset returns *)
Lemma asset_return : forall cf av i close0 close1 a d fill fees,
  (0 < close0)%Q -> ~ (a == 0)%Q ->
  is_number (av i) (close0 * a) -> is_number (av (S i)) (close1 * (a + d)) -> is_number (cf (S i)) (- d * fill - fees) ->
  is_number (asset_returns_nb cf av (S i))
    ((a * (close1 - close0) + d * (close1 - fill) - fees) / (Qabs a * close0)).
Proof.
  intros cf av i p0 p1 a d fill fees H0 Ha (x & E0 & Hx) (y & E1 & Hy) (z & E2 & Hz).
  unfold asset_returns_nb. rewrite E0, E1, E2, add_fin.
  assert (Hx0 : ~ (x == 0)%Q). { rewrite Hx. intros H. apply Qmult_integral in H. destruct H; auto. lra. }
  destruct (get_return_run x (Qred (y + z)) Hx0) as (r & E & Hr). exists r. split; auto.
  rewrite Hr, Qred_correct, Hx, Hy, Hz, Qabs_Qmult, (Qabs_pos p0) by lra.
  assert (~ (Qabs a == 0)%Q). { intros H. apply Ha. destruct (Qabs_cases a) as [[? E']|[? E']]; lra. }
  field. split; auto. lra.
Qed.

Lemma asset_return_price : forall cf av i close0 close1 a d,
  (0 < close0)%Q -> ~ (a == 0)%Q ->
  is_number (av i) (close0 * a) -> is_number (av (S i)) (close1 * (a + d)) -> is_number (cf (S i)) (- d * close1) ->
  is_number (asset_returns_nb cf av (S i)) (if Qlt_le_dec 0 a then close1 / close0 - 1 else - (close1 / close0 - 1)).
Proof.
  intros cf av i p0 p1 a d H0 Ha E0 E1 E2.
  destruct (asset_return cf av i p0 p1 a d p1 0 H0 Ha E0 E1) as (r & E & Hr).
  { destruct E2 as (z & E & Hz). exists z. split; auto. rewrite Hz. ring. }
  exists r. split; auto. rewrite Hr. destruct (Qlt_le_dec 0 a) as [L|L].
  - rewrite Qabs_pos by lra. field. split; lra.
  - rewrite Qabs_neg by lra. field. split; lra.
Qed.

(** ** Benchmark *)
Lemma benchmark_follows : forall close i p0 p c0, close 0 = Fin p0 -> close i = Fin p -> ~ (p0 == 0)%Q ->
  is_number (benchmark_value_nb close (Fin c0) i) (c0 * (p / p0)).
Proof.
  intros close i p0 p c0 E0 E Hp. unfold benchmark_value_nb. rewrite E0, E, div_fin, mul_fin by auto.
  eexists. split; [reflexivity|]. rewrite !Qred_correct. ring.
Qed.

Lemma benchmark_unknown : forall close i c0, close 0 = NaN -> benchmark_value_nb close (Fin c0) i = NaN.
Proof. intros close i c0 E. unfold benchmark_value_nb. rewrite E. destruct (close i); reflexivity. Qed.

Lemma benchmark_total : forall close last p0 p c0, close 0 = Fin p0 -> close last = Fin p -> ~ (p0 == 0)%Q -> (0 < c0)%Q ->
  is_number (total_benchmark_return_nb (benchmark_value_nb close (Fin c0)) last) (p / p0 - 1).
Proof.
  intros close last p0 p c0 E0 E Hp Hc. unfold total_benchmark_return_nb.
  destruct (benchmark_follows close 0 p0 p0 c0 E0 E0 Hp) as (x & Ex & Hx).
  destruct (benchmark_follows close last p0 p c0 E0 E Hp) as (y & Ey & Hy). rewrite Ex, Ey.
  assert (Hx1 : (x == c0)%Q) by (rewrite Hx; field; auto).
  destruct (get_return_run x y) as (r & Er & Hr); [lra|]. exists r. split; auto.
  rewrite Hr, Hx1, Hy, Qabs_pos by lra. field. split; lra.
Qed.

Lemma np_sum_fin : forall (f : nat -> XQ) (g : nat -> Q) l, (forall c, In c l -> is_number (f c) (g c)) ->
  is_number (np_sum (map f l)) (sum (map g l)).
Proof.
  intros f g l H. unfold np_sum.
  assert (G : forall a, is_number (fold_left add (map f l) (Fin a)) (a + sum (map g l))).
  { induction l as [|c l IH]; intros a; cbn [map fold_left sum].
    - exists a. split; [reflexivity|ring].
    - destruct (H c (or_introl eq_refl)) as (q & E & Hq). rewrite E, add_fin.
      destruct (IH (fun c Hc => H c (or_intror Hc)) (Qred (a + q))) as (r & Er & Hr). exists r. split; auto.
      rewrite Hr, Qred_correct, Hq. ring. }
  destruct (G 0%Q) as (r & E & Hr). exists r. split; [exact E|]. rewrite Hr. ring.
Qed.

Lemma sum_scale : forall (g : nat -> Q) k l, (sum (map (fun c => k * g c) l) == k * sum (map g l))%Q.
Proof. intros g k l. induction l as [|c l IH]; cbn [map sum]; [ring|]. rewrite IH. ring. Qed.

Lemma benchmark_grouped : forall close from len i c0 p0 p, 0 < len ->
  (forall c, from <= c < from + len -> close 0 c = Fin (p0 c) /\ close i c = Fin (p c) /\ ~ (p0 c == 0)%Q) ->
  exists y, benchmark_value_grouped_nb close from len (Fin c0) i = Ok y /\
    is_number y (sum (map (fun c => c0 / inject_Z (Z.of_nat len) * (p c / p0 c)) (seq from len)))%Q.
Proof.
  intros close from len i c0 p0 p Hlen H. unfold benchmark_value_grouped_nb, sdiv.
  assert (Hz : ~ (inject_Z (Z.of_nat len) == 0)%Q).
  { intros E. unfold Qeq, inject_Z in E. cbn in E. lia. }
  change (ofZ (Z.of_nat len)) with (Fin (inject_Z (Z.of_nat len))). change (@zero XQ XQnum) with (Fin 0).
  cbn [eqb XQnum xq_eqb]. rewrite (proj2 (qeq_f _ _)) by auto. rewrite div_fin by auto. cbn [bind].
  eexists. split; [reflexivity|].
  destruct (np_sum_fin (fun col => div (close i col) (close 0 col)) (fun c => p c / p0 c)%Q (seq from len)) as (r & E & Hr).
  { intros c Hc. apply in_seq in Hc. destruct (H c) as (E1 & E2 & Hn); [lia|]. rewrite E1, E2, div_fin by auto.
    eexists. split; [reflexivity|]. now rewrite Qred_correct. }
  rewrite E, mul_fin. eexists. split; [reflexivity|]. rewrite sum_scale, !Qred_correct, Hr. reflexivity.
Qed.

Lemma benchmark_grouped_empty : forall close from i c0,
  benchmark_value_grouped_nb close from 0 (Fin c0) i = Err ZeroDivision.
Proof. reflexivity. Qed.

(** ** Exposure *)
Lemma exposure : forall a c, exists e, gross_exposure_nb (Fin a) (Fin c) = Fin e /\
  ((e * (a + c) == a)%Q \/ (e == 0)%Q /\ (Qabs (a + c) <= slack (Qmax (Qabs a) (Qabs c)))%Q) /\
  ((0 <= a)%Q -> (0 <= c)%Q -> (0 <= e <= 1)%Q).
Proof.
  intros a c. unfold gross_exposure_nb. destruct (add_nb_fin a c) as (r & E & Hr). rewrite E.
  change (@zero XQ XQnum) with (Fin 0). cbn [eqb XQnum xq_eqb]. destruct (Qeq_bool r 0) eqn:Z.
  - apply qeq_t in Z. exists 0%Q. split; [reflexivity|]. split; [|intros; lra]. right. split; [reflexivity|].
    assert (HT : (Qabs (a + c) <= tolq a c)%Q).
    { destruct Hr as [[H1 H2]|[H1 H2]]; auto. assert (E0 : (a + c == 0)%Q) by lra.
      rewrite E0. pose proof (tolq_pos a c). change (Qabs 0) with 0%Q. lra. }
    eapply Qle_trans; [exact HT|]. apply tolq_slack; [apply Q.le_max_l|apply Q.le_max_r].
  - apply qeq_f in Z. rewrite div_fin by auto. destruct Hr as [[H1 H2]|[H1 H2]]; [congruence|].
    eexists. split; [reflexivity|]. rewrite Qred_correct, H1. rewrite H1 in Z. split; [left; field; auto|].
    intros Ha Hc. assert (Hs : (0 < a + c)%Q) by lra. split.
    + apply Qle_shift_div_l; lra.
    + apply Qle_shift_div_r; lra.
Qed.

(** ** Initial cash *)
Lemma over_groups_at : forall {T} (w : nat -> nat -> nat -> T) lens g0 f0 (a : nat -> T) g,
  over_groups (fun group from len out g => if Nat.eqb g group then w group from len else out g) g0 f0 lens a g =
  match nth_error lens (g - g0) with
  | Some len => if Nat.leb g0 g then w g (f0 + first_col lens (g - g0)) len else a g
  | None => a g
  end.
Proof.
  intros T w lens. induction lens as [|l lens IH]; intros g0 f0 a g; cbn [over_groups].
  - destruct (g - g0); reflexivity.
  - rewrite IH. destruct (Nat.leb_spec g0 g) as [L|L].
    + destruct (Nat.eqb_spec g g0) as [->|N].
      * replace (g0 - g0) with 0 by lia. replace (g0 - S g0) with 0 by lia. cbn [nth_error].
        destruct (Nat.leb_spec (S g0) g0); [lia|]. unfold first_col. cbn [firstn sum_lens fold_right].
        rewrite Nat.add_0_r. now destruct lens.
      * replace (g - g0) with (S (g - S g0)) by lia. cbn [nth_error]. destruct (nth_error lens (g - S g0)) as [len|]; [|reflexivity].
        destruct (Nat.leb_spec (S g0) g); [|lia]. unfold first_col. cbn [firstn sum_lens fold_right].
        fold (sum_lens (firstn (g - S g0) lens)). now rewrite Nat.add_assoc.
    + replace (g - g0) with 0 by lia. cbn [nth_error]. destruct (Nat.leb_spec (S g0) g); [lia|].
      destruct (Nat.eqb_spec g g0); [lia|]. now destruct (nth_error lens (g - S g0)).
Qed.

Lemma fold_sum_fin : forall (f : nat -> XQ) (g : nat -> Q) l, (forall c, In c l -> is_number (f c) (g c)) ->
  is_number (fold_left (fun s c => add s (f c)) l zero) (sum (map g l)).
Proof.
  intros f g l H. pose proof (np_sum_fin f g l H) as HS. unfold np_sum in HS.
  replace (fold_left (fun s c => add s (f c)) l zero) with (fold_left add (map f l) zero); auto.
  clear. generalize (@zero XQ XQnum) as a. induction l as [|c l IH]; intros a; [reflexivity|]. cbn [map fold_left]. apply IH.
Qed.

Lemma init_cash_of_group : forall init lens empty g len q, nth_error lens g = Some len ->
  (forall c, first_col lens g <= c < first_col lens g + len -> init c = Fin (q c)) ->
  is_number (init_cash_grouped_nb init lens false empty g) (sum (map q (seq (first_col lens g) len))).
Proof.
  intros init lens empty g len q Hg H. unfold init_cash_grouped_nb.
  rewrite (over_groups_at (fun _ from_col len => fold_left (fun s col => add s (init col)) (seq from_col len) zero)).
  rewrite Nat.sub_0_r, Hg. cbn [Nat.leb Nat.add]. apply fold_sum_fin. intros c Hc. apply in_seq in Hc.
  exists (q c). split; [apply H; lia|reflexivity].
Qed.

Lemma profit_of_group : forall ncols profit lens empty out g len q,
  total_profit_grouped_nb ncols profit lens empty = Ok out -> nth_error lens g = Some len ->
  (forall c, first_col lens g <= c < first_col lens g + len -> profit c = Fin (q c)) ->
  is_number (out g) (sum (map q (seq (first_col lens g) len))).
Proof.
  intros ncols profit lens empty out g len q HO Hg H. unfold total_profit_grouped_nb, with_group_lens in HO.
  apply raise_if_ok in HO. destruct HO as [_ HO]. injection HO as <-.
  rewrite (over_groups_at (fun _ from_col len => np_sum (map profit (seq from_col len)))).
  rewrite Nat.sub_0_r, Hg. cbn [Nat.leb Nat.add]. apply np_sum_fin. intros c Hc. apply in_seq in Hc.
  exists (q c). split; [apply H; lia|reflexivity].
Qed.

Section Columns.
  Context {T : Type} {N : Num T}.

  Lemma cash_starts : forall (init : nat -> T) lens g0 f0 l j, Forall (fun n => 0 < n) lens -> f0 + sum_lens lens <= length l ->
    let out := over_groups (fun group from _ o => upd o from (init group)) g0 f0 lens l in
    length out = length l /\
    (forall g, g < length lens -> nth_error out (f0 + first_col lens g) = Some (init (g0 + g))) /\
    ((forall g, g < length lens -> j <> f0 + first_col lens g) -> nth_error out j = nth_error l j).
  Proof.
    intros init lens. induction lens as [|n lens IH]; intros g0 f0 l j HP HL out; unfold out; cbn [over_groups].
    - split; auto. split; [intros g Hg; cbn in Hg; lia|auto].
    - inversion HP as [|? ? Hn HP']; subst. cbn [sum_lens fold_right] in HL. fold (sum_lens lens) in HL.
      destruct (IH (S g0) (f0 + n) (upd l f0 (init g0)) j HP') as (L & HW & HO); [rewrite upd_length; lia|].
      rewrite upd_length in L. split; auto. split.
      + intros [|g] Hg.
        * unfold first_col. cbn [firstn sum_lens fold_right]. rewrite !Nat.add_0_r.
          destruct (IH (S g0) (f0 + n) (upd l f0 (init g0)) f0 HP') as (_ & _ & HO'); [rewrite upd_length; lia|].
          rewrite HO' by (intros; lia). rewrite nth_error_upd, Nat.eqb_refl, (proj2 (Nat.ltb_lt f0 (length l))) by lia. reflexivity.
        * cbn [length] in Hg. specialize (HW g ltac:(lia)). unfold first_col in *. cbn [firstn sum_lens fold_right].
          fold (sum_lens (firstn g lens)). rewrite Nat.add_assoc, HW. do 2 f_equal. lia.
      + intros H. rewrite HO.
        * rewrite nth_error_upd. destruct (Nat.eqb_spec f0 j) as [->|]; [|reflexivity].
          exfalso. apply (H 0); [cbn [length]; lia|]. unfold first_col. cbn [firstn sum_lens fold_right]. lia.
        * intros g Hg. specialize (H (S g) ltac:(cbn [length]; lia)). unfold first_col in *.
          cbn [firstn sum_lens fold_right] in H. fold (sum_lens (firstn g lens)) in H. lia.
  Qed.

  Lemma first_col_mono : forall lens g h, g < h -> h < length lens -> Forall (fun n => 0 < n) lens ->
    forall len, nth_error lens g = Some len -> first_col lens g + len <= first_col lens h.
  Proof.
    intros lens. induction lens as [|n lens IH]; intros g h Hgh Hh HP len Hg; [destruct g; discriminate|].
    inversion HP; subst. destruct h as [|h]; [lia|]. unfold first_col in *. cbn [length] in Hh.
    destruct g as [|g]; cbn [firstn sum_lens fold_right nth_error] in *; fold (sum_lens (firstn h lens)) in *.
    - injection Hg as ->. lia.
    - fold (sum_lens (firstn g lens)). specialize (IH g h ltac:(lia) ltac:(lia) ltac:(auto) len Hg). lia.
  Qed.

  Lemma first_col_total : forall lens g len, nth_error lens g = Some len -> first_col lens g + len <= sum_lens lens.
  Proof.
    intros lens. induction lens as [|n lens IH]; intros [|g] len Hg; try discriminate; unfold first_col in *;
      cbn [nth_error firstn sum_lens fold_right] in *; fold (sum_lens lens).
    - injection Hg as ->. lia.
    - fold (sum_lens (firstn g lens)). specialize (IH g len Hg). lia.
  Qed.

  Lemma init_cash_of_column : forall (init : nat -> T) lens g len c, Forall (fun n => 0 < n) lens ->
    isnan nan = true -> (forall g, g < length lens -> isnan (init g) = false) ->
    nth_error lens g = Some len -> first_col lens g <= c < first_col lens g + len ->
    nth_error (init_cash_nb init lens true) c = Some (init g).
  Proof.
    intros init lens g len c HP HN HI Hg Hc. unfold init_cash_nb.
    set (out := over_groups _ 0 0 lens _).
    assert (Hgl : g < length lens) by (apply nth_error_Some; congruence).
    assert (HL : 0 + sum_lens lens <= length (repeat (@nan T N) (sum_lens lens))) by (rewrite repeat_length; lia).
    pose proof (first_col_total _ _ _ Hg) as Ht.
    destruct (cash_starts init lens 0 0 _ c HP HL) as (L & HW & _). fold out in L, HW. rewrite repeat_length in L.
    cbn [Nat.add] in HW.
    assert (HB : forall j x, first_col lens g < j < first_col lens g + len -> ~ holds out j x).
    { intros j x Hj [Hx Hn]. destruct (cash_starts init lens 0 0 _ j HP HL) as (_ & _ & HO). fold out in HO. rewrite HO in Hx.
      - rewrite (nth_error_nth' _ nan) in Hx by (rewrite repeat_length; lia). rewrite nth_repeat in Hx. congruence.
      - intros h Hh E. cbn [Nat.add] in E. destruct (Nat.lt_trichotomy g h) as [H|[H|H]].
        + pose proof (first_col_mono lens g h H Hh HP len Hg). lia.
        + subst h. lia.
        + destruct (nth_error lens h) as [n|] eqn:En; [|apply nth_error_None in En; lia].
          pose proof (first_col_mono lens h g H Hgl HP n En). 
          assert (0 < n) by (eapply Forall_forall in HP; [exact HP|eapply nth_error_In; eauto]). lia. }
    destruct (nth_error out c) as [x|] eqn:Ex; [|apply nth_error_None in Ex; lia].
    destruct (ffill_run out c x Ex) as (y & Ey & [(j & Hj & (H1 & H2) & Hbl)|[_ Hbl]]).
    - rewrite Ey. assert (Ej : j = first_col lens g).
      { destruct (Nat.lt_trichotomy j (first_col lens g)) as [H|[H|H]]; auto.
        - exfalso. apply (Hbl (first_col lens g) (init g)); [lia|]. split; auto.
        - exfalso. apply (HB j y); [lia|]. split; auto. }
      subst j. rewrite HW in H1 by auto. congruence.
    - exfalso. apply (Hbl (first_col lens g) (init g)); [lia|]. split; auto.
  Qed.
End Columns.

(** ** Automatic initial cash *)
Lemma cumsum_run : forall flow i s, exists l, scan (fun _ s x => (add s x, add s x)) i (Fin s) (map Fin flow) = map Fin l /\
  length l = length flow /\ forall k q, nth_error l k = Some q -> (q == s + sum (firstn (S k) flow))%Q.
Proof.
  induction flow as [|x flow IH]; intros i s; cbn [map scan].
  - exists []. repeat split. intros [|k] q H; discriminate.
  - rewrite add_fin. destruct (IH (S i) (Qred (s + x))) as (l & E & L & H). exists (Qred (s + x) :: l). rewrite E.
    split; [reflexivity|]. split; [cbn [length]; lia|]. intros [|k] q Hq; cbn [nth_error] in Hq.
    + injection Hq as <-. cbn [firstn sum]. rewrite Qred_correct. ring.
    + rewrite (H k q Hq), Qred_correct. cbn [firstn sum]. destruct flow; cbn [firstn sum]; ring.
Qed.

Lemma auto_cash : forall flow, flow <> [] -> exists c, auto_init_cash (map Fin flow) = Ok (Fin c) /\ (0 < c)%Q /\
  (forall i, i < length flow -> (0 <= balance c flow i)%Q) /\
  ((exists i, i < length flow /\ (balance c flow i == 0)%Q) \/
   (c == 1)%Q /\ forall i, i < length flow -> (0 <= balance 0 flow i)%Q).
Proof.
  intros flow Hne. unfold auto_init_cash, np_cumsum. change (@zero XQ XQnum) with (Fin 0).
  destruct (cumsum_run flow 0 0%Q) as (l & E & L & H). rewrite E.
  destruct (np_min_number (map Fin l)) as (q & Eq & Hin & Hmin).
  { destruct l; [destruct flow; [congruence|discriminate]|discriminate]. }
  { intros x Hx. apply in_map_iff in Hx. destruct Hx as (p & <- & _). eauto. }
  rewrite Eq. cbn [bind]. cbn [ltb XQnum xq_ltb]. destruct (qlt_bool q 0) eqn:Z.
  - apply qlt_t in Z. destruct (xq_abs_fin q) as (c & Ec & Hc). exists c. cbn [abs XQnum]. rewrite Ec.
    split; [reflexivity|]. rewrite Qabs_neg in Hc by lra. split; [lra|].
    assert (HB : forall i, i < length flow -> exists p, nth_error l i = Some p /\ (balance c flow i == p - q)%Q).
    { intros i Hi. destruct (nth_error l i) as [p|] eqn:Ep; [|apply nth_error_None in Ep; lia]. exists p. split; auto.
      unfold balance. rewrite Hc, (H i p Ep). ring. }
    split.
    + intros i Hi. destruct (HB i Hi) as (p & Ep & ->). assert (q <= p)%Q; [|lra].
      apply Hmin. apply in_map_iff. exists p. split; auto. eapply nth_error_In; eauto.
    + left. apply in_map_iff in Hin. destruct Hin as (p & E1 & Hp). injection E1 as ->. apply In_nth_error in Hp.
      destruct Hp as [i Hi]. assert (Hil : i < length flow) by (rewrite <- L; apply nth_error_Some; congruence).
      exists i. split; auto. destruct (HB i Hil) as (p & Ep & ->). rewrite Hi in Ep. injection Ep as ->. ring.
  - apply qlt_f in Z. exists 1%Q. split; [reflexivity|]. split; [lra|].
    assert (HB : forall i, i < length flow -> (0 <= balance 0 flow i)%Q).
    { intros i Hi. destruct (nth_error l i) as [p|] eqn:Ep; [|apply nth_error_None in Ep; lia].
      unfold balance. rewrite <- (H i p Ep). assert (q <= p)%Q; [|lra].
      apply Hmin. apply in_map_iff. exists p. split; auto. eapply nth_error_In; eauto. }
    split.
    + intros i Hi. specialize (HB i Hi). unfold balance in *. lra.
    + right. split; [reflexivity|auto].
Qed.

Lemma balance_mono : forall c c' flow i, (c <= c')%Q -> (balance c flow i <= balance c' flow i)%Q.
Proof. intros. unfold balance. lra. Qed.

Lemma auto_cash_all : forall flows, (forall flow, In flow flows -> flow <> []) ->
  exists cs, get_auto_init_cash false (map (map Fin) flows) = Ok (map Fin cs) /\ length cs = length flows /\
  (forall k flow c, nth_error flows k = Some flow -> nth_error cs k = Some c ->
     auto_init_cash (map Fin flow) = Ok (Fin c)).
Proof.
  intros flows H. unfold get_auto_init_cash.
  assert (G : exists cs, mapM auto_init_cash (map (map Fin) flows) = Ok (map Fin cs) /\ length cs = length flows /\
    (forall k flow c, nth_error flows k = Some flow -> nth_error cs k = Some c ->
     auto_init_cash (map Fin flow) = Ok (Fin c))).
  { induction flows as [|fl flows IH].
    - exists []. repeat split. intros [|k]; discriminate.
    - destruct (auto_cash fl) as (c & Ec & _); [apply H; now left|].
      destruct IH as (cs & Es & L & HK); [intros f Hf; apply H; now right|].
      exists (c :: cs). cbn [map mapM]. rewrite Ec. cbn [bind]. rewrite Es. cbn [bind]. split; [reflexivity|].
      split; [cbn [length]; lia|]. intros [|k] flow c' H1 H2; cbn [nth_error] in *; [congruence|eauto]. }
  destruct G as (cs & E & L & HK). exists cs. rewrite E. cbn [bind]. auto.
Qed.

Lemma auto_cash_align : forall flows, flows <> [] -> (forall flow, In flow flows -> flow <> []) ->
  exists c, get_auto_init_cash true (map (map Fin) flows) = Ok (map (fun _ => Fin c) flows) /\ (0 < c)%Q /\
  (forall flow i, In flow flows -> i < length flow -> (0 <= balance c flow i)%Q) /\
  ((exists flow i, In flow flows /\ i < length flow /\ (balance c flow i == 0)%Q) \/
   (c == 1)%Q /\ exists flow, In flow flows /\ forall i, i < length flow -> (0 <= balance 0 flow i)%Q).
Proof.
  intros flows Hne H. destruct (auto_cash_all flows H) as (cs & E & L & HK).
  unfold get_auto_init_cash in *. apply bind_ok in E. destruct E as (l & E & E'). injection E' as ->. rewrite E. cbn [bind].
  destruct (np_max_number (map Fin cs)) as (c & Ec & Hin & Hmax).
  { destruct cs; [destruct flows; [congruence|discriminate]|discriminate]. }
  { intros x Hx. apply in_map_iff in Hx. destruct Hx as (p & <- & _). eauto. }
  rewrite Ec. cbn [bind]. exists c.
  apply in_map_iff in Hin. destruct Hin as (c' & E1 & Hc). injection E1 as ->. apply In_nth_error in Hc. destruct Hc as [k Hk].
  assert (Hkl : k < length flows) by (rewrite <- L; apply nth_error_Some; congruence).
  destruct (nth_error flows k) as [flow|] eqn:Ef; [|apply nth_error_None in Ef; lia].
  assert (Hfl : In flow flows) by (eapply nth_error_In; eauto).
  pose proof (HK k flow c Ef Hk) as Ea. destruct (auto_cash flow (H _ Hfl)) as (c2 & E2 & Hpos & HB & HM).
  rewrite Ea in E2. injection E2 as <-.
  split; [|split; [auto|split]].
  - f_equal. clear -L. revert flows L. induction cs as [|x cs IH]; intros [|f flows] L; try discriminate; [reflexivity|].
    cbn [map]. f_equal. apply IH. cbn [length] in L. lia.
  - intros fl i Hf Hi. apply In_nth_error in Hf. destruct Hf as [m Hm].
    assert (Hml : m < length cs) by (rewrite L; apply nth_error_Some; congruence).
    destruct (nth_error cs m) as [cm|] eqn:Em; [|apply nth_error_None in Em; lia].
    pose proof (HK m fl cm Hm Em) as Eam. destruct (auto_cash fl) as (c3 & E3 & _ & HB3 & _); [apply H; eapply nth_error_In; eauto|].
    rewrite Eam in E3. injection E3 as <-. eapply Qle_trans; [exact (HB3 i Hi)|]. apply balance_mono.
    apply Hmax. apply in_map_iff. exists cm. split; auto. eapply nth_error_In; eauto.
  - destruct HM as [(i & Hi & H0)|[H1 H2]]; [left; exists flow, i; auto|right; split; auto; exists flow; auto].
Qed.

(** The cash rebuilt from the flow with that start *)
Lemma sum_sumL : forall l, sum l = sumL l.
Proof. reflexivity. Qed.

Lemma cash_balance : forall (flow : nat -> Q) c i,
  exists q, cash_nb (fun j => Fin (flow j)) (Fin c) i = Fin q /\
    within (S (S i)) (Qabs c + sumQ (fun j => Qabs (flow j)) (S i)) q (balance c (map flow (seq 0 (S i))) i).
Proof.
  intros flow c i. unfold cash_nb.
  destruct (fold_add_nb_any (map flow (seq 0 (S i))) c (Qabs c + sumQ (fun j => Qabs (flow j)) (S i)))%Q as (r & E & _ & HW).
  { unfold absL. rewrite map_map, (sumL_seq (fun j => Qabs (flow j))). lra. }
  exists r. split.
  - rewrite <- E. clear. generalize (Fin c) as a. induction (seq 0 (S i)) as [|x l IH]; intros a; [reflexivity|].
    cbn [map fold_left]. apply IH.
  - unfold balance. rewrite firstn_all2 by (rewrite map_length, seq_length; lia). rewrite sum_sumL.
    eapply within_le; [|apply Qle_refl|exact HW]. unfold nonzeros.
    assert (HF : forall A (f : A -> bool) l, length (filter f l) <= length l)
      by (intros A f l; induction l as [|x l IH]; cbn; [lia|destruct (f x); cbn; lia]).
    specialize (HF Q (fun x => negb (Qeq_bool x 0)) (map flow (seq 0 (S i)))).
    rewrite map_length, seq_length in HF. lia.
Qed.

Lemma total_return_run : forall p c, ~ (c == 0)%Q ->
  exists f, final_value_nb (Fin p) (Fin c) = Fin f /\ is_number (total_return_nb (Fin p) (Fin c)) (f / c - 1).
Proof.
  intros p c Hc. unfold final_value_nb, total_return_nb. rewrite add_fin, div_fin by auto. eexists. split; [reflexivity|].
  eexists. split; [reflexivity|]. rewrite !Qred_correct. field. auto.
Qed.

