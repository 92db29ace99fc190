(** * Lemmas about accounts rebuilt from order records: simulation and replay together *)
From Coq Require Import ZArith QArith Qabs Qminmax Bool Lia Lqa List Setoid Morphisms Permutation Sorting.
From Verif Require Import Base Num MathNb TolSpec Order OrderSpec OrderGen Account AccountSpec XQFacts OrderLemmas
  OrderLemmas2 OrderLemmas4 OrderRuns CallSeq Records RecordLemmas Simulate SimSpec SimLemmas SimLemmas2 SimLemmas3
  Replay ReplaySpec ReplayLemmas ReplayLemmas2 ReplayLemmas3.
Import ListNotations.

(** ** Record numbers *)
Lemma order_step_numbered : forall {T} {N : Num T} draws (inp : Inputs T) fl sh i g f len st k st',
  numbered (@or_id T) (rc_orders (sm_rc st)) ->
  order_step draws inp fl sh i g f len st k = Ok st' ->
  numbered (@or_id T) (rc_orders (sm_rc st')).
Proof.
  intros T N draws inp fl sh i g f len st k st' Hn H. unfold order_step in H.
  apply bind_ok in H as (col & _ & H). apply bind_ok in H as ([[r s'] rc'] & Hpr & H). injection H as <-.
  apply process_order_inv in Hpr as (es & _ & _ & _ & _ & _ & Ho & _). cbn. rewrite Ho.
  destruct (is_filled r); auto. apply numbered_snoc; auto.
Qed.

Lemma bars_numbered : forall {T} {N : Num T} draws (inp : Inputs T) fl sh g f len l st st',
  numbered (@or_id T) (rc_orders (sm_rc st)) ->
  foldM (bar_step draws inp fl sh g f len) st l = Ok st' ->
  numbered (@or_id T) (rc_orders (sm_rc st')).
Proof.
  intros T N draws inp fl sh g f len l st st' Hn H.
  eapply (foldM_inv _ _ (fun s => numbered (@or_id T) (rc_orders (sm_rc s)))); [| |exact H]; auto.
  intros s i s' Hs _ Hb. unfold bar_step in Hb.
  eapply (foldM_inv _ _ (fun s => numbered (@or_id T) (rc_orders (sm_rc s)))); [| |exact Hb].
  - intros x k x' Hx _ Hk. eapply order_step_numbered; eauto.
  - rewrite sort_rc. destruct (price_step_rc inp fl i (seq f len) s) as [-> _]. exact Hs.
Qed.

Lemma groups_numbered : forall {T} {N : Num T} draws (inp : Inputs T) fl sh nrows lens g from init st st',
  numbered (@or_id T) (rc_orders (sm_rc st)) ->
  sim_groups draws inp fl sh nrows g from lens init st = Ok st' ->
  numbered (@or_id T) (rc_orders (sm_rc st')).
Proof.
  intros T N draws inp fl sh nrows lens. induction lens as [|len lens IH]; intros g from init st st' Hn H; cbn in H.
  - injection H as <-. auto.
  - destruct (nth_error init g) as [c|]; [|discriminate]. apply bind_ok in H as (m & H1 & H2).
    eapply IH; [|exact H2]. unfold sim_group in H1. eapply bars_numbered; [|exact H1]. exact Hn.
Qed.

Lemma numbered_sorted : forall {T} {N : Num T} (l : list (OrderRec T)), numbered (@or_id T) l ->
  StronglySorted (fun a b => (or_id a <= or_id b)%nat) l.
Proof.
  intros T N l H.
  assert (G : forall (l : list (OrderRec T)) k, (forall n x, nth_error l n = Some x -> or_id x = (k + n)%nat) ->
    StronglySorted (fun a b => (or_id a <= or_id b)%nat) l).
  { clear. induction l as [|r l IH]; intros k H; constructor.
    - apply (IH (S k)). intros n x Hx. rewrite (H (S n) x Hx). lia.
    - apply Forall_forall. intros x Hx. apply In_nth_error in Hx as (n & Hn).
      rewrite (H (S n) x Hn), (H O r eq_refl). lia. }
  apply (G l O). exact H.
Qed.

(** ** Filtering the final records *)
Lemma filter_none' : forall A (p : A -> bool) l, (forall x, In x l -> p x = false) -> filter p l = [].
Proof. intros A p l H. induction l as [|x l IH]; cbn; auto. rewrite H by (left; auto). apply IH. intros; apply H; right; auto. Qed.
Lemma filter_id' : forall A (p : A -> bool) l, (forall x, In x l -> p x = true) -> filter p l = l.
Proof. intros A p l H. induction l as [|x l IH]; cbn; auto. rewrite H by (left; auto). f_equal. apply IH. intros; apply H; right; auto. Qed.

Lemma filter_swap : forall A (p q : A -> bool) l, filter p (filter q l) = filter q (filter p l).
Proof.
  intros A p q l. induction l as [|x l IH]; cbn; auto.
  destruct (q x) eqn:E1; destruct (p x) eqn:E2; cbn; rewrite ?E1, ?E2, IH; auto.
Qed.

Definition incol (from len : nat) (r : OrderRec XQ) : bool := andb (Nat.leb from (or_col r)) (Nat.ltb (or_col r) (from + len)).

Lemma incol_iff : forall from len r, incol from len r = true <-> (from <= or_col r < from + len)%nat.
Proof. intros. unfold incol. rewrite andb_true_iff, Nat.leb_le, Nat.ltb_lt. lia. Qed.

Lemma of_col_of_cols : forall from len c l, (from <= c < from + len)%nat -> of_col c (of_cols from len l) = of_col c l.
Proof.
  intros from len c l H. unfold of_col, of_cols. induction l as [|r l IH]; cbn [filter]; auto.
  fold (incol from len r). destruct (Nat.eqb (or_col r) c) eqn:E.
  - apply Nat.eqb_eq in E. rewrite (proj2 (incol_iff from len r)) by lia. cbn [filter].
    rewrite E, Nat.eqb_refl. f_equal. exact IH.
  - destruct (incol from len r); cbn [filter]; rewrite ?E; exact IH.
Qed.

Lemma until_of_col : forall i c l, until i (of_col c l) = of_col c (until i l).
Proof. intros. apply filter_swap. Qed.

(** ** The state of a simulation after a bar of a group *)
Lemma simulated_group : forall draws rng nrows ncols lens init inp fl mo ml o l s g len c0 i,
  simulate_from_orders_nb draws rng nrows ncols lens init inp fl mo ml = Ok (o, l, s) ->
  nth_error lens g = Some len -> nth_error init g = Some (Fin c0) ->
  tame_inputs inp (sum_lens (firstn g lens)) len -> (i < nrows)%nat ->
  numbered (@or_id XQ) o /\ Forall proper (of_cols (sum_lens (firstn g lens)) len o) /\
  exists st, variables_after draws rng nrows ncols lens init inp fl mo ml g i = Ok st /\
    SI (sum_lens (firstn g lens)) len c0 st /\
    until i (of_cols (sum_lens (firstn g lens)) len o) = of_cols (sum_lens (firstn g lens)) len (rc_orders (sm_rc st)).
Proof.
  intros draws rng nrows ncols lens init inp fl mo ml o l s g len c0 i H Hg Hi HT Hn.
  unfold simulate_from_orders_nb in H. apply raise_if_ok in H as [_ H]. apply raise_if_ok in H as [_ H].
  apply bind_ok in H as (stf & Hsim & H). injection H as <- <- <-.
  set (sh := is_grouped lens) in *.
  pose proof (nth_error_split lens g Hg) as (l1 & l2 & El & Hl1).
  assert (Ef : firstn g lens = l1).
  { rewrite El. rewrite firstn_app, Hl1, Nat.sub_diag, firstn_O, app_nil_r. apply firstn_all2. lia. }
  rewrite Ef in *. set (from := sum_lens l1) in *.
  assert (Hnum : numbered (@or_id XQ) (rc_orders (sm_rc stf))).
  { eapply groups_numbered; [|exact Hsim]. intros n x Hx. destruct n; discriminate. }
  rewrite El in Hsim. rewrite groups_app in Hsim. apply bind_ok in Hsim as (st0 & H0 & Hsim).
  cbn [sim_groups] in Hsim. rewrite Hl1, Nat.add_0_l, Hi in Hsim.
  apply bind_ok in Hsim as (st1 & H1 & H2). rewrite !Nat.add_0_l in H1, H2. fold from in H1, H2.
  assert (Hnum0 : numbered (@or_id XQ) (rc_orders (sm_rc st0))).
  { eapply groups_numbered; [|exact H0]. intros n x Hx. destruct n; discriminate. }
  pose proof (groups_one _ _ _ _ _ _ _ _ _ _ _ H0) as (K0 & (G0 & _)).
  pose proof (groups_one _ _ _ _ _ _ _ _ _ _ _ H2) as (_ & (G2 & _)).
  destruct G0 as (a0 & Ea0 & Fa0). cbn in Ea0.
  destruct G2 as (a2 & Ea2 & Fa2).
  unfold sim_group in H1.
  replace (seq 0 nrows) with (seq 0 (S i) ++ seq (S i) (nrows - S i)) in H1
    by (rewrite <- seq_app; f_equal; lia).
  rewrite foldM_app in H1. apply bind_ok in H1 as (sti & H1 & H3).
  pose proof (bars_one _ _ _ _ _ _ _ _ _ _ H1) as (_ & ((a1 & Ea1 & Fa1) & _)). cbn [sm_rc] in Ea1.
  pose proof (bars_one _ _ _ _ _ _ _ _ _ _ H3) as (_ & ((a3 & Ea3 & Fa3) & _)).
  set (stb := mkSim (Fin c0) (Fin c0) (sm_value st0) (sm_pos st0) (sm_debt st0) (sm_vp st0) (sm_price st0)
           (sm_seq st0) (sm_rc st0)) in *.
  assert (O0 : forall c, (from <= c < from + len)%nat -> outside 0 (sum_lens l1) c) by (unfold outside; intros; fold from; lia).
  assert (Ecols0 : of_cols from len (rc_orders (sm_rc st0)) = []).
  { rewrite Ea0. apply filter_none'. intros x Hx. rewrite Forall_forall in Fa0. specialize (Fa0 x Hx).
    destruct (andb _ _) eqn:E; auto. apply (incol_iff from len x) in E. fold from in Fa0. lia. }
  assert (SI0 : SI from len c0 stb).
  { constructor; cbn [sm_cash sm_pos sm_vp sm_rc stb].
    - exists c0. split; auto. rewrite Ecols0. split; [unfold turnover; cbn; lra|]. left. apply within_refl. unfold ledger_cash; cbn; ring.
    - intros c Hc. rewrite (kp_pos _ _ _ _ K0 c) by (apply O0; auto). exists 0. split; [reflexivity|].
      rewrite <- (of_col_of_cols from len c) by auto. rewrite Ecols0. cbn.
      split; [unfold volume; cbn; lra|]. split; [left; reflexivity|apply within_refl; reflexivity].
    - intros c Hc. rewrite (kp_vp _ _ _ _ K0 c) by (apply O0; auto). left; reflexivity.
    - rewrite Ecols0. constructor.
    - exact Hnum0. }
  assert (SIi : SI from len c0 sti) by (eapply bars_SI; [exact HT|exact SI0|exact H1]).
  assert (SI1 : SI from len c0 st1) by (eapply bars_SI; [exact HT|exact SIi|exact H3]).
  assert (C2 : of_cols from len a2 = []).
  { apply filter_none'. intros x Hx. rewrite Forall_forall in Fa2. specialize (Fa2 x Hx).
    destruct (andb _ _) eqn:E; auto. apply (incol_iff from len x) in E. lia. }
  assert (Eo : of_cols from len (rc_orders (sm_rc stf)) = of_cols from len (rc_orders (sm_rc st1))).
  { rewrite Ea2. unfold of_cols in *. rewrite filter_app, C2, app_nil_r. reflexivity. }
  split; [exact Hnum|]. split; [rewrite Eo; apply (si_proper _ _ _ _ SI1)|].
  exists sti. split; [|split; [exact SIi|]].
  - unfold variables_after. fold sh. rewrite Ef, H0. cbn [bind].
    rewrite (nth_error_nth lens g _ Hg), (nth_error_nth init g _ Hi). fold from. exact H1.
  - rewrite Eo, Ea3, Ea1. unfold of_cols in *. rewrite !filter_app, Ecols0. cbn [app]. rewrite until_app.
    assert (E1 : until i (filter (incol from len) a1) = filter (incol from len) a1).
    { apply filter_id'. intros x Hx. apply filter_In in Hx as [Hx _]. rewrite Forall_forall in Fa1.
      specialize (Fa1 x Hx). destruct Fa1 as [_ Fa1]. apply in_seq in Fa1. apply Nat.leb_le. lia. }
    assert (E3 : until i (filter (incol from len) a3) = []).
    { apply filter_none'. intros x Hx. apply filter_In in Hx as [Hx _]. rewrite Forall_forall in Fa3.
      specialize (Fa3 x Hx). destruct Fa3 as [_ Fa3]. apply in_seq in Fa3. apply Nat.leb_gt. lia. }
    unfold incol in E1, E3. rewrite E1, E3, app_nil_r. reflexivity.
Qed.

Lemma proper_cols : forall from len c l, (from <= c < from + len)%nat ->
  Forall proper (of_cols from len l) -> Forall proper (of_col c l).
Proof.
  intros from len c l Hc H. rewrite <- (of_col_of_cols from len c l) by auto.
  apply Forall_forall. intros x Hx. apply filter_In in Hx as [Hx _]. rewrite Forall_forall in H. auto.
Qed.

(** ** Positions *)
Lemma position_replayed : forall draws rng nrows ncols lens init inp fl mo ml o l s g len c0 i c,
  simulate_from_orders_nb draws rng nrows ncols lens init inp fl mo ml = Ok (o, l, s) ->
  nth_error lens g = Some len -> nth_error init g = Some (Fin c0) ->
  tame_inputs inp (sum_lens (firstn g lens)) len -> (i < nrows)%nat ->
  (sum_lens (firstn g lens) <= c < sum_lens (firstn g lens) + len)%nat ->
  exists st flow a p,
    variables_after draws rng nrows ncols lens init inp fl mo ml g i = Ok st /\
    asset_flow_nb BothDir o c = Ok flow /\ assets_nb flow i = Fin a /\ sm_pos st c = Fin p /\
    within (3 * length (until i (of_col c o))) (volume (until i (of_col c o))) a p.
Proof.
  intros draws rng nrows ncols lens init inp fl mo ml o l s g len c0 i c H Hg Hi HT Hn Hc.
  destruct (simulated_group _ _ _ _ _ _ _ _ _ _ _ _ _ _ _ _ _ H Hg Hi HT Hn) as (Hnum & HP & st & Est & HS & Eu).
  set (from := sum_lens (firstn g lens)) in *.
  pose proof (proper_cols from len c o Hc HP) as HPc.
  destruct (replay_succeeds o c 0 HPc (numbered_sorted o Hnum)) as ((flow & Ef) & _).
  destruct (assets_ledger o c flow i HPc Ef) as (a & Ea & Ha).
  destruct (si_pos _ _ _ _ HS c Hc) as (p & Ep & (_ & _ & Hp)).
  assert (E : until i (of_col c o) = of_col c (rc_orders (sm_rc st))).
  { rewrite until_of_col, <- (of_col_of_cols from len c (until i o)) by auto.
    replace (of_cols from len (until i o)) with (until i (of_cols from len o)) by apply filter_swap.
    rewrite Eu. apply of_col_of_cols. auto. }
  exists st, flow, a, p. split; auto. split; auto. split; auto. split; auto.
  replace (3 * length (until i (of_col c o)))%nat with (2 * length (until i (of_col c o)) + length (until i (of_col c o)))%nat by lia.
  eapply within_trans; [exact Ha|]. apply within_sym. rewrite E. exact Hp.
Qed.

(** ** Cash *)
Lemma cash_replayed : forall draws rng nrows ncols lens init inp fl mo ml o l s g len c0 i,
  simulate_from_orders_nb draws rng nrows ncols lens init inp fl mo ml = Ok (o, l, s) ->
  nth_error lens g = Some len -> nth_error init g = Some (Fin c0) ->
  tame_inputs inp (sum_lens (firstn g lens)) len -> (i < nrows)%nat ->
  exists st flow m c,
    variables_after draws rng nrows ncols lens init inp fl mo ml g i = Ok st /\
    (forall col, (sum_lens (firstn g lens) <= col < sum_lens (firstn g lens) + len)%nat ->
       exists out, cash_flow_nb false o col = Ok out /\ forall j, flow j col = out j) /\
    cash_nb (sum_cols flow (sum_lens (firstn g lens)) len) (Fin c0) i = Fin m /\ sm_cash st = Fin c /\
    within (5 * length (until i (of_cols (sum_lens (firstn g lens)) len o)) + 2)
      (Qabs c0 + turnover (until i (of_cols (sum_lens (firstn g lens)) len o))) m c.
Proof.
  intros draws rng nrows ncols lens init inp fl mo ml o l s g len c0 i H Hg Hi HT Hn.
  destruct (simulated_group _ _ _ _ _ _ _ _ _ _ _ _ _ _ _ _ _ H Hg Hi HT Hn) as (Hnum & HP & st & Est & HS & Eu).
  set (from := sum_lens (firstn g lens)) in *.
  set (flow := fun j col => match cash_flow_nb false o col with Ok out => out j | Err _ => NaN end).
  assert (HF : forall col, (from <= col < from + len)%nat ->
       exists out, cash_flow_nb false o col = Ok out /\ forall j, flow j col = out j).
  { intros col Hc. destruct (replay_succeeds o col 0 (proper_cols from len col o Hc HP) (numbered_sorted o Hnum)) as (_ & (out & Eo) & _).
    exists out. split; auto. intros j. unfold flow. rewrite Eo. reflexivity. }
  destruct (cash_grouped_ledger o flow from len i c0) as (m & Em & Hm); auto.
  { intros c Hc. eapply proper_cols; eauto. }
  destruct (si_cash _ _ _ _ HS) as (c & Ec & Hc). apply cash_ok_any in Hc. rewrite <- Eu in Hc.
  exists st, flow, m, c. split; auto. split; auto. split; auto. split; auto.
  eapply within_le with (n := ((2 * length (until i (of_cols from len o)) + 1) + (3 * length (until i (of_cols from len o)) + 1))%nat);
    [lia|apply Qle_refl|].
  eapply within_trans; [exact Hm|]. apply within_sym. exact Hc.
Qed.

(** ** Total profit and value *)
Lemma total_profit_value : forall recs c last c0 i aflow cflow p,
  Forall proper (of_col c recs) -> (forall r, In r (of_col c recs) -> (or_idx r <= i)%nat) ->
  asset_flow_nb BothDir recs c = Ok aflow -> cash_flow_nb false recs c = Ok cflow ->
  total_profit_nb (Fin last) recs c = Ok p ->
  exists q v, p = Fin q /\ value_nb (cash_nb cflow (Fin c0) i) (asset_value_nb (Fin last) (assets_nb aflow i)) = Fin v /\
    Qabs (q - (v - c0)) <=
      inject_Z (Z.of_nat (3 * length (of_col c recs) + 1)) * slack (Qabs c0 + turnover (of_col c recs)) +
      Qabs last * (inject_Z (Z.of_nat (3 * length (of_col c recs))) * slack (volume (of_col c recs))).
Proof.
  intros recs c last c0 i aflow cflow p HP Hidx Ha Hc Hp.
  assert (Eu : until i (of_col c recs) = of_col c recs).
  { apply filter_id'. intros x Hx. apply Nat.leb_le. auto. }
  destruct (total_profit_ledger recs c last p HP Hp) as (q & a & m & -> & Eq & Wa & Wm).
  destruct (assets_ledger recs c aflow i HP Ha) as (a' & Ea' & Wa').
  destruct (cash_ledger recs c cflow i c0 HP Hc) as (m' & Em' & Wm').
  rewrite Eu in *. exists q. rewrite Em', Ea'. unfold value_nb, asset_value_nb. xs. eexists. split; [reflexivity|].
  split; [reflexivity|]. rewrite !Qred_correct, Eq.
  set (rs := of_col c recs) in *. set (n := length rs) in *.
  assert (E1 : m + a * last - (m' + last * a' - c0) == (m + c0 - m') + last * (a - a')) by ring. rewrite E1.
  eapply Qle_trans; [apply Qabs_triangle|].
  assert (W1 : within (3 * n + 1) (Qabs c0 + turnover rs) (m + c0) m').
  { eapply within_le with (n := (n + (2 * n + 1))%nat); [lia|apply Qle_refl|].
    eapply within_trans with (b := c0 + ledger_cash rs); [|apply within_sym; exact Wm'].
    rewrite (Qplus_comm c0 (ledger_cash rs)). apply within_shift. eapply within_le; [apply Nat.le_refl| |exact Wm].
    pose proof (Qabs_nonneg c0). lra. }
  assert (W2 : within (3 * n) (volume rs) a a').
  { eapply within_le with (n := (n + 2 * n)%nat); [lia|apply Qle_refl|].
    eapply within_trans; [exact Wa|apply within_sym; exact Wa']. }
  unfold within in W1, W2. rewrite Qabs_Qmult. apply Qplus_le_compat; auto.
  rewrite (Qmult_comm (Qabs last)), (Qmult_comm (Qabs last)). apply Qmult_le_compat_r; auto. apply Qabs_nonneg.
Qed.
