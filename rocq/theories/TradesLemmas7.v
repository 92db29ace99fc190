(** * Lemmas about trades: all columns *)
From Coq Require Import ZArith QArith Qabs Qminmax Bool Lia Lqa List Setoid Morphisms Sorted.
From Verif Require Import Base Num MathNb TolSpec XQFacts OrderFacts Order Account AccountSpec OrderLemmas4
  Replay ReplaySpec ReplayLemmas GenericLemmas2 Trades TradesSpec TradesLemmas TradesLemmas2 TradesLemmas3 TradesLemmas4 TradesLemmas5 TradesLemmas6.
Import ListNotations.

Section Cols.
  Context (R : TradeRec XQ -> TradeRec XQ -> Prop) (B : nat -> list (TradeRec XQ) -> Prop).

  (** The trades [out] of columns below [c], the last position id being [par]. *)
  Record cols_inv (c : nat) (par : Z) (out : list (TradeRec XQ)) : Prop := {
    ci_ids : map tr_id out = seq 0 (length out);
    ci_cols : Forall (fun t => (tr_col t < c)%nat) out;
    ci_csort : StronglySorted le (map tr_col out);
    ci_par : StronglySorted Z.le (map tr_parent out);
    ci_range : Forall (fun t => (-1 < tr_parent t <= par)%Z) out;
    ci_par0 : (-1 <= par)%Z;
    ci_cov : forall k, (-1 < k <= par)%Z -> exists t, In t out /\ tr_parent t = k;
    ci_uni : forall t t', In t out -> In t' out -> tr_parent t = tr_parent t' -> tr_dir t = tr_dir t' /\ tr_col t = tr_col t' /\ R t t';
    ci_each : forall k, (k < c)%nat -> B k (trades_of_col k out) }.

  Lemma of_col_all : forall c (ts : list (TradeRec XQ)), Forall (fun t => tr_col t = c) ts -> trades_of_col c ts = ts.
  Proof.
    intros c ts H. unfold trades_of_col. induction H as [|t ts Ht H IH]; cbn; auto. rewrite Ht, Nat.eqb_refl, IH. reflexivity.
  Qed.

  Lemma of_col_none : forall c (ts : list (TradeRec XQ)), Forall (fun t => tr_col t <> c) ts -> trades_of_col c ts = [].
  Proof.
    intros c ts H. unfold trades_of_col. induction H as [|t ts Ht H IH]; cbn; auto. apply Nat.eqb_neq in Ht. rewrite Ht. auto.
  Qed.

  Lemma sorted_app_le : forall A (f : A -> A -> Prop) l l', StronglySorted f l -> StronglySorted f l' ->
    (forall x y, In x l -> In y l' -> f x y) -> StronglySorted f (l ++ l').
  Proof.
    intros A f l l' H1 H2 H3. induction H1 as [|x l H1 IH Hx]; cbn; auto. constructor.
    - apply IH. intros; apply H3; cbn; auto.
    - apply Forall_app. split; auto. apply Forall_forall. intros y Hy. apply H3; cbn; auto.
  Qed.

  Lemma sorted_const : forall c (l : list nat), Forall (fun x => x = c) l -> StronglySorted le l.
  Proof.
    intros c l H. induction H as [|x l Hx H IH]; constructor; auto. eapply Forall_impl; [|exact H]. cbn. intros; lia.
  Qed.

  Lemma cols_extend : forall c par out ts par', cols_inv c par out -> col_str c (length out) par par' ts ->
    (forall t t', In t ts -> In t' ts -> tr_parent t = tr_parent t' -> R t t') -> B c ts -> cols_inv (S c) par' (out ++ ts).
  Proof.
    intros c par out ts par' [I1 I2 I2' I3 I4 I5 I6 I7 I8] [C1 C2 C3 C4 C5 C6 C7] HR HB.
    rewrite Forall_forall in I4, C4.
    constructor.
    - rewrite map_app, I1, C1, app_length, seq_app. reflexivity.
    - apply Forall_app. split; [eapply Forall_impl; [|exact I2]; cbn; intros; lia|eapply Forall_impl; [|exact C2]; cbn; intros; lia].
    - rewrite map_app. apply sorted_app_le; auto.
      + apply (sorted_const c). apply Forall_forall. intros x Hx. apply in_map_iff in Hx as (t & <- & Ht). rewrite Forall_forall in C2. auto.
      + intros x y Hx Hy. apply in_map_iff in Hx as (t & <- & Ht). apply in_map_iff in Hy as (t' & <- & Ht').
        rewrite Forall_forall in I2, C2. apply I2 in Ht. apply C2 in Ht'. lia.
    - rewrite map_app. apply sorted_app_le; auto. intros x y Hx Hy.
      apply in_map_iff in Hx as (t & <- & Ht). apply in_map_iff in Hy as (t' & <- & Ht'). apply I4 in Ht. apply C4 in Ht'. lia.
    - apply Forall_forall. intros t Ht. apply in_app_or in Ht as [Ht|Ht]; [apply I4 in Ht|apply C4 in Ht]; lia.
    - lia.
    - intros k Hk. destruct (Z_le_gt_dec k par) as [Hl|Hl].
      + destruct (I6 k) as (t & Ht & E); [lia|]. exists t. split; auto. apply in_or_app; auto.
      + destruct (C7 k) as (t & Ht & E); [lia|]. exists t. split; auto. apply in_or_app; auto.
    - intros t t' Ht Ht' E. apply in_app_or in Ht. apply in_app_or in Ht'. rewrite Forall_forall in C2.
      destruct Ht as [Ht|Ht]; destruct Ht' as [Ht'|Ht']; auto.
      + apply I4 in Ht. apply C4 in Ht'. lia.
      + apply C4 in Ht. apply I4 in Ht'. lia.
      + repeat split; auto. rewrite (C2 t Ht), (C2 t' Ht'). auto.
    - intros k Hk. unfold trades_of_col in *. rewrite filter_app. destruct (Nat.eq_dec k c) as [->|Hn].
      + fold (trades_of_col c out) (trades_of_col c ts). rewrite of_col_none, of_col_all; auto.
        eapply Forall_impl; [|exact I2]. cbn. intros; lia.
      + fold (trades_of_col k out) (trades_of_col k ts). rewrite (of_col_none k ts), app_nil_r. { apply I8. lia. }
        eapply Forall_impl; [|exact C2]. cbn. intros; lia.
  Qed.

  Lemma cols_empty : forall c par out, cols_inv c par out -> B c [] -> cols_inv (S c) par out.
  Proof.
    intros c par out H HB. rewrite <- (app_nil_r out). eapply cols_extend; eauto; [|intros ? ? []].
    constructor; cbn; auto; try constructor; try lia; try tauto.
  Qed.

  Lemma cols_none : forall (H : True), cols_inv 0 (-1) [].
  Proof. constructor; cbn; auto; try constructor; try lia; intros; try lia; tauto. Qed.
End Cols.

(** What the records must satisfy *)
Definition good_input (P : Q) (last : nat -> Q) (recs : list (OrderRec XQ)) : Prop :=
  Forall good_order recs /\ Forall (fun r => oprice r <= P) recs /\ (forall c, Qabs (last c) <= P).

Lemma good_P : forall P last recs, good_input P last recs -> 0 <= P.
Proof. intros P last recs (_ & _ & H). pose proof (Qabs_nonneg (last 0%nat)). specialize (H 0%nat). lra. Qed.

Lemma good_col : forall P last recs c, good_input P last recs ->
  Forall good_order (column_records c recs) /\ Forall (fun r => oprice r <= P) (column_records c recs).
Proof.
  intros P last recs c (H1 & H2 & _). rewrite Forall_forall in H1, H2.
  split; apply Forall_forall; intros r Hr; unfold column_records in Hr; apply filter_In in Hr as (Hr & _); auto.
Qed.

Lemma books_nil : forall P last, 0 <= P -> col_books P last [] [].
Proof.
  intros P last HP. constructor; cbn; auto.
  - unfold conserves_fees. cbn. reflexivity.
  - unfold conserves_size, within, ledger_position, volume. cbn [length tsum total]. change (Qabs 0) with 0.
    change (inject_Z (Z.of_nat (2 * 0))) with 0. assert (E : 2 * 0 - (0 + 0) == 0) by ring. rewrite E. change (Qabs 0) with 0. lra.
  - unfold conserves_profit, ledger_position, ledger_cash. cbn [length tsum total].
    change (inject_Z (Z.of_nat (2 * 0))) with 0. change (inject_Z (Z.of_nat 0)) with 0.
    assert (E : 0 - (0 + 0 * last) == 0) by ring. rewrite E. change (Qabs 0) with 0. lra.
Qed.

(** ** Exit trades *)
Definition exit_col (nrows : nat) (P : Q) (last : nat -> Q) (recs : list (OrderRec XQ)) (c : nat) (ts : list (TradeRec XQ)) : Prop :=
  col_books P (last c) (column_records c recs) ts /\
  Forall (fun t => closed_by (column_records c recs) t \/ open_at nrows (last c) (column_records c recs) t) ts /\
  (forall a t b, ts = a ++ t :: b -> tr_status t = TOpen -> b = [] /\ qty (tr_exit_price t) == last c /\ qty (tr_exit_fees t) == 0).
Definition same_entry (t t' : TradeRec XQ) := tr_entry_idx t = tr_entry_idx t'.

Lemma xinv_nil : forall Vt P out s, xs_pos s = None -> 0 <= Vt -> 0 <= P -> xs_out s = out -> xinv Vt P out [] s [].
Proof.
  intros Vt P out s Hn HV HP Ho. destruct (held_none s Hn) as (A1 & A2 & A3 & A4). pose proof (slack_pos Vt) as Hs.
  assert (HsP : 0 <= slack Vt * P) by (apply Qmult_le_0_compat; lra).
  assert (Hq : forall m a b, 0 <= m -> a == b -> near 0 m a b).
  { intros m a b Hm E. unfold near. rewrite E. assert (Z0 : b - b == 0) by ring. rewrite Z0. change (Qabs 0) with 0. change (inject_Z (Z.of_nat 0)) with 0. lra. }
  constructor; cbn [length tsum]; auto.
  - rewrite app_nil_r; auto.
  - unfold xsane. rewrite Hn. auto.
  - apply Hq; [lra|]. unfold ledger_position. cbn. rewrite A2. ring.
  - rewrite A2. unfold volume. cbn. lra.
  - apply Hq; [lra|]. unfold gross_cash. cbn. rewrite A3. ring.
  - rewrite A4. unfold all_fees. cbn. ring.
  - apply Hq; [lra|]. unfold volume. cbn. rewrite A2. ring.
  - rewrite A3, A2. lra.
  - unfold hcount. rewrite Hn. cbn. lia.
Qed.

Lemma xstr_nil : forall col s, xs_pos s = None -> xstr col (xs_tidx s) (xs_parent s) [] s [].
Proof.
  intros col s H. constructor; cbn; auto; try constructor; try tauto; try lia; unfold hcount; rewrite ?H; cbn; auto; try lia.
Qed.

Lemma exit_column_spec : forall nrows P last recs c s s', good_input P last recs ->
  cols_inv same_entry (exit_col nrows P last recs) c (xs_parent s) (xs_out s) -> xs_tidx s = length (xs_out s) ->
  exit_column nrows (fun c => Fin (last c)) recs s c = Ok s' ->
  cols_inv same_entry (exit_col nrows P last recs) (S c) (xs_parent s') (xs_out s') /\ xs_tidx s' = length (xs_out s').
Proof.
  intros nrows P last recs c s s' Hi HI Ht H. pose proof (good_P _ _ _ Hi) as HP.
  destruct (good_col P last recs c Hi) as (Hg & Hp). unfold exit_column in H.
  destruct (column_records c recs) as [|r0 l] eqn:Ec.
  - injection H as <-. split; auto. apply cols_empty; auto. unfold exit_col. rewrite Ec. split; [apply books_nil; auto|]. split; auto.
    intros a t b E. destruct a; discriminate.
  - rewrite <- Ec in *. apply bind_ok in H as (s1 & H1 & H2).
    set (s0 := mkXState (-1) None (xs_parent s) (xs_tidx s) (xs_out s)) in *.
    destruct (exit_fold (volume (column_records c recs)) P (xs_out s) c (xs_tidx s) (xs_parent s) (column_records c recs) [] s0 [] s1) as (ts & HI1 & HJ1); auto.
    { cbn [app]. apply Qle_refl. }
    { apply xinv_nil; auto. apply volume_nonneg. }
    { apply (xstr_nil c s0). reflexivity. }
    cbn [app] in HI1, HJ1.
    destruct (exit_finish_spec nrows (last c) c (xs_out s) (xs_tidx s) (xs_parent s) P (column_records c recs) s1 ts s') as (ts' & E1 & E2 & E3 & E4 & E5 & E6 & E7); auto.
    { apply Hi. }
    rewrite E1. rewrite Ht in E2, E4. split; [|rewrite E4, app_length; auto].
    eapply cols_extend; eauto. split; auto.
Qed.

Lemma exit_trades_spec : forall nrows ncols P last recs out, good_input P last recs ->
  get_exit_trades_nb nrows ncols (fun c => Fin (last c)) recs = Ok out ->
  exists par, cols_inv same_entry (exit_col nrows P last recs) ncols par out.
Proof.
  intros nrows ncols P last recs out Hi H. unfold get_exit_trades_nb in H. apply bind_ok in H as (s & H & E). injection E as <-.
  exists (xs_parent s).
  set (f := exit_column nrows (fun c => Fin (last c)) recs) in *.
  assert (G : forall n c s0, cols_inv same_entry (exit_col nrows P last recs) c (xs_parent s0) (xs_out s0) -> xs_tidx s0 = length (xs_out s0) ->
    foldM f s0 (seq c n) = Ok s -> cols_inv same_entry (exit_col nrows P last recs) (c + n) (xs_parent s) (xs_out s)).
  { induction n as [|n IH]; intros c s0 HI Ht Hf; cbn [seq foldM] in Hf.
    - injection Hf as <-. rewrite Nat.add_0_r. auto.
    - apply bind_ok in Hf as (s1 & F1 & F2). destruct (exit_column_spec nrows P last recs c s0 s1) as (HI1 & Ht1); auto.
      rewrite <- Nat.add_succ_comm. eapply IH; eauto. }
  apply (G ncols 0%nat (mkXState (-1) None (-1) 0 []) (cols_none _ _ I)); auto.
Qed.

(** Accepted: the order ids of each column ascend. *)
Definition ids_ascend (recs : list (OrderRec XQ)) : Prop := forall c, StronglySorted le (map or_id (column_records c recs)).

Lemma exit_fold_total : forall col l s, Forall good_order l -> xsane s -> StronglySorted le (map or_id l) ->
  Forall (fun r => (xs_last s <= Z.of_nat (or_id r))%Z) l -> exists s', foldM (exit_step col) s l = Ok s' /\ xsane s'.
Proof.
  intros col l. induction l as [|r l IH]; intros s Hg Hs Hso Hl; cbn [foldM].
  - exists s. auto.
  - inversion Hg; inversion Hl; inversion Hso; subst.
    destruct (exit_step_spec col s r) as (s1 & E & Hc & Hlast); auto. rewrite E. cbn [bind].
    apply IH; auto. { eapply xcase_sane; eauto. }
    rewrite Hlast. apply Forall_forall. intros r' Hr'.
    match goal with H : Forall (le (or_id r)) _ |- _ => rewrite Forall_forall in H; specialize (H (or_id r') (in_map or_id l r' Hr')) end. lia.
Qed.

Lemma exit_accepts : forall nrows ncols P last recs, good_input P last recs -> ids_ascend recs ->
  exists out, get_exit_trades_nb nrows ncols (fun c => Fin (last c)) recs = Ok out.
Proof.
  intros nrows ncols P last recs Hi Hids. unfold get_exit_trades_nb.
  assert (G : forall l s0, exists s, foldM (exit_column nrows (fun c => Fin (last c)) recs) s0 l = Ok s).
  { induction l as [|c l IH]; intros s0; cbn [foldM]; [eauto|].
    assert (K : exists s1, exit_column nrows (fun c => Fin (last c)) recs s0 c = Ok s1).
    { destruct (good_col P last recs c Hi) as (Hg & _). unfold exit_column. specialize (Hids c).
      destruct (column_records c recs) as [|r0 l0] eqn:Ec; [eauto|]. rewrite <- Ec in *.
      destruct (exit_fold_total c (column_records c recs) (mkXState (-1) None (xs_parent s0) (xs_tidx s0) (xs_out s0))) as (s1 & E1 & Hs1); auto.
      { cbn. auto. } { apply Forall_forall. cbn. intros; lia. }
      rewrite E1. cbn [bind]. unfold exit_finish. unfold xsane in Hs1. destruct (xs_pos s1) as [p|]; [|eauto].
      destruct Hs1 as (ei & d & E & G & F & Hp & HE & HG). pose proof Hp as [_ _ (e & He & Ee) _ _]. rewrite He. rewrite is_less_neg by lra.
      change zero with (Fin 0).
      destruct (exit_trade_spec (xs_tidx s1) c p ei d E G F e (nrows - 1) (last c) 0 TOpen (xs_parent s1) Hp) as (t & Et & _); try lra.
      rewrite Et. cbn [bind]. eauto. }
    destruct K as (s1 & ->). cbn [bind]. apply IH. }
  destruct (G (seq 0 ncols) (mkXState (-1) None (-1) 0 [])) as (s & ->). cbn [bind]. eauto.
Qed.

(** ** Entry trades *)
Definition entry_col (nrows : nat) (P : Q) (last : nat -> Q) (recs : list (OrderRec XQ)) (c : nat) (ts : list (TradeRec XQ)) : Prop :=
  col_books P (last c) (column_records c recs) ts /\
  Forall (fun t => ended_by (column_records c recs) t \/ begun_by nrows (column_records c recs) t) ts.
Definition same_exit (t t' : TradeRec XQ) := tr_exit_idx t = tr_exit_idx t' /\ tr_status t = tr_status t'.

Lemma einv_nil : forall Vt P out s, es_pos s = None -> 0 <= Vt -> 0 <= P -> es_trades s = out -> einv Vt P out [] s [].
Proof.
  intros Vt P out s Hn HV HP Ho. destruct (eheld_none s Hn) as (A1 & A2 & A3 & A4 & A5 & A6 & A7). pose proof (slack_pos Vt) as Hs.
  assert (HsP : 0 <= slack Vt * P) by (apply Qmult_le_0_compat; lra).
  assert (Hq : forall m a b, 0 <= m -> a == b -> near 0 m a b).
  { intros m a b Hm E. unfold near. rewrite E. assert (Z0 : b - b == 0) by ring. rewrite Z0. change (Qabs 0) with 0. change (inject_Z (Z.of_nat 0)) with 0. lra. }
  constructor; cbn [length tsum]; auto.
  - rewrite app_nil_r; auto.
  - unfold esane. rewrite Hn. auto.
  - apply Hq; [lra|]. unfold ledger_position. cbn. rewrite A2, A5. ring.
  - rewrite A2. unfold volume. cbn. lra.
  - apply Hq; [lra|]. unfold gross_cash. cbn. rewrite A3, A6. ring.
  - rewrite A4, A7. unfold all_fees. cbn. ring.
  - apply Hq; [lra|]. unfold volume. cbn. rewrite A2, A5. ring.
  - rewrite A3, A2. lra.
  - rewrite A5, A6. lra.
  - unfold eents. rewrite Hn. cbn. lia.
Qed.

Lemma estr_nil : forall col s, es_pos s = None -> estr col (es_tidx s) (es_parent s) [] s [].
Proof.
  intros col s H. constructor; cbn; auto; try constructor; try tauto; try lia; unfold ecount; rewrite ?H; cbn; auto; try lia.
Qed.

Lemma entry_column_spec : forall nrows P last recs c s s', good_input P last recs ->
  cols_inv same_exit (entry_col nrows P last recs) c (es_parent s) (es_trades s) -> es_tidx s = length (es_trades s) ->
  entry_column nrows (fun c => Fin (last c)) recs s c = Ok s' ->
  cols_inv same_exit (entry_col nrows P last recs) (S c) (es_parent s') (es_trades s') /\ es_tidx s' = length (es_trades s').
Proof.
  intros nrows P last recs c s s' Hi HI Ht H. pose proof (good_P _ _ _ Hi) as HP.
  destruct (good_col P last recs c Hi) as (Hg & Hp). unfold entry_column in H.
  destruct (column_records c recs) as [|r0 l] eqn:Ec.
  - injection H as <-. split; auto. apply cols_empty; auto. unfold entry_col. rewrite Ec. split; [apply books_nil; auto|]. auto.
  - rewrite <- Ec in *. apply bind_ok in H as (s1 & H1 & H2).
    set (s0 := mkEState (-1) None (es_parent s) (es_tidx s) (es_trades s)) in *.
    destruct (entry_fold (volume (column_records c recs)) P (es_trades s) c (es_tidx s) (es_parent s) (column_records c recs) [] s0 [] s1) as (ts & HI1 & HJ1); auto.
    { cbn [app]. apply Qle_refl. }
    { apply einv_nil; auto. apply volume_nonneg. }
    { apply (estr_nil c s0). reflexivity. }
    cbn [app] in HI1, HJ1.
    destruct (entry_finish_spec nrows (last c) c (es_trades s) (es_tidx s) (es_parent s) P (column_records c recs) s1 ts s') as (ts' & E1 & E2 & E3 & E4 & E5 & E6); auto.
    { apply Hi. }
    rewrite E1. rewrite Ht in E2, E4. split; [|rewrite E4, app_length; auto].
    eapply cols_extend; eauto. split; auto.
Qed.

Lemma entry_trades_spec : forall nrows ncols P last recs out, good_input P last recs ->
  get_entry_trades_nb nrows ncols (fun c => Fin (last c)) recs = Ok out ->
  exists par, cols_inv same_exit (entry_col nrows P last recs) ncols par out.
Proof.
  intros nrows ncols P last recs out Hi H. unfold get_entry_trades_nb in H. apply bind_ok in H as (s & H & E). injection E as <-.
  exists (es_parent s).
  set (f := entry_column nrows (fun c => Fin (last c)) recs) in *.
  assert (G : forall n c s0, cols_inv same_exit (entry_col nrows P last recs) c (es_parent s0) (es_trades s0) -> es_tidx s0 = length (es_trades s0) ->
    foldM f s0 (seq c n) = Ok s -> cols_inv same_exit (entry_col nrows P last recs) (c + n) (es_parent s) (es_trades s)).
  { induction n as [|n IH]; intros c s0 HI Ht Hf; cbn [seq foldM] in Hf.
    - injection Hf as <-. rewrite Nat.add_0_r. auto.
    - apply bind_ok in Hf as (s1 & F1 & F2). destruct (entry_column_spec nrows P last recs c s0 s1) as (HI1 & Ht1); auto.
      rewrite <- Nat.add_succ_comm. eapply IH; eauto. }
  apply (G ncols 0%nat (mkEState (-1) None (-1) 0 []) (cols_none _ _ I)); auto.
Qed.

Lemma entry_fold_total : forall col rest done s, Forall good_order (done ++ rest) -> esane done s -> StronglySorted le (map or_id rest) ->
  Forall (fun r => (es_last s <= Z.of_nat (or_id r))%Z) rest ->
  exists s', foldM (entry_step (done ++ rest) col) s (combine (seq (length done) (length rest)) rest) = Ok s' /\ esane (done ++ rest) s'.
Proof.
  intros col rest. induction rest as [|r l IH]; intros done s Hg Hs Hso Hl.
  - cbn. exists s. rewrite app_nil_r. auto.
  - cbn [length seq combine foldM]. pose proof (proj1 (Forall_app _ _ _) Hg) as (Hg1 & Hg2). inversion Hg2; inversion Hl; inversion Hso; subst.
    destruct (entry_step_spec col s r done l) as (s1 & E & Hc & Hlast); auto. rewrite E. cbn [bind].
    assert (Ea : done ++ r :: l = (done ++ [r]) ++ l) by (rewrite <- app_assoc; reflexivity).
    rewrite Ea in *. replace (S (length done)) with (length (done ++ [r])) by (rewrite app_length; cbn; lia).
    apply IH; auto. { eapply ecase_sane; eauto. }
    rewrite Hlast. apply Forall_forall. intros r' Hr'.
    match goal with H : Forall (le (or_id r)) _ |- _ => rewrite Forall_forall in H; specialize (H (or_id r') (in_map or_id l r' Hr')) end. lia.
Qed.

Lemma entry_finish_total : forall nrows last os col s, Forall good_order os -> esane os s ->
  exists s', entry_finish nrows (Fin last) os col s = Ok s'.
Proof.
  intros nrows last os col s Hgd Is. unfold entry_finish. unfold esane in Is. destruct (es_pos s) as [p|]; [|eauto].
  destruct Is as (first & d & E & EG & EF & X & XG & XF & fs & ff & sl & Hp & Hh).
  pose proof Hh as [(pre & K0 & K0') (r0 & l & K1 & K1') K2 K3 K4 K5 K6 K7 K8].
  pose proof Hp as [X1 X2 (e1 & B1 & C1) (e2 & B2 & C2) (e3 & B3 & C3) (e4 & B4 & C4) (e5 & B5 & C5) (e6 & B6 & C6) X3 X4].
  pose proof (tolq_pos X E) as Htp. assert (HE0 : 0 < E) by lra.
  rewrite B1, B4, B5, B6. destruct (is_less_nb (Fin e4) (Fin e1)); [|eauto].
  destruct (add_nb_exact e1 e4) as (rem & Er & Er').
  { rewrite C1, C4, tolq_comm. rewrite Qabs_pos; lra. }
  rewrite Er, mul_fin, add_fin. unfold entry_trades_of. rewrite X1, X2, X3, X4.
  assert (Hslice : firstn (S (length os - 1) - first) (skipn first os) = sl).
  { rewrite K0 at 2. rewrite <- K0', skipn_app, skipn_all, Nat.sub_diag. cbn [skipn app].
    apply firstn_all2. rewrite K0, app_length. lia. }
  rewrite Hslice.
  assert (Hgs : Forall good_order sl) by (rewrite K0 in Hgd; apply Forall_app in Hgd; apply Hgd).
  destruct (fill_entry_spec col (nrows - 1) E (Qred (e5 + Qred (rem * last))) XF d TOpen (es_parent s) first fs ff e1
    (Qred (e5 + Qred (rem * last))) e6 sl first (es_tidx s)) as (nts & Ef & _); auto; try lra; try reflexivity.
  rewrite Ef. cbn [bind]. eauto.
Qed.

Lemma entry_accepts : forall nrows ncols P last recs, good_input P last recs -> ids_ascend recs ->
  exists out, get_entry_trades_nb nrows ncols (fun c => Fin (last c)) recs = Ok out.
Proof.
  intros nrows ncols P last recs Hi Hids. unfold get_entry_trades_nb.
  assert (G : forall l s0, exists s, foldM (entry_column nrows (fun c => Fin (last c)) recs) s0 l = Ok s).
  { induction l as [|c l IH]; intros s0; cbn [foldM]; [eauto|].
    assert (K : exists s1, entry_column nrows (fun c => Fin (last c)) recs s0 c = Ok s1).
    { destruct (good_col P last recs c Hi) as (Hg & _). unfold entry_column. specialize (Hids c).
      destruct (column_records c recs) as [|r0 l0] eqn:Ec; [eauto|]. rewrite <- Ec in *.
      destruct (entry_fold_total c (column_records c recs) [] (mkEState (-1) None (es_parent s0) (es_tidx s0) (es_trades s0))) as (s1 & E1 & Hs1); auto.
      { cbn. auto. } { apply Forall_forall. cbn. intros; lia. }
      cbn [app length] in E1, Hs1. rewrite E1. cbn [bind]. apply entry_finish_total; auto. }
    destruct K as (s1 & ->). cbn [bind]. apply IH. }
  destruct (G (seq 0 ncols) (mkEState (-1) None (-1) 0 [])) as (s & ->). cbn [bind]. eauto.
Qed.
