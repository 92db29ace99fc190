(** * Account and performance of the two engines *)
From Coq Require Import ZArith QArith Bool List Arith Lia.
From Verif Require Import Base Num MathNb Order OrdLaws XQFacts RustOrder RustLemmas Account Replay GenericNb GenericSpec
  GenericLemmas GenericLemmas2 GenericLemmas4 ReturnsNb Simulate Performance PerformanceSpec PerformanceLemmas PerformanceLemmas2
  PerformanceLemmas3 RustReplay.
Import ListNotations.
Local Open Scope nat_scope.
Local Open Scope list_scope.

Lemma foldM_same : forall A B (f g : A -> B -> res A) l s, (forall s b, f s b = g s b) -> foldM f s l = foldM g s l.
Proof.
  intros A B f g l. induction l as [|b l IH]; intros s H; cbn [foldM]; [reflexivity|]. rewrite H.
  destruct (g s b); cbn [bind]; auto.
Qed.

Lemma agrees_bind : forall A B (nb rs : res A) (f g : A -> res B), agrees nb rs -> (forall a, agrees (f a) (g a)) ->
  agrees (let! a := nb in f a) (let! a := rs in g a).
Proof.
  intros A B nb rs f g [->| ->] H; [left; reflexivity|]. destruct nb as [a|e]; cbn [bind]; [apply H|]. right. reflexivity.
Qed.

Lemma agrees_foldM : forall A B (f g : A -> B -> res A) l s, (forall s b, agrees (f s b) (g s b)) ->
  agrees (foldM f s l) (foldM g s l).
Proof.
  intros A B f g l. induction l as [|b l IH]; intros s H; cbn [foldM]; [apply agrees_refl|].
  apply agrees_bind; [apply H|]. intros a. apply IH, H.
Qed.

Section Agree.
  Context {T : Type} {N : Num T} {R : RustOps T} {L : RustLaws N R}.

  Lemma rs_get_return_eq : forall x y : T, rs_get_return x y = get_return_nb x y.
  Proof.
    intros x y. unfold rs_get_return, get_return_nb. destruct (eqb x zero); [|reflexivity].
    destruct (eqb y zero) eqn:E; [reflexivity|]. f_equal. destruct (isnan y) eqn:Hn.
    - unfold rs_signum, sign. now rewrite Hn.
    - now apply rs_signum_eq.
  Qed.

  Lemma rs_long_eq : forall a b : T, rs_get_long_size a b = get_long_size_nb a b.
  Proof. intros. unfold rs_get_long_size, get_long_size_nb. now rewrite rs_add_eq. Qed.
  Lemma rs_short_eq : forall a b : T, rs_get_short_size a b = get_short_size_nb a b.
  Proof. intros. unfold rs_get_short_size, get_short_size_nb. now rewrite rs_add_eq. Qed.

  Lemma asset_flow_eq : forall dir (recs : list (OrderRec T)) col, rs_asset_flow dir recs col = asset_flow_nb dir recs col.
  Proof.
    intros dir recs col. unfold rs_asset_flow, asset_flow_nb. destruct (column_records col recs) as [|r l]; [reflexivity|].
    f_equal. apply foldM_same. intros [[id p] o] b. unfold rs_asset_flow_step, asset_flow_step, check_id.
    destruct (Z.ltb _ _); [reflexivity|]. cbn [raise_if]. unfold signed_size. cbv zeta. rewrite !rs_add_eq, rs_long_eq, rs_short_eq.
    reflexivity.
  Qed.

  Lemma assets_eq : forall (flow : nat -> T) i, rs_assets flow i = assets_nb flow i.
  Proof. intros. unfold rs_assets, assets_nb. apply fold_left_ext_all. intros. apply rs_add_eq. Qed.

  Lemma free_diff_agrees : forall pb pn d price fees : T,
    agrees (get_free_cash_diff_nb pb pn d price fees) (Ok (rs_get_free_cash_diff pb pn d price fees)).
  Proof.
    intros pb pn d price fees. unfold get_free_cash_diff_nb, rs_get_free_cash_diff. cbv zeta.
    rewrite !rs_add_eq, rs_is_close_eq.
    destruct (is_close_nb _ zero); [apply agrees_refl|]. destruct (gtb _ zero).
    - destruct (ltb pb zero); [|apply agrees_refl]. unfold sdiv. destruct (eqb (abs pb) zero); [left; reflexivity|].
      cbn [bind]. apply agrees_refl.
    - destruct (ltb pn zero); apply agrees_refl.
  Qed.

  Lemma all_cash_eq : forall (l : list (OrderRec T)) id p d o,
    (let! s := foldM rs_cash_flow_step (id, o) l in Ok (snd s)) =
    (let! s := foldM (cash_flow_step false) (id, p, d, o) l in Ok (snd s)).
  Proof.
    induction l as [|r l IH]; intros id p d o; [reflexivity|]. cbn [foldM].
    unfold rs_cash_flow_step at 1, cash_flow_step at 1, check_id. destruct (Z.ltb _ _); [reflexivity|]. cbn [raise_if bind].
    rewrite rs_add_eq. apply IH.
  Qed.

  Lemma cash_flow_agrees : forall free (recs : list (OrderRec T)) col,
    agrees (cash_flow_nb free recs col) (rs_cash_flow free recs col).
  Proof.
    intros free recs col. unfold rs_cash_flow, cash_flow_nb. destruct (column_records col recs) as [|r l].
    { cbn [foldM bind snd]. apply agrees_refl. }
    destruct free.
    - apply agrees_bind; [|intros; apply agrees_refl]. apply agrees_foldM. intros [[[id p] d] o] b.
      unfold cash_flow_step, rs_free_cash_flow_step, check_id. destruct (Z.ltb _ _); [apply agrees_refl|]. cbn [raise_if].
      unfold signed_size. cbv zeta. rewrite rs_add_eq.
      destruct (free_diff_agrees p (add_nb p (if is_sell b then mul (or_size b) (neg one) else or_size b)) d (or_price b) (or_fees b)) as [E|E].
      + left. rewrite E. reflexivity.
      + rewrite <- E. cbn [bind]. destruct (rs_get_free_cash_diff _ _ _ _ _) as [d' cf]. rewrite rs_add_eq. apply agrees_refl.
    - right. apply all_cash_eq.
  Qed.

  Lemma sum_cols_eq : forall (a : nat -> nat -> T) from len i, rs_sum_cols a from len i = sum_cols a from len i.
  Proof. reflexivity. Qed.

  Lemma cash_eq : forall (flow : nat -> T) init i, rs_cash flow init i = cash_nb flow init i.
  Proof. intros. unfold rs_cash, cash_nb. apply fold_left_ext_all. intros. apply rs_add_eq. Qed.

  Lemma cash_iso_eq : forall (flow : nat -> nat -> T) cs from len init i k,
    rs_cash_in_sim_order flow cs from len init i k = cash_in_sim_order_nb flow cs from len init i k.
  Proof.
    intros. unfold rs_cash_in_sim_order, cash_in_sim_order_nb.
    assert (H : forall j n c, fold_left (fun c k => rs_add c (flow j (from + cs j (from + k)))) (seq 0 n) c =
                              fold_left (fun c k => add_nb c (flow j (from + cs j (from + k)))) (seq 0 n) c)
      by (intros; apply fold_left_ext_all; intros; apply rs_add_eq).
    rewrite H. f_equal. apply fold_left_ext_all. intros. apply H.
  Qed.

  Lemma over_groups_same : forall A (f g : nat -> nat -> nat -> A -> A) lens k from a,
    (forall k from len a, f k from len a = g k from len a) -> over_groups f k from lens a = over_groups g k from lens a.
  Proof. intros A f g lens. induction lens as [|n lens IH]; intros k from a H; cbn [over_groups]; [reflexivity|]. now rewrite H, IH. Qed.

  Lemma value_iso_eq : forall nrows ncols (cash av : nat -> nat -> T) lens cs empty, sum_lens lens = ncols ->
    value_in_sim_order_nb nrows ncols cash av lens cs empty = Ok (rs_value_in_sim_order nrows cash av lens cs empty).
  Proof.
    intros nrows ncols cash av lens cs empty H. unfold value_in_sim_order_nb, with_group_lens.
    rewrite H, Nat.eqb_refl. cbn [negb raise_if]. f_equal. unfold rs_value_in_sim_order. apply over_groups_same.
    intros _ from len a. f_equal. apply fold_left_ext_all. intros [[now since] out] j.
    unfold value_iso_step, rs_value_iso_step. cbv zeta.
    destruct (isnan (av (call_bar len j) (call_col cs from len j)));
      destruct (Nat.leb len j); try destruct (isnan _); cbn [negb]; destruct (Nat.ltb _ len); reflexivity.
  Qed.

  Lemma returns_iso_eq : forall nrows ncols (v : nat -> nat -> T) lens init cs empty, sum_lens lens = ncols ->
    returns_in_sim_order_nb nrows ncols v lens init cs empty = Ok (rs_returns_in_sim_order nrows v lens init cs empty).
  Proof.
    intros nrows ncols v lens init cs empty H. unfold returns_in_sim_order_nb, with_group_lens.
    rewrite H, Nat.eqb_refl. cbn [negb raise_if]. f_equal. unfold rs_returns_in_sim_order. apply over_groups_same.
    intros g from len a. f_equal. apply fold_left_ext_all. intros [x out] j.
    unfold returns_iso_step, rs_returns_iso_step. now rewrite rs_get_return_eq.
  Qed.

  Lemma total_profit_eq : forall last (recs : list (OrderRec T)) col, rs_total_profit last recs col = total_profit_nb last recs col.
  Proof.
    intros last recs col. unfold rs_total_profit, total_profit_nb. destruct (column_records col recs) as [|r l]; [reflexivity|].
    f_equal. apply foldM_same. intros [[id a] c] b. unfold rs_total_profit_step, total_profit_step, check_id.
    destruct (Z.ltb _ _); [reflexivity|]. cbn [raise_if]. destruct (or_side b) as [[]|]; cbv zeta; now rewrite !rs_add_eq.
  Qed.

  Lemma total_profit_grouped_eq : forall ncols (p : nat -> T) lens empty, sum_lens lens = ncols ->
    exists out, total_profit_grouped_nb ncols p lens empty = Ok out /\
      forall g, out g = rs_total_profit_grouped p lens empty g.
  Proof.
    intros ncols p lens empty H. unfold total_profit_grouped_nb, with_group_lens.
    rewrite H, Nat.eqb_refl. cbn [negb raise_if]. eexists. split; [reflexivity|]. intros g.
    unfold rs_total_profit_grouped.
    rewrite (over_groups_at (fun _ from_col len => np_sum (map p (seq from_col len)))).
    rewrite (over_groups_at (fun _ from_col len => fold_left (fun s col => add s (p col)) (seq from_col len) zero)).
    destruct (nth_error lens (g - 0)); [|reflexivity]. destruct (Nat.leb 0 g); [|reflexivity].
    unfold np_sum. generalize (@zero T N) as a. generalize (seq (0 + first_col lens (g - 0)) n) as l.
    induction l as [|c l IH]; intros a; [reflexivity|]. cbn [map fold_left]. apply IH.
  Qed.

  Lemma asset_returns_eq : forall (cf av : nat -> T) i, rs_asset_returns cf av i = asset_returns_nb cf av i.
  Proof.
    intros cf av i. unfold rs_asset_returns, asset_returns_nb. rewrite rs_get_return_eq.
    destruct i as [|i]; cbn [Nat.eqb]; [reflexivity|]. now replace (S i - 1) with i by lia.
  Qed.

  Lemma benchmark_grouped_agrees : forall (close : nat -> nat -> T) from len init i,
    agrees (benchmark_value_grouped_nb close from len init i) (Ok (rs_benchmark_value_grouped close from len init i)).
  Proof.
    intros close from len init i. unfold benchmark_value_grouped_nb, rs_benchmark_value_grouped, sdiv.
    destruct (eqb _ zero); [left; reflexivity|]. right. cbn [bind]. do 2 f_equal. unfold np_sum.
    generalize (@zero T N) as a. generalize (seq from len) as l.
    induction l as [|c l IH]; intros a; [reflexivity|]. cbn [map fold_left]. apply IH.
  Qed.

  Lemma benchmark_return_eq : forall (v : nat -> T) last, rs_total_benchmark_return v last = total_benchmark_return_nb v last.
  Proof. intros. apply rs_get_return_eq. Qed.

  Lemma exposure_eq : forall a c : T, rs_gross_exposure a c = gross_exposure_nb a c.
  Proof. intros. unfold rs_gross_exposure, gross_exposure_nb. now rewrite rs_add_eq. Qed.

  (** ** Initial cash of columns *)
  Lemma fill_group : forall (x : T) n l from j, from + S n <= length l ->
    let out := fold_left (fun o k => upd o (from + k) x) (seq 1 n) (upd l from x) in
    length out = length l /\ nth_error out j = (if (from <=? j) && (j <? from + S n) then Some x else nth_error l j).
  Proof.
    intros x n l from j H. induction n as [|n IH].
    - cbn [seq fold_left]. split; [apply upd_length|]. rewrite nth_error_upd.
      destruct (Nat.eqb_spec from j) as [->|Hn].
      + rewrite (proj2 (Nat.ltb_lt j (length l))), Nat.leb_refl, (proj2 (Nat.ltb_lt j (j + 1))) by lia. reflexivity.
      + cbn [andb]. destruct (Nat.leb_spec from j), (Nat.ltb_spec j (from + 1)); cbn [andb]; auto; lia.
    - destruct IH as [L0 E0]; [lia|]. rewrite seq_S, fold_left_app. cbn [fold_left Nat.add]. split.
      + now rewrite upd_length.
      + rewrite nth_error_upd, L0. destruct (Nat.eqb_spec (from + S n) j) as [E|Hn].
        * subst j. rewrite (proj2 (Nat.ltb_lt (from + S n) (length l))) by lia. cbn [andb].
          rewrite (proj2 (Nat.leb_le from (from + S n))), (proj2 (Nat.ltb_lt (from + S n) (from + S (S n)))) by lia. reflexivity.
        * cbn [andb]. rewrite E0. destruct (Nat.leb_spec from j), (Nat.ltb_spec j (from + S n)), (Nat.ltb_spec j (from + S (S n)));
            cbn [andb]; auto; lia.
  Qed.

  Lemma rs_cash_groups : forall (init : nat -> T) lens g0 f0 l, Forall (fun n => 0 < n) lens -> f0 + sum_lens lens <= length l ->
    let out := over_groups (fun group col len out =>
          fold_left (fun out k => upd out (col + k) (init group)) (seq 1 (len - 1)) (upd out col (init group))) g0 f0 lens l in
    length out = length l /\ (forall j, j < f0 -> nth_error out j = nth_error l j) /\
    forall g len c, nth_error lens g = Some len -> f0 + first_col lens g <= c < f0 + first_col lens g + len ->
      nth_error out c = Some (init (g0 + g)).
  Proof.
    intros init lens. induction lens as [|n lens IH]; intros g0 f0 l HP HL out; unfold out; cbn [over_groups].
    - split; auto. split; auto. intros [|g] len c Hg; discriminate.
    - inversion HP as [|? ? Hn HP']; subst. cbn [sum_lens fold_right] in HL. fold (sum_lens lens) in HL.
      set (l' := fold_left _ (seq 1 (n - 1)) (upd l f0 (init g0))).
      assert (HF : forall j, length l' = length l /\
        nth_error l' j = (if (f0 <=? j) && (j <? f0 + n) then Some (init g0) else nth_error l j)).
      { intros j. replace n with (S (n - 1)) at 1 by lia. apply fill_group. lia. }
      assert (Ll : length l' = length l) by (apply (HF 0)).
      destruct (IH (S g0) (f0 + n) l' HP') as (L1 & HB & HG); [lia|]. split; [lia|]. split.
      + intros j Hj. rewrite HB by lia. rewrite (proj2 (HF j)).
        destruct (Nat.leb_spec f0 j); [lia|reflexivity].
      + intros [|g] len c Hg Hc; unfold first_col in Hc; cbn [nth_error firstn sum_lens fold_right] in *.
        * injection Hg as ->. rewrite HB by lia. rewrite (proj2 (HF c)).
          destruct (Nat.leb_spec f0 c), (Nat.ltb_spec c (f0 + len)); try lia. cbn [andb]. now rewrite Nat.add_0_r.
        * fold (sum_lens (firstn g lens)) in Hc. rewrite (HG g len c Hg) by (unfold first_col; lia). do 2 f_equal. lia.
  Qed.

  Lemma group_of : forall lens c, c < sum_lens lens ->
    exists g len, nth_error lens g = Some len /\ first_col lens g <= c < first_col lens g + len.
  Proof.
    induction lens as [|n lens IH]; intros c Hc; cbn [sum_lens fold_right] in Hc; [lia|]. fold (sum_lens lens) in Hc.
    destruct (Nat.lt_ge_cases c n) as [H|H].
    - exists 0, n. split; [reflexivity|]. unfold first_col. cbn [firstn sum_lens fold_right]. lia.
    - destruct (IH (c - n)) as (g & len & Hg & Hr); [lia|]. exists (S g), len. split; auto.
      unfold first_col in *. cbn [firstn sum_lens fold_right]. fold (sum_lens (firstn g lens)). lia.
  Qed.

  Lemma starts_length : forall (init : nat -> T) lens g0 f0 l,
    length (over_groups (fun group from _ o => upd o from (init group)) g0 f0 lens l) = length l.
  Proof. intros init lens. induction lens as [|n lens IH]; intros; cbn [over_groups]; [reflexivity|]. now rewrite IH, upd_length. Qed.

  Lemma init_cash_eq : forall (init : nat -> T) lens sharing, isnan (@nan T N) = true -> Forall (fun n => 0 < n) lens ->
    (forall g, g < length lens -> isnan (init g) = false) ->
    rs_init_cash init lens sharing = init_cash_nb init lens sharing.
  Proof.
    intros init lens [|] HN HP HI; [|reflexivity]. apply nth_error_ext'. intros c.
    assert (HL : 0 + sum_lens lens <= length (repeat (@nan T N) (sum_lens lens))) by (rewrite repeat_length; lia).
    destruct (rs_cash_groups init lens 0 0 _ HP HL) as (L1 & _ & HG).
    destruct (Nat.lt_ge_cases c (sum_lens lens)) as [H|H].
    - destruct (group_of lens c H) as (g & len & Hg & Hr). rewrite (init_cash_of_column init lens g len c) by auto.
      exact (HG g len c Hg Hr).
    - rewrite !(proj2 (nth_error_None _ _)); auto.
      + unfold init_cash_nb. rewrite ffill_length, starts_length, repeat_length. lia.
      + unfold rs_init_cash. rewrite L1, repeat_length. lia.
  Qed.
End Agree.

(** ** Benchmark, exact numbers *)
Lemma benchmark_eq : forall close i p0 p c0, close 0 = Fin p0 -> close i = Fin p -> ~ (p0 == 0)%Q ->
  rs_benchmark_value close (Fin c0) i = benchmark_value_nb close (Fin c0) i.
Proof.
  intros close i p0 p c0 E0 E H. unfold rs_benchmark_value, benchmark_value_nb. cbv zeta. rewrite E0, E, !div_fin, !mul_fin by auto.
  f_equal. apply Qred_complete. rewrite !Qred_correct. field. auto.
Qed.
