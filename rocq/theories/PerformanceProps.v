(** * Properties of the performance of a portfolio (C81)

    Statements only: every theorem is closed by a lemma proved elsewhere, its
    assumptions are printed, and an example shows that its hypotheses are met. *)
From Coq Require Import ZArith QArith Qabs Qminmax List Bool Arith Lia Lqa Permutation.
From Verif Require Import Base Num XQFacts GenericSpec ReturnsNb ReturnsSpec AccountSpec ReplaySpec Replay Simulate
  Performance PerformanceSpec PerformanceLemmas2 PerformanceLemmas3.
Import ListNotations.
Local Open Scope nat_scope.

(** ** Values and returns in the order of the simulation *)

(** When a column is called, the value of its group is the cash of that moment plus
    the latest value of every column of the group - of this bar for columns already
    called, of the bar before for the others -, and unknown if one of these is: at the
    first bar, at every bar called in the same order as the bar before, and at the
    last call of every bar. *)
Theorem C81_value_while_simulating : forall nrows ncols cash values lens cs empty out g len i c q,
  value_in_sim_order_nb nrows ncols cash values lens cs empty = Ok out ->
  each_called_once cs lens nrows -> nth_error lens g = Some len -> i < nrows ->
  first_col lens g <= c < first_col lens g + len ->
  (forall i c, i < nrows -> first_col lens g <= c < first_col lens g + len ->
     values i c = NaN \/ exists v, values i c = Fin v) ->
  cash i c = Fin q ->
  let order := order_at cs (first_col lens g) len in
  i = 0 \/ order i = order (i - 1) \/ last (order i) 0 = c ->
  worth q (latest values (order i) i c) (out i c).
Proof. exact value_while_simulating. Qed.
Print Assumptions C81_value_while_simulating.

(** Without that condition it is not: two columns worth 10 and 1 at the first bar and
    20 and 2 at the second, called in the order 0, 1 and then 1, 0, without any cash.
    When column 1 is called at the second bar, the portfolio is worth 10 + 2, but 3
    is reported. *)
Theorem C81_changed_order_refuted :
  let values i c := match i, c with 0, 0 => Fin 10 | 0, _ => Fin 1 | _, 0 => Fin 20 | _, _ => Fin 2 end in
  let cs i c := match i with 0 => c | _ => 1 - c end in
  each_called_once cs [2] 2 /\
  match value_in_sim_order_nb 2 2 (fun _ _ => Fin 0) values [2] cs (fun _ _ => NaN) with
  | Ok out => out 1 1 = Fin 3 /\ worth 0 (latest values (order_at cs 0 2 1) 1 1) (Fin 12) /\
              ~ worth 0 (latest values (order_at cs 0 2 1) 1 1) (out 1 1)
  | Err _ => False
  end.
Proof.
  intros values cs. split.
  - intros [|[|g]] len i Hg Hi; [|discriminate|discriminate]. injection Hg as <-.
    destruct i as [|[|i]]; [apply Permutation_refl|apply perm_swap|lia].
  - vm_compute value_in_sim_order_nb. split; [reflexivity|]. unfold worth. vm_compute latest.
    assert (HN : ~ In NaN [Fin 2; Fin 10]) by (cbn; intros [H|[H|[]]]; discriminate).
    split; [split; [contradiction|intros _; exists 12%Q; split; reflexivity]|].
    intros [_ H]. destruct (H HN) as (p & E & Hp). injection E as <-. vm_compute in Hp. discriminate.
Qed.
Print Assumptions C81_changed_order_refuted.

(** Taken call by call, the returns are those of the values, starting from the
    initial cash of the group ... *)
Theorem C81_returns_while_simulating : forall nrows ncols (values : nat -> nat -> XQ) lens init cs empty out g len,
  returns_in_sim_order_nb nrows ncols values lens init cs empty = Ok out ->
  each_called_once cs lens nrows -> nth_error lens g = Some len ->
  let in_order a := map (fun b => a (fst b) (snd b)) (calls cs (first_col lens g) len nrows) in
  in_order out = returns_1d_nb (in_order values) (init g).
Proof. exact returns_while_simulating. Qed.
Print Assumptions C81_returns_while_simulating.

(** ... so they compound from the initial cash to the last value. *)
Theorem C81_returns_compound : forall nrows ncols (values : nat -> nat -> XQ) lens init cs empty out g len c0 vs,
  returns_in_sim_order_nb nrows ncols values lens init cs empty = Ok out ->
  each_called_once cs lens nrows -> nth_error lens g = Some len ->
  let in_order a := map (fun b => a (fst b) (snd b)) (calls cs (first_col lens g) len nrows) in
  init g = Fin c0 -> (0 < c0)%Q -> in_order values = map Fin vs -> (forall q, In q (removelast vs) -> (0 < q)%Q) ->
  exists rs, in_order out = map Fin rs /\ (compounded rs * c0 == last vs c0)%Q.
Proof. exact returns_compound. Qed.
Print Assumptions C81_returns_compound.

(** ** Asset returns: holding [a] shares from a bar that closes at [close0] to one
    that closes at [close1], at which [d] shares are bought (sold, if negative) at
    the price [fill] *)
Theorem C81_asset_return : forall cash_flow value i close0 close1 a d fill fees,
  (0 < close0)%Q -> ~ (a == 0)%Q ->
  is_number (value i) (close0 * a) -> is_number (value (S i)) (close1 * (a + d)) ->
  is_number (cash_flow (S i)) (- d * fill - fees) ->
  is_number (asset_returns_nb cash_flow value (S i))
    ((a * (close1 - close0) + d * (close1 - fill) - fees) / (Qabs a * close0)).
Proof. exact asset_return. Qed.
Print Assumptions C81_asset_return.

(** Orders filled at the close without fees do not change it: it is the return of the
    price, with the opposite sign for a short position. *)
Theorem C81_asset_return_is_that_of_the_price : forall cash_flow value i close0 close1 a d,
  (0 < close0)%Q -> ~ (a == 0)%Q ->
  is_number (value i) (close0 * a) -> is_number (value (S i)) (close1 * (a + d)) ->
  is_number (cash_flow (S i)) (- d * close1) ->
  is_number (asset_returns_nb cash_flow value (S i))
    (if Qlt_le_dec 0 a then close1 / close0 - 1 else - (close1 / close0 - 1)).
Proof. exact asset_return_price. Qed.
Print Assumptions C81_asset_return_is_that_of_the_price.

(** ** Benchmark *)
Theorem C81_benchmark_follows_the_price : forall close i p0 p c0,
  close 0 = Fin p0 -> close i = Fin p -> ~ (p0 == 0)%Q ->
  is_number (benchmark_value_nb close (Fin c0) i) (c0 * (p / p0)).
Proof. exact benchmark_follows. Qed.
Print Assumptions C81_benchmark_follows_the_price.

Theorem C81_benchmark_return : forall close last p0 p c0,
  close 0 = Fin p0 -> close last = Fin p -> ~ (p0 == 0)%Q -> (0 < c0)%Q ->
  is_number (total_benchmark_return_nb (benchmark_value_nb close (Fin c0)) last) (p / p0 - 1).
Proof. exact benchmark_total. Qed.
Print Assumptions C81_benchmark_return.

(** The benchmark of a group puts the same share of the cash into every column. *)
Theorem C81_benchmark_of_a_group : forall close from len i c0 p0 p, 0 < len ->
  (forall c, from <= c < from + len -> close 0 c = Fin (p0 c) /\ close i c = Fin (p c) /\ ~ (p0 c == 0)%Q) ->
  exists y, benchmark_value_grouped_nb close from len (Fin c0) i = Ok y /\
    is_number y (sum (map (fun c => c0 / inject_Z (Z.of_nat len) * (p c / p0 c)) (seq from len)))%Q.
Proof. exact benchmark_grouped. Qed.
Print Assumptions C81_benchmark_of_a_group.

(** A column whose first price is missing has no benchmark at any bar. *)
Theorem C81_benchmark_needs_the_first_price : forall close i c0, close 0 = NaN ->
  benchmark_value_nb close (Fin c0) i = NaN.
Proof. exact benchmark_unknown. Qed.
Print Assumptions C81_benchmark_needs_the_first_price.

(** ** Gross exposure: the share of the assets in assets plus cash, between 0 and 1
    if neither is negative; 0 if assets and cash cancel out *)
Theorem C81_exposure : forall a c, exists e, gross_exposure_nb (Fin a) (Fin c) = Fin e /\
  ((e * (a + c) == a)%Q \/ (e == 0)%Q /\ (Qabs (a + c) <= slack (Qmax (Qabs a) (Qabs c)))%Q) /\
  ((0 <= a)%Q -> (0 <= c)%Q -> (0 <= e <= 1)%Q).
Proof. exact exposure. Qed.
Print Assumptions C81_exposure.

(** ** Initial cash *)

(** A group that does not share cash has that of its columns together; ... *)
Theorem C81_cash_of_a_group : forall init lens empty g len q, nth_error lens g = Some len ->
  (forall c, first_col lens g <= c < first_col lens g + len -> init c = Fin (q c)) ->
  is_number (init_cash_grouped_nb init lens false empty g) (sum (map q (seq (first_col lens g) len))).
Proof. exact init_cash_of_group. Qed.
Print Assumptions C81_cash_of_a_group.

(** ... a column of a group that shares cash has that of its group. *)
Theorem C81_cash_of_a_column : forall (init : nat -> XQ) lens g len c, Forall (fun n => 0 < n) lens ->
  (forall g, g < length lens -> isnan (init g) = false) ->
  nth_error lens g = Some len -> first_col lens g <= c < first_col lens g + len ->
  nth_error (init_cash_nb init lens true) c = Some (init g).
Proof. exact (fun init lens g len c H => init_cash_of_column init lens g len c H eq_refl). Qed.
Print Assumptions C81_cash_of_a_column.

(** The automatic initial cash is the least that keeps the balance from becoming
    negative, and 1 if none is needed. *)
Theorem C81_automatic_cash : forall flow, flow <> [] ->
  exists c, auto_init_cash (map Fin flow) = Ok (Fin c) /\ (0 < c)%Q /\
  (forall i, i < length flow -> (0 <= balance c flow i)%Q) /\
  ((exists i, i < length flow /\ (balance c flow i == 0)%Q) \/
   (c == 1)%Q /\ forall i, i < length flow -> (0 <= balance 0 flow i)%Q).
Proof. exact auto_cash. Qed.
Print Assumptions C81_automatic_cash.

(** Aligned: all columns get the cash of the one that needs most. *)
Theorem C81_automatic_cash_aligned : forall flows, flows <> [] -> (forall flow, In flow flows -> flow <> []) ->
  exists c, get_auto_init_cash true (map (map Fin) flows) = Ok (map (fun _ => Fin c) flows) /\ (0 < c)%Q /\
  (forall flow i, In flow flows -> i < length flow -> (0 <= balance c flow i)%Q) /\
  ((exists flow i, In flow flows /\ i < length flow /\ (balance c flow i == 0)%Q) \/
   (c == 1)%Q /\ exists flow, In flow flows /\ forall i, i < length flow -> (0 <= balance 0 flow i)%Q).
Proof. exact auto_cash_align. Qed.
Print Assumptions C81_automatic_cash_aligned.

(** The cash series is the running balance, up to one tolerance per bar. *)
Theorem C81_cash_is_the_balance : forall (flow : nat -> Q) c i,
  exists q, cash_nb (fun j => Fin (flow j)) (Fin c) i = Fin q /\
    within (S (S i)) (Qabs c + sumQ (fun j => Qabs (flow j)) (S i)) q (balance c (map flow (seq 0 (S i))) i).
Proof. exact cash_balance. Qed.
Print Assumptions C81_cash_is_the_balance.

(** ** Totals *)
Theorem C81_total_return : forall profit c, ~ (c == 0)%Q ->
  exists f, final_value_nb (Fin profit) (Fin c) = Fin f /\ is_number (total_return_nb (Fin profit) (Fin c)) (f / c - 1).
Proof. exact total_return_run. Qed.
Print Assumptions C81_total_return.

Theorem C81_profit_of_a_group : forall ncols profit lens empty out g len q,
  total_profit_grouped_nb ncols profit lens empty = Ok out -> nth_error lens g = Some len ->
  (forall c, first_col lens g <= c < first_col lens g + len -> profit c = Fin (q c)) ->
  is_number (out g) (sum (map q (seq (first_col lens g) len))).
Proof. exact profit_of_group. Qed.
Print Assumptions C81_profit_of_a_group.

(** Two groups, of two columns and of one, over two bars; the columns of the first
    are called in the order 1, 0 at both. *)
Definition demo_values (i c : nat) : XQ :=
  match i, c with 0, 0 => Fin 10 | 0, 1 => Fin 1 | 0, _ => NaN | _, 0 => Fin 20 | _, 1 => Fin 2 | _, _ => Fin 5 end.
Definition demo_calls (i c : nat) : nat := match c with 0 => 1 | _ => 0 end.
Example C81_nonvacuous :
  each_called_once demo_calls [2; 1] 2 /\
  match value_in_sim_order_nb 2 3 (fun i c => Fin 100) demo_values [2; 1] demo_calls (fun _ _ => NaN) with
  | Ok out => [out 0 1; out 0 0; out 1 1; out 1 0; out 0 2; out 1 2] =
                [Fin 101; Fin 111; Fin 112; Fin 122; NaN; Fin 105] /\
      match returns_in_sim_order_nb 2 3 out [2; 1] (fun _ => Fin 100) demo_calls (fun _ _ => NaN) with
      | Ok r => [r 0 1; r 0 0] = [Fin (1 # 100); Fin (10 # 101)] | Err _ => False end
  | Err _ => False
  end /\
  auto_init_cash (map Fin [-(3); 1; -(2)]%Q) = Ok (Fin 4) /\
  get_auto_init_cash true (map (map Fin) [[-(3); 1]; [2; 1]]%Q) = Ok [Fin 3; Fin 3] /\
  init_cash_nb (fun g => Fin (inject_Z (Z.of_nat g))) [2; 1] true = [Fin 0; Fin 0; Fin 1] /\
  gross_exposure_nb (Fin 3) (Fin 1) = Fin (3 # 4).
Proof.
  split; [|vm_compute; repeat split].
  intros [|[|[|g]]] len i Hg Hi; [| |discriminate|discriminate]; injection Hg as <-; unfold first_col; cbn.
  - apply perm_swap.
  - apply Permutation_refl.
Qed.
