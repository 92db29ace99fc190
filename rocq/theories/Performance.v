(** * Model of the performance of a portfolio rebuilt from its records:
    vectorbt/portfolio/nb.py:6708-7013 and vectorbt/portfolio/base.py:4416-4434.

    Two-dimensional arrays are functions of the bar and the column. An array made
    by np.empty is the parameter [empty]: what it holds before it is written is
    not known. Negative entries of the call sequence and entries out of range are
    not modelled. *)
From Coq Require Import String ZArith Bool List Arith.
From Verif Require Import Base Num MathNb GenericNb ReturnsNb Simulate.
Import ListNotations.
Local Open Scope string_scope.
Local Open Scope nat_scope.
Local Open Scope list_scope.

(** [out[i, c] = v] *)
Definition upd2 {T} (out : nat -> nat -> T) (i c : nat) (v : T) : nat -> nat -> T :=
  fun i' c' => if Nat.eqb i' i && Nat.eqb c' c then v else out i' c'.

Section Performance.
  Context {T : Type} {N : Num T}.

  (** nb.py:823-826 check_group_lens_nb *)
  Definition with_group_lens {A} (lens : list nat) (ncols : nat) (k : A) : res A :=
    raise_if (negb (Nat.eqb (sum_lens lens) ncols))
      (ValueError "group_lens has incorrect total number of columns") (Ok k).

  (** The loop over groups, e.g. nb.py:6819-6844: [from_col] moves on by the
      length of each group. *)
  Fixpoint over_groups {A} (body : nat -> nat -> nat -> A -> A) (group from_col : nat) (lens : list nat) (a : A) : A :=
    match lens with
    | [] => a
    | len :: lens' => over_groups body (S group) (from_col + len) lens' (body group from_col len a)
    end.

  (** nb.py:6708-6721 init_cash_grouped_nb; arrays of the initial cash are functions *)
  Definition init_cash_grouped_nb (init_cash : nat -> T) (lens : list nat) (cash_sharing : bool) (empty : nat -> T)
    : nat -> T :=
    if cash_sharing then init_cash
    else over_groups (fun group from_col len out g =>
           if Nat.eqb g group then fold_left (fun cash_sum col => add cash_sum (init_cash col)) (seq from_col len) zero
           else out g) 0 0 lens empty.

  (** nb.py:6724-6733 init_cash_nb: the cash of a group is written to the first
      column of the group, the rest is filled forward. No groups at all, and a group
      without columns at the end of the array, are not modelled (the code indexes
      out of range there). *)
  Definition init_cash_nb (init_cash : nat -> T) (lens : list nat) (cash_sharing : bool) : list T :=
    if cash_sharing then
      ffill_1d_nb (over_groups (fun group from_col _ out => upd out from_col (init_cash group))
                     0 0 lens (repeat nan (sum_lens lens)))
    else map init_cash (seq 0 (sum_lens lens)).

  (** The call number [j] of a group: its bar and its column (nb.py:6825-6826, 6945-6946) *)
  Definition call_bar (len j : nat) : nat := j / len.
  Definition call_col (call_seq : nat -> nat -> nat) (from_col len j : nat) : nat :=
    from_col + call_seq (j / len) (from_col + j mod len).

  (** nb.py:6825-6842: one call of value_in_sim_order_nb. State: asset value, calls
      since the last NaN, output. *)
  Definition value_iso_step (cash asset_value : nat -> nat -> T) (call_seq : nat -> nat -> nat) (from_col len : nat)
      (s : T * nat * (nat -> nat -> T)) (j : nat) : T * nat * (nat -> nat -> T) :=
    let '(asset_value_now, since_last_nan, out) := s in
    let i := call_bar len j in
    let col := call_col call_seq from_col len j in
    let asset_value_now :=
      if Nat.leb len j then
        let last := asset_value (call_bar len (j - len)) (call_col call_seq from_col len (j - len)) in
        if isnan last then asset_value_now else sub asset_value_now last
      else asset_value_now in
    let since_last_nan := if isnan (asset_value i col) then 0 else since_last_nan in
    let asset_value_now :=
      if isnan (asset_value i col) then asset_value_now else add asset_value_now (asset_value i col) in
    let out := upd2 out i col (if Nat.ltb since_last_nan len then nan else add (cash i col) asset_value_now) in
    (asset_value_now, S since_last_nan, out).

  (** nb.py:6806-6845 value_in_sim_order_nb *)
  Definition value_in_sim_order_nb (nrows ncols : nat) (cash asset_value : nat -> nat -> T) (lens : list nat)
      (call_seq : nat -> nat -> nat) (empty : nat -> nat -> T) : res (nat -> nat -> T) :=
    with_group_lens lens ncols
      (over_groups (fun _ from_col len out =>
         snd (fold_left (value_iso_step cash asset_value call_seq from_col len)
                (seq 0 (nrows * len)) (zero, len, out))) 0 0 lens empty).

  (** nb.py:6934-6951 returns_in_sim_order_nb *)
  Definition returns_iso_step (value_iso : nat -> nat -> T) (call_seq : nat -> nat -> nat) (from_col len : nat)
      (s : T * (nat -> nat -> T)) (j : nat) : T * (nat -> nat -> T) :=
    let '(input_value, out) := s in
    let i := call_bar len j in
    let col := call_col call_seq from_col len j in
    let output_value := value_iso i col in
    (output_value, upd2 out i col (get_return_nb input_value output_value)).
  Definition returns_in_sim_order_nb (nrows ncols : nat) (value_iso : nat -> nat -> T) (lens : list nat)
      (init_cash_grouped : nat -> T) (call_seq : nat -> nat -> nat) (empty : nat -> nat -> T) : res (nat -> nat -> T) :=
    with_group_lens lens ncols
      (over_groups (fun group from_col len out =>
         snd (fold_left (returns_iso_step value_iso call_seq from_col len)
                (seq 0 (nrows * len)) (init_cash_grouped group, out))) 0 0 lens empty).

  (** nb.py:6908-6918 total_profit_grouped_nb *)
  Definition total_profit_grouped_nb (ncols : nat) (total_profit : nat -> T) (lens : list nat) (empty : nat -> T)
    : res (nat -> T) :=
    with_group_lens lens ncols
      (over_groups (fun group from_col len out g =>
         if Nat.eqb g group then np_sum (map total_profit (seq from_col len)) else out g) 0 0 lens empty).

  (** nb.py:6928-6930 total_return_nb, one column or group *)
  Definition total_return_nb (total_profit init_cash : T) : T := div total_profit init_cash.

  (** nb.py:6955-6963 asset_returns_nb, one column or group at bar [i] *)
  Definition asset_returns_nb (cash_flow asset_value : nat -> T) (i : nat) : T :=
    let input_value := match i with 0 => zero | S p => asset_value p end in
    get_return_nb input_value (add (asset_value i) (cash_flow i)).

  (** nb.py:6967-6969 benchmark_value_nb, one column at bar [i] *)
  Definition benchmark_value_nb (close : nat -> T) (init_cash : T) (i : nat) : T :=
    mul (div (close i) (close 0)) init_cash.

  (** nb.py:6973-6987 benchmark_value_grouped_nb, one group at bar [i]. The scalar
      division by the number of columns of the group raises for an empty group. *)
  Definition benchmark_value_grouped_nb (close : nat -> nat -> T) (from_col len : nat) (init_cash : T) (i : nat) : res T :=
    let! col_init_cash := sdiv init_cash (ofZ (Z.of_nat len)) in
    Ok (mul col_init_cash (np_sum (map (fun col => div (close i col) (close 0 col)) (seq from_col len)))).

  (** nb.py:6991-6996 total_benchmark_return_nb, one column or group of [S last] bars *)
  Definition total_benchmark_return_nb (benchmark_value : nat -> T) (last : nat) : T :=
    get_return_nb (benchmark_value 0) (benchmark_value last).

  (** nb.py:7000-7011 gross_exposure_nb, one element *)
  Definition gross_exposure_nb (asset_value cash : T) : T :=
    let denom := add_nb asset_value cash in
    if eqb denom zero then zero else div asset_value denom.

  (** base.py:4422-4424 the automatic initial cash of a column or group from its
      cash flow: np.min of np.cumsum *)
  Definition np_cumsum (a : list T) : list T := scan (fun _ s x => (add s x, add s x)) 0 zero a.
  Definition auto_init_cash (cash_flow : list T) : res T :=
    let! cash_min := np_min (np_cumsum cash_flow) in
    Ok (if ltb cash_min zero then abs cash_min else one).

  (** base.py:4422-4426 for all columns; [align]: InitCashMode.AutoAlign *)
  Fixpoint mapM {A B} (f : A -> res B) (l : list A) : res (list B) :=
    match l with
    | [] => Ok []
    | a :: l' => let! b := f a in let! bs := mapM f l' in Ok (b :: bs)
    end.
  Definition get_auto_init_cash (align : bool) (cash_flows : list (list T)) : res (list T) :=
    let! init_cash := mapM auto_init_cash cash_flows in
    if align then
      let! m := np_max init_cash in Ok (map (fun _ => m) init_cash)
    else Ok init_cash.
End Performance.
