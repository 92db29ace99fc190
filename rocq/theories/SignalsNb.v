(** * Model of vectorbt/signals/nb.py

    Every kernel is modelled for one column; the two-dimensional versions run
    it on each column. A boolean column is a list. *)
From Coq Require Import ZArith Bool List Arith String.
From Verif Require Import Base Num.
Import ListNotations.
Open Scope list_scope.

(** np.flatnonzero of a boolean column, starting to count at [i] *)
Fixpoint true_idxs (i : nat) (l : list bool) : list nat :=
  match l with
  | [] => []
  | b :: l' => if b then i :: true_idxs (S i) l' else true_idxs (S i) l'
  end.
Definition flatnonzero (l : list bool) : list nat := true_idxs 0 l.

(** [out[idxs] = True], indices already checked to be in range *)
Definition set_all (out : list bool) (idxs : list Z) : list bool :=
  fold_left (fun o i => upd o (Z.to_nat i) true) idxs out.

Definition out_of (from to i : Z) : bool := (i <? from)%Z || (to <=? i)%Z.

(** A choice function: what it returns at its [k]-th call for the range from,
    to. The call number stands for whatever state the function keeps (random
    generator, scratch arrays); [*args] are part of the function. *)
Definition Choice := nat -> Z -> Z -> list Z.

(** nb.py:42-88 generate_nb *)
Definition generate_nb (n : nat) (pick_first : bool) (choice : Choice) : res (list bool) :=
  let out := repeat false n in
  let idxs := choice 0 0%Z (Z.of_nat n) in
  match idxs with
  | [] => Ok out
  | first_i :: _ =>
      if pick_first then
        raise_if (out_of 0 (Z.of_nat n) first_i) (ValueError "First returned index is out of bounds")
          (Ok (upd out (Z.to_nat first_i) true))
      else
        raise_if (existsb (out_of 0 (Z.of_nat n)) idxs) (ValueError "Returned indices are out of bounds")
          (Ok (set_all out idxs))
  end.

(** nb.py:126-154: one entry of generate_ex_nb. [next] is the following entry. *)
Definition ex_step (n : nat) (wait : Z) (until_next skip_until_exit pick_first : bool) (choice : Choice)
    (k entry : nat) (next : option nat) (st : list bool * Z) : res (list bool * Z) :=
  let '(exits, last_exit) := st in
  if skip_until_exit && (Z.of_nat entry <=? last_exit)%Z then Ok st
  else
    let from := (Z.of_nat entry + wait)%Z in
    let to := match next with
              | Some e => if until_next then Z.of_nat e else Z.of_nat n
              | None => Z.of_nat n
              end in
    if (from <? to)%Z then
      let idxs := choice k from to in
      match idxs with
      | [] => Ok st
      | first_i :: _ =>
          if pick_first then
            raise_if (out_of from to first_i) (ValueError "First returned index is out of bounds")
              (Ok (upd exits (Z.to_nat first_i) true, first_i))
          else
            raise_if (existsb (out_of from to) idxs) (ValueError "Returned indices are out of bounds")
              (Ok (set_all exits idxs, last idxs 0%Z))
      end
    else Ok st.

Fixpoint ex_loop (n : nat) (wait : Z) (until_next skip pick_first : bool) (choice : Choice)
    (k : nat) (entries : list nat) (st : list bool * Z) : res (list bool * Z) :=
  match entries with
  | [] => Ok st
  | e :: es =>
      let! st' := ex_step n wait until_next skip pick_first choice k e (hd_error es) st in
      ex_loop n wait until_next skip pick_first choice (S k) es st'
  end.

(** nb.py:92-155 generate_ex_nb *)
Definition generate_ex_nb (entries : list bool) (wait : Z)
    (until_next skip_until_exit pick_first : bool) (choice : Choice) : res (list bool) :=
  let n := List.length entries in
  let! (exits, _) := ex_loop n wait until_next skip_until_exit pick_first choice 0
                       (flatnonzero entries) (repeat false n, (-1)%Z) in
  Ok exits.

(** nb.py:202-251: the [while True] loop of generate_enex_nb, one column. The
    loop has no bound in the code, so it gets fuel; [None] means the loop is
    still running when the fuel is used up. [i] counts the rounds. *)
Record EnEx := mkEnEx { ee_entries : list bool; ee_exits : list bool; ee_prev_prev : Z; ee_prev : Z }.

Fixpoint enex_loop (fuel n : nat) (entry_wait exit_wait : Z) (entry_pick exit_pick : bool)
    (entry_choice exit_choice : Choice) (i : nat) (st : EnEx) : option (res EnEx) :=
  match fuel with
  | O => None
  | S fuel' =>
      let to := Z.of_nat n in
      let even := Nat.even i in
      let from := if even then (if Nat.eqb i 0 then 0 else ee_prev st + entry_wait)%Z
                  else (ee_prev st + exit_wait)%Z in
      if (to <=? from)%Z then Some (Ok st)
      else
        let idxs := if even then entry_choice i from to else exit_choice i from to in
        let pick_first := if even then entry_pick else exit_pick in
        match idxs with
        | [] => Some (Ok st)
        | first_i :: _ =>
            if (first_i =? ee_prev st)%Z && (ee_prev st =? ee_prev_prev st)%Z
            then Some (Err (ValueError "Infinite loop detected"))
            else if (first_i <? from)%Z then Some (Err (ValueError "First index is out of bounds"))
            else
              let last_i := if pick_first then first_i else last idxs 0%Z in
              if (to <=? last_i)%Z then
                Some (Err (ValueError (if pick_first then "First index is out of bounds"
                                       else "Last index is out of bounds")))
              else
                let mark (a : list bool) :=
                  if pick_first then upd a (Z.to_nat first_i) true else set_all a idxs in
                enex_loop fuel' n entry_wait exit_wait entry_pick exit_pick entry_choice exit_choice (S i)
                  (mkEnEx (if even then mark (ee_entries st) else ee_entries st)
                          (if even then ee_exits st else mark (ee_exits st))
                          (ee_prev st) last_i)
        end
  end.

(** nb.py:159-253 generate_enex_nb with a given number of rounds *)
Definition generate_enex_fuel (fuel n : nat) (entry_wait exit_wait : Z) (entry_pick exit_pick : bool)
    (entry_choice exit_choice : Choice) : option (res (list bool * list bool)) :=
  if (entry_wait =? 0)%Z && (exit_wait =? 0)%Z
  then Some (Err (ValueError "entry_wait and exit_wait cannot be both 0"))
  else
    match enex_loop fuel n entry_wait exit_wait entry_pick exit_pick entry_choice exit_choice 0
            (mkEnEx (repeat false n) (repeat false n) (-2) (-1)) with
    | None => None
    | Some (Err e) => Some (Err e)
    | Some (Ok st) => Some (Ok (ee_entries st, ee_exits st))
    end.

(** nb.py:259-279 clean_enex_1d_nb. The phase is -1, 0 or 1 in the code. *)
Inductive Phase := NoSignal | LastExit | LastEntry.

Fixpoint clean_loop (entry_first : bool) (ph : Phase) (l : list (bool * bool)) : list (bool * bool) :=
  match l with
  | [] => []
  | (en, ex) :: l' =>
      if en && ex then (false, false) :: clean_loop entry_first ph l'
      else
        let '(ph1, en') :=
          if en then match ph with LastEntry => (ph, false) | _ => (LastEntry, true) end
          else (ph, false) in
        let '(ph2, ex') :=
          if ex then match ph1 with
                     | NoSignal => if entry_first then (ph1, false) else (LastExit, true)
                     | LastEntry => (LastExit, true)
                     | LastExit => (ph1, false)
                     end
          else (ph1, false) in
        (en', ex') :: clean_loop entry_first ph2 l'
  end.

Definition clean_enex_1d_nb (entries exits : list bool) (entry_first : bool) : list bool * list bool :=
  let o := clean_loop entry_first NoSignal (combine entries exits) in (map fst o, map snd o).

(** nb.py:560-567 first_choice_nb; indices are natural numbers *)
Definition first_choice_nb (from to : nat) (a : nat -> bool) : list nat :=
  match find a (seq from (to - from)) with Some i => [i] | None => [] end.

(** nb.py:297-303 rand_choice_nb. np.random.choice(k, size, replace=False)
    returns [size] distinct numbers below k; [perm] is the generator's choice
    of a permutation of them. *)
Definition rand_choice_nb (perm : list nat -> list nat) (from to n : nat) : list nat :=
  map (fun j => from + j) (firstn (Nat.min (to - from) n) (perm (seq 0 (to - from)))).

Section Stops.
  Context {T : Type} {N : Num T}.

  (** nb.py:319-339 rand_by_prob_choice_nb; [u k] is the k-th uniform number
      drawn, one per bar looked at. *)
  Fixpoint rand_by_prob_loop (u : nat -> T) (prob : nat -> T) (pick_first : bool) (k : nat) (bars : list nat) : list nat :=
    match bars with
    | [] => []
    | i :: bars' =>
        if ltb (u k) (prob i)
        then if pick_first then [i] else i :: rand_by_prob_loop u prob pick_first (S k) bars'
        else rand_by_prob_loop u prob pick_first (S k) bars'
    end.
  Definition rand_by_prob_choice_nb (u : nat -> T) (prob : nat -> T) (pick_first : bool) (from to : nat) : list nat :=
    rand_by_prob_loop u prob pick_first 0 (seq from (to - from)).

  (** nb.py:571-643 stop_choice_nb, one column. [ts], [stop] and [trailing]
      are functions of the bar. [None] stands for the level that is not
      computed when the stop is NaN. *)
  Definition stop_level (trailing : bool) (init_ts init_stop min_low max_high : T) : T :=
    if trailing then
      if geb init_stop zero then mul min_low (add one (abs init_stop))
      else mul max_high (sub one (abs init_stop))
    else mul init_ts (add one init_stop).

  Definition stop_hit (init_stop level curr : T) : bool :=
    if geb init_stop zero then geb curr level else leb curr level.

  Fixpoint stop_loop (ts : nat -> T) (init_ts init_stop : T) (trailing pick_first : bool)
      (min_low max_high : T) (bars : list nat) : list nat :=
    match bars with
    | [] => []
    | i :: bars' =>
        let curr := ts i in
        let hit := negb (isnan init_stop) &&
                   stop_hit init_stop (stop_level trailing init_ts init_stop min_low max_high) curr in
        if hit && pick_first then [i]
        else
          let '(lo, hi) :=
            if trailing then
              if ltb curr min_low then (curr, max_high)
              else if gtb curr max_high then (min_low, curr) else (min_low, max_high)
            else (min_low, max_high) in
          let rest := stop_loop ts init_ts init_stop trailing pick_first lo hi bars' in
          if hit then i :: rest else rest
    end.

  Definition stop_choice_nb (ts : nat -> T) (stop : nat -> T) (trailing : nat -> bool)
      (wait : nat) (pick_first : bool) (from to : nat) : list nat :=
    let init_i := from - wait in
    stop_loop ts (ts init_i) (stop init_i) (trailing init_i) pick_first (ts init_i) (ts init_i)
      (seq from (to - from)).

  (** nb.py:736-888 ohlc_stop_choice_nb, one column: the list of (bar, stop
      price, stop type) that is written *)
  Inductive StopType := StopLoss | TrailStop | TakeProfit.

  Record Bar := mkBar { b_open : T; b_high : T; b_low : T; b_close : T }.

  (** nb.py:822-827 missing prices of a bar *)
  Definition complete_bar (b : Bar) : Bar :=
    let o := if isnan (b_open b) then b_close b else b_open b in
    let l := if isnan (b_low b) then min2 o (b_close b) else b_low b in
    let h := if isnan (b_high b) then max2 o (b_close b) else b_high b in
    mkBar o h l (b_close b).

  Record OhlcArgs := mkOhlc {
    oa_sl : T; oa_trail : bool; oa_tp : T; oa_reverse : bool }.

  Definition sl_level (a : OhlcArgs) (init_open min_p max_p : T) : T :=
    if oa_trail a then
      if oa_reverse a then mul min_p (add one (oa_sl a)) else mul max_p (sub one (oa_sl a))
    else
      if oa_reverse a then mul init_open (add one (oa_sl a)) else mul init_open (sub one (oa_sl a)).

  Definition tp_level (a : OhlcArgs) (init_open : T) : T :=
    if oa_reverse a then mul init_open (sub one (oa_tp a)) else mul init_open (add one (oa_tp a)).

  (** nb.py:856-874 the exit of one bar, if any *)
  Definition ohlc_hit (a : OhlcArgs) (init_open min_p max_p curr_high curr_low : T) : option (T * StopType) :=
    let sl := sl_level a init_open min_p max_p in
    let tp := tp_level a init_open in
    if negb (isnan (oa_sl a)) &&
       ((negb (oa_reverse a) && leb curr_low sl) || (oa_reverse a && geb curr_high sl))
    then Some (sl, if oa_trail a then TrailStop else StopLoss)
    else if negb (isnan (oa_tp a)) &&
       ((negb (oa_reverse a) && geb curr_high tp) || (oa_reverse a && leb curr_low tp))
    then Some (tp, TakeProfit)
    else None.

  Fixpoint ohlc_loop (bar : nat -> Bar) (a : OhlcArgs) (init_i : nat) (init_open : T)
      (is_open_safe pick_first : bool) (min_p max_p : T) (bars : list nat)
    : list (nat * T * StopType) :=
    match bars with
    | [] => []
    | i :: bars' =>
        let b := complete_bar (bar i) in
        let '(curr_high, curr_low) :=
          if Nat.ltb init_i i || is_open_safe then (b_high b, b_low b) else (b_close b, b_close b) in
        let rest :=
          let lo := if oa_trail a && ltb curr_low min_p then curr_low else min_p in
          let hi := if oa_trail a && gtb curr_high max_p then curr_high else max_p in
          ohlc_loop bar a init_i init_open is_open_safe pick_first lo hi bars' in
        match ohlc_hit a init_open min_p max_p curr_high curr_low with
        | Some (p, ty) => if pick_first then [(i, p, ty)] else (i, p, ty) :: rest
        | None => rest
        end
    end.

  Definition ohlc_stop_choice_nb (bar : nat -> Bar) (args : nat -> OhlcArgs)
      (is_open_safe : bool) (wait : nat) (pick_first : bool) (from to : nat)
    : res (list (nat * T * StopType)) :=
    let init_i := from - wait in
    let a := args init_i in
    raise_if (ltb (oa_sl a) zero) (ValueError "Stop value must be 0 or greater") (
    raise_if (ltb (oa_tp a) zero) (ValueError "Stop value must be 0 or greater") (
    let init_open := b_open (bar init_i) in
    Ok (ohlc_loop bar a init_i init_open is_open_safe pick_first init_open init_open
          (seq from (to - from))))).
End Stops.
Arguments Bar T : clear implicits.
Arguments OhlcArgs T : clear implicits.

(** ** Ranges: nb.py:1058-1185. A record is (start, end, closed); the ids are
    the positions in the list and the column is fixed. *)
Record Range := mkRange { rg_start : nat; rg_end : nat; rg_closed : bool }.

(** nb.py:1059-1076 between_ranges_nb *)
Fixpoint pair_up (l : list nat) : list Range :=
  match l with
  | a :: ((b :: _) as l') => mkRange a b true :: pair_up l'
  | _ => []
  end.
Definition between_ranges_nb (a : list bool) : list Range := pair_up (flatnonzero a).

(** nb.py:1080-1124 between_two_ranges_nb. The position in the other array
    only moves forward; dropping elements models [b_pos += 1]. *)
Fixpoint drop_below (x : nat) (l : list nat) : list nat :=
  match l with
  | b :: l' => if Nat.ltb b x then drop_below x l' else l
  | [] => []
  end.
Fixpoint to_next (as_ bs : list nat) : list Range :=
  match as_ with
  | [] => []
  | a :: as' =>
      let bs' := drop_below a bs in
      match bs' with
      | b :: _ => mkRange a b true :: to_next as' bs'
      | [] => to_next as' bs'
      end
  end.
(** [while a_pos + 1 < len and a[a_pos + 1] <= to_i: a_pos += 1] *)
Fixpoint advance (x : nat) (l : list nat) : list nat :=
  match l with
  | _ :: ((a :: _) as l') => if Nat.leb a x then advance x l' else l
  | _ => l
  end.
Fixpoint from_prev (as_ bs : list nat) : list Range :=
  match bs with
  | [] => []
  | b :: bs' =>
      let as' := advance b as_ in
      match as' with
      | a :: _ => if Nat.leb a b then mkRange a b true :: from_prev as' bs' else from_prev as' bs'
      | [] => from_prev as' bs'
      end
  end.
Definition between_two_ranges_nb (a b : list bool) (from_other : bool) : list Range :=
  let ai := flatnonzero a in
  let bi := flatnonzero b in
  match ai, bi with
  | [], _ | _, [] => []
  | _, _ => if from_other then from_prev ai bi else to_next ai bi
  end.

(** nb.py:1128-1159 partition_ranges_nb; [start] is from_i while in a
    partition. *)
Fixpoint partition_loop (i : nat) (start : option nat) (l : list bool) : list Range :=
  match l with
  | [] => []
  | x :: l' =>
      let '(start', out) :=
        if x then (match start with None => Some i | s => s end, [])
        else match start with
             | Some s => (None, [mkRange s i true])
             | None => (None, [])
             end in
      let final := match l', start' with
                   | [], Some s => [mkRange s i false]
                   | _, _ => []
                   end in
      out ++ final ++ partition_loop (S i) start' l'
  end.
Definition partition_ranges_nb (a : list bool) : list Range := partition_loop 0 None a.

(** nb.py:1163-1185 between_partition_ranges_nb; [last] is from_i (None for -1) *)
Fixpoint between_partition_loop (i : nat) (in_part : bool) (last_ : option nat) (l : list bool) : list Range :=
  match l with
  | [] => []
  | x :: l' =>
      if x then
        (if in_part then [] else match last_ with Some s => [mkRange s i true] | None => [] end)
        ++ between_partition_loop (S i) true (Some i) l'
      else between_partition_loop (S i) false last_ l'
  end.
Definition between_partition_ranges_nb (a : list bool) : list Range := between_partition_loop 0 false None a.

(** ** Ranking: nb.py:1192-1229 rank_nb with the rank functions of
    nb.py:1233-1265, one column. [S] is the state the rank function keeps in
    its temporary array. *)
Section Rank.
  Context {S : Type}.
  Context (rank_func : S -> Z -> Z -> Z -> Z -> S * Z).   (* i, reset_i, prev_part_end_i, part_start_i *)

  Fixpoint rank_loop (i reset_i prev_end part_start : Z) (in_part after_false false_seen : bool)
      (s : S) (l : list (bool * bool)) : list Z :=
    match l with
    | [] => []
    | (x, rst) :: l' =>
        let reset_i := if rst then i else reset_i in
        if x && negb (after_false && negb false_seen) then
          let part_start := if in_part then part_start else i in
          let '(s', r) := rank_func s i reset_i prev_end part_start in
          r :: rank_loop (i + 1) reset_i prev_end part_start true after_false false_seen s' l'
        else if negb x then
          (-1)%Z :: rank_loop (i + 1) reset_i (if in_part then (i - 1)%Z else prev_end) part_start
                      false after_false true s l'
        else
          (-1)%Z :: rank_loop (i + 1) reset_i prev_end part_start in_part after_false false_seen s l'
    end.

  Definition rank_nb (a reset_by : list bool) (after_false : bool) (s0 : S) : list Z :=
    rank_loop 0 0 (-1) (-1) false after_false (negb after_false) s0 (combine a reset_by).
End Rank.

(** nb.py:1233-1248 sig_pos_rank_nb *)
Definition sig_pos_rank_nb (allow_gaps : bool) (s i reset_i prev_end part_start : Z) : Z * Z :=
  let s1 := if (prev_end <? reset_i)%Z && (Z.max reset_i part_start =? i)%Z then (-1)%Z
            else if negb allow_gaps && (part_start =? i)%Z then (-1)%Z else s in
  ((s1 + 1)%Z, (s1 + 1)%Z).

(** nb.py:1252-1265 part_pos_rank_nb *)
Definition part_pos_rank_nb (s i reset_i prev_end part_start : Z) : Z * Z :=
  let s1 := if (prev_end <? reset_i)%Z && (Z.max reset_i part_start =? i)%Z then 0%Z
            else if (part_start =? i)%Z then (s + 1)%Z else s in
  (s1, s1).

(** nb.py:1272-1291 nth_index_1d_nb *)
Fixpoint nth_fwd (i found n : Z) (l : list bool) : Z :=
  match l with
  | [] => (-1)%Z
  | x :: l' => if x then (if (found + 1 =? n)%Z then i else nth_fwd (i + 1) (found + 1) n l')
               else nth_fwd (i + 1) found n l'
  end.
Fixpoint nth_bwd (i found n : Z) (l : list bool) : Z :=   (* [l] reversed, [i] counts down *)
  match l with
  | [] => (-1)%Z
  | x :: l' => if x then (if (found - 1 =? n)%Z then i else nth_bwd (i - 1) (found - 1) n l')
               else nth_bwd (i - 1) found n l'
  end.
Definition nth_index_1d_nb (a : list bool) (n : Z) : Z :=
  if (0 <=? n)%Z then nth_fwd 0 (-1) n a
  else nth_bwd (Z.of_nat (List.length a) - 1) 0 n (rev a).
