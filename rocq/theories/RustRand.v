(** * Model of the random signal generators of rust/src/signals.rs

    One column. What the random generator draws is a parameter: [u call k] is
    the k-th number of [0, 1) drawn in a call, where calls are counted by entry
    or by round; the code draws them one after another. The probability, full
    array or broadcast, is a function of the row. Random entries and exits by
    number (signals.rs:252-351) are in RustRandEnex.v. *)
From Coq Require Import String ZArith Bool List Arith.
From Verif Require Import Base Num SignalsNb RustStops.
Import ListNotations.
Local Open Scope list_scope.
Local Open Scope nat_scope.

(** signals.rs:67-80 generate_rand, where the number asked for is not negative; [perm] is how the generator orders the rows, of which [sample] takes the first ones *)
Definition rs_generate_rand (perm : list nat -> list nat) (nrows n : nat) : list bool :=
  let size := Nat.min n nrows in
  if Nat.eqb size 0 then repeat false nrows
  else rs_mark (repeat false nrows) (firstn size (perm (seq 0 nrows))).

(** signals.rs:120-151 generate_rand_ex; [below call m] is what random_range(0..m) draws. State: exits, last_exit_i. *)
Fixpoint rs_rand_ex_loop (fuel : nat) (below : nat -> nat -> nat) (entries : list bool) (wait : nat) (until_next skip_until_exit : bool)
    (call : nat) (entry_i_opt : option nat) (st : list bool * Z) : list bool * Z :=
  match fuel, entry_i_opt with
  | O, _ | _, None => st
  | S fuel, Some entry_i =>
      let nrows := List.length entries in
      let '(exits, last_exit_i) := st in
      let next_entry_i := rs_next_true entries (entry_i + 1) in
      let st :=
        if negb (skip_until_exit && (Z.of_nat entry_i <=? last_exit_i)%Z) then
          let from_i := entry_i + wait in
          let to_i := if until_next then match next_entry_i with Some e => e | None => nrows end else nrows in
          if Nat.ltb from_i to_i then
            let exit_i := from_i + below call (to_i - from_i) in
            (upd exits exit_i true, Z.of_nat exit_i)
          else (exits, last_exit_i)
        else (exits, last_exit_i) in
      rs_rand_ex_loop fuel below entries wait until_next skip_until_exit (S call) next_entry_i st
  end.
Definition rs_generate_rand_ex (below : nat -> nat -> nat) (entries : list bool) (wait : nat) (until_next skip_until_exit : bool) : list bool :=
  let nrows := List.length entries in
  fst (rs_rand_ex_loop (S nrows) below entries wait until_next skip_until_exit 0 (rs_next_true entries 0) (repeat false nrows, (-1)%Z)).

Section ByProb.
  Context {T : Type} {N : Num T}.

  (** signals.rs:82-114 generate_rand_by_prob. State: draws made, out, left by [break]. *)
  Definition rs_generate_rand_by_prob (u prob : nat -> T) (pick_first : bool) (nrows : nat) : list bool :=
    let '(_, out, _) :=
      fold_left (fun (st : nat * list bool * bool) row =>
        let '(k, out, gone) := st in
        if gone then st
        else if ltb (u k) (prob row) then (S k, upd out row true, pick_first) else (S k, out, false))
        (seq 0 nrows) (0, repeat false nrows, false) in
    out.

  (** signals.rs:177-183 and 207-213: the loop over the rows of a range *)
  Fixpoint rs_first_by_prob (u prob : nat -> T) (k : nat) (rows : list nat) : option nat :=
    match rows with
    | [] => None
    | idx :: rows => if ltb (u k) (prob idx) then Some idx else rs_first_by_prob u prob (S k) rows
    end.
  (** signals.rs:153-218 generate_rand_ex_by_prob *)
  Fixpoint rs_rand_ex_prob_loop (fuel : nat) (u : nat -> nat -> T) (entries : list bool) (prob : nat -> T) (wait : nat) (until_next skip_until_exit : bool)
      (call : nat) (entry_i_opt : option nat) (st : list bool * Z) : list bool * Z :=
    match fuel, entry_i_opt with
    | O, _ | _, None => st
    | S fuel, Some entry_i =>
        let nrows := List.length entries in
        let '(exits, last_exit_i) := st in
        let next_entry_i := rs_next_true entries (entry_i + 1) in
        let st :=
          if negb (skip_until_exit && (Z.of_nat entry_i <=? last_exit_i)%Z) then
            let from_i := entry_i + wait in
            let to_i := if until_next then match next_entry_i with Some e => e | None => nrows end else nrows in
            if Nat.ltb from_i to_i then
              match rs_first_by_prob (u call) prob 0 (seq from_i (to_i - from_i)) with
              | Some idx => (upd exits idx true, Z.of_nat idx)
              | None => (exits, last_exit_i)
              end
            else (exits, last_exit_i)
          else (exits, last_exit_i) in
        rs_rand_ex_prob_loop fuel u entries prob wait until_next skip_until_exit (S call) next_entry_i st
    end.
  Definition rs_generate_rand_ex_by_prob (u : nat -> nat -> T) (entries : list bool) (prob : nat -> T) (wait : nat) (until_next skip_until_exit : bool) : list bool :=
    let nrows := List.length entries in
    fst (rs_rand_ex_prob_loop (S nrows) u entries prob wait until_next skip_until_exit 0 (rs_next_true entries 0) (repeat false nrows, (-1)%Z)).

  (** signals.rs:397-414 and 462-479: first_i, last_i and hits of a range *)
  Fixpoint rs_prob_scan (u prob : nat -> T) (pick_first : bool) (k : nat) (rows : list nat) (first_i last_i : option nat) (hits : list nat)
    : option nat * option nat * list nat :=
    match rows with
    | [] => (first_i, last_i, hits)
    | idx :: rows =>
        if ltb (u k) (prob idx) then
          let first_i := match first_i with None => Some idx | Some f => Some f end in
          let hits := if negb pick_first then hits ++ [idx] else hits in
          if pick_first then (first_i, Some idx, hits)
          else rs_prob_scan u prob pick_first (S k) rows first_i (Some idx) hits
        else rs_prob_scan u prob pick_first (S k) rows first_i last_i hits
    end.
  (** signals.rs:353-502 generate_rand_enex_by_prob with a given number of rounds; the check of the waits is in
      signals.rs:1576-1578 *)
  Fixpoint rs_rand_enex_prob_loop (fuel : nat) (u : nat -> nat -> T) (nrows : nat) (entry_prob exit_prob : nat -> T) (entry_wait exit_wait : nat)
      (entry_pick_first exit_pick_first : bool) (i : nat) (st : EnEx) : option (res EnEx) :=
    match fuel with
    | O => None
    | S fuel =>
        let is_entry := Nat.eqb (Nat.modulo i 2) 0 in
        let from_i_raw := if is_entry then if Nat.eqb i 0 then 0%Z else (ee_prev st + Z.of_nat entry_wait)%Z
                          else (ee_prev st + Z.of_nat exit_wait)%Z in
        if (Z.of_nat nrows <=? from_i_raw)%Z then Some (Ok st)
        else
          let from_i := Z.to_nat from_i_raw in
          let '(prob, pick_first) := if is_entry then (entry_prob, entry_pick_first) else (exit_prob, exit_pick_first) in
          let '(first_i, last_i, hits) := rs_prob_scan (u i) prob pick_first 0 (seq from_i (nrows - from_i)) None None [] in
          match first_i with
          | None => Some (Ok st)
          | Some first_i =>
              if (Z.of_nat first_i =? ee_prev st)%Z && (ee_prev st =? ee_prev_prev st)%Z
              then Some (Err (ValueError "Infinite loop detected"))
              else
                let target := if is_entry then ee_entries st else ee_exits st in
                let '(target, prev_i) :=
                  if pick_first then (upd target first_i true, Z.of_nat first_i)
                  else (rs_mark target hits, match last_i with Some l => Z.of_nat l | None => 0%Z end) in
                rs_rand_enex_prob_loop fuel u nrows entry_prob exit_prob entry_wait exit_wait entry_pick_first exit_pick_first (i + 1)
                  (mkEnEx (if is_entry then target else ee_entries st) (if is_entry then ee_exits st else target) (ee_prev st) prev_i)
          end
    end.
  Definition rs_generate_rand_enex_by_prob (fuel : nat) (u : nat -> nat -> T) (nrows : nat) (entry_prob exit_prob : nat -> T) (entry_wait exit_wait : nat)
      (entry_pick_first exit_pick_first : bool) : option (res (list bool * list bool)) :=
    if Nat.eqb entry_wait 0 && Nat.eqb exit_wait 0 then Some (Err (ValueError "entry_wait and exit_wait cannot be both 0"))
    else
      match rs_rand_enex_prob_loop fuel u nrows entry_prob exit_prob entry_wait exit_wait entry_pick_first exit_pick_first 0
              (mkEnEx (repeat false nrows) (repeat false nrows) (-2) (-1)) with
      | None => None
      | Some (Err e) => Some (Err e)
      | Some (Ok st) => Some (Ok (ee_entries st, ee_exits st))
      end.

  (** ** The Numba generators, one column, on the same draws *)
  (** signals/nb.py:343-359 generate_rand_by_prob_nb *)
  Definition generate_rand_by_prob_nb (u prob : nat -> T) (pick_first : bool) (nrows : nat) : res (list bool) :=
    generate_nb nrows pick_first (fun _ from to => map Z.of_nat (rand_by_prob_choice_nb u prob pick_first (Z.to_nat from) (Z.to_nat to))).
  (** signals/nb.py:382-409 generate_rand_ex_by_prob_nb *)
  Definition generate_rand_ex_by_prob_nb (u : nat -> nat -> T) (entries : list bool) (prob : nat -> T) (wait : nat) (until_next skip_until_exit : bool) : res (list bool) :=
    generate_ex_nb entries (Z.of_nat wait) until_next skip_until_exit true
      (fun call from to => map Z.of_nat (rand_by_prob_choice_nb (u call) prob true (Z.to_nat from) (Z.to_nat to))).
  (** signals/nb.py:525-553 generate_rand_enex_by_prob_nb with a given number of rounds *)
  Definition generate_rand_enex_by_prob_fuel (fuel : nat) (u : nat -> nat -> T) (nrows : nat) (entry_prob exit_prob : nat -> T) (entry_wait exit_wait : nat)
      (entry_pick_first exit_pick_first : bool) : option (res (list bool * list bool)) :=
    generate_enex_fuel fuel nrows (Z.of_nat entry_wait) (Z.of_nat exit_wait) entry_pick_first exit_pick_first
      (fun call from to => map Z.of_nat (rand_by_prob_choice_nb (u call) entry_prob entry_pick_first (Z.to_nat from) (Z.to_nat to)))
      (fun call from to => map Z.of_nat (rand_by_prob_choice_nb (u call) exit_prob exit_pick_first (Z.to_nat from) (Z.to_nat to))).
End ByProb.
(** signals/nb.py:366-378 generate_rand_ex_nb; [perm call] orders the rows of the range *)
Definition generate_rand_ex_nb (perm : nat -> list nat -> list nat) (entries : list bool) (wait : nat) (until_next skip_until_exit : bool) : res (list bool) :=
  generate_ex_nb entries (Z.of_nat wait) until_next skip_until_exit true
    (fun call from to => map Z.of_nat (rand_choice_nb (perm call) (Z.to_nat from) (Z.to_nat to) 1)).
