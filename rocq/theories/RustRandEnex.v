(** * Model of generate_rand_enex of rust/src/signals.rs

    Random entries and exits by number. Numbers are exact; the random generator
    is the one of RandSignals.v, so both engines see the same stream. Unsigned
    integers are integers; where the code would subtract below zero, draw from
    an empty range or write outside of the array, it panics: [Err]. *)
From Coq Require Import String ZArith QArith Qround Bool List Arith.
From Verif Require Import Base SignalsNb RandSignals RustStops RustRand.
Import ListNotations.
Local Open Scope list_scope.
Local Open Scope nat_scope.

Definition panic := IndexError "panic".

(** [a[[i, col]] = true] *)
Definition rs_set (a : list bool) (i : Z) : res (list bool) :=
  if (0 <=? i)%Z && (i <? Z.of_nat (List.length a))%Z then Ok (upd a (Z.to_nat i) true) else Err panic.

(** signals.rs:220-233 uniform_summing_to_one *)
Definition rs_uniform_summing_to_one (rg : Rng) (pos n : nat) : res (list Q * nat) :=
  if Nat.ltb n 1 then Err panic
  else
    let rand_floats := q_sort (0%Q :: 1%Q :: map (rg_uniform rg) (seq pos (n - 1))) in
    Ok (map (fun i => nth (i + 1) rand_floats 0 - nth i rand_floats 0)%Q (seq 0 n), pos + (n - 1)).

(** signals.rs:245-248: [ints[idx] += 1] *)
Fixpoint rs_bump (rg : Rng) (pos leftover : nat) (ints : list Z) : list Z * nat :=
  match leftover with
  | O => (ints, pos)
  | S leftover =>
      let idx := Z.to_nat (rg_below rg pos (Z.of_nat (List.length ints))) in
      rs_bump rg (S pos) leftover (upd ints idx (nth idx ints 0 + 1)%Z)
  end.
(** signals.rs:235-251 rescale_float_to_int *)
Definition rs_rescale_float_to_int (rg : Rng) (pos : nat) (floats : list Q) (lo hi total : Z) : list Z * nat :=
  let delta := (inject_Z hi - inject_Z lo)%Q in
  let ints := map (fun f => Qfloor (delta * f + inject_Z lo)) floats in
  let leftover := (total - fold_left Z.add ints 0)%Z in
  if (0 <? leftover)%Z && negb (Nat.eqb (List.length ints) 0) then rs_bump rg pos (Z.to_nat leftover) ints else (ints, pos).

(** signals.rs:283-327: the entries of one column *)
Definition rs_rand_entries (rg : Rng) (nrows : nat) (entry_wait exit_wait : nat) (pos n : nat) : res (list bool * nat) :=
  let entries := repeat false nrows in
  if Nat.eqb n 1 then
    if Nat.leb nrows exit_wait then Err (ValueError "Cannot fit entry before exit_wait")
    else
      let! entries := rs_set entries (rg_below rg pos (Z.of_nat (nrows - exit_wait))) in
      Ok (entries, S pos)
  else if Nat.ltb 1 n then
    let min_range := entry_wait + exit_wait in
    let min_total_range := min_range * (n - 1) in
    if Nat.ltb nrows (min_total_range + exit_wait + 1) then Err (ValueError "Cannot take a larger sample than population")
    else
      let max_free_space := nrows - min_total_range - 1 in
      let free_space_pre := Nat.min max_free_space (3 * nrows / (n + 1)) in
      let free_space := if Nat.ltb exit_wait free_space_pre then free_space_pre - exit_wait else 0 in
      let! (rand_floats, pos1) := rs_uniform_summing_to_one rg pos 6 in
      let '(chosen_spaces, pos2) := rs_rescale_float_to_int rg pos1 rand_floats 0 (Z.of_nat free_space) (Z.of_nat free_space) in
      let first_idx := nth 0 chosen_spaces 0%Z in
      let tail_sum := fold_left Z.add (skipn (List.length chosen_spaces - 2) chosen_spaces) 0%Z in
      let last_idx := (Z.of_nat nrows - tail_sum - Z.of_nat exit_wait - 1)%Z in
      let total_range := (last_idx - first_idx)%Z in
      let max_range := (total_range - (Z.of_nat n - 2) * Z.of_nat min_range)%Z in
      let! (rand_floats2, pos3) := rs_uniform_summing_to_one rg pos2 (n - 1) in
      let '(chosen_ranges, pos4) := rs_rescale_float_to_int rg pos3 rand_floats2 (Z.of_nat min_range) max_range total_range in
      let! entries := rs_set entries first_idx in
      let! (entries, _) :=
        fold_left (fun (st : res (list bool * Z)) r => let! (entries, entry_idx) := st in
                               let! entries := rs_set entries (entry_idx + r)%Z in Ok (entries, (entry_idx + r)%Z))
          chosen_ranges (Ok (entries, first_idx)) in
      Ok (entries, pos4)
  else Ok (entries, pos).

(** signals.rs:330-345: the exits of one column. The [while let] loop moves to a later entry every time, so its fuel is
    the number of rows and one. *)
Fixpoint rs_rand_exits_loop (fuel : nat) (rg : Rng) (entries : list bool) (entry_wait exit_wait : nat) (entry_i_opt : option nat)
    (exits : list bool) (pos : nat) : res (list bool * nat) :=
  match fuel, entry_i_opt with
  | O, _ | _, None => Ok (exits, pos)
  | S fuel, Some entry_idx =>
      let next_entry_i := rs_next_true entries (entry_idx + 1) in
      let entry_i := (Z.of_nat entry_idx + Z.of_nat exit_wait)%Z in
      let exit_i := match next_entry_i with Some next_idx => (Z.of_nat next_idx - Z.of_nat entry_wait)%Z
                                          | None => (Z.of_nat (List.length entries) - 1)%Z end in
      if (exit_i <? 0)%Z || (exit_i <? entry_i)%Z then Err panic
      else
        let! exits := rs_set exits (entry_i + rg_below rg pos (exit_i - entry_i + 1))%Z in
        rs_rand_exits_loop fuel rg entries entry_wait exit_wait next_entry_i exits (S pos)
  end.
Definition rs_rand_exits (rg : Rng) (entry_wait exit_wait pos : nat) (entries : list bool) : res (list bool * nat) :=
  rs_rand_exits_loop (S (List.length entries)) rg entries entry_wait exit_wait (rs_next_true entries 0)
    (repeat false (List.length entries)) pos.

(** signals.rs:270-280: one column if both waits are 1. State: k, entries, exits. *)
Definition rs_split_step (both : list bool) (st : nat * list bool * list bool) (row : nat) : nat * list bool * list bool :=
  let '(k, entries, exits) := st in
  if nth row both false then
    if Nat.eqb (Nat.modulo k 2) 0 then (S k, upd entries row true, exits) else (S k, entries, upd exits row true)
  else st.
Definition rs_split (both : list bool) : list bool * list bool :=
  let nrows := List.length both in
  let '(_, entries, exits) := fold_left (rs_split_step both) (seq 0 nrows) (0, repeat false nrows, repeat false nrows) in
  (entries, exits).

(** signals.rs:252-351 generate_rand_enex: entries of all columns, then exits of all columns *)
Definition rs_generate_rand_enex (rg : Rng) (nrows : nat) (n : list nat) (entry_wait exit_wait : nat)
  : res (list (list bool) * list (list bool)) :=
  if Nat.eqb entry_wait 0 && Nat.eqb exit_wait 0 then Err (ValueError "entry_wait and exit_wait cannot be both 0")
  else if Nat.eqb entry_wait 1 && Nat.eqb exit_wait 1 then
    let! (both, _) := columns_loop (fun pos n => Ok (rs_generate_rand (rg_perm rg pos) nrows (n * 2), S pos)) 0 n in
    Ok (map (fun b => fst (rs_split b)) both, map (fun b => snd (rs_split b)) both)
  else
    let! (entries, pos) := columns_loop (rs_rand_entries rg nrows entry_wait exit_wait) 0 n in
    let! (exits, _) := columns_loop (rs_rand_exits rg entry_wait exit_wait) pos entries in
    Ok (entries, exits).
