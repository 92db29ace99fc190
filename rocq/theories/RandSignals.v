(** * Model of random entries and exits by number

    vectorbt/signals/nb.py: generate_rand_nb and generate_rand_enex_nb, with the
    helpers in vectorbt/utils/array_.py. Random floats and what is computed from
    them are exact rationals (a simplification: doubles in the code). *)
From Coq Require Import String ZArith QArith Qround Bool List Arith.
From Verif Require Import Base SignalsNb.
Import ListNotations.
Local Open Scope list_scope.
Local Open Scope nat_scope.

(** The random generator: the number drawn at a position of its stream, either
    uniformly from [0, 1), or an integer below a bound, or a permutation. *)
Record Rng := mkRng { rg_uniform : nat -> Q; rg_below : nat -> Z -> Z; rg_perm : nat -> list nat -> list nat }.

(** np.sort *)
Fixpoint q_insert (x : Q) (l : list Q) : list Q :=
  match l with
  | [] => [x]
  | y :: l' => if Qle_bool x y then x :: l else y :: q_insert x l'
  end.
Definition q_sort (l : list Q) : list Q := fold_right q_insert [] l.

(** [a[1:] - a[:-1]] *)
Fixpoint q_diff (l : list Q) : list Q :=
  match l with
  | x :: ((y :: _) as l') => (y - x)%Q :: q_diff l'
  | _ => []
  end.

(** utils/array_.py:63-73 uniform_summing_to_one_nb. With n < 1 the array has
    less than two elements and the assignments are out of bounds (Numba does not
    check). *)
Definition uniform_summing_to_one_nb (rg : Rng) (pos : nat) (n : Z) : res (list Q * nat) :=
  raise_if (n <? 1)%Z (IndexError "rand_floats") (
  let k := Z.to_nat (n - 1) in
  Ok (q_diff (q_sort (0%Q :: 1%Q :: map (rg_uniform rg) (seq pos k))), pos + k)).

(** utils/array_.py:76-84 renormalize *)
Definition renormalize (a from0 from1 to0 to1 : Q) : Q :=
  ((to1 - to0) * (a - from0) / (from1 - from0) + to0)%Q.

(** utils/array_.py:131-133: [ints[i] += 1] *)
Fixpoint bump (l : list Z) (i : nat) : list Z :=
  match l, i with
  | [], _ => []
  | x :: l', O => (x + 1)%Z :: l'
  | x :: l', S i' => x :: bump l' i'
  end.
Fixpoint bump_loop (rg : Rng) (pos : nat) (leftover : nat) (ints : list Z) : list Z * nat :=
  match leftover with
  | O => (ints, pos)
  | S n => bump_loop rg (S pos) n (bump ints (Z.to_nat (rg_below rg pos (Z.of_nat (List.length ints)))))
  end.

Definition z_sum (l : list Z) : Z := fold_right Z.add 0%Z l.

(** utils/array_.py:128-134 rescale_float_to_int_nb *)
Definition rescale_float_to_int_nb (rg : Rng) (pos : nat) (floats : list Q) (lo hi total : Z) : list Z * nat :=
  let ints := map (fun f => Qfloor (renormalize f 0 1 (inject_Z lo) (inject_Z hi))) floats in
  bump_loop rg pos (Z.to_nat (total - z_sum ints)) ints.

(** np.random.randint(0, high) *)
Definition randint (rg : Rng) (pos : nat) (high : Z) : res (Z * nat) :=
  raise_if (high <=? 0)%Z (ValueError "high <= 0") (Ok (rg_below rg pos high, S pos)).

(** np.cumsum *)
Fixpoint cumsum_from (s : Z) (l : list Z) : list Z :=
  match l with [] => [] | x :: l' => (s + x)%Z :: cumsum_from (s + x)%Z l' end.

(** [out[idxs] = True] on a column of False; indices out of range raise here,
    whereas NumPy wraps negative ones and Numba does not check. *)
Definition mask_of (rows : Z) (idxs : list Z) : res (list bool) :=
  raise_if (existsb (out_of 0 rows) idxs) (IndexError "index out of bounds")
    (Ok (set_all (repeat false (Z.to_nat rows)) idxs)).

(** signals/nb.py:307-315 generate_rand_nb, one column: rand_choice_nb picks
    the signals *)
Definition generate_rand_nb (rg : Rng) (pos : nat) (rows n : nat) : res (list bool) :=
  generate_nb rows false (fun _ from to =>
    map Z.of_nat (rand_choice_nb (rg_perm rg pos) (Z.to_nat from) (Z.to_nat to) n)).

(** signals/nb.py:455-497: the entries of one column, waits not both 1. The
    divisions of [3 * shape[0]] by [_n + 1] round down. *)
Definition rand_entries (rg : Rng) (rows n entry_wait exit_wait : Z) (pos : nat) : res (list bool * nat) :=
  if (n =? 1)%Z then
    let! (i, pos1) := randint rg pos (rows - exit_wait) in
    let! out := mask_of rows [i] in
    Ok (out, pos1)
  else
    let min_range := (entry_wait + exit_wait)%Z in
    let min_total_range := (min_range * (n - 1))%Z in
    raise_if (rows <? min_total_range + exit_wait + 1)%Z (ValueError "Cannot take a larger sample than population") (
    let max_free_space := (rows - min_total_range - 1)%Z in
    let free_space := (Z.min max_free_space (3 * rows / (n + 1)) - exit_wait)%Z in
    let! (floats, pos1) := uniform_summing_to_one_nb rg pos 6 in
    let '(spaces, pos2) := rescale_float_to_int_nb rg pos1 floats 0 free_space free_space in
    let first_idx := nth 0 spaces 0%Z in
    let last_idx := (rows - (nth 4 spaces 0 + nth 5 spaces 0) - exit_wait - 1)%Z in
    let total_range := (last_idx - first_idx)%Z in
    let max_range := (total_range - (n - 2) * min_range)%Z in
    let! (floats2, pos3) := uniform_summing_to_one_nb rg pos2 (n - 1) in
    let '(ranges, pos4) := rescale_float_to_int_nb rg pos3 floats2 min_range max_range total_range in
    let! out := mask_of rows (cumsum_from 0 (first_idx :: ranges)) in
    Ok (out, pos4)).

(** signals/nb.py:500-510: an exit for every entry *)
Fixpoint rand_exit_idxs (rg : Rng) (rows entry_wait exit_wait : Z) (pos : nat) (entry_idxs : list nat) : res (list Z * nat) :=
  match entry_idxs with
  | [] => Ok ([], pos)
  | e :: rest =>
      let entry_i := (Z.of_nat e + exit_wait)%Z in
      let exit_i := match rest with e' :: _ => (Z.of_nat e' - entry_wait)%Z | [] => (rows - 1)%Z end in
      let! (i, pos1) := randint rg pos (exit_i - entry_i + 1) in
      let! (xs, pos2) := rand_exit_idxs rg rows entry_wait exit_wait pos1 rest in
      Ok ((entry_i + i)%Z :: xs, pos2)
  end.
Definition rand_exits (rg : Rng) (rows entry_wait exit_wait : Z) (pos : nat) (entries : list bool) : res (list bool * nat) :=
  let! (xs, pos') := rand_exit_idxs rg rows entry_wait exit_wait pos (flatnonzero entries) in
  let! out := mask_of rows xs in
  Ok (out, pos').

(** [a[0::2]] and [a[1::2]] *)
Fixpoint evens {A} (l : list A) : list A :=
  match l with x :: _ :: l' => x :: evens l' | l => l end.
Definition odds {A} (l : list A) : list A := evens (tl l).

(** signals/nb.py:446-452: one column if both waits are 1 *)
Definition rand_both (rg : Rng) (pos rows n : nat) : res (list bool * list bool) :=
  let! both := generate_rand_nb rg pos rows (n * 2) in
  let idxs := map Z.of_nat (flatnonzero both) in
  let! entries := mask_of (Z.of_nat rows) (evens idxs) in
  let! exits := mask_of (Z.of_nat rows) (odds idxs) in
  Ok (entries, exits).

(** A loop over columns that collects what the columns give *)
Fixpoint columns_loop {A B} (f : nat -> A -> res (B * nat)) (pos : nat) (cols : list A) : res (list B * nat) :=
  match cols with
  | [] => Ok ([], pos)
  | c :: cols' =>
      let! (b, pos1) := f pos c in
      let! (bs, pos2) := columns_loop f pos1 cols' in
      Ok (b :: bs, pos2)
  end.

(** signals/nb.py:413-511 generate_rand_enex_nb: entries of all columns, then
    exits of all columns. [ns] are the numbers per column; the seed is the
    generator [rg]. *)
Definition generate_rand_enex_nb (rg : Rng) (rows : nat) (ns : list nat) (entry_wait exit_wait : nat)
  : res (list (list bool) * list (list bool)) :=
  raise_if (Nat.eqb entry_wait 0 && Nat.eqb exit_wait 0) (ValueError "entry_wait and exit_wait cannot be both 0") (
  if Nat.eqb entry_wait 1 && Nat.eqb exit_wait 1 then
    let! (both, _) := columns_loop (fun pos n => let! r := rand_both rg pos rows n in Ok (r, S pos)) 0 ns in
    Ok (map fst both, map snd both)
  else
    let! (entries, pos1) := columns_loop (fun pos n =>
      rand_entries rg (Z.of_nat rows) (Z.of_nat n) (Z.of_nat entry_wait) (Z.of_nat exit_wait) pos) 0 ns in
    let! (exits, _) := columns_loop (rand_exits rg (Z.of_nat rows) (Z.of_nat entry_wait) (Z.of_nat exit_wait)) pos1 entries in
    Ok (entries, exits)).
