(** * Model of parameter products and index operations
    (utils/params.py, base/index_fns.py, utils/checks.py) *)
From Coq Require Import String ZArith Bool List Arith.
From Verif Require Import Base Grouper.
Import ListNotations.
Local Open Scope string_scope.
Local Open Scope list_scope.
Local Open Scope nat_scope.

(** ** Parameters *)
(** itertools.product *)
Fixpoint product {A} (ls : list (list A)) : list (list A) :=
  match ls with [] => [[]] | l :: ls' => flat_map (fun x => map (cons x) (product ls')) l end.

(** zip: tuples of the elements at the same position, as long as all have one *)
Fixpoint zip_cons {A} (r : list A) (cols : list (list A)) : list (list A) :=
  match r, cols with x :: r', c :: cols' => (x :: c) :: zip_cons r' cols' | _, _ => [] end.
Fixpoint zip_star {A} (rows : list (list A)) : list (list A) :=
  match rows with
  | [] => []
  | [r] => map (fun x => [x]) r
  | r :: rows' => zip_cons r (zip_star rows')
  end.

(** utils/params.py:90-92 create_param_product *)
Definition create_param_product {A} (param_list : list (list A)) : list (list A) := zip_star (product param_list).

(** utils/params.py:73-87 broadcast_params; an empty list of lists raises (max of nothing) *)
Definition broadcast_one {A} (to_n : nat) (params : list A) : res (list A) :=
  if Nat.eqb (List.length params) 1 || Nat.eqb (List.length params) to_n then
    if Nat.ltb (List.length params) to_n then Ok (List.concat (repeat params to_n)) else Ok params
  else Err (ValueError "Parameters have a length that cannot be broadcast").
Fixpoint broadcast_all {A} (to_n : nat) (param_list : list (list A)) : res (list (list A)) :=
  match param_list with
  | [] => Ok []
  | p :: rest => let! q := broadcast_one to_n p in let! qs := broadcast_all to_n rest in Ok (q :: qs)
  end.
Definition broadcast_params {A} (param_list : list (list A)) (to_n : option nat) : res (list (list A)) :=
  match to_n, param_list with
  | None, [] => Err (ValueError "max() arg is an empty sequence")
  | None, _ => broadcast_all (fold_left Nat.max (map (@List.length A) param_list) 0) param_list
  | Some n, _ => broadcast_all n param_list
  end.

(** ** Indexes *)
(** A level has an optional name and one label per position; an index is a
    plain one or a multi-index. Labels are not missing here. *)
Record Level := mkLevel { lv_name : option string; lv_values : list Label }.
Inductive Index := Plain (l : Level) | Multi (ls : list Level).
Definition index_len (x : Index) : nat :=
  match x with Plain l => List.length (lv_values l) | Multi [] => 0 | Multi (l :: _) => List.length (lv_values l) end.
Definition levels_of (x : Index) : list Level := match x with Plain l => [l] | Multi ls => ls end.

Fixpoint values_eqb (a b : list Label) : bool :=
  match a, b with [], [] => true | x :: a', y :: b' => label_eqb x y && values_eqb a' b' | _, _ => false end.
Definition name_eqb (a b : option string) : bool :=
  match a, b with None, None => true | Some x, Some y => String.eqb x y | _, _ => false end.
Definition range_level (n : nat) : Level := mkLevel None (map (fun k => LInt (Z.of_nat k)) (seq 0 n)).
Definition level_is_default (l : Level) : bool :=
  name_eqb (lv_name l) None && values_eqb (lv_values l) (lv_values (range_level (List.length (lv_values l)))).

(** utils/checks.py:174-176 is_default_index *)
Definition is_default_index (x : Index) : bool := match x with Plain l => level_is_default l | Multi _ => false end.

Definition repeat_level (n : nat) (l : Level) : Level := mkLevel (lv_name l) (flat_map (fun x => repeat x n) (lv_values l)).
Definition tile_level (n : nat) (l : Level) : Level := mkLevel (lv_name l) (List.concat (repeat (lv_values l) n)).
Definition map_levels (f : Level -> Level) (x : Index) : Index := match x with Plain l => Plain (f l) | Multi ls => Multi (map f ls) end.

(** base/index_fns.py:70-84 repeat_index *)
Definition repeat_index (x : Index) (n : nat) (ignore_default : bool) : Index :=
  if is_default_index x && ignore_default then Plain (range_level (index_len x * n)) else map_levels (repeat_level n) x.
(** base/index_fns.py:87-103 tile_index *)
Definition tile_index (x : Index) (n : nat) (ignore_default : bool) : Index :=
  if is_default_index x && ignore_default then Plain (range_level (index_len x * n)) else map_levels (tile_level n) x.

(** pandas droplevel: the levels at the positions not to drop; a single one
    that is left becomes a plain index unless nothing was dropped *)
Definition droplevel (ls : list Level) (drop : list nat) : Index :=
  match drop with
  | [] => Multi ls
  | _ => let kept := map snd (filter (fun p => negb (existsb (Nat.eqb (fst p)) drop)) (combine (seq 0 (List.length ls)) ls)) in
         match kept with [l] => Plain l | _ => Multi kept end
  end.

Definition level_eqb (a b : Level) : bool := name_eqb (lv_name a) (lv_name b) && values_eqb (lv_values a) (lv_values b).

(** base/index_fns.py:236-248, the loop over positions in the given order *)
Fixpoint duplicate_positions (ps : list (nat * Level)) (seen : list Level) : list nat :=
  match ps with
  | [] => []
  | (i, l) :: rest =>
      if existsb (level_eqb l) seen then i :: duplicate_positions rest seen else duplicate_positions rest (seen ++ [l])
  end.
(** base/index_fns.py:220-248 drop_duplicate_levels *)
Definition drop_duplicate_levels (x : Index) (keep_first : bool) : Index :=
  match x with
  | Plain l => Plain l
  | Multi ls =>
      let ps := combine (seq 0 (List.length ls)) ls in
      droplevel ls (duplicate_positions (if keep_first then ps else rev ps) [])
  end.

(** base/index_fns.py:203-217 drop_redundant_levels; a level of the
    multi-index has one value when all its labels are the same *)
Definition single_valued (l : Level) : bool :=
  match lv_values l with [] => false | x :: rest => forallb (label_eqb x) rest end.
Definition is_redundant (l : Level) : bool :=
  (Nat.ltb 1 (List.length (lv_values l)) && single_valued l && name_eqb (lv_name l) None) || level_is_default l.
Definition drop_redundant_levels (x : Index) : Index :=
  match x with
  | Plain l => Plain l
  | Multi ls =>
      let drop := map fst (filter (fun p => is_redundant (snd p)) (combine (seq 0 (List.length ls)) ls)) in
      if Nat.ltb (List.length drop) (List.length ls) then droplevel ls drop else Multi ls
  end.

Fixpoint same_lengths (ls : list Level) : bool :=
  match ls with
  | a :: ((b :: _) as t) => Nat.eqb (List.length (lv_values a)) (List.length (lv_values b)) && same_lengths t
  | _ => true
  end.

(** base/index_fns.py:106-140 stack_indexes *)
Definition stack_indexes (indexes : list Index) (drop_duplicates keep_first drop_redundant : bool) : res Index :=
  let levels := flat_map levels_of indexes in
  raise_if (negb (same_lengths levels)) (ValueError "all arrays must be same length") (
  let x := Multi levels in
  let x := if drop_duplicates then drop_duplicate_levels x keep_first else x in
  Ok (if drop_redundant then drop_redundant_levels x else x)).

(** base/index_fns.py:143-153 combine_indexes *)
Definition combine_step (ignore_default drop_duplicates keep_first drop_redundant : bool) (x : Index) (y : Index) : res Index :=
  stack_indexes [repeat_index x (index_len y) ignore_default; tile_index y (index_len x) ignore_default]
    drop_duplicates keep_first drop_redundant.
Definition combine_indexes (indexes : list Index) (ignore_default drop_duplicates keep_first drop_redundant : bool) : res Index :=
  match indexes with
  | [] => Err (IndexError "list index out of range")
  | x :: rest => foldM (combine_step ignore_default drop_duplicates keep_first drop_redundant) x rest
  end.

(** ** Aligning indexes *)
(** The label of every given level at a position *)
Definition row_at (ls : list (list Label)) (i : nat) : list Label := map (fun l => nth i l (LInt 0)) ls.
Definition rows_of (ls : list (list Label)) (n : nat) : list (list Label) := map (row_at ls) (seq 0 n).

Fixpoint position_of (x : list Label) (a : list (list Label)) : option nat :=
  match a with [] => None | y :: a' => if values_eqb x y then Some 0 else option_map S (position_of x a') end.

(** base/index_fns.py:252-262 _align_index_to_nb; rows of labels stand for
    their codes, and [junk] is what the allocated memory held *)
Definition _align_index_to_nb (a b : list (list Label)) (junk : list nat) : list nat :=
  let found := flat_map (fun x => match position_of x a with Some j => [j] | None => [] end) b in
  found ++ skipn (List.length found) junk.

Definition subset_of (a b : list Label) : bool := forallb (fun x => existsb (label_eqb x) b) a.

(** base/index_fns.py:276-289, the loops that match levels by name; the
    mapper lists pairs of positions in the order they are added *)
Definition match_level (l1 : Level) (i : nat) (mapper : list (nat * nat)) (p : nat * Level) : res (list (nat * nat)) :=
  let '(j, l2) := p in
  if name_eqb (lv_name l1) (lv_name l2) then
    if subset_of (lv_values l2) (lv_values l1) then
      raise_if (existsb (fun q => Nat.eqb (fst q) i) mapper) (ValueError "There are multiple candidate levels") (Ok (mapper ++ [(i, j)]))
    else raise_if (negb (name_eqb (lv_name l1) None)) (ValueError "Level in second index contains values not in first index") (Ok mapper)
  else Ok mapper.
Definition match_levels (ls1 ls2 : list Level) : res (list (nat * nat)) :=
  foldM (fun mapper p => foldM (match_level (snd p) (fst p)) mapper (combine (seq 0 (List.length ls2)) ls2))
    [] (combine (seq 0 (List.length ls1)) ls1).

Fixpoint has_duplicates (rows : list (list Label)) : bool :=
  match rows with [] => false | r :: rest => existsb (values_eqb r) rest || has_duplicates rest end.
Fixpoint rows_eqb (a b : list (list Label)) : bool :=
  match a, b with [], [] => true | x :: a', y :: b' => values_eqb x y && rows_eqb a' b' | _, _ => false end.
Fixpoint levels_eqb (a b : list Level) : bool :=
  match a, b with [], [] => true | x :: a', y :: b' => values_eqb (lv_values x) (lv_values y) && levels_eqb a' b' | _, _ => false end.

(** base/index_fns.py:265-318 align_index_to: the positions of the first
    index to take, in order *)
Definition align_index_to (x1 x2 : Index) (junk : list nat) : res (list nat) :=
  let ls1 := levels_of x1 in let ls2 := levels_of x2 in
  let n1 := index_len x1 in let n2 := index_len x2 in
  if levels_eqb ls1 ls2 then Ok (seq 0 n1)
  else
    let! mapper := match_levels ls1 ls2 in
    match mapper with
    | [] => Err (ValueError "Can't find common levels to align both indexes")
    | _ =>
      let a := rows_of (map (fun p => lv_values (nth (fst p) ls1 (mkLevel None []))) mapper) n1 in
      let b := rows_of (map (fun p => lv_values (nth (snd p) ls2 (mkLevel None []))) mapper) n2 in
      raise_if (has_duplicates a) (ValueError "Duplicated values in first index are not allowed") (
      raise_if (Nat.eqb n1 0) ZeroDivision (
      if Nat.eqb (n2 mod n1) 0 && rows_eqb (List.concat (repeat a (n2 / n1))) b
      then Ok (List.concat (repeat (seq 0 n1) (n2 / n1)))
      else Ok (_align_index_to_nb a b junk)))
    end.
