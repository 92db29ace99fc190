(** * Model of call sequences: vectorbt/utils/array_.py:27-40,
    vectorbt/portfolio/nb.py:850-912, 926-999 *)
From Coq Require Import ZArith Bool List Arith String.
From Verif Require Import Base Num Order.
Import ListNotations.
Open Scope list_scope.

Section CallSeq.
  Context {T : Type} {N : Num T}.

  (** array_.py:35 the condition under which an element is moved right *)
  Definition goes_after (a x : T) : bool := gtb a x || isnan a.

  (** array_.py:34-40: insert the element [x] (value, index) into the already
      processed part, which is kept with its last element first, the order in
      which the [while] loop visits it. *)
  Fixpoint insert_back (x : T * nat) (r : list (T * nat)) : list (T * nat) :=
    match r with
    | [] => [x]
    | y :: r' => if goes_after (fst y) (fst x) then y :: insert_back x r' else x :: y :: r'
    end.

  (** array_.py:27-40 insert_argsort_nb; the arrays [A] and [I] are one list
      of pairs. *)
  Definition insert_argsort_nb (l : list (T * nat)) : list (T * nat) :=
    rev (fold_left (fun r x => insert_back x r) l []).

  (** nb.py:926-940 get_group_value_nb (also inlined at nb.py:1470-1476) *)
  Definition get_group_value_nb (from_col group_len : nat) (cash_now : T)
      (last_position last_val_price : nat -> T) : T :=
    fold_left (fun v col =>
      if neb (last_position col) zero
      then add v (mul (last_position col) (last_val_price col)) else v)
      (seq from_col group_len) cash_now.

  (** nb.py:966-999 approx_order_value_nb *)
  Definition approx_order_value_nb (size0 : T) (st : SizeType) (dir : Direction)
      (cash_now position_now free_cash_now val_price_now value_now : T) : T :=
    let size := if is_short_only dir then mul size0 (neg one) else size0 in
    let asset_value_now := mul position_now val_price_now in
    match st with
    | Amount => mul size val_price_now
    | Value => size
    | Percent =>
        if geb size zero then mul size cash_now
        else if is_long_only dir then mul size asset_value_now
        else mul size (add (mul two (max2 asset_value_now zero)) (max2 free_cash_now zero))
    | TargetAmount => sub (mul size val_price_now) asset_value_now
    | TargetValue => sub size asset_value_now
    | TargetPercent => sub (mul size value_now) asset_value_now
    end.
End CallSeq.

(** ** Building call sequences. Integer arrays are lists of Z; one row is
    modelled, all rows being equal before shuffling (nb.py:868, 875). *)
Inductive CallSeqType := CSDefault | CSReversed | CSRandom.

(** np.cumsum *)
Fixpoint cumsum_from (acc : Z) (l : list Z) : list Z :=
  match l with
  | [] => []
  | x :: l' => (acc + x)%Z :: cumsum_from (acc + x)%Z l'
  end.
Definition cumsum (l : list Z) : list Z := cumsum_from 0 l.

(** [out[idx] -= v] with an array of indices, NumPy semantics: the last
    assignment wins for repeated indices, negative indices count from the end
    and indices out of range raise. *)
Definition norm_index (n : nat) (i : Z) : option nat :=
  if (0 <=? i)%Z && (i <? Z.of_nat n)%Z then Some (Z.to_nat i)
  else if (i <? 0)%Z && (- Z.of_nat n <=? i)%Z then Some (Z.to_nat (i + Z.of_nat n))
  else None.

Definition sub_at (out : list Z) (idx vals : list Z) : res (list Z) :=
  foldM (fun o (iv : Z * Z) =>
    match norm_index (List.length out) (fst iv) with
    | Some k => Ok (upd o k (nth k out 0%Z - snd iv)%Z)
    | None => Err (IndexError "index out of bounds"%string)
    end) out (combine idx vals).

(** nb.py:860-878 build_call_seq_nb and nb.py:886-904 build_call_seq, one row
    before shuffling. The two agree: cumsum(g)[:-1] is cumsum(g[:-1]). *)
Definition build_call_seq_row (n_cols : nat) (group_lens : list nat) (ty : CallSeqType)
  : res (list Z) :=
  let g := map Z.of_nat group_lens in
  let ones := repeat 1%Z n_cols in
  match ty with
  | CSReversed =>
      let idx := map (fun p => fst p - snd p - 1)%Z (combine (tl (cumsum g)) (tl g)) in
      let! o := sub_at ones idx (tl g) in
      Ok (map (fun x => x - 1)%Z (rev (cumsum (rev o))))
  | _ =>
      let! o := sub_at ones (removelast (cumsum g)) (removelast g) in
      Ok (map (fun x => x - 1)%Z (cumsum o))
  end.

(** nb.py:849-857 shuffle_call_seq_nb on one row: every group's slice is
    replaced by a shuffled copy. [shuffle] is np.random.shuffle with the
    generator state as an explicit counter. *)
Fixpoint shuffle_row (shuffle : nat -> list Z -> list Z) (k : nat) (row : list Z)
    (group_lens : list nat) : list Z * nat :=
  match group_lens with
  | [] => (row, k)
  | g :: gs =>
      let '(rest, k') := shuffle_row shuffle (S k) (skipn g row) gs in
      (shuffle k (firstn g row) ++ rest, k')
  end.
