(** * Model of data sets of several symbols (data/base.py)

    A data set keeps one Series or DataFrame per symbol. Rows and columns carry labels:
    integers, strings, clock times without a time zone, or instants (what a timestamp with a
    time zone denotes; the zone it is shown in is left out). Also left out: names of
    indexes, multi-level indexes, frequencies, data types other than floats, warnings, the
    global defaults, and downloading itself, which is a function of the symbol and of its
    keyword arguments. *)
From Coq Require Import String ZArith Bool List Arith.
From Verif Require Import Base Num Dicts.
Import ListNotations.
Local Open Scope string_scope.
Local Open Scope list_scope.
Local Open Scope nat_scope.

(** ** pandas' indexes *)
Inductive label := Number (z : Z) | Name (s : string) | Clock (t : Z) | Instant (t : Z).

Definition label_eqb (a b : label) : bool :=
  match a, b with
  | Number x, Number y | Clock x, Clock y | Instant x, Instant y => Z.eqb x y
  | Name s, Name t => String.eqb s t
  | _, _ => false
  end.
Definition mem (a : label) (l : list label) : bool := existsb (label_eqb a) l.
Fixpoint same_labels (a b : list label) : bool :=
  match a, b with
  | [], [] => true
  | x :: a', y :: b' => label_eqb x y && same_labels a' b'
  | _, _ => false
  end.
Fixpoint has_dups (l : list label) : bool :=
  match l with [] => false | a :: l' => mem a l' || has_dups l' end.

(** labels of one kind can be compared, others cannot *)
Definition comparable (a b : label) : bool :=
  match a, b with
  | Number _, Number _ | Clock _, Clock _ | Instant _, Instant _ | Name _, Name _ => true
  | _, _ => false
  end.
Definition label_leb (a b : label) : bool :=
  match a, b with
  | Number x, Number y | Clock x, Clock y | Instant x, Instant y => (x <=? y)%Z
  | Name s, Name t => match String.compare s t with Gt => false | _ => true end
  | _, _ => true
  end.
Fixpoint insert (a : label) (l : list label) : list label :=
  match l with
  | [] => [a]
  | b :: l' => if label_leb a b then a :: b :: l' else b :: insert a l'
  end.
Definition sort_labels (l : list label) : list label := fold_right insert [] l.

(** pd.Index.intersection: labels of the first index found in the second, in the order of the first *)
Definition intersection (a b : list label) : list label := filter (fun x => mem x b) a.
(** pd.Index.union of indexes without duplicates: if one is empty, the other as it is; otherwise
    sorted, unless labels of different kinds meet, which cannot be sorted *)
Definition union (a b : list label) : list label :=
  let all := a ++ filter (fun x => negb (mem x a)) b in
  match a, b with
  | [], _ => b
  | _, [] => a
  | x :: _, _ => if forallb (comparable x) all then sort_labels all else all
  end.

Fixpoint find_label {A} (a : label) (l : list label) (vs : list A) : option A :=
  match l, vs with
  | b :: l', v :: vs' => if label_eqb a b then Some v else find_label a l' vs'
  | _, _ => None
  end.
Fixpoint find_column {A} (c : label) (cols : list (label * A)) : option A :=
  match cols with
  | [] => None
  | (d, v) :: cols' => if label_eqb c d then Some v else find_column c cols'
  end.

Section Data.
  Context {T : Type} {N : Num T}.

  (** ** pandas' objects: a name, an index and values; an index and named columns *)
  Inductive obj :=
  | Series (name : option label) (index : list label) (values : list T)
  | DataFrame (index : list label) (cols : list (label * list T)).
  (** what downloading may return: also NumPy arrays (two-dimensional ones as rows x columns) *)
  Inductive raw := Array1 (values : list T) | Array2 (rows : nat) (cols : list (list T)) | Pandas (o : obj).

  Definition index_of (o : obj) : list label := match o with Series _ i _ => i | DataFrame i _ => i end.

  (** v.reindex(index=index) *)
  Definition reindex_values (old new : list label) (vs : list T) : list T :=
    map (fun a => match find_label a old vs with Some v => v | None => nan end) new.
  Definition reindex_rows (o : obj) (index : list label) : res obj :=
    raise_if (has_dups (index_of o) && negb (same_labels (index_of o) index))
      (ValueError "cannot reindex on an axis with duplicate labels")
      (Ok match o with
          | Series n i vs => Series n index (reindex_values i index vs)
          | DataFrame i cols => DataFrame index (map (fun c => (fst c, reindex_values i index (snd c))) cols)
          end).
  (** v.reindex(columns=columns) *)
  Definition reindex_columns (i : list label) (cols : list (label * list T)) (columns : list label) : res (list (label * list T)) :=
    raise_if (has_dups (map fst cols) && negb (same_labels (map fst cols) columns))
      (ValueError "cannot reindex on an axis with duplicate labels")
      (Ok (map (fun c => (c, match find_column c cols with Some v => v | None => map (fun _ => nan) i end)) columns)).
  (** v.to_frame(): a Series without a name gets the column 0 *)
  Definition to_frame (o : obj) : list (label * list T) :=
    match o with
    | Series n _ vs => [(match n with Some a => a | None => Number 0 end, vs)]
    | DataFrame _ cols => cols
    end.

  (** ** data/base.py:372-405 Data.align_index (and the same loop over columns, 421-445):
      the labels all symbols will have *)
  Inductive mode := MNan | MDrop | MRaise | MOther.
  Definition join_step (missing : mode) (what : string) (acc : option (list label)) (v : list label)
    : res (option (list label)) :=
    match acc with
    | None => Ok (Some v)
    | Some index =>
        if Nat.eqb (List.length (intersection index v)) (List.length (union index v)) then Ok acc
        else match missing with
             | MNan => Ok (Some (union index v))
             | MDrop => Ok (Some (intersection index v))
             | MRaise => Err (ValueError ("Symbols have mismatching " ++ what)%string)
             | MOther => Err (ValueError "missing is not recognized")
             end
    end.
  Definition join_labels (missing : mode) (what : string) (ls : list (list label)) : res (list label) :=
    let! acc := foldM (join_step missing what) None ls in
    Ok match acc with Some index => index | None => [] end.

  Fixpoint map_dict {A B} (f : A -> res B) (d : list (string * A)) : res (list (string * B)) :=
    match d with
    | [] => Ok []
    | (k, v) :: d' => let! w := f v in let! ws := map_dict f d' in Ok ((k, w) :: ws)
    end.

  Definition align_index (data : list (string * obj)) (missing : mode) : res (list (string * obj)) :=
    if Nat.eqb (List.length data) 1 then Ok data
    else let! index := join_labels missing "index" (map (fun kv => index_of (snd kv)) data) in
         map_dict (fun v => reindex_rows v index) data.

  Definition is_frame (o : obj) : bool := match o with DataFrame _ _ => true | Series _ _ _ => false end.
  Definition unnamed (o : obj) : bool := match o with Series None _ _ => true | _ => false end.

  (** data/base.py:408-457 Data.align_columns *)
  Definition align_columns (data : list (string * obj)) (missing : mode) : res (list (string * obj)) :=
    if Nat.eqb (List.length data) 1 then Ok data
    else
      let multiple_columns := existsb (fun kv => is_frame (snd kv)) data in
      let name_is_none := existsb (fun kv => unnamed (snd kv)) data in
      let! columns := join_labels missing "columns" (map (fun kv => map fst (to_frame (snd kv))) data) in
      map_dict (fun v =>
        let! cols := reindex_columns (index_of v) (to_frame v) columns in
        if multiple_columns then Ok (DataFrame (index_of v) cols)
        else match columns with
             | [] => Err (IndexError "index 0 is out of bounds")
             | c :: _ =>
                 match find_column c cols with
                 | None => Err (KeyError "columns")
                 | Some vs => Ok (Series (if name_is_none then None else Some c) (index_of v) vs)
                 end
             end) data.

  (** ** data/base.py:517-535 (from_data) and 633-649 (update): pandas objects in one time zone.
      A zone says which instant a clock shows; some clock times do not exist there *)
  Definition zone := Z -> res Z.
  Definition is_clock (a : label) : bool := match a with Clock _ => true | _ => false end.
  Definition is_instant (a : label) : bool := match a with Instant _ => true | _ => false end.
  Fixpoint localize (z : zone) (l : list label) : res (list label) :=
    match l with
    | [] => Ok []
    | Clock t :: l' => let! i := z t in let! l2 := localize z l' in Ok (Instant i :: l2)
    | a :: l' => let! l2 := localize z l' in Ok (a :: l2)
    end.
  Definition set_index (o : obj) (index : list label) : obj :=
    match o with Series n _ vs => Series n index vs | DataFrame _ cols => DataFrame index cols end.
  (** v.tz_localize(...) of an index without a zone, then v.tz_convert(...), which refuses an
      index that still has none and otherwise keeps every instant *)
  Definition to_zone (tz_localize tz_convert : option zone) (o : obj) : res obj :=
    let i := index_of o in
    let! i1 := match tz_localize with
               | Some z => if forallb is_clock i then localize z i else Ok i
               | None => Ok i
               end in
    match tz_convert with
    | Some _ => raise_if (match i1 with [] => false | _ => forallb is_clock i1 end)
                  (TypeError "Cannot convert tz-naive timestamps, use tz_localize to localize") (Ok (set_index o i1))
    | None => Ok (set_index o i1)
    end.
  (** 0, 1, ... as the index of an array *)
  Definition range_from (start : Z) (n : nat) : list label := map (fun i => Number (start + Z.of_nat i)) (seq 0 n).
  Definition numbered {A} (l : list A) : list (label * A) := combine (range_from 0 (List.length l)) l.
  Definition to_pandas (start : Z) (r : raw) : obj :=
    match r with
    | Array1 vs => Series None (range_from start (List.length vs)) vs
    | Array2 rows cols => DataFrame (range_from start rows) (numbered cols)
    | Pandas o => o
    end.

  (** ** The data set *)
  Record data := mkData {
    d_data : list (string * obj);
    d_index : list label;          (* wrapper.index *)
    d_localize : option zone;
    d_convert : option zone;
    d_missing_index : mode;
    d_missing_columns : mode
  }.

  (** utils/checks.py:549-558 assert_meta_equal *)
  Definition meta_equal (a b : obj) : bool :=
    match a, b with
    | Series _ i _, Series _ j _ => same_labels i j
    | DataFrame i c, DataFrame j d => same_labels i j && same_labels (map fst c) (map fst d)
    | _, _ => false
    end.
  (** data/base.py:295-328 Data.__init__ *)
  Definition new_data (d : data) : res data :=
    match d_data d with
    | [] => Ok d
    | (_, first) :: _ =>
        raise_if (negb (forallb (fun kv => meta_equal (snd kv) first) (d_data d)))
          (AssertionError "metadata do not match") (Ok d)
    end.

  (** data/base.py:472-549 Data.from_data *)
  Definition from_data (sources : list (string * raw)) (tz_localize tz_convert : option zone)
      (missing_index missing_columns : mode) : res data :=
    let! objs := map_dict (fun r => to_zone tz_localize tz_convert (to_pandas 0 r)) sources in
    let! a := align_index objs missing_index in
    let! b := align_columns a missing_columns in
    match b with
    | [] => Err (IndexError "list index out of range")
    | (_, first) :: _ => new_data (mkData b (index_of first) tz_localize tz_convert missing_index missing_columns)
    end.

  (** data/base.py:460-469 Data.select_symbol_kwargs *)
  Inductive kwarg (V : Type) := ForAll (v : V) | PerSymbol (d : list (string * V)).
  Arguments ForAll {V}. Arguments PerSymbol {V}.
  Fixpoint select_symbol_kwargs {V} (symbol : string) (kwargs : list (string * kwarg V)) : list (string * V) :=
    match kwargs with
    | [] => []
    | (k, ForAll v) :: kw => (k, v) :: select_symbol_kwargs symbol kw
    | (k, PerSymbol d) :: kw =>
        match dict_get d symbol with
        | Some v => (k, v) :: select_symbol_kwargs symbol kw
        | None => select_symbol_kwargs symbol kw
        end
    end.

  (** data/base.py:557-605 Data.download, of a list of symbols *)
  Definition download {V} (download_symbol : string -> list (string * V) -> res raw) (symbols : list string)
      (kwargs : list (string * kwarg V)) (tz_localize tz_convert : option zone) (missing_index missing_columns : mode) : res data :=
    let! sources := foldM (fun acc s =>
                      let! r := download_symbol s (select_symbol_kwargs s kwargs) in Ok (dict_set acc s r)) [] symbols in
    from_data sources tz_localize tz_convert missing_index missing_columns.

  (** v[~v.index.duplicated(keep="last")]: the last row of every label *)
  Fixpoint last_flags (l : list label) : list bool :=
    match l with [] => [] | a :: l' => negb (mem a l') :: last_flags l' end.
  Fixpoint keep {A} (flags : list bool) (l : list A) : list A :=
    match flags, l with
    | true :: fs, x :: l' => x :: keep fs l'
    | false :: fs, _ :: l' => keep fs l'
    | _, _ => []
    end.
  Definition drop_dups (o : obj) : obj :=
    let fs := last_flags (index_of o) in
    match o with
    | Series n i vs => Series n (keep fs i) (keep fs vs)
    | DataFrame i cols => DataFrame (keep fs i) (map (fun c => (fst c, keep fs (snd c))) cols)
    end.
  Definition name_eqb (a b : option label) : bool :=
    match a, b with Some x, Some y => label_eqb x y | None, None => true | _, _ => false end.
  (** v[columns] *)
  Fixpoint pick_columns (columns : list label) (cols : list (label * list T)) : res (list (label * list T)) :=
    match columns with
    | [] => Ok []
    | c :: cs => match find_column c cols with
                 | None => Err (KeyError "columns")
                 | Some v => let! r := pick_columns cs cols in Ok ((c, v) :: r)
                 end
    end.
  (** data/base.py:656-664: one symbol's old and new rows. A Series asked for columns of a frame is
      taken to have no such rows (simplified: they are looked up among its row labels) *)
  Definition append (old new : obj) : res obj :=
    match old with
    | Series n i vs =>
        match new with
        | Series m j ws => Ok (drop_dups (Series (if name_eqb n m then n else None) (i ++ j) (vs ++ ws)))
        | DataFrame j cols =>
            match n with
            | None => Err (KeyError "None")
            | Some a => match find_column a cols with
                        | None => Err (KeyError "column")
                        | Some ws => Ok (drop_dups (Series n (i ++ j) (vs ++ ws)))
                        end
            end
        end
    | DataFrame i cols =>
        match new with
        | Series _ _ _ => Err (KeyError "columns")
        | DataFrame j cols' =>
            let! picked := pick_columns (map fst cols) cols' in
            Ok (drop_dups (DataFrame (i ++ j) (map (fun p => (fst (fst p), snd (fst p) ++ snd (snd p))) (combine cols picked))))
        end
    end.

  (** data/base.py:634-640: arrays are numbered on from the last row, which they replace *)
  Definition new_rows (old : obj) (r : raw) : res obj :=
    match r with
    | Pandas o => Ok o
    | _ => match rev (index_of old) with
           | [] => Err (IndexError "index -1 is out of bounds")
           | Number z :: _ => Ok (to_pandas z r)
           | _ => Err (TypeError "Addition of integers and timestamps is not supported")
           end
    end.
  Fixpoint update_each {V} (update_symbol : string -> list (string * V) -> res raw) (kwargs : list (string * kwarg V))
      (tz_localize tz_convert : option zone) (olds : list (string * obj)) : res (list (string * obj)) :=
    match olds with
    | [] => Ok []
    | (k, v) :: olds' =>
        let! r := update_symbol k (select_symbol_kwargs k kwargs) in
        let! o := new_rows v r in
        let! o' := to_zone tz_localize tz_convert o in
        let! rest := update_each update_symbol kwargs tz_localize tz_convert olds' in Ok ((k, o') :: rest)
    end.
  Fixpoint append_each (olds news : list (string * obj)) : res (list (string * obj)) :=
    match news with
    | [] => Ok []
    | (k, v) :: news' =>
        match dict_get olds k with
        | None => Err (KeyError "symbol")
        | Some old => let! w := append old v in let! rest := append_each olds news' in Ok ((k, w) :: rest)
        end
    end.
  (** data/base.py:611-668 Data.update *)
  Definition update {V} (d : data) (update_symbol : string -> list (string * V) -> res raw) (kwargs : list (string * kwarg V)) : res data :=
    let! news := update_each update_symbol kwargs (d_localize d) (d_convert d) (d_data d) in
    let! a := align_index news (d_missing_index d) in
    let! b := align_columns a (d_missing_columns d) in
    let! c := append_each (d_data d) b in
    match c with
    | [] => Err (IndexError "list index out of range")
    | (_, first) :: _ => new_data (mkData c (index_of first) (d_localize d) (d_convert d) (d_missing_index d) (d_missing_columns d))
    end.

  (** data/base.py:670-694 Data.concat: one frame with a column per symbol for every column (a Series
      per column if there is one symbol). The frames start out empty over the index of the first
      symbol; assigning a Series aligns it to that index *)
  Definition column_of (o : obj) (c : label) : res (list label * list T) :=
    match o with
    | Series _ i vs => Ok (i, vs)
    | DataFrame i cols => match find_column c cols with Some vs => Ok (i, vs) | None => Err (KeyError "column") end
    end.
  Fixpoint symbol_columns (index : list label) (c : label) (ds : list (string * obj)) : res (list (label * list T)) :=
    match ds with
    | [] => Ok []
    | (s, o) :: ds' =>
        let! iv := column_of o c in
        let! rest := symbol_columns index c ds' in
        Ok ((Name s, reindex_values (fst iv) index (snd iv)) :: rest)
    end.
  Definition concat_one (index : list label) (ds : list (string * obj)) (c : label) : res obj :=
    match ds with
    | [(s, o)] => let! iv := column_of o c in Ok (Series (Some (Name s)) index (reindex_values (fst iv) index (snd iv)))
    | _ => let! cols := symbol_columns index c ds in Ok (DataFrame index cols)
    end.
  (** the columns of the first symbol: those of a frame, or the name of a Series *)
  Definition first_columns (o : obj) : list (option label) :=
    match o with Series n _ _ => [n] | DataFrame _ cols => map (fun c => Some (fst c)) cols end.
  Fixpoint concat_each (index : list label) (ds : list (string * obj)) (cs : list (option label)) : res (list (option label * obj)) :=
    match cs with
    | [] => Ok []
    | c :: cs' =>
        let! o := concat_one index ds (match c with Some a => a | None => Number 0 end) in
        let! rest := concat_each index ds cs' in Ok ((c, o) :: rest)
    end.
  Definition concat (d : data) : res (list (option label * obj)) :=
    match d_data d with
    | [] => Err (IndexError "list index out of range")
    | (_, first) :: _ => concat_each (index_of first) (d_data d) (first_columns first)
    end.

  (** data/base.py:696-722 Data.get, of no column or of one *)
  Inductive got := One (o : obj) | Many (os : list obj).
  Fixpoint find_got (c : label) (l : list (option label * obj)) : option obj :=
    match l with
    | [] => None
    | (d, o) :: l' => if name_eqb (Some c) d then Some o else find_got c l'
    end.
  Definition get (d : data) (column : option label) : res got :=
    match d_data d with
    | [(_, o)] =>
        match column with
        | None => Ok (One o)
        | Some c => match o with
                    | Series _ _ _ => Err (KeyError "column")
                    | DataFrame i cols => match find_column c cols with
                                          | Some vs => Ok (One (Series (Some c) i vs))
                                          | None => Err (KeyError "column")
                                          end
                    end
        end
    | _ =>
        let! cd := concat d in
        match cd with
        | [(_, single)] =>
            match column, single with
            | Some c, DataFrame i cols =>
                match find_column c cols with Some vs => Ok (One (Series (Some c) i vs)) | None => Ok (One single) end
            | _, _ => Ok (One single)
            end
        | _ => match column with
               | None => Ok (Many (map snd cd))
               | Some c => match find_got c cd with Some o => Ok (One o) | None => Err (KeyError "column") end
               end
        end
    end.
End Data.
Arguments ForAll {V}. Arguments PerSymbol {V}.
