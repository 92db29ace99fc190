(** * What a data set holds: vocabulary for the properties of Data *)
From Coq Require Import String ZArith Bool List Arith.
From Verif Require Import Base Num Data.
Import ListNotations.

(** labels of one kind have an order; strings are ordered as Python orders them *)
Definition before (a b : label) : Prop :=
  match a, b with
  | Number x, Number y | Clock x, Clock y | Instant x, Instant y => (x < y)%Z
  | Name s, Name t => String.compare s t = Lt
  | _, _ => False
  end.
Definition ascending (l : list label) : Prop :=
  forall i j a b, (i < j)%nat -> nth_error l i = Some a -> nth_error l j = Some b -> before a b.
Definition of_one_kind (l : list label) : Prop := forall a b, In a l -> In b l -> comparable a b = true.
Definition same_set (a b : list label) : Prop := forall r, In r a <-> In r b.

Section Spec.
  Context {T : Type} {N : Num T}.
  Local Notation obj := (@obj T). Local Notation raw := (@raw T). Local Notation data := (@data T).

  Definition rows (o : obj) : list label := match o with Series _ i _ => i | DataFrame i _ => i end.
  (** a Series is one column; without a name it is column 0 *)
  Definition columns (o : obj) : list label :=
    match o with
    | Series (Some n) _ _ => [n]
    | Series None _ _ => [Number 0]
    | DataFrame _ cols => map fst cols
    end.
  (** value [v] stands in column [c] and row [r] *)
  Definition entry (o : obj) (c r : label) (v : T) : Prop :=
    match o with
    | Series n i vs =>
        c = match n with Some a => a | None => Number 0 end /\
        exists k, nth_error i k = Some r /\ nth_error vs k = Some v
    | DataFrame i cols =>
        exists vs k, In (c, vs) cols /\ nth_error i k = Some r /\ nth_error vs k = Some v
    end.
  (** every label once, and a value in every row of every column *)
  Definition proper (o : obj) : Prop :=
    match o with
    | Series _ i vs => NoDup i /\ List.length vs = List.length i
    | DataFrame i cols =>
        NoDup i /\ NoDup (map fst cols) /\ forall c vs, In (c, vs) cols -> List.length vs = List.length i
    end.
  Definition series (o : obj) : Prop := match o with Series _ _ _ => True | DataFrame _ _ => False end.

  (** what is downloaded, as an object: arrays are numbered from [start]; if the whole index tells
      clock times and a zone to read them in is given, every row gets the instant of its clock time;
      otherwise labels stay. If a zone to show instants in is given, clock times are refused *)
  Definition arrays_numbered (start : Z) (r : raw) (o : obj) : Prop :=
    match r with
    | Array1 vs =>
        exists i, o = Series None i vs /\ List.length i = List.length vs /\
          forall k, (k < List.length vs)%nat -> nth_error i k = Some (Number (start + Z.of_nat k))
    | Array2 n cs =>
        exists i cols, o = DataFrame i cols /\ List.length i = n /\
          (forall k, (k < n)%nat -> nth_error i k = Some (Number (start + Z.of_nat k))) /\
          map snd cols = cs /\
          (forall k, (k < List.length cs)%nat -> nth_error (map fst cols) k = Some (Number (Z.of_nat k)))
    | Pandas p => o = p
    end.
  Definition clock_times (l : list label) : Prop := forall a, In a l -> exists t, a = Clock t.
  Definition in_zone (loc conv : option zone) (before_ after : obj) : Prop :=
    (match before_, after with
     | Series n _ vs, Series m _ ws => m = n /\ ws = vs
     | DataFrame _ cs, DataFrame _ ds => ds = cs
     | _, _ => False
     end) /\
    (match loc with
     | Some z => (clock_times (rows before_) ->
                    Forall2 (fun a b => exists t i, a = Clock t /\ b = Instant i /\ z t = Ok i) (rows before_) (rows after)) /\
                 (~ clock_times (rows before_) -> rows after = rows before_)
     | None => rows after = rows before_
     end) /\
    (conv <> None -> rows after <> [] -> ~ clock_times (rows after)).
  Definition read_as (loc conv : option zone) (start : Z) (r : raw) (o : obj) : Prop :=
    exists p, arrays_numbered start r p /\ in_zone loc conv p o.

  (** the rows (or columns) all symbols get, from those of each symbol *)
  Definition joined (missing : mode) (ls : list (list label)) (l : list label) : Prop :=
    NoDup l /\
    match missing with
    | MNan =>
        (forall r, In r l <-> exists x, In x ls /\ In r x) /\
        (* everyone has the same labels: in the order of the first *)
        ((forall x y, In x ls -> In y ls -> same_set x y) -> match ls with f :: _ => l = f | [] => True end) /\
        (* otherwise in ascending order, if labels can be compared and nobody is empty *)
        (forall x y, In x ls -> In y ls -> ~ same_set x y -> ~ In [] ls -> of_one_kind l -> ascending l)
    | MDrop =>
        match ls with
        | f :: _ => exists everyone_has, l = filter everyone_has f /\
                      forall r, In r f -> (everyone_has r = true <-> forall x, In x ls -> In r x)
        | [] => True
        end
    | MRaise | MOther =>
        (forall x y, In x ls -> In y ls -> same_set x y) /\ match ls with f :: _ => l = f | [] => True end
    end.

  (** what a symbol shows of its source once everyone has the rows [rs] and the columns [cs]: its own
      value where it has that row and column, NaN elsewhere *)
  Definition shows (source o : obj) (rs cs : list label) : Prop :=
    rows o = rs /\ columns o = cs /\
    forall c r, In c cs -> In r rs -> forall v,
      (entry o c r v <-> (entry source c r v \/ (~ (In c (columns source) /\ In r (rows source)) /\ v = nan))).

  (** the states a user can meet: all symbols have the same rows and columns, each label once *)
  Definition consistent (d : data) : Prop :=
    d_data d <> [] /\ NoDup (map fst (d_data d)) /\
    (forall s o, In (s, o) (d_data d) -> proper o /\ rows o = d_index d) /\
    (forall s o t p, In (s, o) (d_data d) -> In (t, p) (d_data d) ->
       columns o = columns p /\ (series o <-> series p)).

  Definition all_proper (ds : list (string * obj)) : Prop := forall s o, In (s, o) ds -> proper o.
  (** a Series has room for one column: if differing columns are to be filled with NaN, somebody is a
      frame, or all have the same columns anyway *)
  Definition lossless (missing_columns : mode) (os : list obj) : Prop :=
    missing_columns = MNan ->
    (exists o, In o os /\ ~ series o) \/ (forall o p, In o os -> In p os -> columns o = columns p).
  (** one column of all symbols: a column per symbol, with the values the symbol has in column [c] *)
  Definition side_by_side (d : data) (c : label) (f : obj) : Prop :=
    proper f /\ rows f = d_index d /\ columns f = map (fun kv => Name (fst kv)) (d_data d) /\
    forall s o r v, In (s, o) (d_data d) -> (entry f (Name s) r v <-> entry o c r v).
  Definition key (c : option label) : label := match c with Some a => a | None => Number 0 end.

  (** what an update receives: arrays are numbered on from the last row the symbol has *)
  Definition received (loc conv : option zone) (old : obj) (r : raw) (new : obj) : Prop :=
    exists p, (match r with
               | Pandas o => p = o
               | _ => exists z, nth_error (rows old) (List.length (rows old) - 1) = Some (Number z) /\ arrays_numbered z r p
               end) /\ in_zone loc conv p new.
  (** a symbol after an update that brought everyone the rows [rs]: old rows not among them, in their
      order, then [rs]; there, what was received for this symbol, and NaN where nothing was *)
  Definition after_update (old new : obj) (rs : list label) (o : obj) : Prop :=
    (exists kept, rows o = filter kept (rows old) ++ rs /\ forall r, kept r = true <-> ~ In r rs) /\
    columns o = columns old /\ (series o <-> series old) /\
    forall c r v, In c (columns old) ->
      (~ In r rs -> (entry o c r v <-> entry old c r v)) /\
      (In r rs -> (entry o c r v <->
                   (entry new c r v \/ (~ (In c (columns new) /\ In r (rows new)) /\ v = nan)))).
End Spec.
