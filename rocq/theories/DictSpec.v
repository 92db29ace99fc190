(** * Vocabulary for dictionaries: trees, merging, paths *)
From Coq Require Import String ZArith Bool List Arith.
From Verif Require Import Base Dicts.
Import ListNotations.
Local Open Scope list_scope.
Local Open Scope nat_scope.

(** ** What a dictionary holds, all levels down *)
Inductive Tree := TAtom (z : Z) | TDict (atomic : bool) (items : list (string * Tree)).

Definition keys {V} (items : list (string * V)) : list string := map fst items.

(** [denotes kind h v t]: in heap [h] the value [v] is the tree [t], made of
    objects of the given kind. A dictionary nested in itself has no tree. *)
Fixpoint denotes (kind : Obj -> Prop) (h : Heap) (v : Val) (t : Tree) {struct t} : Prop :=
  match t with
  | TAtom z => v = VAtom z
  | TDict atomic ts =>
      exists a o, v = VRef a /\ nth_error h a = Some o /\ kind o /\ o_atomic o = atomic /\ NoDup (keys ts) /\
      (fix items its ts {struct ts} := match its, ts with
        | [], [] => True
        | (k, v) :: its, (k', t) :: ts => k = k' /\ denotes kind h v t /\ items its ts
        | _, _ => False
        end) (o_items o) ts
  end.
Definition any_dict (o : Obj) : Prop := True.
Definition no_config (o : Obj) : Prop := o_cfg o = None.

(** levels of dictionaries *)
Fixpoint depth (t : Tree) : nat :=
  match t with
  | TAtom _ => 0
  | TDict _ ts => S ((fix deepest ts := match ts with [] => 0 | (_, t) :: ts => Nat.max (depth t) (deepest ts) end) ts)
  end.

(** ** Merging *)
Definition is_dict (t : Tree) : Prop := exists b l, t = TDict b l.
(** a dictionary that is not to be treated as one value *)
Definition is_open (t : Tree) : Prop := exists l, t = TDict false l.

(** [overlay t1 t2 t]: [t] has the keys of both; a key of one only keeps its
    value, and for a key of both the second wins unless both values are
    dictionaries to look into, which are overlaid in turn. *)
Inductive overlay : Tree -> Tree -> Tree -> Prop :=
| overlay_dicts : forall b1 b2 l1 l2 l, NoDup (keys l) ->
    (forall k, In k (keys l) <-> In k (keys l1) \/ In k (keys l2)) ->
    (forall k t, In (k, t) l -> ~ In k (keys l2) -> In (k, t) l1) ->
    (forall k t, In (k, t) l -> ~ In k (keys l1) -> In (k, t) l2) ->
    (forall k t1 t2 t, In (k, t1) l1 -> In (k, t2) l2 -> In (k, t) l ->
      (is_dict t1 /\ is_open t2 /\ overlay t1 t2 t) \/ (~ (is_dict t1 /\ is_open t2) /\ t = t2)) ->
    overlay (TDict b1 l1) (TDict b2 l2) (TDict b1 l).

(** Two dictionaries are overlaid unless one is to be treated as one value. *)
Definition merge_of_two (t1 t2 t : Tree) : Prop :=
  (is_open t1 /\ is_open t2 /\ overlay t1 t2 t) \/ (~ (is_open t1 /\ is_open t2) /\ t = t2).
(** The same with the keys of the first only *)
Definition merge_on_first_keys (t1 t2 t : Tree) : Prop :=
  exists l1 l2 l2', t1 = TDict false l1 /\ t2 = TDict false l2 /\
    (forall kt, In kt l2' <-> In kt l2 /\ In (fst kt) (keys l1)) /\ overlay t1 (TDict false l2') t.
(** From left to right *)
Inductive merge_of (two : Tree -> Tree -> Tree -> Prop) : list Tree -> Tree -> Prop :=
| merge_of_pair : forall t1 t2 t, two t1 t2 t -> merge_of two [t1; t2] t
| merge_of_more : forall t1 t2 t12 t3 rest t, two t1 t2 t12 -> merge_of two (t12 :: t3 :: rest) t ->
    merge_of two (t1 :: t2 :: t3 :: rest) t.

(** ** Paths *)
Inductive at_path : Tree -> list string -> Tree -> Prop :=
| at_here : forall t, at_path t [] t
| at_below : forall b l k t p u, In (k, t) l -> at_path t p u -> at_path (TDict b l) (k :: p) u.
(** a value that merging does not look into *)
Definition is_leaf (t : Tree) : Prop := ~ is_open t.
(** following the path one meets a dictionary that has not the next key *)
Inductive silent : Tree -> list string -> Prop :=
| silent_here : forall l k p, ~ In k (keys l) -> silent (TDict false l) (k :: p)
| silent_below : forall l k t p, In (k, t) l -> silent t p -> silent (TDict false l) (k :: p).

(** ** Arguments *)
Definition argument (h : Heap) (d : option nat) (t : Tree) : Prop :=
  match d with Some a => denotes any_dict h (VRef a) t | None => t = TDict false [] end.
(** no object that was there before has changed *)
Definition unchanged (h h' : Heap) : Prop := forall a o, nth_error h a = Some o -> nth_error h' a = Some o.

(** ** Configs and calls *)
Definition read_only (o : Obj) : Prop := exists c, o_cfg o = Some c /\ c_readonly c = true.
Definition frozen (o : Obj) : Prop := exists c, o_cfg o = Some c /\ c_frozen c = true.
(** a call of a method that [Config] defines, without [force] *)
Definition unforced (call : nat * Op * bool) : Prop :=
  match call with
  | (_, OSetDefault _ _, _) | (_, OIor _, _) => False
  | (_, _, force) => force = false
  end.
Definition is_reset (call : nat * Op * bool) : Prop := snd (fst call) = OReset.

(** ** Attributes *)
(** every dictionary has each key once, and the attributes of a config with
    attribute access are its items *)
Definition mirrored (h : Heap) : Prop :=
  forall a o, nth_error h a = Some o ->
    NoDup (keys (o_items o)) /\ forall c, o_cfg o = Some c -> c_as_attrs c = true -> o_attrs o = o_items o.
(** a call of a method that [Config] defines *)
Definition overridden (call : nat * Op * bool) : Prop :=
  match snd (fst call) with OSetDefault _ _ | OIor _ => False | _ => True end.

(** ** Histories of a program that holds some dictionaries *)
(** every reference leads to an object *)
Definition closed (h : Heap) : Prop :=
  forall a o k b, nth_error h a = Some o -> In (k, VRef b) (o_items o) -> b < List.length h.
(** what a program can get hold of by looking up keys *)
Inductive reach (h : Heap) (roots : nat -> Prop) : nat -> Prop :=
| reach_root : forall a, roots a -> reach h roots a
| reach_item : forall a o k b, reach h roots a -> nth_error h a = Some o -> In (k, VRef b) (o_items o) -> reach h roots b.
Definition reach_val (h : Heap) (roots : nat -> Prop) (v : Val) : Prop :=
  match v with VRef a => reach h roots a | VAtom _ => True end.
(** calls that change dictionaries, with arguments the program has *)
Definition edit (h : Heap) (roots : nat -> Prop) (a : nat) (op : Op) : Prop :=
  reach h roots a /\
  match op with
  | OSet _ v | OSetAttr _ v | OSetDefault _ v => reach_val h roots v
  | OUpdate other _ | OIor other => reach h roots other
  | OCopy | OReset | OCheckpoint => False
  | _ => True
  end.
Definition plain_kind (o : Obj) : Prop := o_cfg o = None /\ o_attrs o = [].
(** the items of an object; the dictionaries below are not configs *)
Definition holds (h : Heap) (a : nat) (ts : list (string * Tree)) : Prop :=
  exists o, nth_error h a = Some o /\ NoDup (keys ts) /\
    Forall2 (fun kv kt => fst kv = fst kt /\ denotes plain_kind h (snd kv) (snd kt)) (o_items o) ts.
(** [history a h roots saved h' saved']: any edits of any objects, new
    dictionaries, and resets and checkpoints of config [a]; [saved] is what
    the config held at its creation or last checkpoint. *)
Inductive history (a : nat) : Heap -> (nat -> Prop) -> list (string * Tree) -> Heap -> list (string * Tree) -> Prop :=
| history_end : forall h roots ts, history a h roots ts h ts
| history_edit : forall h roots ts b op force h' ts', edit h roots b op ->
    history a (fst (call b op force h)) roots ts h' ts' -> history a h roots ts h' ts'
| history_new : forall h roots ts items h' ts', (forall k v, In (k, v) items -> reach_val h roots v) ->
    history a (h ++ [plain items]) (fun b => roots b \/ b = List.length h) ts h' ts' -> history a h roots ts h' ts'
| history_reset : forall h roots ts force h1 h' ts', call a OReset force h = (h1, Done tt) ->
    history a h1 roots ts h' ts' -> history a h roots ts h' ts'
| history_checkpoint : forall h roots ts ts1 force h1 h' ts', holds h a ts1 -> depth (TDict false ts1) <= depth_limit ->
    call a OCheckpoint force h = (h1, Done tt) ->
    history a h1 roots ts1 h' ts' -> history a h roots ts h' ts'.
