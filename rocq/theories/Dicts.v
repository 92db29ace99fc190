(** * Dictionaries and configs in a heap of mutable objects *)
From Coq Require Import String ZArith Bool List Arith.
From Verif Require Import Base.
Import ListNotations.
Local Open Scope list_scope.
Local Open Scope nat_scope.

(** ** Objects
    Values are references to dictionaries or opaque values that no modelled
    function looks into. Keys are strings. *)
Inductive Val := VAtom (z : Z) | VRef (a : nat).

(** copy modes; 'deep' is not modelled
    vectorbt/utils/config.py:98-131 *)
Inductive CopyMode := Shallow | Hybrid.
Record CopyKwargs := mkCopyKwargs { cp_mode : CopyMode; cp_nested : bool }.

(** instance variables of a config; [c_reset] is the address of the dictionary
    to fall back to, [convert_dicts] is used by the constructor only
    vectorbt/utils/config.py:323-330 *)
Record Cfg := mkCfg {
  c_readonly : bool;
  c_frozen : bool;
  c_nested : bool;
  c_as_attrs : bool;
  c_copy : CopyKwargs;
  c_reset_copy : CopyKwargs;
  c_reset : nat
}.

(** A [dict], [atomic_dict] ([o_atomic]), [Config] ([o_cfg]) or [AtomicConfig]
    (both). [o_attrs] is the part of a config's __dict__ that mirrors its
    keys; keys named like methods or instance variables are not modelled. *)
Record Obj := mkObj {
  o_atomic : bool;
  o_cfg : option Cfg;
  o_items : list (string * Val);
  o_attrs : list (string * Val)
}.
Definition Heap := list Obj.

(** ** Python's dict *)
Fixpoint dict_get {V} (items : list (string * V)) (k : string) : option V :=
  match items with
  | [] => None
  | (k', v) :: items' => if String.eqb k k' then Some v else dict_get items' k
  end.
Fixpoint dict_set {V} (items : list (string * V)) (k : string) (v : V) : list (string * V) :=
  match items with
  | [] => [(k, v)]
  | (k', v') :: items' => if String.eqb k k' then (k', v) :: items' else (k', v') :: dict_set items' k v
  end.
Fixpoint dict_del {V} (items : list (string * V)) (k : string) : list (string * V) :=
  match items with
  | [] => []
  | (k', v') :: items' => if String.eqb k k' then items' else (k', v') :: dict_del items' k
  end.
Definition has_key {V} (items : list (string * V)) (k : string) : bool :=
  match dict_get items k with Some _ => true | None => false end.

(** ** Effects
    A computation changes the heap and returns or raises; effects before a
    raise remain. Recursion takes fuel, and Python's RecursionError stands
    for running out of it. *)
Inductive exn := RecursionError | Py (e : err).
Inductive out (A : Type) := Done (a : A) | Raise (e : exn).
Arguments Done {A} a.
Arguments Raise {A} e.
Definition M A := Heap -> Heap * out A.
Definition ret {A} (a : A) : M A := fun h => (h, Done a).
Definition raise {A} (e : exn) : M A := fun h => (h, Raise e).
Definition andThen {A B} (m : M A) (f : A -> M B) : M B :=
  fun h => match m h with (h', Done a) => f a h' | (h', Raise e) => (h', Raise e) end.
Declare Scope heap_scope.
Notation "'do' x '<-' e ';' k" := (andThen e (fun x => k))
  (at level 200, x pattern, e at level 100, k at level 200, right associativity) : heap_scope.
Local Open Scope heap_scope.
Fixpoint each {A} (f : A -> M unit) (l : list A) : M unit :=
  match l with
  | [] => ret tt
  | a :: l' => do _ <- f a; each f l'
  end.

Definition no_such_object := Py (TypeError "not a dict"%string).
Definition load (a : nat) : M Obj :=
  fun h => match nth_error h a with Some o => (h, Done o) | None => (h, Raise no_such_object) end.
Definition store (a : nat) (o : Obj) : M unit := fun h => (upd h a o, Done tt).
Definition alloc (o : Obj) : M nat := fun h => (h ++ [o], Done (List.length h)).
Definition plain (items : list (string * Val)) : Obj := mkObj false None items [].
Definition with_items (o : Obj) (items : list (string * Val)) : Obj := mkObj (o_atomic o) (o_cfg o) items (o_attrs o).

(** [dict(d)] *)
Definition dict_of (a : nat) : M nat := do o <- load a; alloc (plain (o_items o)).

(** ** Setting items *)
(** vectorbt/utils/config.py:478-486; for other dictionaries [dct[k] = v] *)
Definition set_raw (a : nat) (k : string) (v : Val) : M unit :=
  do o <- load a;
  store a (mkObj (o_atomic o) (o_cfg o) (dict_set (o_items o) k v)
    match o_cfg o with
    | Some c => if c_as_attrs c then dict_set (o_attrs o) k v else o_attrs o
    | None => o_attrs o
    end).
Definition denied_readonly := Py (TypeError "Config is read-only"%string).
Definition denied_key := Py (KeyError "Config keys are frozen: key not found"%string).
Definition denied_keys := Py (KeyError "Config keys are frozen"%string).
Definition config_setitem (a : nat) (c : Cfg) (k : string) (v : Val) (force : bool) : M unit :=
  do o <- load a;
  if negb force && c_readonly c then raise denied_readonly
  else if negb force && c_frozen c && negb (has_key (o_items o) k) then raise denied_key
  else set_raw a k v.

(** vectorbt/utils/config.py:87-94 *)
Definition set_dict_item (a : nat) (k : string) (v : Val) (force : bool) : M unit :=
  do o <- load a;
  match o_cfg o with
  | Some c => config_setitem a c k v force
  | None => set_raw a k v
  end.

(** ** Conversion, copies, updates *)
(** The loops read a dictionary that they do not write to, except where one
    is nested in itself: here they always run over the items there were.
    vectorbt/utils/config.py:68-84 *)
Fixpoint convert_to_dict (fuel : nat) (a : nat) (nested : bool) : M nat :=
  match fuel with
  | O => raise RecursionError
  | S fuel =>
      do o <- load a;
      do a' <- alloc (mkObj (o_atomic o) None (o_items o) []);
      if negb nested then ret a'
      else
        do _ <- each (fun kv : string * Val =>
          let '(k, v) := kv in
          match v with
          | VRef c => do c' <- convert_to_dict fuel c nested; set_raw a' k (VRef c')
          | VAtom _ => set_raw a' k v
          end) (o_items o);
        ret a'
  end.

(** [copy.copy] of a dictionary; for a config __copy__: the instance
    variables, then all items set by force
    vectorbt/utils/config.py:552-563 *)
Definition copy_object (a : nat) : M nat :=
  do o <- load a;
  match o_cfg o with
  | None => alloc o
  | Some c =>
      alloc (mkObj (o_atomic o) (Some c) (o_items o)
        (if c_as_attrs c then fold_left (fun attrs kv => dict_set attrs (fst kv) (snd kv)) (o_items o) (o_attrs o) else o_attrs o))
  end.

Definition set_reset (a : nat) (r : nat) : M unit :=
  do o <- load a;
  match o_cfg o with
  | None => ret tt
  | Some c =>
      store a (mkObj (o_atomic o)
        (Some (mkCfg (c_readonly c) (c_frozen c) (c_nested c) (c_as_attrs c) (c_copy c) (c_reset_copy c) r))
        (o_items o) (o_attrs o))
  end.

(** Updating without nesting and by force: every item is set.
    vectorbt/utils/config.py:134-163 *)
Definition force_items (a : nat) (items : list (string * Val)) : M unit :=
  each (fun kv : string * Val => set_dict_item a (fst kv) (snd kv) true) items.

(** [copy_dict], and [Config.copy] called from it, where the given mode and
    nesting replace those of the config. The copy keeps the old dictionary
    to fall back to and the config gets a fresh one.
    vectorbt/utils/config.py:98-131,581-597 *)
Fixpoint copy_dict (fuel : nat) (a : nat) (kw : CopyKwargs) : M nat :=
  match fuel with
  | O => raise RecursionError
  | S fuel =>
      do o <- load a;
      match o_cfg o with
      | Some c =>
          do a' <- copy_object a;
          do r0 <- dict_of (c_reset c);
          do r <- copy_dict fuel r0 kw;
          do _ <- set_reset a r;
          do d0 <- dict_of a;
          do d <- copy_dict fuel d0 kw;
          do od <- load d;
          do _ <- force_items a' (o_items od);
          ret a'
      | None =>
          do a' <- copy_object a;
          do _ <- each (fun kv : string * Val =>
            let '(k, v) := kv in
            match v with
            | VRef c =>
                if cp_nested kw then do c' <- copy_dict fuel c kw; set_dict_item a' k (VRef c') true
                else match cp_mode kw with
                     | Hybrid => do c' <- copy_object c; set_dict_item a' k (VRef c') true
                     | Shallow => set_dict_item a' k v true
                     end
            | VAtom _ => set_dict_item a' k v true
            end) (o_items o);
          ret a'
      end
  end.

(** The recursive call passes neither [nested] nor [same_keys].
    vectorbt/utils/config.py:134-163 *)
Fixpoint update_dict (fuel : nat) (x y : nat) (nested force same_keys : bool) : M unit :=
  match fuel with
  | O => raise RecursionError
  | S fuel =>
      do oy <- load y;
      each (fun kv : string * Val =>
        let '(k, v) := kv in
        do ox <- load x;
        let set := if same_keys && negb (has_key (o_items ox) k) then ret tt else set_dict_item x k v force in
        match dict_get (o_items ox) k, v with
        | Some (VRef xk), VRef c =>
            do oc <- load c;
            if nested && negb (o_atomic oc) then update_dict fuel xk c true force false else set
        | _, _ => set
        end) (o_items oy)
  end.

(** [None] stands for an empty dictionary.
    vectorbt/utils/config.py:72-73 *)
Definition or_empty (d : option nat) : M nat := match d with Some a => ret a | None => alloc (plain []) end.

Fixpoint each_dict (f : nat -> M nat) (ds : list nat) : M (list nat) :=
  match ds with
  | [] => ret []
  | d :: ds' => do d' <- f d; do ds'' <- each_dict f ds'; ret (d' :: ds'')
  end.
Fixpoint resolve_none (ds : list (option nat)) : M (list nat) :=
  match ds with
  | [] => ret []
  | d :: ds' => do d' <- or_empty d; do ds'' <- resolve_none ds'; ret (d' :: ds'')
  end.

(** the class is exactly [dict] and there are no items *)
Definition is_plain (o : Obj) : bool := negb (o_atomic o) && match o_cfg o with None => true | Some _ => false end.

(** one step of merging: vectorbt/utils/config.py:194-203 *)
Definition merge_two (fuel : nat) (x y : nat) (nested same_keys : bool) : M nat :=
  do ox <- load x;
  do oy <- load y;
  if is_plain ox && is_plain oy && match o_items ox with [] => true | _ => false end then ret y
  else if o_atomic ox || o_atomic oy then ret y
  else do _ <- update_dict fuel x y nested true same_keys; ret x.
Fixpoint merge_rest (fuel : nat) (x : nat) (ds : list nat) (nested same_keys : bool) : M nat :=
  match ds with
  | [] => ret x
  | y :: ds' => do x' <- merge_two fuel x y nested same_keys; merge_rest fuel x' ds' nested same_keys
  end.

(** A missing dictionary counts as empty also without conversion, which
    Python does when it copies. One dictionary alone is an IndexError.
    vectorbt/utils/config.py:166-213 *)
Definition merge_dicts (fuel : nat) (dicts : list (option nat)) (to_dict : bool) (copy_mode : option CopyMode)
    (nested same_keys : bool) : M nat :=
  do ds <- resolve_none dicts;
  do ds <- (if to_dict then each_dict (fun d => convert_to_dict fuel d nested) ds else ret ds);
  do ds <- match copy_mode with
           | None => ret ds
           | Some mode =>
               if negb to_dict || match mode with Shallow => false | Hybrid => true end
               then each_dict (fun d => copy_dict fuel d (mkCopyKwargs mode nested)) ds else ret ds
           end;
  match ds with
  | x :: y :: rest => merge_rest fuel x (y :: rest) nested same_keys
  | _ => raise (Py (IndexError "tuple index out of range"%string))
  end.

(** ** Configs *)
(** The constructor after its arguments are resolved. A child that is not a
    config becomes one of the same class and flags.
    vectorbt/utils/config.py:390-444 *)
Fixpoint config_init (fuel : nat) (atomic : bool) (dct : nat) (reset_dct : option nat)
    (readonly frozen nested convert_dicts as_attrs : bool) (copy_kw reset_kw : CopyKwargs) : M nat :=
  match fuel with
  | O => raise RecursionError
  | S fuel =>
      do d0 <- dict_of dct;
      do d <- copy_dict fuel d0 copy_kw;
      do od <- load d;
      do _ <- (if convert_dicts then
                 if negb nested then raise (Py (ValueError "convert_dicts requires nested to be True"%string))
                 else each (fun kv : string * Val =>
                        let '(k, v) := kv in
                        match v with
                        | VRef c =>
                            do oc <- load c;
                            match o_cfg oc with
                            | Some _ => ret tt
                            | None =>
                                do c' <- config_init fuel atomic c None readonly frozen nested convert_dicts as_attrs copy_kw reset_kw;
                                set_raw d k (VRef c')
                            end
                        | VAtom _ => ret tt
                        end) (o_items od)
               else ret tt);
      do r0 <- dict_of match reset_dct with Some r => r | None => d end;
      do r <- copy_dict fuel r0 reset_kw;
      do od <- load d;
      alloc (mkObj atomic (Some (mkCfg readonly frozen nested as_attrs copy_kw reset_kw r)) (o_items od)
               (if as_attrs then o_items od else []))
  end.

(** vectorbt/utils/config.py:492-499 *)
Definition config_delitem (a : nat) (c : Cfg) (k : string) (force : bool) : M unit :=
  if negb force && c_readonly c then raise denied_readonly
  else if negb force && c_frozen c then raise denied_keys
  else
    do o <- load a;
    if has_key (o_items o) k then
      store a (mkObj (o_atomic o) (o_cfg o) (dict_del (o_items o) k)
        (if c_as_attrs c then dict_del (o_attrs o) k else o_attrs o))
    else raise (Py (KeyError k)).

(** vectorbt/utils/config.py:501-505 *)
Definition clear_attrs (o : Obj) (c : Cfg) (items' : list (string * Val)) : list (string * Val) :=
  if c_as_attrs c
  then fold_left (fun attrs kv => if has_key items' (fst kv) then attrs else dict_del attrs (fst kv)) (o_items o) (o_attrs o)
  else o_attrs o.

(** vectorbt/utils/config.py:507-519 *)
Definition config_pop (a : nat) (c : Cfg) (k : string) (default : option Val) (force : bool) : M Val :=
  if negb force && c_readonly c then raise denied_readonly
  else if negb force && c_frozen c then raise denied_keys
  else
    do o <- load a;
    match dict_get (o_items o) k, default with
    | Some v, _ =>
        let items' := dict_del (o_items o) k in
        do _ <- store a (mkObj (o_atomic o) (o_cfg o) items' (clear_attrs o c items')); ret v
    | None, Some v => ret v
    | None, None => raise (Py (KeyError k))
    end.

(** vectorbt/utils/config.py:521-530 *)
Definition config_popitem (a : nat) (c : Cfg) (force : bool) : M (string * Val) :=
  if negb force && c_readonly c then raise denied_readonly
  else if negb force && c_frozen c then raise denied_keys
  else
    do o <- load a;
    match rev (o_items o) with
    | [] => raise (Py (KeyError "popitem(): dictionary is empty"%string))
    | kv :: _ =>
        let items' := removelast (o_items o) in
        do _ <- store a (mkObj (o_atomic o) (o_cfg o) items' (clear_attrs o c items')); ret kv
    end.

(** vectorbt/utils/config.py:532-540 *)
Definition config_clear (a : nat) (c : Cfg) (force : bool) : M unit :=
  if negb force && c_readonly c then raise denied_readonly
  else if negb force && c_frozen c then raise denied_keys
  else do o <- load a; store a (mkObj (o_atomic o) (o_cfg o) [] (clear_attrs o c [])).

(** vectorbt/utils/config.py:542-549 *)
Definition config_update (fuel : nat) (a : nat) (c : Cfg) (other : nat) (nested : option bool) (force : bool) : M unit :=
  do y <- dict_of other;
  update_dict fuel a y match nested with Some b => b | None => c_nested c end force false.

(** vectorbt/utils/config.py:581-597 *)
Definition config_copy (fuel : nat) (a : nat) (c : Cfg) : M nat :=
  do a' <- copy_object a;
  do r0 <- dict_of (c_reset c);
  do r <- copy_dict fuel r0 (c_reset_copy c);
  do _ <- set_reset a r;
  do d0 <- dict_of a;
  do d <- copy_dict fuel d0 (c_copy c);
  do od <- load d;
  do _ <- force_items a' (o_items od);
  ret a'.

(** vectorbt/utils/config.py:611-621 *)
Definition config_reset (fuel : nat) (a : nat) (c : Cfg) (force : bool) : M unit :=
  if negb force && c_readonly c then raise denied_readonly
  else
    do r0 <- dict_of (c_reset c);
    do r <- copy_dict fuel r0 (c_reset_copy c);
    do _ <- config_clear a c true;
    do ores <- load (c_reset c);
    do _ <- force_items a (o_items ores);
    set_reset a r.

(** vectorbt/utils/config.py:623-631 *)
Definition config_make_checkpoint (fuel : nat) (a : nat) (c : Cfg) (force : bool) : M unit :=
  if negb force && c_readonly c then raise denied_readonly
  else
    do r0 <- dict_of a;
    do r <- copy_dict fuel r0 (c_reset_copy c);
    set_reset a r.

(** ** Calls on an object
    [OSetDefault] and [OIor] ([d |= other]) are not overridden by [Config] and
    are those of [dict]. [OSetAttr] and [ODelAttr] act on configs only.
    vectorbt/utils/config.py:474-476,488-490 *)
Inductive Op :=
| OSet (k : string) (v : Val)
| ODel (k : string)
| OSetAttr (k : string) (v : Val)
| ODelAttr (k : string)
| OPop (k : string) (default : option Val)
| OPopItem
| OClear
| OUpdate (other : nat) (nested : option bool)
| OCopy
| OReset
| OCheckpoint
| OToDict (nested : bool)
| OSetDefault (k : string) (v : Val)
| OIor (other : nat).

Definition skip_result {A} (m : M A) : M unit := do _ <- m; ret tt.

(** the same calls on a [dict] that is not a config *)
Definition dict_call (fuel : nat) (a : nat) (o : Obj) (op : Op) : M unit :=
  match op with
  | OSet k v => set_raw a k v
  | ODel k => if has_key (o_items o) k then store a (with_items o (dict_del (o_items o) k)) else raise (Py (KeyError k))
  | OPop k d =>
      if has_key (o_items o) k then store a (with_items o (dict_del (o_items o) k))
      else match d with Some _ => ret tt | None => raise (Py (KeyError k)) end
  | OPopItem => match o_items o with [] => raise (Py (KeyError "popitem"%string)) | _ => store a (with_items o (removelast (o_items o))) end
  | OClear => store a (with_items o [])
  | OUpdate other _ => do oo <- load other; store a (with_items o (fold_left (fun d kv => dict_set d (fst kv) (snd kv)) (o_items oo) (o_items o)))
  | OCopy => skip_result (copy_object a)
  | OToDict _ | OReset | OCheckpoint | OSetAttr _ _ | ODelAttr _ => raise (Py (TypeError "no such method"%string))
  | OSetDefault k v => if has_key (o_items o) k then ret tt else store a (with_items o (o_items o ++ [(k, v)]))
  | OIor other => do oo <- load other; store a (with_items o (fold_left (fun d kv => dict_set d (fst kv) (snd kv)) (o_items oo) (o_items o)))
  end.

(** Python's limit on nested calls *)
Definition depth_limit : nat := 1000.

Definition call (a : nat) (op : Op) (force : bool) : M unit :=
  do o <- load a;
  match o_cfg o with
  | None => dict_call depth_limit a o op
  | Some c =>
      match op with
      | OSet k v => config_setitem a c k v force
      | ODel k => config_delitem a c k force
      | OSetAttr k v => if c_as_attrs c then config_setitem a c k v false else ret tt
      | ODelAttr k => if c_as_attrs c then config_delitem a c k false else ret tt
      | OPop k d => skip_result (config_pop a c k d force)
      | OPopItem => skip_result (config_popitem a c force)
      | OClear => config_clear a c force
      | OUpdate other nested => config_update depth_limit a c other nested force
      | OCopy => skip_result (config_copy depth_limit a c)
      | OReset => config_reset depth_limit a c force
      | OCheckpoint => config_make_checkpoint depth_limit a c force
      | OToDict nested => skip_result (convert_to_dict depth_limit a nested)
      | OSetDefault k v => if has_key (o_items o) k then ret tt else store a (with_items o (o_items o ++ [(k, v)]))
      | OIor other => do oo <- load other; store a (with_items o (fold_left (fun d kv => dict_set d (fst kv) (snd kv)) (o_items oo) (o_items o)))
      end
  end.

(** A program makes one call after another, on any objects, and goes on after
    exceptions. *)
Fixpoint calls (h : Heap) (ops : list (nat * Op * bool)) : Heap :=
  match ops with
  | [] => h
  | (a, op, force) :: ops' => calls (fst (call a op force h)) ops'
  end.
