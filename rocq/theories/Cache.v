(** * Caching of properties and methods
    Model of vectorbt/utils/decorators.py:104-460.

    A function that is decorated reads other decorated functions of other
    instances and returns or raises: a computation tree. It does not change
    instances, the settings or the caches by itself, which is what the code
    assumes ("the instance won't change"), and does not catch exceptions of
    what it reads. Running takes fuel: [None] stands for a computation that
    does not end. Threads are in [CacheThreads.v]. *)
From Coq Require Import String ZArith Bool List Arith.
From Verif Require Import Base.
Import ListNotations.
Local Open Scope list_scope.
Local Open Scope nat_scope.

(** ** Functions, instances, conditions *)
(** [cached_property] or [cached_method(maxsize, typed)]
    vectorbt/utils/decorators.py:295-324,395-403,447-452 *)
Inductive Kind := KProperty | KMethod (maxsize : option nat) (typed : bool).
Record Fn := mkFn {
  f_id : nat;           (* which function *)
  f_name : string;      (* its name, which also names the attribute of the cache *)
  f_kind : Kind;
  f_flags : list (string * Z)
}.
(** what the conditions look at in an instance: itself, its class, the
    classes it is an instance of *)
Record Inst := mkInst { i_id : nat; i_cls : nat * string; i_bases : list (nat * string) }.

(** [func]: a cached property, a function with attribute [func] such as a
    cached method, a string, something else
    vectorbt/utils/decorators.py:104-123 *)
Inductive FuncRef := FProperty (id : nat) | FMethod (id : nat) | FName (s : string) | FOther.
Inductive ClassRef := CClass (id : nat) | CName (s : string) | COther.
Record Cond := mkCond {
  q_instance : option nat;
  q_func : option FuncRef;
  q_cls : option ClassRef;
  q_base : option ClassRef;
  q_flags : option (list (string * Z));
  q_rank : option Z
}.
Record Settings := mkSettings { s_enabled : bool; s_white : list Cond; s_black : list Cond }.

Definition start_rank : Z := 100.
Definition func_error := TypeError "func must be either a callable or a string".
Definition cls_error := TypeError "cls must be either a class or a string".
Definition base_error := TypeError "base_cls must be either a class or a string".

Definition flag_holds (flags : list (string * Z)) (kv : string * Z) : bool :=
  existsb (fun kv' => String.eqb (fst kv) (fst kv') && Z.eqb (snd kv) (snd kv')) flags.

(** Does the function match? A cached property passes its plain function,
    which has no attribute [func]: naming a cached method in a condition then
    ends in the last branch. A cached method passes itself.
    vectorbt/utils/decorators.py:203-214,329,412-415 *)
Definition func_matches (f : Fn) (r : FuncRef) : res bool :=
  match r, f_kind f with
  | FProperty id, KProperty => Ok (Nat.eqb (f_id f) id)
  | FProperty _, KMethod _ _ => Ok false
  | FMethod id, KMethod _ _ => Ok (Nat.eqb (f_id f) id)
  | FMethod _, KProperty => Err func_error
  | FName s, _ => Ok (String.eqb (f_name f) s)
  | FOther, _ => Err func_error
  end.
(** vectorbt/utils/decorators.py:215-223 *)
Definition cls_matches (i : Inst) (r : ClassRef) : res bool :=
  match r with
  | CClass id => Ok (Nat.eqb (fst (i_cls i)) id)
  | CName s => Ok (String.eqb (snd (i_cls i)) s)
  | COther => Err cls_error
  end.
(** vectorbt/utils/decorators.py:224-229 *)
Definition base_matches (i : Inst) (r : ClassRef) : res bool :=
  match r with
  | CClass id => Ok (existsb (fun b => Nat.eqb (fst b) id) (i_bases i))
  | CName s => Ok (existsb (fun b => String.eqb (snd b) s) (i_bases i))
  | COther => Err base_error
  end.
Definition given {A} (o : option A) : bool := match o with Some _ => true | None => false end.
Definition opt_matches {A} (m : A -> res bool) (o : option A) : res bool := match o with Some a => m a | None => Ok true end.

(** vectorbt/utils/decorators.py:196-275 *)
Definition condition_rank (f : Fn) (i : Inst) (c : Cond) : res Z :=
  if match q_instance c with Some j => negb (Nat.eqb (i_id i) j) | None => false end then Ok start_rank else
  let! mf := opt_matches (func_matches f) (q_func c) in
  if negb mf then Ok start_rank else
  let! mc := opt_matches (cls_matches i) (q_cls c) in
  if negb mc then Ok start_rank else
  let! mb := opt_matches (base_matches i) (q_base c) in
  if negb mb then Ok start_rank else
  if match q_flags c with Some fl => negb (forallb (flag_holds (f_flags f)) fl) | None => false end then Ok start_rank else
  let ranks k := match q_rank c with Some r => r | None => k end in
  Ok (if given (q_instance c) && given (q_func c) then ranks 0%Z
      else if given (q_instance c) && given (q_flags c) then ranks 1%Z
      else if given (q_instance c) then ranks 2%Z
      else if given (q_cls c) && given (q_func c) then ranks 3%Z
      else if given (q_cls c) && given (q_flags c) then ranks 4%Z
      else if given (q_cls c) then ranks 5%Z
      else if given (q_base c) && given (q_func c) then ranks 6%Z
      else if given (q_base c) && given (q_flags c) then ranks 7%Z
      else if given (q_base c) then ranks 8%Z
      else if given (q_func c) && given (q_flags c) then ranks 9%Z
      else if given (q_func c) then ranks 10%Z
      else if given (q_flags c) then ranks 11%Z
      else start_rank).
Definition best_rank (f : Fn) (i : Inst) (cs : list Cond) : res Z :=
  foldM (fun best c => let! r := condition_rank f i c in Ok (Z.min best r)) start_rank cs.
(** vectorbt/utils/decorators.py:126,277-289 *)
Definition should_cache (s : Settings) (f : Fn) (i : Inst) : res bool :=
  let! w := best_rank f i (s_white s) in
  let! b := best_rank f i (s_black s) in
  Ok (if Z.eqb w b then s_enabled s else Z.ltb w b).

(** ** Computations *)
Section Values.
  Context {V A : Type}.
  (** [same typed a b]: the arguments make equal keys; [hashable a] *)
  Variable same : bool -> A -> A -> bool.
  Variable hashable : A -> bool.

  Inductive Comp :=
  | Return (v : V)
  | Throw (e : err)
  | Read (f : Fn) (i : Inst) (a : A) (k : V -> Comp).
  Variable body : nat -> Inst -> A -> Comp.

  (** without any caching *)
  Fixpoint run (fuel : nat) (c : Comp) : option (res V) :=
    match c with
    | Return v => Some (Ok v)
    | Throw e => Some (Err e)
    | Read f i a k =>
        match fuel with
        | O => None
        | S fuel =>
            match run fuel (body (f_id f) i a) with
            | Some (Ok v) => run fuel (k v)
            | Some (Err e) => Some (Err e)
            | None => None
            end
        end
    end.

  (** The attributes of instances that hold cached values, or for methods the
      function made by lru_cache: it calls the function that it was made for
      and keeps results, the last used first. *)
  Inductive Entry := EValue (v : V) | EMethod (owner : Fn) (results : list (A * V)).
  Definition Caches := list ((nat * string) * Entry).
  Definition same_slot (x y : nat * string) : bool := Nat.eqb (fst x) (fst y) && String.eqb (snd x) (snd y).
  Fixpoint look (cs : Caches) (slot : nat * string) : option Entry :=
    match cs with
    | [] => None
    | (s, e) :: cs' => if same_slot slot s then Some e else look cs' slot
    end.
  Fixpoint drop (cs : Caches) (slot : nat * string) : Caches :=
    match cs with
    | [] => []
    | (s, e) :: cs' => if same_slot slot s then drop cs' slot else (s, e) :: drop cs' slot
    end.
  Definition put (cs : Caches) (slot : nat * string) (e : Entry) : Caches := (slot, e) :: drop cs slot.
  Definition slot_of (f : Fn) (i : Inst) : nat * string := (i_id i, f_name f).

  (** functools.lru_cache: a hit moves the result to the front; a new result
      is put there unless the key appeared meanwhile, and the last goes. *)
  Fixpoint lru_find (typed : bool) (l : list (A * V)) (a : A) : option (A * V) :=
    match l with
    | [] => None
    | (b, v) :: l' => if same typed a b then Some (b, v) else lru_find typed l' a
    end.
  Fixpoint lru_remove (typed : bool) (l : list (A * V)) (a : A) : list (A * V) :=
    match l with
    | [] => []
    | (b, v) :: l' => if same typed a b then l' else (b, v) :: lru_remove typed l' a
    end.
  Definition lru_hit (typed : bool) (l : list (A * V)) (a : A) (e : A * V) : list (A * V) := e :: lru_remove typed l a.
  Definition lru_add (maxsize : option nat) (typed : bool) (l : list (A * V)) (a : A) (v : V) : list (A * V) :=
    match lru_find typed l a with
    | Some _ => l
    | None => match maxsize with Some n => firstn n ((a, v) :: l) | None => (a, v) :: l end
    end.
  Definition limits (owner : Fn) : option nat * bool :=
    match f_kind owner with KMethod maxsize typed => (maxsize, typed) | KProperty => (None, false) end.

  Definition wrong_entry := TypeError "the attribute holds something else".
  (** Reading with caching. An attribute with an entry of the other kind, of a
      property and a method with the same name, is not modelled further.
      vectorbt/utils/decorators.py:326-340,407-440 *)
  Fixpoint crun (s : Settings) (fuel : nat) (cs : Caches) (c : Comp) : Caches * option (res V) :=
    match c with
    | Return v => (cs, Some (Ok v))
    | Throw e => (cs, Some (Err e))
    | Read f i a k =>
        match fuel with
        | O => (cs, None)
        | S fuel =>
            let '(cs1, r) :=
              match should_cache s f i with
              | Err e => (cs, Some (Err e))
              | Ok false => crun s fuel cs (body (f_id f) i a)
              | Ok true =>
                  match f_kind f with
                  | KProperty =>
                      match look cs (slot_of f i) with
                      | Some (EValue v) => (cs, Some (Ok v))
                      | Some (EMethod _ _) => (cs, Some (Err wrong_entry))
                      | None =>
                          match crun s fuel cs (body (f_id f) i a) with
                          | (cs1, Some (Ok v)) => (put cs1 (slot_of f i) (EValue v), Some (Ok v))
                          | other => other
                          end
                      end
                  | KMethod _ _ =>
                      let cs0 := match look cs (slot_of f i) with None => put cs (slot_of f i) (EMethod f []) | Some _ => cs end in
                      if negb (hashable a) then crun s fuel cs0 (body (f_id f) i a)
                      else
                        match look cs0 (slot_of f i) with
                        | Some (EMethod owner l) =>
                            let '(maxsize, typed) := limits owner in
                            match lru_find typed l a with
                            | Some (b, v) => (put cs0 (slot_of f i) (EMethod owner (lru_hit typed l a (b, v))), Some (Ok v))
                            | None =>
                                match crun s fuel cs0 (body (f_id owner) i a) with
                                | (cs1, Some (Ok v)) =>
                                    match look cs1 (slot_of f i) with
                                    | Some (EMethod _ l1) => (put cs1 (slot_of f i) (EMethod owner (lru_add maxsize typed l1 a v)), Some (Ok v))
                                    | _ => (cs1, Some (Ok v))
                                    end
                                | other => other
                                end
                            end
                        | _ => (cs0, Some (Err wrong_entry))
                        end
                  end
              end in
            match r with
            | Some (Ok v) => crun s fuel cs1 (k v)
            | other => (cs1, other)
            end
        end
    end.

  (** ** Programs: reads, clearing of caches, changes of settings
      vectorbt/utils/decorators.py:313-316,442-445 *)
  Inductive Event := Get (f : Fn) (i : Inst) (a : A) | Clear (f : Fn) (i : Inst) | Configure (s : Settings).
  Fixpoint program (fuel : nat) (s : Settings) (cs : Caches) (es : list Event) : Caches * list (option (res V)) :=
    match es with
    | [] => (cs, [])
    | Get f i a :: es' =>
        let '(cs1, r) := crun s fuel cs (Read f i a Return) in
        let '(cs2, rs) := program fuel s cs1 es' in (cs2, r :: rs)
    | Clear f i :: es' => program fuel s (drop cs (slot_of f i)) es'
    | Configure s' :: es' => program fuel s' cs es'
    end.
End Values.
