(** * What the theorems about caching say *)
From Coq Require Import String ZArith Bool List Arith.
From Verif Require Import Base Cache.
Import ListNotations.
Local Open Scope list_scope.

(** ** Conditions *)
(** A condition is well formed if what it names can be compared: a name, a
    cached property, a class. *)
Definition named (c : Cond) : Prop :=
  (q_func c = None \/ (exists s, q_func c = Some (FName s)) \/ (exists id, q_func c = Some (FProperty id))) /\
  q_cls c <> Some COther /\ q_base c <> Some COther.
Definition sound (s : Settings) : Prop := forall c, In c (s_white s) \/ In c (s_black s) -> named c.

Definition is_func (f : Fn) (r : FuncRef) : Prop :=
  match r with
  | FName s => f_name f = s
  | FProperty id => f_kind f = KProperty /\ f_id f = id
  | _ => False
  end.
Definition is_class (c : nat * string) (r : ClassRef) : Prop :=
  match r with CClass id => fst c = id | CName s => snd c = s | COther => False end.
(** All that the condition mentions is the case. *)
Definition applies (f : Fn) (i : Inst) (c : Cond) : Prop :=
  (forall j, q_instance c = Some j -> i_id i = j) /\
  (forall r, q_func c = Some r -> is_func f r) /\
  (forall r, q_cls c = Some r -> is_class (i_cls i) r) /\
  (forall r, q_base c = Some r -> exists b, In b (i_bases i) /\ is_class b r) /\
  (forall fl k v, q_flags c = Some fl -> In (k, v) fl -> In (k, v) (f_flags f)).
(** The documented ranking: first by instance, class, base class or none of
    them, then by function, flags or neither. *)
Definition place (c : Cond) : Z :=
  (match q_instance c, q_cls c, q_base c with
   | Some _, _, _ => match q_func c, q_flags c with Some _, _ => 0 | None, Some _ => 1 | None, None => 2 end
   | None, Some _, _ => match q_func c, q_flags c with Some _, _ => 3 | None, Some _ => 4 | None, None => 5 end
   | None, None, Some _ => match q_func c, q_flags c with Some _, _ => 6 | None, Some _ => 7 | None, None => 8 end
   | None, None, None => match q_func c, q_flags c with Some _, Some _ => 9 | Some _, None => 10 | None, _ => 11 end
   end)%Z.
Definition says_something (c : Cond) : Prop :=
  q_instance c <> None \/ q_cls c <> None \/ q_base c <> None \/ q_func c <> None \/ q_flags c <> None.
Definition rank_of (c : Cond) : Z := match q_rank c with Some r => r | None => place c end.
Definition counts (f : Fn) (i : Inst) (c : Cond) : Prop := applies f i c /\ says_something c /\ (rank_of c < 100)%Z.
(** The best condition of the one list is better than all of the other. *)
Definition beats (f : Fn) (i : Inst) (these those : list Cond) : Prop :=
  exists c, In c these /\ counts f i c /\ (forall d, In d those -> counts f i d -> (rank_of c < rank_of d)%Z).

(** ** Values *)
Section Values.
  Context {V A : Type}.
  Variable no_args : A.
  Variable same : bool -> A -> A -> bool.
  Variable hashable : A -> bool.
  Variable body : nat -> Inst -> A -> @Comp V A.
  (** the instances, and the function an instance has under a name *)
  Variable inst_of : nat -> Inst.
  Variable fn_of : nat -> string -> Fn.

  (** [direct c r]: without caching the computation ends with [r]. *)
  Definition direct (c : @Comp V A) (r : res V) : Prop := exists n, run body n c = Some r.
  (** A read of an instance's function by its name; properties have no arguments. *)
  Definition regular_read (f : Fn) (i : Inst) (a : A) : Prop :=
    i = inst_of (i_id i) /\ f = fn_of (i_id i) (f_name f) /\ (f_kind f = KProperty -> a = no_args).
  Inductive regular : @Comp V A -> Prop :=
  | regular_return : forall v, regular (Return v)
  | regular_throw : forall e, regular (Throw e)
  | regular_get : forall f i a k, regular_read f i a -> (forall v, regular (k v)) -> regular (Read f i a k).
  Definition regular_bodies : Prop := forall f i a, regular_read f i a -> regular (body (f_id f) i a).
  (** Arguments that make the same key make the same result. *)
  Definition keys_tell : Prop :=
    forall f i a b r maxsize typed,
      regular_read f i a -> f_kind f = KMethod maxsize typed -> same typed a b = true ->
      (direct (body (f_id f) i a) r <-> direct (body (f_id f) i b) r).
  Definition regular_event (e : Event) : Prop :=
    match e with Get f i a => regular_read f i a | Clear _ _ => True | Configure s => sound s end.
  (** what the reads of a program give without caching *)
  Fixpoint uncached (n : nat) (es : list (@Event A)) : list (option (res V)) :=
    match es with
    | [] => []
    | Get f i a :: es' => run body n (Read f i a Return) :: uncached n es'
    | _ :: es' => uncached n es'
    end.
  (** every cached value is what its function returns *)
  Definition truthful (cs : @Caches V A) : Prop :=
    forall i name,
      match look cs (i, name) with
      | None => True
      | Some (EValue v) => f_kind (fn_of i name) = KProperty /\ direct (body (f_id (fn_of i name)) (inst_of i) no_args) (Ok v)
      | Some (EMethod owner l) =>
          owner = fn_of i name /\ f_kind owner <> KProperty /\
          (forall a v, In (a, v) l -> direct (body (f_id owner) (inst_of i) a) (Ok v)) /\
          (forall n typed, f_kind owner = KMethod (Some n) typed -> length l <= n)
      end.
End Values.

(** ** Threads *)
From Verif Require Import CacheThreads.
Section Order.
  Context {V : Type}.
  Variable body : nat -> Inst -> unit -> @Comp V unit.
  (** [reads_only P c]: all that [c] reads satisfies [P]. *)
  Inductive reads_only (P : Fn -> Inst -> Prop) : @Comp V unit -> Prop :=
  | only_return : forall v, reads_only P (Return v)
  | only_throw : forall e, reads_only P (Throw e)
  | only_read : forall f i a k, P f i -> (forall v, reads_only P (k v)) -> reads_only P (Read f i a k).
  (** No property reads itself on the same instance, also not over others. *)
  Definition no_cycle (rank : Fn -> Inst -> nat) : Prop :=
    forall f i, reads_only (fun g j => rank g j < rank f i) (body (f_id f) i tt).
  (** The properties are in layers: each reads only lower ones, on any instance. *)
  Definition layered (layer : nat -> nat) : Prop :=
    forall f i, reads_only (fun g _ => layer (f_id g) < layer (f_id f)) (body (f_id f) i tt).
  Definition finished (w : @State V) (t : nat) : Prop :=
    exists r, nth_error (w_threads w) t = Some (mkThread (Finished r) []).
End Order.
