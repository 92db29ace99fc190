(** * Cached properties read and cleared by several threads
    Model of vectorbt/utils/decorators.py:309-340.

    A small step is one access to what threads share: a lookup of the
    instance's attribute, taking or giving back the property's lock, storing
    the value, the two halves of clearing. The lock belongs to the property,
    one for all instances of a class, and can be taken again by the thread
    that holds it (RLock). Whether a read caches does not change meanwhile. *)
From Coq Require Import String ZArith Bool List Arith.
From Verif Require Import Base Cache.
Import ListNotations.
Local Open Scope list_scope.
Local Open Scope nat_scope.

Section Threads.
  Context {V : Type}.
  Variable body : nat -> Inst -> unit -> @Comp V unit.
  (** what [should_cache] says (cached_property.__get__, vectorbt/utils/decorators.py:329) *)
  Variable caching : Fn -> Inst -> bool.

  (** what remains to be done once the current value is known *)
  Inductive Frame := FResume (k : V -> @Comp V unit) | FStore (f : Fn) (i : Inst).
  Inductive Control :=
  | Running (c : @Comp V unit)
  | First (f : Fn) (i : Inst)      (* before the first lookup *)
  | Waiting (f : Fn) (i : Inst)    (* before the lock *)
  | Second (f : Fn) (i : Inst)     (* with the lock, before the second lookup *)
  | Unlocking (f : Fn) (r : res V) (* before giving back the lock *)
  | Clearing (f : Fn) (i : Inst)   (* before hasattr *)
  | Deleting (f : Fn) (i : Inst)   (* before delattr *)
  | Finished (r : option (res V)). (* [Some r]: result of a read; [None]: cleared *)
  Record Thread := mkThread { t_ctl : Control; t_stack : list Frame }.
  Record State := mkState {
    w_cache : nat * string -> option V;
    w_locks : nat -> option (nat * nat);   (* of each property: who holds it, how often *)
    w_threads : list Thread;
    w_started : list (nat * string)        (* computations that were started, last first *)
  }.
  Definition set_slot (m : nat * string -> option V) (s : nat * string) (o : option V) : nat * string -> option V :=
    fun x => if same_slot x s then o else m x.
  Definition set_lock (m : nat -> option (nat * nat)) (l : nat) (o : option (nat * nat)) : nat -> option (nat * nat) :=
    fun x => if Nat.eqb x l then o else m x.
  Definition attribute_error := TypeError "AttributeError".

  (** RLock.acquire and release *)
  Definition acquire (m : nat -> option (nat * nat)) (t l : nat) : option (nat -> option (nat * nat)) :=
    match m l with
    | None => Some (set_lock m l (Some (t, 1)))
    | Some (t', d) => if Nat.eqb t t' then Some (set_lock m l (Some (t, S d))) else None
    end.
  Definition release (m : nat -> option (nat * nat)) (l : nat) : nat -> option (nat * nat) :=
    match m l with
    | Some (t, S (S d)) => set_lock m l (Some (t, S d))
    | _ => set_lock m l None
    end.

  Definition with_thread (w : State) (t : nat) (th : Thread) : State :=
    mkState (w_cache w) (w_locks w) (upd (w_threads w) t th) (w_started w).
  (** One step of thread [t]; [None] if it has finished or must wait.
      vectorbt/utils/decorators.py:313-316,326-340 *)
  Definition step (w : State) (t : nat) : option State :=
    match nth_error (w_threads w) t with
    | None => None
    | Some (mkThread ctl stack) =>
        match ctl with
        | Finished _ => None
        | Running (Read f i _ k) =>
            if caching f i then Some (with_thread w t (mkThread (First f i) (FResume k :: stack)))
            else Some (with_thread w t (mkThread (Running (body (f_id f) i tt)) (FResume k :: stack)))
        | Running (Return v) =>
            match stack with
            | [] => Some (with_thread w t (mkThread (Finished (Some (Ok v))) []))
            | FResume k :: stack' => Some (with_thread w t (mkThread (Running (k v)) stack'))
            | FStore f i :: stack' =>
                Some (mkState (set_slot (w_cache w) (slot_of f i) (Some v)) (w_locks w)
                        (upd (w_threads w) t (mkThread (Unlocking f (Ok v)) stack')) (w_started w))
            end
        | Running (Throw e) =>
            match stack with
            | [] => Some (with_thread w t (mkThread (Finished (Some (Err e))) []))
            | FResume _ :: stack' => Some (with_thread w t (mkThread (Running (Throw e)) stack'))
            | FStore f i :: stack' => Some (with_thread w t (mkThread (Unlocking f (Err e)) stack'))
            end
        | First f i =>
            match w_cache w (slot_of f i) with
            | Some v => Some (with_thread w t (mkThread (Running (Return v)) stack))
            | None => Some (with_thread w t (mkThread (Waiting f i) stack))
            end
        | Waiting f i =>
            match acquire (w_locks w) t (f_id f) with
            | Some locks => Some (mkState (w_cache w) locks (upd (w_threads w) t (mkThread (Second f i) stack)) (w_started w))
            | None => None
            end
        | Second f i =>
            match w_cache w (slot_of f i) with
            | Some v => Some (with_thread w t (mkThread (Unlocking f (Ok v)) stack))
            | None =>
                Some (mkState (w_cache w) (w_locks w)
                        (upd (w_threads w) t (mkThread (Running (body (f_id f) i tt)) (FStore f i :: stack)))
                        (slot_of f i :: w_started w))
            end
        | Unlocking f r =>
            Some (mkState (w_cache w) (release (w_locks w) (f_id f))
                    (upd (w_threads w) t (mkThread (Running (match r with Ok v => Return v | Err e => Throw e end)) stack))
                    (w_started w))
        | Clearing f i =>
            match w_cache w (slot_of f i) with
            | Some _ => Some (with_thread w t (mkThread (Deleting f i) stack))
            | None => Some (with_thread w t (mkThread (Finished None) stack))
            end
        | Deleting f i =>
            match w_cache w (slot_of f i) with
            | Some _ =>
                Some (mkState (set_slot (w_cache w) (slot_of f i) None) (w_locks w)
                        (upd (w_threads w) t (mkThread (Finished None) stack)) (w_started w))
            | None => Some (with_thread w t (mkThread (Finished (Some (Err attribute_error))) stack))
            end
        end
    end.

  (** A schedule names the thread to run next; one that cannot run is passed over. *)
  Definition execute (w : State) (schedule : list nat) : State :=
    fold_left (fun w t => match step w t with Some w' => w' | None => w end) schedule w.

  (** Threads that read, threads that clear. *)
  Inductive Job := Evaluate (c : @Comp V unit) | ClearCache (f : Fn) (i : Inst).
  Definition start (jobs : list Job) : State :=
    mkState (fun _ => None) (fun _ => None)
      (map (fun j => match j with Evaluate c => mkThread (Running c) [] | ClearCache f i => mkThread (Clearing f i) [] end) jobs) [].
End Threads.
