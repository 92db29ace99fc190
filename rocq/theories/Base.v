(** * Errors as values and small list helpers shared by all model files. *)
From Coq Require Import ZArith List Bool String Lia Arith.
Import ListNotations.

(** Python exceptions that the modelled code can raise. Messages are kept
    because they tell apart the [raise] statements of one function. *)
Inductive err : Type :=
| ValueError (msg : string)
| IndexError (msg : string)
| ZeroDivision
| RejectedOrder (msg : string)
| KeyError (msg : string)
| TypeError (msg : string)
| AssertionError (msg : string).

Inductive res (A : Type) : Type :=
| Ok (a : A)
| Err (e : err).
Arguments Ok {A} a.
Arguments Err {A} e.

Definition bind {A B} (x : res A) (f : A -> res B) : res B :=
  match x with Ok a => f a | Err e => Err e end.

Declare Scope res_scope.
Delimit Scope res_scope with res.
Notation "'let!' x ':=' e 'in' k" := (bind e (fun x => k))
  (at level 200, x pattern, e at level 100, k at level 200, right associativity) : res_scope.
Open Scope res_scope.

(** [raise_if c e k]: Python's [if c: raise e] followed by [k]. *)
Definition raise_if {A} (c : bool) (e : err) (k : res A) : res A :=
  if c then Err e else k.

Definition is_ok {A} (r : res A) : bool := match r with Ok _ => true | Err _ => false end.

Lemma bind_ok : forall A B (x : res A) (f : A -> res B) b,
  bind x f = Ok b -> exists a, x = Ok a /\ f a = Ok b.
Proof. intros A B [a|e] f b H; simpl in H; [eauto | discriminate]. Qed.

Lemma raise_if_ok : forall A c e (k : res A) b,
  raise_if c e k = Ok b -> c = false /\ k = Ok b.
Proof. intros A [] e k b H; simpl in H; [discriminate | auto]. Qed.

(** Fold in the error monad: a Python [for] loop whose body may raise. *)
Fixpoint foldM {A S} (f : S -> A -> res S) (s : S) (l : list A) : res S :=
  match l with
  | [] => Ok s
  | a :: l' => let! s' := f s a in foldM f s' l'
  end.

Lemma foldM_app : forall A S (f : S -> A -> res S) l1 l2 s,
  foldM f s (l1 ++ l2) = (let! s' := foldM f s l1 in foldM f s' l2).
Proof.
  intros A S f; induction l1 as [|a l1 IH]; intros l2 s; simpl; [reflexivity|].
  destruct (f s a) as [s'|e]; simpl; auto.
Qed.

Lemma foldM_inv : forall A S (P : S -> Prop) (f : S -> A -> res S) l s s',
  (forall s a s', P s -> In a l -> f s a = Ok s' -> P s') ->
  P s -> foldM f s l = Ok s' -> P s'.
Proof.
  intros A S P f; induction l as [|a l IH]; intros s s' Hstep HP H; simpl in H.
  - inversion H; subst; auto.
  - apply bind_ok in H as (s1 & H1 & H2).
    eapply IH; [ | eapply Hstep; [exact HP | left; reflexivity | exact H1] | exact H2].
    intros s0 a0 s0' HP0 Hin Hf. eapply Hstep; eauto. right; auto.
Qed.

(** In-place store [a[i] = v] on a list (no effect out of range; callers
    that can go out of range test the index first, as the code does). *)
Fixpoint upd {A} (l : list A) (i : nat) (v : A) : list A :=
  match l, i with
  | [], _ => []
  | _ :: l', O => v :: l'
  | x :: l', S i' => x :: upd l' i' v
  end.

Lemma upd_length : forall A (l : list A) i v, List.length (upd l i v) = List.length l.
Proof. induction l as [|x l IH]; intros [|i] v; simpl; auto. Qed.

Lemma upd_nth_same : forall A (l : list A) i v d, (i < List.length l)%nat -> nth i (upd l i v) d = v.
Proof.
  induction l as [|x l IH]; intros [|i] v d H; simpl in *; try lia; auto.
  apply IH; lia.
Qed.

Lemma upd_nth_other : forall A (l : list A) i j v d, i <> j -> nth j (upd l i v) d = nth j l d.
Proof.
  induction l as [|x l IH]; intros [|i] [|j] v d H; simpl; auto; try congruence.
Qed.

Lemma upd_out : forall A (l : list A) i v, (List.length l <= i)%nat -> upd l i v = l.
Proof.
  induction l as [|x l IH]; intros [|i] v H; simpl in *; auto; try lia.
  f_equal; apply IH; lia.
Qed.

Lemma nth_error_upd : forall A (l : list A) i j v,
  nth_error (upd l i v) j =
  if (Nat.eqb i j && Nat.ltb i (List.length l))%bool then Some v else nth_error l j.
Proof.
  induction l as [|x l IH]; intros [|i] [|j] v; simpl; auto.
  - rewrite andb_false_r. reflexivity.
  - rewrite IH. reflexivity.
Qed.
