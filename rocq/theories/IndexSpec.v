(** * Vocabulary for parameter combinations and indexes *)
From Coq Require Import String ZArith Bool List Arith.
From Verif Require Import Base Grouper IndexFns.
Import ListNotations.
Local Open Scope nat_scope.

(** The number of combinations *)
Fixpoint combinations {A} (ls : list (list A)) : nat := match ls with [] => 1 | l :: t => length l * combinations t end.
(** The k-th values of all lists *)
Definition combination {A} (cols : list (list A)) (k : nat) : list (option A) := map (fun c => nth_error c k) cols.

(** All levels of an index have one label per position. *)
Definition well_formed (x : Index) : Prop := Forall (fun l => length (lv_values l) = index_len x) (levels_of x).
(** Two positions that no level tells apart *)
Definition same_labels (x : Index) (i j : nat) : Prop :=
  forall l, In l (levels_of x) -> nth_error (lv_values l) i = nth_error (lv_values l) j.
(** A level of the second index that the first can be aligned on *)
Definition common_levels (x1 x2 : Index) (l1 l2 : Level) : Prop :=
  In l1 (levels_of x1) /\ In l2 (levels_of x2) /\ lv_name l1 = lv_name l2 /\ (forall v, In v (lv_values l2) -> In v (lv_values l1)).
(** Position [p] of the first index has the labels of position [k] of the
    second on all common levels. *)
Definition agrees (x1 x2 : Index) (p k : nat) : Prop :=
  forall l1 l2, common_levels x1 x2 l1 l2 -> nth_error (lv_values l1) p = nth_error (lv_values l2) k.
(** A parameter list brought to length [n]: kept, or its only value repeated *)
Definition stretched {A} (n : nat) (ps qs : list A) : Prop :=
  length qs = n /\ (qs = ps \/ exists x, ps = [x] /\ qs = repeat x n).
