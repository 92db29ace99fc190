(** * Lemmas on signals gathered for the statements of SignalsProps.v *)
From Coq Require Import ZArith Bool List Arith Lia Sorting Permutation.
From Verif Require Import Base Num OrdLaws SignalsNb SignalsSpec SignalsLemmas SignalsLemmas2 SignalsLemmas3 SignalsLemmas4.
Import ListNotations.
Open Scope list_scope.
Open Scope nat_scope.

Lemma clean_all : forall en ex ef, length en = length ex ->
  let eo := fst (clean_enex_1d_nb en ex ef) in
  let xo := snd (clean_enex_1d_nb en ex ef) in
  (length eo = length en /\ length xo = length ex) /\
  (forall i, (tr eo i -> tr en i /\ ~ tr ex i) /\ (tr xo i -> tr ex i /\ ~ tr en i)) /\
  (forall i, ~ (tr eo i /\ tr xo i)) /\
  (forall i j, i < j -> tr eo i -> tr eo j -> exists k, i < k < j /\ tr xo k) /\
  (forall i j, i < j -> tr xo i -> tr xo j -> exists k, i < k < j /\ tr eo k) /\
  (ef = true -> forall j, tr xo j -> exists k, k < j /\ tr eo k) /\
  clean_enex_1d_nb eo xo ef = (eo, xo).
Proof.
  intros en ex ef H. cbn zeta. split; [|split; [|split; [|split; [|split; [|split]]]]].
  - destruct (clean_lengths en ex ef H) as [A B]. split; [exact A|exact B].
  - exact (clean_subset en ex ef H).
  - exact (clean_disjoint en ex ef H).
  - exact (clean_alternate_entries en ex ef H).
  - exact (clean_alternate_exits en ex ef H).
  - exact (clean_entry_first en ex ef H).
  - exact (clean_twice en ex ef).
Qed.

Lemma clean_complete_all : forall en ex ef, length en = length ex ->
  let eo := fst (clean_enex_1d_nb en ex ef) in
  let xo := snd (clean_enex_1d_nb en ex ef) in
  (forall i, tr en i -> ~ tr ex i -> ~ tr eo i ->
     exists k, k < i /\ tr eo k /\ forall m, k < m < i -> ~ tr xo m) /\
  (forall i, tr ex i -> ~ tr en i -> ~ tr xo i ->
     (exists k, k < i /\ tr xo k /\ forall m, k < m < i -> ~ tr eo m) \/
     (ef = true /\ forall m, m < i -> ~ tr eo m)).
Proof.
  intros en ex ef H. split; [exact (clean_complete_entry en ex ef H)|exact (clean_complete_exit en ex ef H)].
Qed.

Lemma builtin_choices : forall {T} {N : Num T} {L : OrdLaws N},
  (forall a from to i, In i (first_choice_nb from to a) -> from <= i < to) /\
  (forall perm from to n i, (forall l, Permutation (perm l) l) -> In i (rand_choice_nb perm from to n) -> from <= i < to) /\
  (forall u (prob : nat -> T) pf from to i, In i (rand_by_prob_choice_nb u prob pf from to) -> from <= i < to) /\
  (forall (ts stop : nat -> T) trailing wait pf from to i,
     In i (stop_choice_nb ts stop trailing wait pf from to) -> from <= i < to).
Proof.
  intros T N L. split; [exact first_choice_in|]. split; [exact rand_choice_in|]. split; [exact rand_by_prob_in|exact stop_choice_in].
Qed.

Lemma enex_alternate : forall fuel n ew xw ec xc entries exits,
  (0 <= ew)%Z -> (0 <= xw)%Z ->
  generate_enex_fuel fuel n ew xw true true ec xc = Some (Ok (entries, exits)) ->
  (forall e e', e < e' -> tr entries e -> tr entries e' ->
     exists x, tr exits x /\ (Z.of_nat e + xw <= Z.of_nat x)%Z /\ (Z.of_nat x + ew <= Z.of_nat e')%Z) /\
  (forall x x', x < x' -> tr exits x -> tr exits x' ->
     exists e, tr entries e /\ (Z.of_nat x + ew <= Z.of_nat e)%Z /\ (Z.of_nat e + xw <= Z.of_nat x')%Z) /\
  (forall x, tr exits x -> exists e, tr entries e /\ (Z.of_nat e + xw <= Z.of_nat x)%Z).
Proof.
  intros fuel n ew xw ec xc entries exits Hew Hxw H.
  apply generate_enex_groups in H as (_ & _ & groups & G); auto.
  split; [|split].
  - intros e e' A B C. eapply (enex_exit_between n ew xw entries exits groups); eauto.
  - intros e e' A B C. eapply (enex_entry_between n ew xw entries exits groups); eauto.
  - intros x A. eapply (enex_entry_before n ew xw entries exits groups); eauto.
Qed.

Lemma unsorted_refutes :
  (forall k from to z, (0 <= from)%Z -> (from < to)%Z -> In z (unsorted_choice k from to) -> (0 <= z < to)%Z) /\
  forall fuel, generate_enex_fuel fuel 3 1 1 false false unsorted_choice unsorted_choice = None.
Proof.
  split; [|exact unsorted_runs_forever]. intros k from to z H1 H2 [<-|[<-|[]]]; lia.
Qed.

Lemma extremes : forall {T} {N : Num T} {L : OrdLaws N} (p0 : T) ps, isnan p0 = false ->
  (In (lowest p0 ps) (p0 :: ps) /\ forall p, In p (p0 :: ps) -> ltb p (lowest p0 ps) = false) /\
  (In (highest p0 ps) (p0 :: ps) /\ forall p, In p (p0 :: ps) -> ltb (highest p0 ps) p = false).
Proof.
  intros T N L p0 ps H. split; split.
  - apply lowest_in.
  - intros. apply lowest_least; auto.
  - apply highest_in.
  - intros. apply highest_greatest; auto.
Qed.

Lemma flatnonzero_spec : forall a,
  (forall i, In i (flatnonzero a) <-> tr a i) /\ StronglySorted lt (flatnonzero a).
Proof. intros a. split; [apply flatnonzero_in|apply flatnonzero_sorted]. Qed.
