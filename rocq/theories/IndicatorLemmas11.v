(** * Proof lemmas: how many outputs an indicator has *)
From Coq Require Import String ZArith Bool List Arith Lia.
From Verif Require Import Base Grouper IndexFns Indicator IndicatorSpec IndicatorLemmas.
Import ListNotations.
Local Open Scope nat_scope.

Lemma raise_inv : forall {A} b e (k : res A) r, raise_if b e k = Ok r -> b = false /\ k = Ok r.
Proof. intros A [] e k r H; [discriminate H|auto]. Qed.
Lemma bind_inv : forall {A B} (x : res A) (f : A -> res B) r, bind x f = Ok r -> exists y, x = Ok y /\ f y = Ok r.
Proof. intros A B [y|e] f r H; [eauto|discriminate H]. Qed.
Lemma wide_length : forall {V} (new : nat -> nat -> Frame V) idxs ios pc n c left i j r, wide_in_outputs new idxs ios pc n c i j left = Ok r -> length r = left.
Proof.
  intros V new idxs ios pc n c. induction left as [|left IH]; intros i j r H; cbn [wide_in_outputs] in H; [injection H as <-; reflexivity|].
  destruct (existsb _ _).
  - destruct (nth_error ios j); [|discriminate]. apply bind_inv in H as (t & Ht & H). injection H as <-. cbn. f_equal. eauto.
  - apply bind_inv in H as (t & Ht & H). injection H as <-. cbn. f_equal. eauto.
Qed.
Lemma mapM_len : forall {A B} (f : A -> res B) l r, mapM f l = Ok r -> length r = length l.
Proof.
  intros A B f. induction l as [|x l IH]; intros r H; cbn [mapM] in H; [injection H as <-; reflexivity|].
  apply bind_inv in H as (y & Hy & H). apply bind_inv in H as (t & Ht & H). injection H as <-. cbn. f_equal. eauto.
Qed.

Lemma outputs_number : forall {V P} peq hashable (label_of : P -> Label) m custom new nm (a : @Args V P) x,
  a_per_column a = false ->
  (forall inputs io ps io' outs, custom inputs io ps = Ok (io', outs) -> length io' = length io) ->
  run peq hashable label_of m custom new nm a = Ok x -> length (in_outputs x) = m /\ length (in_in_outputs x) = number_of_in_outputs a.
Proof.
  intros V P peq hashable label_of m custom new nm a x Hp Hio H. unfold run in H. apply raise_inv in H as [_ H].
  apply bind_inv in H as (pl & Hpl & H). apply bind_inv in H as ([[raw n_in] used] & Hr & H).
  assert (Hraw : n_in = number_of_in_outputs a /\ length (raw_outputs raw) = n_in + m).
  { unfold run_raw in Hr. destruct (unique_params _ _ _ _) as [unique used']. cbv zeta in Hr. apply raise_inv in Hr as [_ Hr].
    apply bind_inv in Hr as (wide & Hw & Hr). rewrite Hp in Hr. apply bind_inv in Hr as (result & Hres & Hr).
    apply bind_inv in Hres as ([io' outs] & Hc & Hres). apply bind_inv in Hres as (outputs & Ho & Hres). injection Hres as <-. cbn [fst snd] in *.
    apply Hio in Hc. rewrite map_length in Hc. apply wide_length in Hw.
    unfold _split_output in Ho. apply raise_inv in Ho as [Ho1 Ho2]. injection Ho2 as <-. apply negb_false_iff, Nat.eqb_eq in Ho1.
    remember (map (concat (A:=list V)) io' ++ firstn m outs) as ol eqn:El. destruct ol as [|o ol]; [discriminate Hr|].
    apply raise_inv in Hr as [_ Hr]. apply raise_inv in Hr as [_ Hr]. apply raise_inv in Hr as [_ Hr]. injection Hr as <- <- <-.
    split; [unfold number_of_in_outputs; destruct (given_idxs (a_in_outputs a)); reflexivity|]. cbn [raw_outputs]. rewrite El, app_length, map_length, Hc, Hw, Ho1. reflexivity. }
  destruct Hraw as [En El]. apply bind_inv in H as (ol & Hol & H).
  assert (Lol : length ol = n_in + m).
  { destruct used; [|injection Hol as <-; exact El]. unfold _use_raw in Hol. apply bind_inv in Hol as (ix & _ & Hol). apply mapM_len in Hol. lia. }
  unfold finish in H. destruct ol as [|o ol']; [discriminate|]. remember (o :: ol') as ol. cbv zeta in H.
  apply bind_inv in H as (built & _ & H). unfold make_indicator in H.
  repeat (apply raise_inv in H as [_ H]). injection H as <-. cbn [in_outputs in_in_outputs]. rewrite skipn_length, firstn_length. lia.
Qed.
