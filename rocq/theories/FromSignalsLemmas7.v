(** * Simulation from signals: arrays and ready-made signal functions agree *)
From Coq Require Import String ZArith Bool List Arith Lia.
From Verif Require Import Base Num Order CallSeq Account Simulate FromSignals.
Import ListNotations.
Local Open Scope nat_scope.
Local Open Scope list_scope.

Lemma foldM_ext : forall A B (f g : A -> B -> res A) l a,
  (forall a b, f a b = g a b) -> foldM f a l = foldM g a l.
Proof.
  intros A B f g l. induction l as [|b l IH]; intros a H; cbn [foldM]; auto.
  rewrite H. destruct (g a b); cbn [bind]; auto.
Qed.

Section SExt.
  Context {T : Type} {N : Num T}.

  Lemma simulation_ext : forall (f g : nat -> nat -> T -> T -> Sig) draws rng nrows ncols lens init
      (inp : SigInputs T) fl mo ml,
    (forall i c p v, f i c p v = g i c p v) ->
    simulate_from_signal_func_nb draws rng nrows ncols lens init (with_signals f inp) fl mo ml =
    simulate_from_signal_func_nb draws rng nrows ncols lens init (with_signals g inp) fl mo ml.
  Proof.
    intros f g draws rng nrows ncols lens init inp fl mo ml H. unfold simulate_from_signal_func_nb.
    assert (S : forall i cash free cols col,
      signal_step (with_signals f inp) fl i cash free cols col = signal_step (with_signals g inp) fl i cash free cols col).
    { intros. unfold signal_step.
      change (stop_step (with_signals f inp)) with (stop_step (with_signals g inp)).
      destruct (stop_step _ _ _ _ _) as [[sp stops]|]; cbn [bind]; auto.
      assert (E : pick_signals (with_signals f inp) fl i col (cols col) sp = pick_signals (with_signals g inp) fl i col (cols col) sp).
      { unfold pick_signals. cbn [with_signals si_signals si_accumulate si_base si_stop_exit si_exit_price
          si_long_conflict si_short_conflict si_dir_conflict si_opposite]. rewrite H. reflexivity. }
      rewrite E. reflexivity. }
    assert (B : forall sh g0 from len st i,
      sig_bar_step draws (with_signals f inp) fl sh g0 from len st i = sig_bar_step draws (with_signals g inp) fl sh g0 from len st i).
    { intros. unfold sig_bar_step, sig_prepare.
      change (sig_price_step (with_signals f inp)) with (sig_price_step (with_signals g inp)).
      rewrite (foldM_ext _ _ _ _ _ _ (S i (ss_cash st) (ss_free st))).
      destruct (foldM (signal_step _ _ _ _ _) _ _); cbn [bind]; auto. }
    assert (G : forall sh ls g0 from st,
      sig_groups draws (with_signals f inp) fl sh nrows g0 from ls init st =
      sig_groups draws (with_signals g inp) fl sh nrows g0 from ls init st).
    { intros sh ls. induction ls as [|len ls IH]; intros g0 from st; cbn [sig_groups]; auto.
      destruct (nth_error init g0); auto. unfold sig_group.
      rewrite (foldM_ext _ _ _ _ _ _ (B sh g0 from len)).
      destruct (foldM _ _ _); cbn [bind]; auto. }
    rewrite G. reflexivity.
  Qed.

  Lemma arrays_dir : forall e x (inp : SigInputs T) draws rng nrows ncols lens init fl mo ml no,
    (forall i c, no i c = false) ->
    simulate_from_signals_nb draws rng nrows ncols lens init (mkArrays e x no no no no) inp fl mo ml =
    simulate_from_signal_func_nb draws rng nrows ncols lens init
      (with_signals (dir_enex_signal_func_nb e x (in_direction (si_base inp))) inp) fl mo ml.
  Proof.
    intros e x inp draws rng nrows ncols lens init fl mo ml no Hno. unfold simulate_from_signals_nb.
    apply simulation_ext. intros i c p v. unfold merge_signals, dir_enex_signal_func_nb. cbn.
    rewrite Hno. destruct (e i c), (x i c), (in_direction (si_base inp) i c); reflexivity.
  Qed.

  Lemma arrays_ls : forall le lx se sx (inp : SigInputs T) draws rng nrows ncols lens init fl mo ml no,
    (forall i c, no i c = false) ->
    simulate_from_signals_nb draws rng nrows ncols lens init (mkArrays no no le lx se sx) inp fl mo ml =
    simulate_from_signal_func_nb draws rng nrows ncols lens init
      (with_signals (ls_enex_signal_func_nb le lx se sx) inp) fl mo ml.
  Proof.
    intros le lx se sx inp draws rng nrows ncols lens init fl mo ml no Hno. unfold simulate_from_signals_nb.
    apply simulation_ext. intros i c p v. unfold merge_signals, ls_enex_signal_func_nb. cbn.
    rewrite Hno. reflexivity.
  Qed.

  (** Directions can be written as long and short signals. *)
  Lemma arrays_translate : forall e x (d : Direction) (inp : SigInputs T) draws rng nrows ncols lens init fl mo ml no,
    (forall i c, no i c = false) -> (forall i c, in_direction (si_base inp) i c = d) ->
    simulate_from_signals_nb draws rng nrows ncols lens init (mkArrays e x no no no no) inp fl mo ml =
    simulate_from_signals_nb draws rng nrows ncols lens init
      (match d with
       | LongOnly => mkArrays no no e x no no
       | ShortOnly => mkArrays no no no no e x
       | BothDir => mkArrays no no e no x no
       end) inp fl mo ml.
  Proof.
    intros e x d inp draws rng nrows ncols lens init fl mo ml no Hno Hd. unfold simulate_from_signals_nb.
    apply simulation_ext. intros i c p v. unfold merge_signals. rewrite Hd.
    destruct d; cbn; rewrite !Hno; destruct (e i c), (x i c); reflexivity.
  Qed.
End SExt.
