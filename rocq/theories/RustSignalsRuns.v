(** * From signals with both engines: statements and concrete runs *)
From Coq Require Import String ZArith QArith List Bool Lia.
From Flocq Require Import BinarySingleNaN.
From Verif Require Import Base Num B64 XQFacts MathNb Order CallSeq Simulate FromSignals RustOrder RustSim RustSpec RustSimRuns RustSignals
  RustSignalsSpec RustSignalsLemmas3.
Import ListNotations.
Open Scope string_scope.
Open Scope list_scope.
Local Open Scope nat_scope.

Lemma signals_same : forall draws rng nrows ncols group_lens init_cash arrays (inp : SigInputs XQ) fl max_orders max_logs,
  comparable_signals nrows ncols init_cash (si_base inp) (auto_call_seq (sf_base fl)) ->
  (forall n, In n group_lens -> 0 < n) ->
  simulate_from_signals_nb draws rng nrows ncols group_lens init_cash arrays inp fl max_orders max_logs <> Err ZeroDivision ->
  rs_simulate_from_signals draws rng nrows ncols group_lens init_cash arrays inp (use_stops fl) (auto_call_seq (sf_base fl))
    (ffill_val_price (sf_base fl)) (update_value (sf_base fl)) max_orders max_logs =
  rust_outcome (simulate_from_signals_nb draws rng nrows ncols group_lens init_cash arrays inp fl max_orders max_logs).
Proof.
  intros draws rng nrows ncols lens ic a inp fl mo ml H1 H2 H3.
  destruct (signals_agree_xq draws rng nrows ncols lens ic a inp fl mo ml H1 H2) as [H|H]; [contradiction|exact H].
Qed.

Lemma signals_same_f64 : forall draws rng nrows ncols group_lens init_cash arrays (inp : SigInputs f64) fl max_orders max_logs,
  comparable_signals_f64 nrows ncols (si_base inp) (auto_call_seq (sf_base fl)) ->
  (forall n, In n group_lens -> 0 < n) ->
  @simulate_from_signals_nb _ B64num draws rng nrows ncols group_lens init_cash arrays inp fl max_orders max_logs <> Err ZeroDivision ->
  @rs_simulate_from_signals _ B64num B64rust draws rng nrows ncols group_lens init_cash arrays inp (use_stops fl)
    (auto_call_seq (sf_base fl)) (ffill_val_price (sf_base fl)) (update_value (sf_base fl)) max_orders max_logs =
  rust_outcome (@simulate_from_signals_nb _ B64num draws rng nrows ncols group_lens init_cash arrays inp fl max_orders max_logs).
Proof.
  intros draws rng nrows ncols lens ic a inp fl mo ml H1 H2 H3.
  destruct (signals_agree_f64 draws rng nrows ncols lens ic a inp fl mo ml H1 H2) as [H|H]; [contradiction|exact H].
Qed.

(** ** Concrete runs *)
Section Inputs.
  Context {T : Type} {N : Num T}.

  (** Prices rise to 14 + column and fall *)
  Definition sig_close (i c : nat) : T :=
    ofZ (Z.of_nat c + match i with 0%nat => 10 | 1%nat => 12 | 2%nat => 14 | 3%nat => 11 | _ => 9 end)%Z.
  (** Orders for 2 units, 1% fees, a trailing stop-loss of one fifth and the
      given take-profit; 50% value-based orders if [st] is Value *)
  Definition sig_inputs (st : SizeType) (tp : T) (val_price : nat -> nat -> T) : SigInputs T :=
    mkSigInputs
      (mkInputs (fun _ _ => ofZ 2) (fun _ _ => pinf) (fun _ _ => st) (fun _ c => if Nat.eqb c 1 then BothDir else LongOnly)
        (fun _ _ => div one (ofZ 100)) (fun _ _ => zero) (fun _ _ => zero) (fun _ _ => zero) (fun _ _ => pinf) (fun _ _ => nan)
        (fun _ _ => zero) (fun _ _ => false) (fun _ _ => true) (fun _ _ => false) (fun _ _ => true)
        val_price sig_close (fun _ c => if Nat.eqb c 1 then 1 else 0))
      (fun _ _ => nan) (fun _ _ => nan) (fun _ _ => nan) (fun _ _ => AccDisabled)
      (fun _ _ => CIgnore) (fun _ _ => CIgnore) (fun _ _ => DIgnore) (fun _ _ => OReverseReduce)
      (fun _ _ => div one (ofZ 5)) (fun _ _ => true) (fun _ _ => tp) (fun _ _ => EClose) (fun _ _ => StopLimit)
      (fun _ _ => SClose) (fun _ _ => UKeep) (fun _ _ _ _ => mkSig false false false false) no_adjust_sl no_adjust_tp.
End Inputs.

(** Entries in the first row of every column, an exit in the second row of
    the second column *)
Definition sig_arrays : SigArrays :=
  mkArrays (fun i _ => Nat.eqb i 0) (fun i c => Nat.eqb i 1 && Nat.eqb c 1) (fun _ _ => false) (fun _ _ => false)
    (fun _ _ => false) (fun _ _ => false).

Lemma sig_inputs_ok : forall nrows ncols ic tp vp auto, (forall c, In c ic -> a_number c) ->
  comparable_signals nrows ncols ic (si_base (sig_inputs Amount tp vp)) auto.
Proof.
  intros nrows ncols ic tp vp auto H. constructor.
  - intros i col f _ _ E. cbn in E. injection E as <-. reflexivity.
  - discriminate.
  - discriminate.
  - intros c Hc. left. auto.
Qed.

Lemma signal_runs :
  comparable_signals 5 3 [Fin 100; Fin 50] (si_base (sig_inputs Amount NaN (fun _ _ => PInf))) true /\
  (match simulate_from_signals_nb half_draws 0 5 3 [2; 1] [Fin 100; Fin 50] sig_arrays (sig_inputs Amount NaN (fun _ _ => PInf))
           (mkSigFlags (mkFlags true true false) true) None 20 with
   | Ok (orders, _, call_seq) =>
       map (fun o => (or_idx o, or_col o)) orders = [(0, 0); (0, 1); (1, 1); (3, 0); (0, 2); (4, 2)] /\
       call_seq 1 0 = 1 /\ call_seq 1 1 = 0
   | Err _ => False
   end) /\
  comparable_signals_f64 5 3 (si_base (@sig_inputs _ B64num Amount B754_nan (fun _ _ => B754_infinity false))) false /\
  (match @simulate_from_signals_nb _ B64num (fun _ => b64_ofZ 0) 0 5 3 [1; 1; 1] [b64_ofZ 100; b64_ofZ 50; b64_ofZ 50] sig_arrays
           (@sig_inputs _ B64num Amount B754_nan (fun _ _ => B754_infinity false)) (mkSigFlags (mkFlags false true true) true) None 20 with
   | Ok (orders, _, _) => map (fun o => (or_idx o, or_col o)) orders = [(0, 0); (3, 0); (0, 1); (1, 1); (0, 2); (4, 2)]
   | Err _ => False
   end).
Proof.
  split; [apply sig_inputs_ok; intros c [<-|[<-|[]]]; eexists; reflexivity|].
  split; [vm_compute; auto|]. split; [|vm_compute; reflexivity].
  constructor; auto; discriminate.
Qed.

Lemma error_kind_differs : exists (inp : SigInputs XQ) fl,
  comparable_signals 2 1 [Fin 100] (si_base inp) false /\ auto_call_seq (sf_base fl) = false /\
  simulate_from_signals_nb half_draws 0 2 1 [1] [Fin 100] sig_arrays inp fl None 0 =
    Err (ValueError "Stop value must be 0 or greater") /\
  rs_simulate_from_signals half_draws 0 2 1 [1] [Fin 100] sig_arrays inp (use_stops fl) false
    (ffill_val_price (sf_base fl)) (update_value (sf_base fl)) None 0 =
    Err (RejectedOrder "Stop value must be 0 or greater").
Proof.
  exists (sig_inputs Amount (Fin (-1)) (fun _ _ => PInf)), (mkSigFlags (mkFlags false true false) true).
  split; [apply sig_inputs_ok; intros c [<-|[]]; eexists; reflexivity|].
  split; [reflexivity|]. split; vm_compute; auto.
Qed.

(** A long entry in the first row, a short entry in the second *)
Definition flip_arrays : SigArrays :=
  mkArrays (fun _ _ => false) (fun _ _ => false) (fun i _ => Nat.eqb i 0) (fun _ _ => false)
    (fun i _ => Nat.eqb i 1) (fun _ _ => false).

Lemma zero_price_differs : exists (inp : SigInputs XQ) fl,
  comparable_signals 2 1 [Fin 100] (si_base inp) false /\ auto_call_seq (sf_base fl) = false /\
  simulate_from_signals_nb half_draws 0 2 1 [1] [Fin 100] flip_arrays inp fl None 2 = Err ZeroDivision /\
  (match rs_simulate_from_signals half_draws 0 2 1 [1] [Fin 100] flip_arrays inp (use_stops fl) false
           (ffill_val_price (sf_base fl)) (update_value (sf_base fl)) None 2 with
   | Ok ([o1; o2], [_; l2], _) => or_side o2 = Some Sell /\ o_size (lg_req l2) = NInf /\ or_price o2 = Fin 12 /\
       ltb (Fin 8) (or_size o2) = true
   | _ => False
   end).
Proof.
  exists (sig_inputs Value NaN (fun i _ => if Nat.eqb i 0 then Fin 10 else Fin 0)), (mkSigFlags (mkFlags false true false) false).
  split; [constructor; try discriminate; [intros i col f _ _ E; cbn in E; injection E as <-; reflexivity|
    intros c [<-|[]]; left; eexists; reflexivity]|].
  split; [reflexivity|]. split; vm_compute; auto.
Qed.
