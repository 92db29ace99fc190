(** * Simulations of both engines: statements and concrete runs *)
From Coq Require Import String ZArith QArith List Bool Lia.
From Flocq Require Import BinarySingleNaN.
From Verif Require Import Base Num B64 MathNb Order CallSeq Simulate RustOrder RustSim RustSpec RustLemmas RustRuns
  RustSimLemmas2.
Import ListNotations.
Open Scope list_scope.

Lemma simulate_same : forall draws rng nrows ncols group_lens init_cash (inp : Inputs XQ) fl max_orders max_logs,
  comparable_inputs nrows ncols init_cash inp (auto_call_seq fl) ->
  (forall n, In n group_lens -> (0 < n)%nat) ->
  simulate_from_orders_nb draws rng nrows ncols group_lens init_cash inp fl max_orders max_logs <> Err ZeroDivision ->
  rs_simulate_from_orders draws rng nrows ncols group_lens init_cash inp (auto_call_seq fl) (ffill_val_price fl)
    (update_value fl) max_orders max_logs =
  simulate_from_orders_nb draws rng nrows ncols group_lens init_cash inp fl max_orders max_logs.
Proof. intros. apply agrees_same; auto. apply simulate_agrees_xq; auto. Qed.

Lemma simulate_same_f64 : forall draws rng nrows ncols group_lens init_cash (inp : Inputs f64) fl max_orders max_logs,
  comparable_inputs_f64 nrows ncols inp (auto_call_seq fl) ->
  (forall n, In n group_lens -> (0 < n)%nat) ->
  @simulate_from_orders_nb _ B64num draws rng nrows ncols group_lens init_cash inp fl max_orders max_logs
    <> Err ZeroDivision ->
  @rs_simulate_from_orders _ B64num B64rust draws rng nrows ncols group_lens init_cash inp (auto_call_seq fl)
    (ffill_val_price fl) (update_value fl) max_orders max_logs =
  @simulate_from_orders_nb _ B64num draws rng nrows ncols group_lens init_cash inp fl max_orders max_logs.
Proof. intros. apply agrees_same; auto. apply simulate_agrees_f64; auto. Qed.

(** ** Concrete runs *)
Definition half_draws : nat -> XQ := fun _ => Fin (1 # 2).
Definition rust_size (i c : nat) : XQ :=
  match i, c with
  | O, O => Fin (1 # 2) | O, _ => Fin (1 # 4)
  | 1%nat, O => Fin (3 # 4) | 1%nat, _ => Fin 0
  | _, O => Fin 0 | _, _ => Fin 0
  end.
Definition rust_price (i c : nat) : XQ := Fin (inject_Z (Z.of_nat (10 + i + c))).
Definition rust_inputs : Inputs XQ :=
  mkInputs rust_size rust_price (fun _ _ => TargetPercent) (fun _ _ => BothDir) (fun _ _ => Fin (1 # 100))
    (fun _ _ => Fin 0) (fun _ _ => Fin 0) (fun _ _ => Fin 0) (fun _ _ => PInf) (fun _ _ => NaN)
    (fun _ _ => Fin 0) (fun _ _ => true) (fun _ _ => true) (fun _ _ => false) (fun _ _ => false)
    (fun _ _ => PInf) rust_price (fun _ c => c - 2 * (c / 2))%nat.
Definition rust_inputs64 : Inputs f64 :=
  mkInputs (fun i c => b64_ofZ (Z.of_nat (1 + c) - 3 * Z.of_nat i)) (fun i c => b64_ofZ (Z.of_nat (10 + i + c)))
    (fun _ _ => Amount) (fun _ _ => BothDir) (fun _ _ => tenth)
    (fun _ _ => z64) (fun _ _ => tenth) (fun _ _ => z64) (fun _ _ => B754_infinity false) (fun _ _ => B754_nan)
    (fun _ _ => z64) (fun _ _ => false) (fun _ _ => true) (fun _ _ => false) (fun _ _ => false)
    (fun _ _ => B754_infinity false) (fun i c => b64_ofZ (Z.of_nat (10 + i + c))) (fun _ c => 0)%nat.

Lemma rust_inputs_ok : forall nrows ncols ic auto, (forall c, In c ic -> a_number c) ->
  comparable_inputs nrows ncols ic rust_inputs auto.
Proof.
  intros nrows ncols ic auto Hic. constructor.
  - intros i col f _ _ E. cbn in E. injection E as <-. reflexivity.
  - discriminate.
  - discriminate.
  - intros c Hc. left. auto.
  - right. split; [auto|]. intros i col _ _ [H|H]; discriminate.
Qed.

Lemma simulation_runs :
  comparable_inputs 3 3 [Fin 100; Fin 50] rust_inputs true /\
  (match simulate_from_orders_nb half_draws 0 3 3 [2; 1]%nat [Fin 100; Fin 50] rust_inputs (mkFlags true true false) None 0 with
   | Ok (orders, _, call_seq) => List.length orders = 7%nat /\ call_seq 1%nat 0%nat = 1%nat /\ call_seq 1%nat 1%nat = 0%nat
   | Err _ => False
   end) /\
  comparable_inputs_f64 2 2 rust_inputs64 false /\
  (match @simulate_from_orders_nb _ B64num (fun _ => b64_ofZ 0) 0 2 2 [1; 1]%nat [b64_ofZ 100; b64_ofZ 50] rust_inputs64
           (mkFlags false true true) None 0 with
   | Ok (orders, _, _) => List.length orders = 4%nat
   | Err _ => False
   end).
Proof.
  split; [apply rust_inputs_ok; intros c [<-|[<-|[]]]; eexists; reflexivity|].
  split; [vm_compute; auto|]. split; [|vm_compute; reflexivity].
  constructor; auto; [intros i col _ _ [H|H]; discriminate|discriminate].
Qed.

Lemma empty_group_differs : exists (inp : Inputs XQ) fl,
  comparable_inputs 1 2 [Fin 100; Fin 50] inp (auto_call_seq fl) /\
  simulate_from_orders_nb half_draws 0 1 2 [1; 0; 1]%nat [Fin 100; Fin 50] inp fl None 0 = Err (IndexError "init_cash") /\
  (match rs_simulate_from_orders half_draws 0 1 2 [1; 0; 1]%nat [Fin 100; Fin 50] inp (auto_call_seq fl)
           (ffill_val_price fl) (update_value fl) None 0 with
   | Ok (orders, _, _) => List.length orders = 2%nat
   | Err _ => False
   end).
Proof.
  exists rust_inputs, (mkFlags false true false).
  split; [apply rust_inputs_ok; intros c [<-|[<-|[]]]; eexists; reflexivity|].
  split; vm_compute; reflexivity.
Qed.
