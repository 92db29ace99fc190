(** * Risk and reward ratios (C84)

    Square root and power are those of the machine: any functions of numbers, [root] and
    [power_of]. Missing returns are left out ([vals], [pairs]). *)
From Coq Require Import ZArith QArith Qabs Bool List Arith.
From Verif Require Import Base Num XQFacts GenericSpec ReturnsNb ReturnsSpec RatiosSpec RatiosLemmas.
Import ListNotations.
Local Open Scope nat_scope.

(** Annualized volatility: the standard deviation with [ddof] degrees of freedom taken off
    times the yearly factor to the power 1 / alpha; unknown for too few returns *)
Theorem C84_volatility : forall sqrt root pow power_of, computes_root sqrt root -> computes_power pow power_of ->
  forall rs af alpha ddof, no_infinity rs -> 2 <= length rs -> ~ (alpha == 0)%Q ->
  ((ddof < Z.of_nat (length (vals rs)))%Z -> vals rs <> [] ->
     exists y, annualized_volatility_1d_nb pow sqrt rs (Fin af) (Fin alpha) ddof = Ok y /\
       is_number y (root (variance ddof (vals rs)) * power_of af (1 / alpha))%Q) /\
  ((Z.of_nat (length (vals rs)) <= ddof)%Z ->
     annualized_volatility_1d_nb pow sqrt rs (Fin af) (Fin alpha) ddof = Ok NaN).
Proof. exact volatility_run. Qed.
Print Assumptions C84_volatility.

(** Sharpe ratio: mean excess return per risk, times the root of the yearly factor *)
Theorem C84_sharpe : forall sqrt root, computes_root sqrt root ->
  forall rs af r ddof, no_infinity rs -> 2 <= length rs -> vals rs <> [] ->
  (ddof < Z.of_nat (length (vals rs)))%Z ->
  let risk := root (variance ddof (excess r (vals rs))) in
  ((risk == 0)%Q -> sharpe_ratio_1d_nb sqrt rs (Fin af) (Fin r) ddof = PInf) /\
  (~ (risk == 0)%Q ->
     is_number (sharpe_ratio_1d_nb sqrt rs (Fin af) (Fin r) ddof)
       (mean (excess r (vals rs)) / risk * root af)%Q).
Proof. exact sharpe_run. Qed.
Print Assumptions C84_sharpe.

(** Downside risk: root of the mean square of what falls short of the required return *)
Theorem C84_downside_risk : forall sqrt root, computes_root sqrt root ->
  forall rs af r, no_infinity rs -> vals rs <> [] ->
  is_number (downside_risk_1d_nb sqrt rs (Fin af) (Fin r))
    (root (mean (squares (shortfalls (excess r (vals rs))))) * root af)%Q.
Proof. exact downside_run. Qed.
Print Assumptions C84_downside_risk.

(** Sortino ratio: yearly mean excess return per downside risk *)
Theorem C84_sortino : forall sqrt root, computes_root sqrt root ->
  forall rs af r, no_infinity rs -> 2 <= length rs -> vals rs <> [] ->
  let risk := (root (mean (squares (shortfalls (excess r (vals rs))))) * root af)%Q in
  ((risk == 0)%Q -> sortino_ratio_1d_nb sqrt rs (Fin af) (Fin r) = PInf) /\
  (~ (risk == 0)%Q ->
     is_number (sortino_ratio_1d_nb sqrt rs (Fin af) (Fin r)) (mean (excess r (vals rs)) * af / risk)%Q).
Proof. exact sortino_run. Qed.
Print Assumptions C84_sortino.

(** Omega ratio: gains above the threshold per losses below it *)
Theorem C84_omega : forall pow power_of, computes_power pow power_of ->
  forall rs af rf rr, no_infinity rs -> (-1 < af)%Q -> ~ (af == 0)%Q ->
  let threshold := if Qeq_bool af 1 then rr else (power_of (1 + rr) (1 / af) - 1)%Q in
  let xs := excess (rf + threshold)%Q (vals rs) in
  ((losses xs == 0)%Q -> omega_ratio_1d_nb pow rs (Fin af) (Fin rf) (Fin rr) = Ok PInf) /\
  (~ (losses xs == 0)%Q -> exists y, omega_ratio_1d_nb pow rs (Fin af) (Fin rf) (Fin rr) = Ok y /\
     is_number y (gains xs / losses xs)%Q).
Proof. exact omega_run. Qed.
Print Assumptions C84_omega.

(** Information ratio: mean difference to the benchmark per its standard deviation *)
Theorem C84_information : forall sqrt root, computes_root sqrt root ->
  forall rb ddof, no_infinite_pair rb -> 2 <= length rb -> pairs rb <> [] ->
  (ddof < Z.of_nat (length (pairs rb)))%Z ->
  let risk := root (variance ddof (differences (pairs rb))) in
  ((risk == 0)%Q -> information_ratio_1d_nb sqrt rb ddof = PInf) /\
  (~ (risk == 0)%Q -> is_number (information_ratio_1d_nb sqrt rb ddof) (mean (differences (pairs rb)) / risk)%Q).
Proof. exact information_run. Qed.
Print Assumptions C84_information.

(** Alpha: mean return that beta does not explain, compounded over a year *)
Theorem C84_alpha : forall pow power_of, computes_power pow power_of ->
  forall rb af rf beta, no_infinite_pair rb -> 2 <= length rb -> pairs rb <> [] ->
  is_number (beta_1d_nb rb) beta ->
  is_number (alpha_1d_nb pow rb (Fin af) (Fin rf))
    (power_of (mean (map (fun x => fst x - rf - beta * (snd x - rf)) (pairs rb)) + 1) af - 1)%Q.
Proof. exact alpha_run. Qed.
Print Assumptions C84_alpha.

(** Annualized return, and the Calmar ratio: it per the maximum drawdown *)
Theorem C84_annualized_and_calmar : forall pow power_of, computes_power pow power_of ->
  forall rs af d, no_infinity rs -> rs <> [] ->
  is_number (annualized_return_1d_nb pow rs (Fin af)) (yearly power_of af rs) /\
  ((exists y, max_drawdown_1d_nb rs = Ok y /\ is_number y d) ->
   ((d == 0)%Q -> calmar_ratio_1d_nb pow rs (Fin af) = Ok NaN) /\
   (~ (d == 0)%Q -> exists z, calmar_ratio_1d_nb pow rs (Fin af) = Ok z /\
      is_number z (yearly power_of af rs / Qabs d)%Q)).
Proof.
  exact (fun pow f H rs af d Hi Hne => conj (annualized_run pow f H rs af Hi Hne) (calmar_run pow f H rs af d Hi Hne)).
Qed.
Print Assumptions C84_annualized_and_calmar.

(** Capture ratio: annualized return over that of the benchmark; up and down capture
    look at the bars on which the benchmark rises and falls *)
Theorem C84_capture : forall pow power_of, computes_power pow power_of ->
  forall rb af, no_infinite_pair rb -> rb <> [] ->
  let benchmark := yearly power_of af (map snd rb) in
  ((benchmark == 0)%Q -> capture_1d_nb pow rb (Fin af) = PInf) /\
  (~ (benchmark == 0)%Q ->
     is_number (capture_1d_nb pow rb (Fin af)) (yearly power_of af (map fst rb) / benchmark)%Q).
Proof. exact capture_run. Qed.
Print Assumptions C84_capture.
Theorem C84_up_and_down_capture : forall pow rb af, no_infinite_pair rb ->
  up_capture_1d_nb pow rb (Fin af) =
    (match rising rb with [] => NaN | _ => capture_1d_nb pow (rising rb) (Fin af) end) /\
  down_capture_1d_nb pow rb (Fin af) =
    (match falling rb with [] => NaN | _ => capture_1d_nb pow (falling rb) (Fin af) end).
Proof. exact up_down_run. Qed.
Print Assumptions C84_up_and_down_capture.

(** Tail ratio: the 95% quantile over the 5% quantile, in size (C61 says what they are) *)
Theorem C84_tail : forall rs, no_infinity rs -> vals rs <> [] -> exists hi lo,
  value_at_risk_1d_nb xq_trunc rs (Fin (95 # 100)) = Ok (Fin hi) /\
  value_at_risk_1d_nb xq_trunc rs (Fin (5 # 100)) = Ok (Fin lo) /\
  ((lo == 0)%Q -> tail_ratio_1d_nb xq_trunc rs = Ok PInf) /\
  (~ (lo == 0)%Q -> exists y, tail_ratio_1d_nb xq_trunc rs = Ok y /\ is_number y (Qabs hi / Qabs lo)%Q).
Proof. exact tail_run. Qed.
Print Assumptions C84_tail.

(** A root that is exact on squares and a power that is exact on whole exponents *)
Definition sample_root (q : Q) : Q := let r := Qred q in (Z.sqrt (Qnum r * QDen r) # Qden r).
Definition sample_sqrt (x : XQ) : XQ := match x with Fin q => Fin (sample_root q) | _ => x end.
Definition sample_power (a e : Q) : Q := let r := Qred a in let k := Qnum (Qred e) in Qred (r ^ k).
Definition sample_pow (x y : XQ) : XQ := match x, y with Fin a, Fin e => Fin (sample_power a e) | _, _ => NaN end.

Example C84_nonvacuous :
  computes_root sample_sqrt sample_root /\ computes_power sample_pow sample_power /\
  let rs := [Fin 3; NaN; Fin 1; Fin (-1)] in
  sharpe_ratio_1d_nb sample_sqrt rs (Fin 4) (Fin 0) 1 = Fin 1 /\
  annualized_volatility_1d_nb sample_pow sample_sqrt rs (Fin 4) (Fin 1) 1 = Ok (Fin 8) /\
  omega_ratio_1d_nb sample_pow rs (Fin 1) (Fin 1) (Fin 1) = Ok (Fin (1 # 4)) /\
  up_capture_1d_nb sample_pow [(Fin 3, Fin 1); (Fin 5, Fin (-1))] (Fin 1) = Fin 3.
Proof.
  split; [|split].
  - split; [reflexivity|]. intros p q E. unfold sample_root. now rewrite (Qred_complete _ _ E).
  - split; [reflexivity|]. intros a b d e E1 E2. unfold sample_power.
    now rewrite (Qred_complete _ _ E1), (Qred_complete _ _ E2).
  - vm_compute. auto.
Qed.
