(** * Proofs for C103: omega ratio, drawdowns and quantiles in exact arithmetic *)
From Coq Require Import String ZArith QArith Qround Bool List Arith Lia Lqa Permutation Sorted.
From Verif Require Import Base Num XQFacts OrdLaws GenericNb GenericSpec GenericLemmas GenericLemmas2 RustGeneric RustGenericSpec RustGenericLemmas RustGenericLemmas2 RustLabelsSpec RustLabelsLemmas ReturnsNb ReturnsSpec ReturnsLemmas ReturnsLemmas2 ReturnsLemmas3 RustReturns RustReturnsSpec RustReturnsLemmas RustReturnsLemmas2 RustReturnsLemmas3.
Import ListNotations.
Local Open Scope nat_scope.

(** ** Omega ratio *)
Lemma mirror : forall s x : XQ, sub (mul (neg one) s) x = mul (neg one) (add s x).
Proof.
  intros s x. change (xq_sub (xq_mul (Fin (-1)) s) x = xq_mul (Fin (-1)) (xq_add s x)).
  destruct s as [| | |p], x as [| | |q]; try reflexivity.
  cbn [xq_mul xq_add]. unfold fin. cbn [xq_sub xq_mul]. apply fin_ext. rewrite !Qred_correct. ring.
Qed.
Lemma omega_run : forall adj (l : list XQ) a b,
  fold_left (fun s ret => let x := adj ret in if gtb x zero then (add (fst s) x, snd s) else if ltb x zero then (fst s, sub (snd s) x) else s) l (a, mul (neg one) b) =
  (fold_left add (filter (fun x => gtb x zero) (map adj l)) a, mul (neg one) (fold_left add (filter (fun x => ltb x zero) (map adj l)) b)) :> XQ * XQ.
Proof.
  intros adj. induction l as [|x l IH]; intros a b; cbn [fold_left map filter]; [reflexivity|].
  cbv zeta in IH |- *. cbn [fst snd]. unfold gtb in *. destruct (ltb zero (adj x)) eqn:E.
  - rewrite (ol_asym _ _ E). cbn [fold_left]. apply IH.
  - destruct (ltb (adj x) zero); [rewrite mirror; cbn [fold_left]|]; apply IH.
Qed.
Lemma omega_eq : forall pow (returns : list XQ) f rf rr,
  unless_zero_division (Ok (rs_omega_ratio_1d pow returns f rf rr)) (omega_ratio_1d_nb pow returns f rf rr).
Proof.
  intros pow returns f rf rr. unfold unless_zero_division, rs_omega_ratio_1d, omega_ratio_1d_nb.
  assert (R : forall t, (let (numer, denom) := fold_left (fun s ret => let adj := sub (sub ret rf) t in if gtb adj zero then (add (fst s) adj, snd s) else if ltb adj zero then (fst s, sub (snd s) adj) else s) returns (zero, zero) in
      if eqb denom zero then pinf else div numer denom) =
    (if eqb (mul (neg one) (np_sum (filter (fun x => ltb x zero) (map (fun r => sub (sub r rf) t) returns)))) zero then pinf
     else div (np_sum (filter (fun x => gtb x zero) (map (fun r => sub (sub r rf) t) returns))) (mul (neg one) (np_sum (filter (fun x => ltb x zero) (map (fun r => sub (sub r rf) t) returns))))) :> XQ).
  { intros t. change (@zero XQ XQnum, @zero XQ XQnum) with (@zero XQ XQnum, mul (neg one) (@zero XQ XQnum)).
    rewrite (omega_run (fun ret => sub (sub ret rf) t)). reflexivity. }
  assert (R2 : forall t, (if eqb (mul (neg one) (np_sum (filter (fun x => ltb x zero) (map (fun r => sub (sub r rf) t) returns)))) zero then Ok pinf
     else Ok (div (np_sum (filter (fun x => gtb x zero) (map (fun r => sub (sub r rf) t) returns))) (mul (neg one) (np_sum (filter (fun x => ltb x zero) (map (fun r => sub (sub r rf) t) returns)))))) =
     Ok (let (numer, denom) := fold_left (fun s ret => let adj := sub (sub ret rf) t in if gtb adj zero then (add (fst s) adj, snd s) else if ltb adj zero then (fst s, sub (snd s) adj) else s) returns (zero, zero) in
      if eqb denom zero then pinf else div numer denom) :> res XQ).
  { intros t. rewrite R. destruct (eqb _ zero); reflexivity. }
  cbv zeta in R2 |- *. unfold sdiv.
  destruct (eqb f one). { right. symmetry. apply R2. }
  destruct (leb f (neg one)). { right. reflexivity. }
  destruct (eqb f zero); [left; reflexivity|]. right. cbn [bind]. symmetry. apply R2.
Qed.

(** ** Drawdowns *)
Lemma sgn_hundred : forall b c, xq_sgn_inf b (Qred (c * inject_Z 100)) = xq_mul (xq_sgn_inf b c) (Fin (inject_Z 100)).
Proof.
  intros b c. unfold xq_sgn_inf at 1 2.
  assert (E1 : Qeq_bool (Qred (c * inject_Z 100)) 0 = Qeq_bool c 0).
  { change (inject_Z 100) with 100%Q. destruct (Qeq_bool c 0) eqn:E; [apply qeq_t in E; apply qeq_t|apply qeq_f in E; apply qeq_f]; rewrite Qred_correct; lra. }
  assert (E2 : qlt_bool 0 (Qred (c * inject_Z 100)) = qlt_bool 0 c).
  { change (inject_Z 100) with 100%Q. destruct (qlt_bool 0 c) eqn:E; [apply qlt_t in E; apply qlt_t|apply qlt_f in E; apply qlt_f]; rewrite Qred_correct; lra. }
  rewrite E1, E2. destruct (Qeq_bool c 0); [reflexivity|]. destruct (Bool.eqb _ b); reflexivity.
Qed.
Lemma hundred_grow : forall c y : XQ, mul (mul c (ofZ 100)) y = mul (mul c y) (ofZ 100).
Proof.
  intros c y. change (xq_mul (xq_mul c (Fin (inject_Z 100))) y = xq_mul (xq_mul c y) (Fin (inject_Z 100))).
  assert (H : forall b q, xq_mul (xq_sgn_inf b q) (Fin (inject_Z 100)) = xq_sgn_inf b q).
  { intros b q. unfold xq_sgn_inf. destruct (Qeq_bool q 0); [reflexivity|]. destruct (Bool.eqb _ b); reflexivity. }
  destruct c as [| | |p], y as [| | |q]; try reflexivity.
  - cbn [xq_mul]. rewrite H. reflexivity.
  - cbn [xq_mul]. rewrite H. reflexivity.
  - cbn [xq_mul fin]. apply sgn_hundred.
  - cbn [xq_mul fin]. apply sgn_hundred.
  - cbn [xq_mul]. unfold fin. cbn [xq_mul]. apply fin_ext. rewrite !Qred_correct. ring.
Qed.
Definition cum_bar (_ : nat) (cumprod r : XQ) : XQ * XQ := let cumprod := if isnan r then cumprod else mul cumprod (add r one) in (cumprod, cumprod).
Lemma drawdown_run : forall (l : list XQ) n c m cnt, (cnt = 0 -> isnan m = true) ->
  map (fun cm => sub (div (fst cm) (snd cm)) one) (combine (map (fun x => mul x (ofZ 100)) (scan cum_bar n c l))
    (scan (expanding_extreme_step gtb 1) n (m, cnt) (map (fun x => mul x (ofZ 100)) (scan cum_bar n c l)))) =
  scan rs_drawdown_step n (mul c (ofZ 100), m) l.
Proof.
  induction l as [|x l IH]; intros n c m cnt Hm; [reflexivity|].
  cbn [scan]. unfold cum_bar at 1 3. cbv zeta. cbn [map scan fst snd].
  set (c' := if isnan x then c else mul c (add x one)).
  assert (Ec : rs_grow (mul c (ofZ 100)) x = mul c' (ofZ 100)).
  { unfold rs_grow, c'. destruct (isnan x); [reflexivity|]. apply hundred_grow. }
  unfold rs_drawdown_step at 1. rewrite Ec. unfold expanding_extreme_step at 1.
  set (v := mul c' (ofZ 100)). cbn [combine map fst snd scan].
  set (m' := if (isnan m || gtb v m)%bool then v else m).
  assert (Hm' : (if isnan v then cnt else S cnt) = 0 -> isnan m' = true).
  { intros H. destruct (isnan v) eqn:Ev; [|discriminate]. unfold m'. rewrite (Hm H). exact Ev. }
  f_equal.
  - f_equal. f_equal. destruct (Nat.ltb_spec (if isnan v then cnt else S cnt) 1) as [H|H]; [|reflexivity].
    symmetry. apply (one_nan _ xq_ieee). apply Hm'. lia.
  - exact (IH (S n) c' m' _ Hm').
Qed.
Lemma drawdown_eq : forall returns : list XQ, drawdown_1d_nb returns = rs_drawdown_1d returns.
Proof.
  intros returns. unfold drawdown_1d_nb, rs_drawdown_1d, cum_returns_1d_nb, expanding_max_1d_nb. cbv zeta.
  change (eqb (ofZ 100 : XQ) zero) with false. cbv iota.
  change (fun (_ : nat) (cumprod r : XQ) => (if isnan r then cumprod else mul cumprod (add r one), if isnan r then cumprod else mul cumprod (add r one))) with cum_bar.
  set (cum := map (fun x => mul x (ofZ 100)) (scan cum_bar 0 one returns)).
  assert (E : scan (expanding_extreme_step gtb 1) 0 (hd nan cum, 0) cum = scan (expanding_extreme_step gtb 1) 0 (nan, 0) cum).
  { destruct cum as [|x cum]; [reflexivity|]. cbn [hd scan].
    replace (expanding_extreme_step gtb 1 0 (x, 0) x) with (expanding_extreme_step gtb 1 0 (nan, 0) x); [reflexivity|].
    unfold expanding_extreme_step. destruct (isnan x); [reflexivity|]. destruct (gtb x x); reflexivity. }
  rewrite E. unfold cum. rewrite (drawdown_run returns 0 one nan 0) by reflexivity. reflexivity.
Qed.
Lemma min_strict_run : forall (l : list XQ) m, isnan m = false ->
  rs_min_strict m l = if existsb isnan l then nan else fold_left (fun m v => if ltb v m then v else m) l m.
Proof.
  induction l as [|x l IH]; intros m Hm; [reflexivity|]. cbn [rs_min_strict existsb fold_left]. destruct (isnan x) eqn:E; [reflexivity|].
  cbn [orb]. apply IH. destruct (ltb x m); auto.
Qed.
Lemma max_drawdown_eq : forall returns : list XQ, returns <> [] -> max_drawdown_1d_nb returns = Ok (rs_max_drawdown_1d returns).
Proof.
  intros returns Hr. unfold max_drawdown_1d_nb, rs_max_drawdown_1d. rewrite drawdown_eq.
  assert (Hd : rs_drawdown_1d returns <> []). { destruct returns; [congruence|]. discriminate. }
  destruct (rs_drawdown_1d returns) as [|x l]; [congruence|]. rewrite min_strict_run by reflexivity. unfold np_min, np_extreme.
  destruct (existsb isnan (x :: l)) eqn:E; [reflexivity|]. cbn [existsb] in E. apply orb_false_iff in E as [Ex _].
  cbn [fold_left]. destruct (ltb x pinf) eqn:El; [reflexivity|]. rewrite <- (proj1 xq_one_infinity x Ex El). reflexivity.
Qed.
Lemma calmar_eq : forall pow (returns : list XQ) f, returns <> [] -> calmar_ratio_1d_nb pow returns f = Ok (rs_calmar_ratio_1d pow returns f).
Proof.
  intros pow returns f Hr. unfold calmar_ratio_1d_nb, rs_calmar_ratio_1d. rewrite max_drawdown_eq by auto. cbn [bind].
  rewrite (annualized_return_1d_eq xq_ieee). destruct (eqb (rs_max_drawdown_1d returns) zero); reflexivity.
Qed.

(** ** Quantiles *)
Definition interpolated (s : list Q) (r v : Q) : Prop :=
  let k := Z.to_nat (Qfloor r) in
  exists x, nth_error s k = Some x /\
    ((r == inject_Z (Qfloor r) /\ v == x)%Q \/ exists y, nth_error s (S k) = Some y /\ (v == x * (1 - (r - inject_Z (Qfloor r))) + y * (r - inject_Z (Qfloor r)))%Q).
Lemma interpolated_unique : forall s r v w, interpolated s r v -> interpolated s r w -> (v == w)%Q.
Proof.
  intros s r v w (x & Hx & Hv) (x' & Hx' & Hw). assert (x' = x) as -> by congruence.
  destruct Hv as [[E Hv]|(y & Hy & Hv)], Hw as [[E' Hw]|(y' & Hy' & Hw)].
  - rewrite Hv, Hw. reflexivity.
  - rewrite Hv, Hw. set (f := inject_Z (Qfloor r)) in *. clearbody f. setoid_replace (r - f)%Q with 0%Q by lra. ring.
  - rewrite Hv, Hw. set (f := inject_Z (Qfloor r)) in *. clearbody f. setoid_replace (r - f)%Q with 0%Q by lra. ring.
  - assert (y' = y) as -> by congruence. rewrite Hv, Hw. reflexivity.
Qed.

Section Percentile.
  Variable l : list Q.
  Variable c : Q.
  Hypothesis Hlen : 2 <= length l.
  Hypothesis Hc : (0 <= c <= 1)%Q.
  Let n1 := inject_Z (Z.of_nat (length l) - 1).

  Lemma sorted_some : forall k, k < length l -> exists x, nth_error (qsort l) k = Some x.
  Proof.
    intros k Hk. destruct (nth_error (qsort l) k) as [x|] eqn:E; eauto. apply nth_error_None in E.
    pose proof (Permutation_length (qsort_perm l)). lia.
  Qed.
  Lemma n1_bounds : (1 <= n1)%Q /\ (0 <= n1 * c)%Q /\ (n1 * c <= n1)%Q.
  Proof.
    assert (Hn1 : (1 <= n1)%Q) by (unfold n1; change 1%Q with (inject_Z 1); rewrite <- Zle_Qle; lia).
    split; [exact Hn1|]. split; [apply Qmult_le_0_compat; lra|].
    assert (0 <= n1 * (1 - c))%Q by (apply Qmult_le_0_compat; lra). lra.
  Qed.
  Lemma fin_nth : forall k x, nth_error (qsort l) k = Some x -> nth k (map Fin (qsort l)) nan = Fin x.
  Proof. intros k x H. apply nth_error_nth. rewrite nth_error_map, H. reflexivity. Qed.

  Lemma numba_interpolated : exists v, np_percentile xq_trunc (map Fin l) (Fin (Qred (100 * c))) = Ok (Fin v) /\ interpolated (qsort l) (n1 * c) v.
  Proof.
    destruct n1_bounds as (Hn1 & Hnc & Hnc1).
    unfold np_percentile. cbn [zero ofZ XQnum leb xq_leb eqb xq_eqb].
    replace (Qle_bool (inject_Z 0) (Qred (100 * c))) with true.
    2:{ symmetry. apply qle_t. rewrite Qred_correct. change (inject_Z 0) with 0%Q. lra. }
    replace (Qle_bool (Qred (100 * c)) (inject_Z 100)) with true.
    2:{ symmetry. apply qle_t. rewrite Qred_correct. change (inject_Z 100) with 100%Q. lra. }
    cbn [andb negb raise_if].
    assert (Hfin : forall x, In x (map Fin l) -> exists q, x = Fin q) by (intros x Hx; apply in_map_iff in Hx as (q & <- & _); eauto).
    assert (Hin : forall q, In (Fin q) (map Fin l) -> In q l) by (intros q Hx; apply in_map_iff in Hx as (q' & E & Hq); injection E as <-; auto).
    assert (Hl : map Fin l <> []). { intros E. apply (f_equal (@length XQ)) in E. rewrite map_length in E. cbn in E. lia. }
    assert (Em : forall (A : Type) (a : XQ -> A) (b : A), match map Fin l with [x] => a x | _ => b end = b).
    { intros A a b. destruct l as [|q0 [|q1 qs]]; cbn in Hlen; try lia. reflexivity. }
    rewrite Em. clear Em. change (inject_Z 100) with 100%Q. change (inject_Z 0) with 0%Q.
    destruct (Qeq_bool (Qred (100 * c)) 100) eqn:E1; [|destruct (Qeq_bool (Qred (100 * c)) 0) eqn:E2].
    - apply qeq_t in E1. rewrite Qred_correct in E1. destruct (np_max_number (map Fin l) Hl Hfin) as (v & -> & Hv & Hmax). cbn [bind].
      exists v. split; [reflexivity|]. assert (Ec : (n1 * c == n1)%Q) by (setoid_replace c with 1%Q by lra; ring).
      assert (Ef : Qfloor (n1 * c) = (Z.of_nat (length l) - 1)%Z) by (rewrite Ec; apply Qfloor_Z).
      unfold interpolated. rewrite Ef. replace (Z.to_nat (Z.of_nat (length l) - 1)) with (length l - 1) by lia.
      destruct (sorted_some (length l - 1)) as [x Hx]; [lia|]. exists x. split; [exact Hx|]. left. split; [exact Ec|].
      apply Qle_antisym.
      + apply Hin in Hv. apply (Permutation_in _ (qsort_perm l)) in Hv. apply In_nth_error in Hv as [j Hj].
        pose proof (nth_error_lt _ _ _ Hj) as HL. pose proof (Permutation_length (qsort_perm l)).
        eapply sorted_nth; [apply qsort_sorted| |exact Hj|exact Hx]. lia.
      + apply Hmax, in_map. eapply Permutation_in; [apply Permutation_sym, qsort_perm|]. eapply nth_error_In; eauto.
    - apply qeq_t in E2. rewrite Qred_correct in E2. destruct (np_min_number (map Fin l) Hl Hfin) as (v & -> & Hv & Hmin). cbn [bind].
      exists v. split; [reflexivity|]. assert (Ec : (n1 * c == 0)%Q) by (setoid_replace c with 0%Q by lra; ring).
      assert (Ef : Qfloor (n1 * c) = 0%Z) by (rewrite Ec; reflexivity).
      unfold interpolated. rewrite Ef. cbn [Z.to_nat].
      destruct (sorted_some 0) as [x Hx]; [lia|]. exists x. split; [exact Hx|]. left. split; [exact Ec|].
      apply Qle_antisym.
      + apply Hmin, in_map. eapply Permutation_in; [apply Permutation_sym, qsort_perm|]. eapply nth_error_In; eauto.
      + apply Hin in Hv. apply (Permutation_in _ (qsort_perm l)) in Hv. apply In_nth_error in Hv as [j Hj].
        eapply sorted_nth; [apply qsort_sorted| |exact Hx|exact Hj]. lia.
    - apply qeq_f in E1, E2. rewrite Qred_correct in E1, E2. rewrite map_length, sort_fin. fold n1.
      assert (Hlt : (n1 * c < n1)%Q). { assert (c < 1)%Q by lra. assert (0 < n1 * (1 - c))%Q by (apply Qmult_lt_0_compat; lra). lra. }
      cbn [one ofZ XQnum add xq_add mul xq_mul fin div xq_div].
      change (inject_Z 100) with 100%Q. change (inject_Z 1) with 1%Q.
      replace (Qeq_bool 100 0) with false by reflexivity. fold n1. unfold fin.
      set (rank := Qred (1 + Qred (n1 * Qred (Qred (100 * c) / 100)))).
      assert (Hr : (rank == 1 + n1 * c)%Q) by (unfold rank; rewrite !Qred_correct; field).
      assert (Et : xq_trunc (Fin rank) = (Qfloor (n1 * c) + 1)%Z).
      { cbn [xq_trunc]. replace (Qle_bool 0 rank) with true by (symmetry; apply qle_t; lra).
        rewrite Hr. rewrite (Qplus_comm 1).
        apply Z.le_antisymm.
        - assert (H := Qfloor_le (n1 * c + 1)). assert (H2 := Qlt_floor (n1 * c)).
          assert (Hl2 : (inject_Z (Qfloor (n1 * c + 1)) < inject_Z (Qfloor (n1 * c) + 1 + 1))%Q).
          { rewrite inject_Z_plus. change (inject_Z 1) with 1%Q. lra. }
          rewrite <- Zlt_Qlt in Hl2. lia.
        - assert (H : (inject_Z (Qfloor (n1 * c) + 1) <= n1 * c + 1)%Q).
          { rewrite inject_Z_plus. change (inject_Z 1) with 1%Q. assert (H := Qfloor_le (n1 * c)). lra. }
          apply Qfloor_resp_le in H. rewrite Qfloor_Z in H. exact H. }
      rewrite Et. replace (Qfloor (n1 * c) + 1 - 1)%Z with (Qfloor (n1 * c)) by lia. set (k := Z.to_nat (Qfloor (n1 * c))).
      assert (Hfl0 : (0 <= Qfloor (n1 * c))%Z).
      { change 0%Z with (Qfloor (inject_Z 0)). apply Qfloor_resp_le. auto. }
      assert (Hk1 : S k < length l).
      { assert (H : (inject_Z (Qfloor (n1 * c)) < n1)%Q) by (pose proof (Qfloor_le (n1 * c)); lra).
        unfold n1 in H at 2. rewrite <- Zlt_Qlt in H. unfold k. lia. }
      destruct (sorted_some k) as [x Hx]; [lia|]. destruct (sorted_some (S k)) as [y Hy]; [lia|].
      rewrite (fin_nth _ _ Hx), (fin_nth _ _ Hy). cbn [sub xq_sub XQnum fin mul xq_mul add xq_add].
      eexists. split; [reflexivity|]. unfold interpolated. fold k. exists x. split; [exact Hx|]. right. exists y. split; [exact Hy|].
      rewrite !Qred_correct, Hr, inject_Z_plus. change (inject_Z 1) with 1%Q. ring.
  Qed.

  Lemma rust_interpolated : exists v, rs_percentile xq_floor xq_ceil (map Fin l) (Fin (Qred (100 * c))) = Ok (Fin v) /\ interpolated (qsort l) (n1 * c) v.
  Proof.
    destruct n1_bounds as (Hn1 & Hnc & Hnc1). unfold rs_percentile.
    assert (Em : forall (A : Type) (z : A) (a : XQ -> A) (b : A), match map Fin l with [] => z | [x] => a x | _ => b end = b).
    { intros A z a b. destruct l as [|q0 [|q1 qs]]; cbn in Hlen; try lia. reflexivity. }
    rewrite Em. clear Em. rewrite map_length, sort_fin. cbv zeta.
    cbn [ofZ XQnum mul xq_mul div xq_div]. replace (Qeq_bool (inject_Z 100) 0) with false by reflexivity. fold n1. unfold fin. cbn [xq_mul]. unfold fin.
    set (rank := Qred (Qred (Qred (100 * c) / inject_Z 100) * n1)).
    assert (Hr : (rank == n1 * c)%Q) by (unfold rank; rewrite !Qred_correct; change (inject_Z 100) with 100%Q; field).
    cbn [xq_floor xq_ceil]. assert (Ef : Qfloor rank = Qfloor (n1 * c)) by (rewrite Hr; reflexivity).
    assert (Hfl0 : (0 <= Qfloor (n1 * c))%Z).
    { change 0%Z with (Qfloor (inject_Z 0)). apply Qfloor_resp_le. auto. }
    assert (Hce : (Qceiling rank <= Z.of_nat (length l) - 1)%Z).
    { rewrite Hr. rewrite <- (Qceiling_Z (Z.of_nat (length l) - 1)). apply Qceiling_resp_le. exact Hnc1. }
    assert (Hfc : (Qfloor (n1 * c) <= Qceiling rank)%Z).
    { rewrite Zle_Qle. pose proof (Qfloor_le (n1 * c)). pose proof (Qle_ceiling rank). lra. }
    rewrite Ef. destruct (Nat.leb_spec (length l) (Z.to_nat (Qceiling rank))) as [H|_]; [lia|].
    set (k := Z.to_nat (Qfloor (n1 * c))).
    destruct (Nat.eqb_spec k (Z.to_nat (Qceiling rank))) as [E|E].
    - rewrite <- E. destruct (sorted_some k) as [x Hx]; [unfold k; lia|]. rewrite (fin_nth _ _ Hx). exists x. split; [reflexivity|].
      unfold interpolated. fold k. exists x. split; [exact Hx|]. left. split; [|reflexivity].
      assert (Eq : Qfloor (n1 * c) = Qceiling rank) by (unfold k in E; lia).
      apply Qle_antisym; [|apply Qfloor_le]. rewrite Eq. rewrite <- Hr. apply Qle_ceiling.
    - assert (Ec : Qceiling rank = (Qfloor (n1 * c) + 1)%Z).
      { assert (Qceiling rank <= Qfloor (n1 * c) + 1)%Z; [|unfold k in E; lia].
        rewrite <- (Qceiling_Z (Qfloor (n1 * c) + 1)). apply Qceiling_resp_le. rewrite Hr. apply Qlt_le_weak, Qlt_floor. }
      rewrite Ec. replace (Z.to_nat (Qfloor (n1 * c) + 1)) with (S k) by (unfold k; lia).
      destruct (sorted_some k) as [x Hx]; [unfold k; lia|]. destruct (sorted_some (S k)) as [y Hy]; [unfold k; lia|].
      rewrite (fin_nth _ _ Hx), (fin_nth _ _ Hy).
      replace (Z.of_nat (S k)) with (Qfloor (n1 * c) + 1)%Z by (unfold k; lia). replace (Z.of_nat k) with (Qfloor (n1 * c)) by (unfold k; lia).
      cbn [sub xq_sub XQnum fin mul xq_mul add xq_add]. unfold fin. cbn [xq_mul]. unfold fin. cbn [xq_add]. unfold fin.
      eexists. split; [reflexivity|]. unfold interpolated. fold k. exists x. split; [exact Hx|]. right. exists y. split; [exact Hy|].
      rewrite !Qred_correct, Hr, inject_Z_plus. change (inject_Z 1) with 1%Q. ring.
  Qed.
End Percentile.

Lemma percentiles_agree : forall l c, l <> [] -> (0 <= c <= 1)%Q -> exists v w,
  np_percentile xq_trunc (map Fin l) (Fin (Qred (100 * c))) = Ok (Fin v) /\
  rs_percentile xq_floor xq_ceil (map Fin l) (Fin (Qred (100 * c))) = Ok (Fin w) /\ (w == v)%Q.
Proof.
  intros l c Hl Hc. destruct l as [|x [|y l]]; [congruence| |].
  - exists x, x. split; [|split; reflexivity]. unfold np_percentile. cbn [zero ofZ XQnum leb xq_leb].
    replace (Qle_bool (inject_Z 0) (Qred (100 * c))) with true.
    2:{ symmetry. apply qle_t. rewrite Qred_correct. change (inject_Z 0) with 0%Q. lra. }
    replace (Qle_bool (Qred (100 * c)) (inject_Z 100)) with true.
    2:{ symmetry. apply qle_t. rewrite Qred_correct. change (inject_Z 100) with 100%Q. lra. }
    reflexivity.
  - assert (H : 2 <= length (x :: y :: l)) by (cbn; lia).
    destruct (numba_interpolated _ c H Hc) as (v & E & Hv). destruct (rust_interpolated _ c H Hc) as (w & F & Hw).
    exists v, w. split; [exact E|]. split; [exact F|]. exact (interpolated_unique _ _ _ _ Hw Hv).
Qed.
Lemma value_at_risk_agrees : forall returns c, no_infinity returns -> (0 <= c <= 1)%Q ->
  both_agree (rs_value_at_risk_1d xq_floor xq_ceil returns (Fin c)) (value_at_risk_1d_nb xq_trunc returns (Fin c)).
Proof.
  intros returns c Hr Hc. unfold rs_value_at_risk_1d, value_at_risk_1d_nb. rewrite drop_nan_vals by auto.
  destruct (vals returns) as [|x l] eqn:E; [exact Logic.I|]. cbn [map]. change (Fin x :: map Fin l) with (map Fin (x :: l)).
  assert (Hne : x :: l <> []) by discriminate.
  destruct (percentiles_agree (x :: l) c Hne Hc) as (v & w & E1 & E2 & Hvw).
  change (mul (ofZ 100) (Fin c)) with (Fin (Qred (100 * c))).
  rewrite E1, E2. exact Hvw.
Qed.
Lemma abs_agrees : forall v w, (w == v)%Q -> exists a b, abs (Fin w) = Fin a /\ abs (Fin v) = Fin b /\ (a == b)%Q.
Proof.
  intros v w H. destruct (xq_abs_fin w) as (a & Ea & Ha). destruct (xq_abs_fin v) as (b & Eb & Hb).
  exists a, b. split; [exact Ea|]. split; [exact Eb|]. rewrite Ha, Hb, H. reflexivity.
Qed.
Lemma tail_ratio_agrees : forall returns, no_infinity returns ->
  both_agree (rs_tail_ratio_1d xq_floor xq_ceil returns) (tail_ratio_1d_nb xq_trunc returns).
Proof.
  intros returns Hr. unfold rs_tail_ratio_1d, tail_ratio_1d_nb. rewrite drop_nan_vals by auto.
  destruct (vals returns) as [|x l] eqn:E; [exact Logic.I|]. cbn [map]. change (Fin x :: map Fin l) with (map Fin (x :: l)).
  assert (Hne : x :: l <> []) by discriminate.
  destruct (percentiles_agree (x :: l) (95 # 100) Hne ltac:(split; discriminate)) as (v & w & E1 & E2 & Hvw).
  destruct (percentiles_agree (x :: l) (5 # 100) Hne ltac:(split; discriminate)) as (v' & w' & E1' & E2' & Hvw').
  change (Fin (Qred (100 * (95 # 100)))) with (@ofZ XQ XQnum 95) in E1, E2. change (Fin (Qred (100 * (5 # 100)))) with (@ofZ XQ XQnum 5) in E1', E2'.
  rewrite E1, E2. cbn [bind]. rewrite E1', E2'. cbn [bind].
  destruct (abs_agrees _ _ Hvw) as (a & b & -> & -> & Hab). destruct (abs_agrees _ _ Hvw') as (a' & b' & -> & -> & Hab').
  change (eqb (Fin a') zero) with (Qeq_bool a' 0). change (eqb (Fin b') zero) with (Qeq_bool b' 0).
  assert (Ez : Qeq_bool a' 0 = Qeq_bool b' 0) by (rewrite Hab'; reflexivity). rewrite Ez.
  destruct (Qeq_bool b' 0) eqn:Eb; [exact Logic.I|].
  change (both_agree (Ok (xq_div (Fin a) (Fin a'))) (Ok (xq_div (Fin b) (Fin b')))). cbn [xq_div]. rewrite Ez, Eb. cbn [both_agree agrees fin].
  rewrite !Qred_correct, Hab, Hab'. reflexivity.
Qed.

(** ** Windows *)
Lemma window_nonempty : forall A (a : list A) window i, 1 <= window -> i < length a -> slice (S i - window) (S i) a <> [].
Proof.
  intros A a window i Hw Hi E. apply (f_equal (@length A)) in E. unfold slice in E. rewrite skipn_length, firstn_length in E. cbn [length] in E. lia.
Qed.
