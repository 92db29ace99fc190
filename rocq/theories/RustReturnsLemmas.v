(** * Proofs for C103: returns, means, ratios in any arithmetic *)
From Coq Require Import String ZArith Bool List Arith Lia.
From Verif Require Import Base Num OrdLaws GenericNb RustGeneric RustGenericSpec RustGenericLemmas ReturnsNb RustReturns RustReturnsSpec.
Import ListNotations.
Local Open Scope nat_scope.

Section Any.
  Context {T : Type} {N : Num T} {L : OrdLaws N} (I : ieee_like N).
  Variable pow : T -> T -> T.
  Variable sqrt : T -> T.

  Lemma get_return_eq : forall i o : T, rs_get_return i o = get_return_nb i o.
  Proof.
    intros i o. unfold rs_get_return, get_return_nb. destruct (eqb i zero); [|reflexivity].
    destruct (eqb o zero) eqn:Eo; [reflexivity|]. unfold sign. destruct (isnan o) eqn:En.
    { symmetry. apply (nan_mul N I). }
    rewrite ol_eqb, !ol_leb, En, (zero_number N I) in Eo. cbn in Eo.
    destruct (infinity_times_sign N I) as [H1 H2].
    destruct (ltb o zero) eqn:E1.
    - rewrite (ol_asym o zero E1). symmetry. exact H2.
    - cbn in Eo. destruct (ltb zero o); [symmetry; exact H1|discriminate].
  Qed.

  Lemma returns_1d_eq : forall (value : list T) init, rs_returns_1d value init = returns_1d_nb value init.
  Proof.
    unfold rs_returns_1d, returns_1d_nb. generalize 0. intros n value. revert n. induction value as [|x l IH]; intros n init; cbn [scan]; auto.
    rewrite get_return_eq. f_equal. apply IH.
  Qed.

  Lemma cum_returns_scan : forall (l : list T) n s v, scan (rs_cum_step v) n s l =
    (let out := scan (fun _ cumprod r => let cumprod := if isnan r then cumprod else mul cumprod (add r one) in (cumprod, cumprod)) n s l in
     if eqb v zero then map (fun x => sub x one) out else map (fun x => mul x v) out).
  Proof.
    induction l as [|x l IH]; intros n s v; cbn [scan].
    - destruct (eqb v zero); reflexivity.
    - unfold rs_cum_step at 1. cbn [fst snd]. cbv zeta in IH |- *. cbn [scan map fst snd]. rewrite IH. destruct (eqb v zero); reflexivity.
  Qed.
  Lemma cum_returns_1d_eq : forall (returns : list T) v, rs_cum_returns_1d returns v = cum_returns_1d_nb returns v.
  Proof. intros returns v. exact (cum_returns_scan returns 0 one v). Qed.

  Lemma grow_eq : forall (l : list T) s, fold_left rs_grow l s = fold_left (fun c v => if isnan v then c else mul c v) (map (fun r => add r one) l) s.
  Proof.
    induction l as [|x l IH]; intros s; cbn [fold_left map]; auto. unfold rs_grow at 2. rewrite (plus_one N I). apply IH.
  Qed.
  Lemma cum_returns_final_1d_eq : forall (returns : list T) v, rs_cum_returns_final_1d returns v = cum_returns_final_1d_nb returns v.
  Proof. intros returns v. unfold rs_cum_returns_final_1d, cum_returns_final_1d_nb, rs_finish, np_nanprod. rewrite grow_eq. reflexivity. Qed.
  Lemma annualized_return_1d_eq : forall (returns : list T) f, rs_annualized_return_1d pow returns f = annualized_return_1d_nb pow returns f.
  Proof. intros [|x l] f; [reflexivity|]. unfold rs_annualized_return_1d, annualized_return_1d_nb. rewrite cum_returns_final_1d_eq. reflexivity. Qed.

  (** ** Means *)
  Lemma sum_count_run : forall A (value : A -> T) l s n,
    fold_left (fun s x => let v := value x in if isnan v then s else (add (fst s) v, snd s + 1)) l (s, n) =
    (fold_left (fun c v => if isnan v then c else add c v) (map value l) s, n + length (filter (fun v => negb (isnan v)) (map value l))).
  Proof.
    intros A value. induction l as [|x l IH]; intros s n; cbn [fold_left map filter].
    - cbn. f_equal. lia.
    - cbv zeta in IH |- *. destruct (isnan (value x)) eqn:E; cbn [negb fst snd]; rewrite IH; auto.
      f_equal. cbn [length]. lia.
  Qed.
  Lemma sum_count_eq : forall A (value : A -> T) l, rs_sum_count value l =
    (fold_left (fun c v => if isnan v then c else add c v) (map value l) zero, length (filter (fun v => negb (isnan v)) (map value l))).
  Proof. intros A value l. exact (sum_count_run A value l zero 0). Qed.
  Lemma none_sum : forall (l : list T) s, length (filter (fun v => negb (isnan v)) l) = 0 -> fold_left (fun c v => if isnan v then c else add c v) l s = s.
  Proof.
    induction l as [|x l IH]; intros s H; cbn [fold_left filter] in *; auto. destruct (isnan x); cbn in H; [auto|discriminate].
  Qed.
  Lemma nanmean_eq : forall A (value : A -> T) l, rs_nanmean value l = np_nanmean (map value l).
  Proof.
    intros A value l. unfold rs_nanmean, np_nanmean. rewrite sum_count_eq. unfold count_numbers.
    destruct (Nat.eqb_spec (length (filter (fun v => negb (isnan v)) (map value l))) 0) as [E|E]; [|reflexivity].
    rewrite none_sum by auto. rewrite E. symmetry. apply (nothing_by_nothing N I).
  Qed.

  Hypothesis sqrt_nan : sqrt nan = nan.

  Lemma fold_ext : forall A S (f g : S -> A -> S) l s, (forall s x, f s x = g s x) -> fold_left f l s = fold_left g l s.
  Proof. intros A S f g l. induction l as [|x l IH]; intros s H; cbn [fold_left]; auto. rewrite H. apply IH. auto. Qed.

  Lemma downside_risk_1d_eq : forall (returns : list T) f r, rs_downside_risk_1d sqrt returns f r = downside_risk_1d_nb sqrt returns f r.
  Proof.
    intros returns f r. unfold rs_downside_risk_1d, downside_risk_1d_nb.
    rewrite (fold_ext _ _ _ (fun s x => let v := (fun ret => mul (if gtb (sub ret r) zero then zero else sub ret r) (if gtb (sub ret r) zero then zero else sub ret r)) x in
        if isnan v then s else (add (fst s) v, snd s + 1))).
    2: { intros s x. cbv zeta. rewrite (square_number N I). reflexivity. }
    rewrite map_map. cbv zeta.
    pose proof (nanmean_eq T (fun ret => mul (if gtb (sub ret r) zero then zero else sub ret r) (if gtb (sub ret r) zero then zero else sub ret r)) returns) as H.
    unfold rs_nanmean, rs_sum_count in H. cbv zeta in H. rewrite <- H. clear H.
    destruct (fold_left _ returns (zero, 0)) as [sum count]. destruct (Nat.eqb count 0); [|reflexivity].
    rewrite sqrt_nan. symmetry. apply (nan_mul N I).
  Qed.
  Lemma sortino_ratio_1d_eq : forall (returns : list T) f r, rs_sortino_ratio_1d sqrt returns f r = sortino_ratio_1d_nb sqrt returns f r.
  Proof. intros returns f r. unfold rs_sortino_ratio_1d, sortino_ratio_1d_nb. rewrite nanmean_eq, downside_risk_1d_eq. reflexivity. Qed.

  (** ** Against a benchmark *)
  Lemma two_means : forall A (f g : A -> T) l a b,
    fold_left (fun s x => (if isnan (f x) then fst s else (add (fst (fst s)) (f x), snd (fst s) + 1),
                           if isnan (g x) then snd s else (add (fst (snd s)) (g x), snd (snd s) + 1))) l (a, b) =
    (fold_left (fun s x => let v := f x in if isnan v then s else (add (fst s) v, snd s + 1)) l a,
     fold_left (fun s x => let v := g x in if isnan v then s else (add (fst s) v, snd s + 1)) l b).
  Proof. intros A f g. induction l as [|x l IH]; intros a b; cbn [fold_left]; auto. Qed.

  Lemma combine_fst : forall A B (a : list A) (b : list B), length a = length b -> map fst (combine a b) = a.
  Proof. intros A B. induction a as [|x a IH]; intros [|y b] H; cbn in *; try discriminate; auto. f_equal. apply IH. lia. Qed.
  Lemma combine_snd : forall A B (a : list A) (b : list B), length a = length b -> map snd (combine a b) = b.
  Proof. intros A B. induction a as [|x a IH]; intros [|y b] H; cbn in *; try discriminate; auto. f_equal. apply IH. lia. Qed.

  Lemma mean_of : forall A (f : A -> T) l, (let (s, n) := fold_left (fun s x => let v := f x in if isnan v then s else (add (fst s) v, snd s + 1)) l (zero, 0) in
    if Nat.eqb n 0 then nan else div s (ofZ (Z.of_nat n))) = np_nanmean (map f l).
  Proof. intros A f l. exact (nanmean_eq A f l). Qed.

  Lemma combine_map2 : forall A C D (f : A -> C) (g : A -> D) (l : list A), combine (map f l) (map g l) = map (fun x => (f x, g x)) l.
  Proof. intros. induction l as [|x l IH]; cbn; auto. rewrite IH. reflexivity. Qed.

  Lemma beta_1d_eq : forall r b : list T, length r = length b -> rs_beta_1d r b = beta_1d_nb (combine r b).
  Proof.
    intros r b Hl. unfold rs_beta_1d, beta_1d_nb. rewrite combine_length, Hl, Nat.min_id.
    destruct (Nat.ltb (length b) 2); [reflexivity|].
    set (rb := combine r b).
    rewrite (fold_ext _ _ _ (fun s x => let v := (fun x : T * T => if isnan (fst x) then nan else snd x) x in if isnan v then s else (add (fst s) v, snd s + 1))).
    2: { intros s x. cbv zeta. destruct (isnan (fst x)) eqn:E; [rewrite ol_nan; reflexivity|]. destruct (isnan (snd x)); reflexivity. }
    pose proof (mean_of _ (fun x : T * T => if isnan (fst x) then nan else snd x) rb) as Hm. revert Hm.
    destruct (fold_left _ rb (zero, 0)) as [isum icount]. intros Hm. cbv zeta. rewrite Hm. clear Hm.
    set (mean := np_nanmean _).
    rewrite (two_means _ (fun x : T * T => mul (sub (if isnan (fst x) then nan else snd x) mean) (fst x))
                         (fun x => mul (sub (if isnan (fst x) then nan else snd x) mean) (sub (if isnan (fst x) then nan else snd x) mean))).
    pose proof (mean_of _ (fun x : T * T => mul (sub (if isnan (fst x) then nan else snd x) mean) (fst x)) rb) as H1.
    pose proof (mean_of _ (fun x : T * T => mul (sub (if isnan (fst x) then nan else snd x) mean) (sub (if isnan (fst x) then nan else snd x) mean)) rb) as H2.
    revert H1 H2. destruct (fold_left _ rb (zero, 0)) as [cs cc]. destruct (fold_left _ rb (zero, 0)) as [vs vc]. intros H1 H2.
    rewrite H1, H2. rewrite !map_map. rewrite combine_map2, map_map. reflexivity.
  Qed.

  Lemma alpha_1d_eq : forall (r b : list T) f rf, length r = length b -> rs_alpha_1d pow r b f rf = alpha_1d_nb pow (combine r b) f rf.
  Proof.
    intros r b f rf Hl. unfold rs_alpha_1d, alpha_1d_nb. rewrite combine_length, <- Hl, Nat.min_id.
    destruct (Nat.ltb (length r) 2); [reflexivity|]. rewrite beta_1d_eq, nanmean_eq by auto. reflexivity.
  Qed.

  (** ** Capture *)
  Lemma grow_unit : forall (l : list T) s, mul s one = s -> mul (fold_left rs_grow l s) one = fold_left rs_grow l s.
  Proof.
    induction l as [|x l IH]; intros s H; cbn [fold_left]; auto. apply IH. unfold rs_grow. destruct (isnan x); auto. apply (times_one N I).
  Qed.
  Lemma eqb_one_zero : eqb (one : T) zero = false -> forall (l : list T), cum_returns_final_1d_nb l one = fold_left rs_grow l one.
  Proof.
    intros H l. rewrite <- cum_returns_final_1d_eq. unfold rs_cum_returns_final_1d, rs_finish. rewrite H. apply grow_unit. apply (one_times_one N I).
  Qed.
  Hypothesis one_not_zero : eqb (one : T) zero = false.

  Lemma from_product_eq : forall (l : list T) f, rs_annualized_return_from_product pow (fold_left rs_grow l one) (length l) f = annualized_return_1d_nb pow l f.
  Proof.
    intros l f. unfold rs_annualized_return_from_product, annualized_return_1d_nb. destruct l as [|x l]; [reflexivity|].
    rewrite eqb_one_zero by auto. reflexivity.
  Qed.
  Lemma two_products : forall (l : list (T * T)) a b, fold_left (fun s x => (rs_grow (fst s) (fst x), rs_grow (snd s) (snd x))) l (a, b) =
    (fold_left rs_grow (map fst l) a, fold_left rs_grow (map snd l) b).
  Proof. induction l as [|x l IH]; intros a b; cbn [fold_left map]; auto. Qed.

  Lemma capture_1d_eq : forall (r b : list T) f, length r = length b -> rs_capture_1d pow r b f = capture_1d_nb pow (combine r b) f.
  Proof.
    intros r b f Hl. unfold rs_capture_1d, capture_1d_nb, rs_ratio. rewrite two_products, combine_fst, combine_snd by auto.
    rewrite !from_product_eq. reflexivity.
  Qed.

  Lemma filtered_run : forall (p : T -> bool), (forall x, p x = true -> isnan x = false) -> forall (l : list (T * T)) a b n,
    fold_left (rs_filtered_step p) l (a, b, n) =
    (fold_left rs_grow (map fst (filter (fun x => p (snd x)) l)) a, fold_left rs_grow (map snd (filter (fun x => p (snd x)) l)) b,
     n + length (filter (fun x => p (snd x)) l)).
  Proof.
    intros p Hp. induction l as [|x l IH]; intros a b n; cbn [fold_left filter].
    - cbn. rewrite Nat.add_0_r. reflexivity.
    - unfold rs_filtered_step at 2. destruct (p (snd x)) eqn:E; rewrite IH; auto. cbn [map fold_left length].
      replace (rs_grow b (snd x)) with (mul b (add (snd x) one)) by (unfold rs_grow; rewrite (Hp _ E); reflexivity). f_equal. lia.
  Qed.
  Lemma filtered_finish_eq : forall (p : T -> bool) f, (forall x, p x = true -> isnan x = false) -> forall (l : list (T * T)),
    rs_filtered_finish pow f (fold_left (rs_filtered_step p) l (one, one, 0)) =
    match filter (fun x => p (snd x)) l with [] => nan | l' => capture_1d_nb pow l' f end.
  Proof.
    intros p f Hp l. rewrite filtered_run by auto. unfold rs_filtered_finish. cbn [Nat.add].
    set (l2 := filter _ l). clearbody l2.
    assert (H : capture_1d_nb pow l2 f = rs_ratio (rs_annualized_return_from_product pow (fold_left rs_grow (map fst l2) one) (length l2) f)
      (rs_annualized_return_from_product pow (fold_left rs_grow (map snd l2) one) (length l2) f)).
    { unfold capture_1d_nb, rs_ratio. rewrite <- !from_product_eq, !map_length. reflexivity. }
    destruct l2 as [|y l2]; [reflexivity|]. rewrite H. reflexivity.
  Qed.
  Lemma up_capture_1d_eq : forall (r b : list T) f, rs_up_capture_1d pow r b f = up_capture_1d_nb pow (combine r b) f.
  Proof.
    intros r b f. unfold rs_up_capture_1d, up_capture_1d_nb. apply (filtered_finish_eq (fun x => gtb x zero)).
    intros x H. apply (ltb_notnan _ _ H).
  Qed.
  Lemma down_capture_1d_eq : forall (r b : list T) f, rs_down_capture_1d pow r b f = down_capture_1d_nb pow (combine r b) f.
  Proof.
    intros r b f. unfold rs_down_capture_1d, down_capture_1d_nb. apply (filtered_finish_eq (fun x => ltb x zero)).
    intros x H. apply (ltb_notnan _ _ H).
  Qed.

  (** ** Tails *)
  Lemma nan_sum : forall (l : list T), fold_left add l nan = nan.
  Proof. induction l as [|x l IH]; cbn [fold_left]; auto. rewrite (proj1 (nan_add N I x)). exact IH. Qed.
  Lemma sum_strict_eq : forall (l : list T) s, match rs_sum_strict s l with Some x => x | None => nan end = fold_left add l s.
  Proof.
    induction l as [|x l IH]; intros s; cbn [rs_sum_strict fold_left]; auto. destruct (isnan x) eqn:E; [|apply IH].
    rewrite (one_nan N I x E), (proj2 (nan_add N I s)). symmetry. apply nan_sum.
  Qed.
  Lemma mean_strict_eq : forall (l : list T), rs_mean_strict l = np_mean l.
  Proof.
    intros l. unfold rs_mean_strict, np_mean, np_sum. destruct l as [|x l]; [symmetry; apply (nothing_by_nothing N I)|].
    rewrite <- sum_strict_eq. destruct (rs_sum_strict zero (x :: l)); [reflexivity|]. symmetry. apply (nan_div N I).
  Qed.
  Lemma cond_value_at_risk_1d_eq : forall trunc (returns : list T) cutoff,
    (trunc (mul (ofZ (Z.of_nat (length returns) - 1)) cutoff) < Z.of_nat (length returns))%Z ->
    rs_cond_value_at_risk_1d trunc returns cutoff = Ok (cond_value_at_risk_1d_nb trunc returns cutoff).
  Proof.
    intros trunc [|x l] cutoff H; [reflexivity|]. unfold rs_cond_value_at_risk_1d, cond_value_at_risk_1d_nb. cbv zeta.
    destruct (Nat.leb_spec (length (x :: l)) (Z.to_nat (trunc (mul (ofZ (Z.of_nat (length (x :: l)) - 1)) cutoff)))) as [E|E].
    { exfalso. cbn [length] in *. lia. }
    rewrite mean_strict_eq. reflexivity.
  Qed.

  (** ** Rolling *)
  Lemma rolling_run : forall window minp (k1 : nat -> T) (k2 : nat -> list T -> res T) (a : list T), (forall i, i < length a -> k2 i (slice (S i - window) (S i) a) = Ok (k1 i)) ->
    forall l i nc arr, i + length l = length a -> length arr = i -> nc <= i ->
    (forall j, j < i -> nth j arr 0 <= nc /\ nc - nth j arr 0 <= i - 1 - j) ->
    scanM (rolling_apply_step window minp k2 a) i (Z.of_nat nc, map Z.of_nat arr) l = Ok (scan (rs_rolling_step window minp k1) i (nc, arr) l).
  Proof.
    intros window minp k1 k2 a Hk. induction l as [|x l IH]; intros i nc arr Hi Ha Hn Harr; [reflexivity|].
    cbn [scanM scan]. unfold rolling_apply_step at 1, rs_rolling_step at 1.
    set (nc' := if isnan x then nc + 1 else nc).
    assert (E1 : (if isnan x then (Z.of_nat nc + 1)%Z else Z.of_nat nc) = Z.of_nat nc') by (unfold nc'; destruct (isnan x); lia). rewrite E1. clear E1.
    assert (Hnc : nc <= nc' <= nc + 1) by (unfold nc'; destruct (isnan x); lia). clearbody nc'.
    assert (E2 : map Z.of_nat arr ++ [Z.of_nat nc'] = map Z.of_nat (arr ++ [nc'])) by (rewrite map_app; reflexivity). rewrite E2. clear E2.
    assert (Harr' : forall j, j < S i -> nth j (arr ++ [nc']) 0 <= nc' /\ nc' - nth j (arr ++ [nc']) 0 <= i - j).
    { intros j Hj. destruct (Nat.eq_dec j i) as [->|Hne].
      - rewrite app_nth2, Ha, Nat.sub_diag by lia. cbn. lia.
      - rewrite app_nth1 by lia. pose proof (Harr j ltac:(lia)). lia. }
    assert (E3 : (if Nat.ltb i window then (Z.of_nat i + 1 - Z.of_nat nc')%Z else (Z.of_nat window - (Z.of_nat nc' - nth (i - window) (map Z.of_nat (arr ++ [nc'])) 0))%Z)
      = Z.of_nat (if Nat.ltb i window then i + 1 - nc' else window - (nc' - nth (i - window) (arr ++ [nc']) 0))).
    { destruct (Nat.ltb_spec i window); [lia|]. change 0%Z with (Z.of_nat 0). rewrite map_nth.
      pose proof (Harr' (i - window) ltac:(lia)). lia. }
    rewrite E3. clear E3. set (vc := if Nat.ltb i window then _ else _). clearbody vc.
    assert (Hi' : S i + length l = length a) by (cbn in Hi; lia).
    assert (Hla : length (arr ++ [nc']) = S i) by (rewrite app_length; cbn; lia).
    assert (IH' := IH (S i) nc' (arr ++ [nc']) Hi' Hla ltac:(lia)). 
    assert (IH2 : scanM (rolling_apply_step window minp k2 a) (S i) (Z.of_nat nc', map Z.of_nat (arr ++ [nc'])) l = Ok (scan (rs_rolling_step window minp k1) (S i) (nc', arr ++ [nc']) l)).
    { apply IH'. intros j Hj. pose proof (Harr' j Hj). lia. }
    destruct (Z.ltb_spec (Z.of_nat vc) (Z.of_nat minp)) as [E|E].
    - destruct (Nat.leb_spec minp vc); [lia|]. cbn [bind]. rewrite IH2. reflexivity.
    - destruct (Nat.leb_spec minp vc); [|lia]. rewrite Hk by lia. cbn [bind]. rewrite IH2. reflexivity.
  Qed.
  Lemma rolling_apply_eq : forall (a : list T) window minp k1 k2, or_default minp window <= window ->
    (forall i, i < length a -> k2 i (slice (S i - window) (S i) a) = Ok (k1 (slice (S i - window) (S i) a))) ->
    rolling_apply_nb a window minp k2 = rs_rolling_apply a window minp k1.
  Proof.
    intros a window minp k1 k2 Hm Hk. unfold rolling_apply_nb, rs_rolling_apply, rs_validate_window, raise_if.
    change (match minp with Some m => m | None => window end) with (or_default minp window).
    destruct (Nat.ltb_spec window (or_default minp window)); [lia|].
    rewrite <- (rolling_run window (or_default minp window) (fun i => k1 (slice (i + 1 - window) (i + 1) a)) k2 a) with (nc := 0) (arr := []); auto.
    - intros i Hi. rewrite Hk by auto. rewrite Nat.add_1_r. reflexivity.
    - intros j Hj. lia.
  Qed.
  Lemma rolling_pair_eq : forall (a b : list T) window minp k1 k2, length a = length b -> or_default minp window <= window ->
    (forall x y, length x = length y -> k2 (combine x y) = Ok (k1 x y)) ->
    rolling_apply_nb a window minp (with_benchmark b k2) = rs_rolling_apply_pair a b window minp k1.
  Proof.
    intros a b window minp k1 k2 Hl Hm Hk. unfold rolling_apply_nb, rs_rolling_apply_pair, rs_validate_window, raise_if.
    change (match minp with Some m => m | None => window end) with (or_default minp window).
    destruct (Nat.ltb_spec window (or_default minp window)); [lia|]. rewrite Hl, Nat.eqb_refl. cbn [negb].
    assert (Hs : forall (l : list T) s e, e <= length l -> length (slice s e l) = e - s).
    { intros l s e H1. unfold slice. rewrite skipn_length, firstn_length. lia. }
    rewrite <- (rolling_run window (or_default minp window) (fun i => k1 (slice (i + 1 - window) (i + 1) a) (slice (i + 1 - window) (i + 1) b)) (with_benchmark b k2) a) with (nc := 0) (arr := []); auto.
    - intros i Hi. unfold with_benchmark. rewrite Hs by lia. rewrite Nat.add_1_r.
      replace (S i - (S i - (S i - window))) with (S i - window) by lia. apply Hk. rewrite !Hs by lia. reflexivity.
    - intros j Hj. lia.
  Qed.
End Any.
