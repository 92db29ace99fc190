(** * Lemmas behind the statements of ReturnsProps.v *)
From Coq Require Import ZArith QArith Qabs Bool List Arith Lia Lqa Sorting Permutation.
From Verif Require Import Base Num XQFacts OrdLaws GenericNb GenericSpec GenericLemmas GenericLemmas2
  ReturnsNb ReturnsSpec ReturnsLemmas ReturnsLemmas2 ReturnsLemmas3 ReturnsLemmas4.
Import ListNotations.
Local Open Scope nat_scope.

Lemma last_firstn : forall (vs : list Q) i v d, nth_error vs i = Some v -> last (firstn (S i) vs) d = v.
Proof.
  induction vs as [|x vs IH]; intros [|i] v d H; try discriminate; cbn in H.
  - injection H as ->. reflexivity.
  - change (firstn (S (S i)) (x :: vs)) with (x :: firstn (S i) vs).
    destruct vs as [|y vs]; [destruct i; discriminate|]. specialize (IH i v d H).
    change (firstn (S i) (y :: vs)) with (y :: firstn i vs) in *. exact IH.
Qed.
Lemma removelast_firstn_S : forall (vs : list Q) i, i < length vs -> removelast (firstn (S i) vs) = firstn i vs.
Proof. intros. apply removelast_firstn. lia. Qed.

Lemma compounding : forall vs init i v, (0 < init)%Q -> nth_error vs i = Some v ->
  (forall k q, k < i -> nth_error vs k = Some q -> (0 < q)%Q) ->
  (wealth (returns_1d_nb (map Fin vs) (Fin init)) i * init == v)%Q /\
  no_infinity (firstn (S i) (returns_1d_nb (map Fin vs) (Fin init))).
Proof.
  intros vs init i v Hi Hv Hp. unfold wealth. rewrite <- returns_firstn, firstn_map.
  destruct (telescope (firstn (S i) vs) init Hi) as (rs & E & H).
  - rewrite removelast_firstn_S by (apply nth_error_Some; congruence).
    intros q Hq. apply In_nth_error in Hq as [k Hk]. pose proof (nth_error_lt _ _ _ Hk) as HL. rewrite firstn_length in HL.
    rewrite nth_error_firstn_lt in Hk by lia. eapply Hp; [|eauto]. lia.
  - rewrite E, vals_map_fin. split; [rewrite H; rewrite (last_firstn _ _ _ _ Hv); reflexivity|apply no_inf_fin].
Qed.

Lemma cum_firstn : forall {T} {N : Num T} (rs : list T) s n, cum_returns_1d_nb (firstn n rs) s = firstn n (cum_returns_1d_nb rs s).
Proof. intros. unfold cum_returns_1d_nb. rewrite scan_firstn. destruct (eqb s zero); now rewrite firstn_map. Qed.

Lemma compounding_run : forall vs init i v, (0 < init)%Q -> nth_error vs i = Some v ->
  (forall k q, k < i -> nth_error vs k = Some q -> (0 < q)%Q) ->
  let rs := returns_1d_nb (map Fin vs) (Fin init) in
  (exists y, nth_error (cum_returns_1d_nb rs (Fin init)) i = Some y /\ is_number y v) /\
  (exists y, nth_error (cum_returns_1d_nb rs (Fin 0)) i = Some y /\ is_number y (v / init - 1)).
Proof.
  intros vs init i v Hi Hv Hp rs. destruct (compounding vs init i v Hi Hv Hp) as [Hw Hn]. fold rs in Hw, Hn.
  assert (HL : i < length rs).
  { unfold rs. rewrite returns_length, map_length. apply nth_error_Some. congruence. }
  destruct (nth_error rs i) as [r|] eqn:Er; [|apply nth_error_None in Er; lia].
  assert (Er' : nth_error (firstn (S i) rs) i = Some r) by (rewrite nth_error_firstn_lt; auto).
  assert (Ew : wealth (firstn (S i) rs) i = wealth rs i) by (unfold wealth; now rewrite firstn_firstn, Nat.min_id).
  split.
  - destruct (cum_run _ init i r Hn Er') as (y & Hy & q & -> & Hq). rewrite cum_firstn, nth_error_firstn_lt in Hy by lia.
    eexists. split; [exact Hy|]. exists q. split; auto. rewrite Hq. replace (Qeq_bool init 0) with false by (symmetry; qbg; lra).
    rewrite Ew. exact Hw.
  - destruct (cum_run _ 0 i r Hn Er') as (y & Hy & q & -> & Hq). rewrite cum_firstn, nth_error_firstn_lt in Hy by lia.
    eexists. split; [exact Hy|]. exists q. split; auto. rewrite Hq. replace (Qeq_bool 0 0) with true by reflexivity.
    rewrite Ew, <- Hw. field. lra.
Qed.

Lemma total_of_values : forall vs v init, (0 < init)%Q -> (forall q, In q vs -> (0 < q)%Q) ->
  let rs := returns_1d_nb (map Fin (vs ++ [v])) (Fin init) in
  is_number (total_return_apply_nb rs) (v / init - 1) /\
  is_number (cum_returns_final_1d_nb rs (Fin 0)) (v / init - 1) /\
  is_number (cum_returns_final_1d_nb rs (Fin init)) v.
Proof.
  intros vs v init Hi Hv rs. destruct (telescope (vs ++ [v]) init Hi) as (qs & E & H).
  - rewrite removelast_last. auto.
  - rewrite last_last in H. unfold rs. rewrite E. assert (HC : (compounded qs == v / init)%Q) by (rewrite <- H; field; lra).
    split; [|split].
    + destruct (total_run _ (no_inf_fin qs)) as (q & Eq & Hq). exists q. split; auto. rewrite Hq, vals_map_fin, HC. reflexivity.
    + destruct (final_run _ 0 (no_inf_fin qs)) as (q & Eq & Hq). exists q. split; auto. rewrite Hq, vals_map_fin.
      replace (Qeq_bool 0 0) with true by reflexivity. rewrite HC. reflexivity.
    + destruct (final_run _ init (no_inf_fin qs)) as (q & Eq & Hq). exists q. split; auto. rewrite Hq, vals_map_fin.
      replace (Qeq_bool init 0) with false by (symmetry; qbg; lra). rewrite H. reflexivity.
Qed.

Lemma final_is_last : forall rs r s, no_infinity (rs ++ [r]) -> exists y z,
  nth_error (cum_returns_1d_nb (rs ++ [r]) (Fin s)) (length rs) = Some y /\
  is_number y z /\ is_number (cum_returns_final_1d_nb (rs ++ [r]) (Fin s)) z.
Proof.
  intros rs r s H. destruct (cum_run (rs ++ [r]) s (length rs) r H) as (y & Hy & Hn).
  { rewrite nth_error_app2, Nat.sub_diag by auto. reflexivity. }
  exists y. eexists. split; [exact Hy|]. split; [exact Hn|].
  replace (wealth (rs ++ [r]) (length rs)) with (compounded (vals (rs ++ [r]))); [apply final_run; auto|].
  unfold wealth. now rewrite firstn_all2 by (rewrite app_length; cbn [length]; lia).
Qed.

Lemma returns_run : forall vs init i v p, nth_error vs i = Some v -> previous vs init i = p -> ~ (p == 0)%Q ->
  exists y, nth_error (returns_1d_nb (map Fin vs) (Fin init)) i = Some y /\ is_number y ((v - p) / Qabs p).
Proof.
  intros vs init i v p Hv Hp Hne. exists (get_return_nb (Fin p) (Fin v)). split; [|apply get_return_run; auto].
  rewrite (returns_nth (map Fin vs) (Fin init) i (Fin v)) by (rewrite nth_error_map, Hv; reflexivity).
  do 2 f_equal. unfold previous in *. destruct i; [congruence|]. rewrite map_nth. congruence.
Qed.

(** ** Value at risk *)
Lemma var_counts : forall rs c, no_infinity rs -> vals rs <> [] -> (0 <= c <= 1)%Q ->
  exists v, value_at_risk_1d_nb xq_trunc rs (Fin c) = Ok (Fin v) /\
    let k := cutoff_rank (length (vals rs)) c in
    S k <= n_at_most v (vals rs) /\ n_below v (vals rs) <= S k.
Proof.
  intros rs c H Hne Hc. destruct (var_run rs c H Hne Hc) as (v & E & x & Hx & Hle & Hge). exists v. split; auto. cbv zeta. split.
  - exact (at_most_sorted _ _ _ _ _ (qsort_perm _) (qsort_sorted _) Hx Hle).
  - exact (below_sorted _ _ _ _ (qsort_perm _) (qsort_sorted _) Hge).
Qed.

Lemma cvar_split : forall qs c, qs <> [] -> (0 <= c <= 1)%Q ->
  exists low high, Permutation qs (low ++ high) /\ length low = S (cutoff_rank (length qs) c) /\
    (forall x y, In x low -> In y high -> (x <= y)%Q) /\
    is_number (cond_value_at_risk_1d_nb xq_trunc (map Fin qs) (Fin c)) (mean low).
Proof.
  intros qs c Hne Hc. set (k := cutoff_rank (length qs) c). exists (firstn (S k) (qsort qs)), (skipn (S k) (qsort qs)).
  rewrite firstn_skipn. split; [apply qsort_perm|].
  assert (Hk : k <= length qs - 1) by (apply rank_bounds; auto; destruct qs; [congruence|cbn [length]; lia]).
  assert (Hn : 1 <= length qs) by (destruct qs; [congruence|cbn [length]; lia]).
  split; [rewrite firstn_length, <- (Permutation_length (qsort_perm qs)); lia|]. split.
  - intros x y Hx Hy. apply In_nth_error in Hx as [i Hi]. apply In_nth_error in Hy as [j Hj].
    pose proof (nth_error_lt _ _ _ Hi) as HL. rewrite firstn_length in HL. rewrite nth_error_firstn_lt in Hi by lia.
    rewrite nth_error_skipn_add in Hj. eapply sorted_nth; [apply qsort_sorted| |exact Hi|exact Hj]. lia.
  - apply cvar_run; auto.
Qed.

Lemma cvar_below_var : forall qs c, qs <> [] -> (0 <= c <= 1)%Q -> exists cv v,
  is_number (cond_value_at_risk_1d_nb xq_trunc (map Fin qs) (Fin c)) cv /\
  value_at_risk_1d_nb xq_trunc (map Fin qs) (Fin c) = Ok (Fin v) /\ (cv <= v)%Q.
Proof.
  intros qs c Hne Hc. pose proof (cvar_run qs c Hne Hc) as HC. cbv zeta in HC.
  destruct (var_run (map Fin qs) c) as (v & Ev & x & Hx & Hle & _); auto using no_inf_fin; [now rewrite vals_map_fin|].
  rewrite vals_map_fin in Hx. eexists. exists v. split; [exact HC|]. split; auto.
  apply mean_le.
  - intros E. apply (f_equal (@length Q)) in E. rewrite firstn_length in E. apply nth_error_lt in Hx. cbn [length] in E. lia.
  - intros y Hy. apply In_nth_error in Hy as [i Hi]. pose proof (nth_error_lt _ _ _ Hi) as HL. rewrite firstn_length in HL.
    rewrite nth_error_firstn_lt in Hi by lia. apply Qle_trans with x; auto.
    eapply sorted_nth; [apply qsort_sorted| |exact Hi|exact Hx]. lia.
Qed.

(** ** Rolling beta *)
Lemma combine_window : forall (a b : list XQ) w i, length b = length a -> i < length a ->
  combine (window w i a) (slice (S i - length (window w i a)) (S i) b) = window w i (combine a b).
Proof.
  intros a b w i HL Hi. unfold slice, window. rewrite skipn_length, firstn_length.
  replace (S i - (Nat.min (S i) (length a) - (S i - w))) with (S i - w) by lia.
  rewrite combine_firstn. generalize (S i - w) as n. generalize (firstn (S i) a) as l1, (firstn (S i) b) as l2. clear.
  induction l1 as [|x l1 IH]; intros [|y l2] [|n]; cbn [skipn combine]; auto. now rewrite combine_nil.
Qed.

Lemma rolling_beta_run : forall rs bs w mp out, length bs = length rs ->
  rolling_beta_nb rs w mp bs = Ok out -> forall i, i < length rs -> exists y, nth_error out i = Some y /\
    let m := match mp with None => w | Some m => m end in
    (length (numbers (window w i rs)) < m -> y = nan) /\
    (m <= length (numbers (window w i rs)) -> y = beta_1d_nb (window w i (combine rs bs))).
Proof.
  intros rs bs w mp out HL H i Hi. destruct (rolling_apply_run _ _ _ _ _ H) as [_ HR].
  destruct (HR i Hi) as (y & Hy & H1 & H2). exists y. split; auto. cbv zeta in *. split; auto.
  intros Hm. specialize (H2 Hm). unfold with_benchmark in H2. rewrite combine_window in H2 by auto. congruence.
Qed.

(** ** Missing returns *)
Lemma missing_total : forall rs : list XQ,
  total_return_apply_nb (drop_nan rs) = total_return_apply_nb rs /\
  forall s, cum_returns_final_1d_nb (drop_nan rs) s = cum_returns_final_1d_nb rs s.
Proof.
  intros rs. assert (H : forall x : XQ, isnan (add x one) = isnan x) by (intros [| | |q]; reflexivity).
  unfold total_return_apply_nb, cum_returns_final_1d_nb. rewrite (drop_map _ _ H), nanprod_drop. auto.
Qed.

Lemma filter_drop : forall {T} {N : Num T} (p : T -> bool) (l : list T), (forall x, p x = true -> isnan x = false) ->
  filter p (drop_nan l) = filter p l.
Proof.
  intros T N p l H. induction l as [|x l IH]; [reflexivity|]. unfold drop_nan. cbn [filter]. fold (drop_nan l).
  destruct (isnan x) eqn:E; cbn [negb filter].
  - destruct (p x) eqn:Ep; [specialize (H x Ep); congruence|auto].
  - destruct (p x); now rewrite IH.
Qed.

Lemma sub_fin_nan : forall (x : XQ) q, isnan (sub x (Fin q)) = isnan x.
Proof. intros [| | |p] q; reflexivity. Qed.

Lemma missing_omega : forall pow (rs : list XQ) af rf rr,
  isinf (pow (add one rr) (div one af)) = false ->
  isinf rr = false -> omega_ratio_1d_nb pow (drop_nan rs) af (Fin rf) rr = omega_ratio_1d_nb pow rs af (Fin rf) rr.
Proof.
  intros pow rs af rf rr Hpow Hrr. unfold omega_ratio_1d_nb.
  assert (H : forall t : XQ, isinf t = false ->
    (forall p : XQ -> bool, (forall x, p x = true -> isnan x = false) ->
      filter p (map (fun r => sub (sub r (Fin rf)) t) (drop_nan rs)) = filter p (map (fun r => sub (sub r (Fin rf)) t) rs))).
  { intros t Ht p Hp. destruct t as [| | |q]; try discriminate.
    - transitivity (@nil XQ); [|symmetry].
      + induction (drop_nan rs) as [|x l IH]; [reflexivity|]. cbn [map filter].
        destruct (p (sub (sub x (Fin rf)) NaN)) eqn:Ep; auto. apply Hp in Ep. exfalso. revert Ep.
        destruct x; discriminate.
      + induction rs as [|x l IH]; [reflexivity|]. cbn [map filter].
        destruct (p (sub (sub x (Fin rf)) NaN)) eqn:Ep; auto. apply Hp in Ep. exfalso. revert Ep.
        destruct x; discriminate.
    - rewrite drop_map by (intros; rewrite !sub_fin_nan; auto). apply filter_drop; auto. }
  assert (G : forall x : XQ, gtb x zero = true -> isnan x = false) by (intros [| | |q]; intros; try discriminate; reflexivity).
  assert (L : forall x : XQ, ltb x zero = true -> isnan x = false) by (intros [| | |q]; intros; try discriminate; reflexivity).
  destruct (eqb af one).
  - now rewrite !H by auto.
  - destruct (leb af (neg one)); auto. unfold sdiv. destruct (eqb af zero); auto. cbn [bind].
    assert (Hi : isinf (sub (pow (add one rr) (div one af)) one) = false).
    { destruct (pow (add one rr) (div one af)); try discriminate; reflexivity. }
    now rewrite !H by auto.
Qed.

Lemma missing_ratios : forall sqrt (rs : list XQ) af r ddof, 2 <= length (drop_nan rs) ->
  sharpe_ratio_1d_nb sqrt (drop_nan rs) af (Fin r) ddof = sharpe_ratio_1d_nb sqrt rs af (Fin r) ddof /\
  downside_risk_1d_nb sqrt (drop_nan rs) af (Fin r) = downside_risk_1d_nb sqrt rs af (Fin r) /\
  sortino_ratio_1d_nb sqrt (drop_nan rs) af (Fin r) = sortino_ratio_1d_nb sqrt rs af (Fin r).
Proof.
  intros sqrt rs af r ddof HL.
  assert (HL2 : 2 <= length rs).
  { eapply Nat.le_trans; [exact HL|]. unfold drop_nan. clear. induction rs as [|x rs IH]; cbn [filter length]; [lia|].
    destruct (negb (isnan x)); cbn [length]; lia. }
  assert (E1 : Nat.ltb (length rs) 2 = false) by (now apply Nat.ltb_ge).
  assert (E2 : Nat.ltb (length (drop_nan rs)) 2 = false) by (now apply Nat.ltb_ge).
  assert (HD : downside_risk_1d_nb sqrt (drop_nan rs) af (Fin r) = downside_risk_1d_nb sqrt rs af (Fin r)).
  { unfold downside_risk_1d_nb. rewrite drop_map.
    - rewrite drop_map; [now rewrite nanmean_drop|]. intros [| | |q]; reflexivity.
    - intros x. cbv zeta. destruct (gtb (sub x (Fin r)) zero) eqn:E; [|apply sub_fin_nan].
      destruct x; try discriminate; reflexivity. }
  split; [|split; auto].
  - unfold sharpe_ratio_1d_nb. rewrite E1, E2. rewrite drop_map by (intros; apply sub_fin_nan).
    rewrite nanmean_drop, nanstd_drop. reflexivity.
  - unfold sortino_ratio_1d_nb. rewrite E1, E2, HD. rewrite drop_map by (intros; apply sub_fin_nan).
    rewrite nanmean_drop. reflexivity.
Qed.

Lemma missing_var : forall {T} {N : Num T} trunc (rs : list T) c,
  value_at_risk_1d_nb trunc (drop_nan rs) c = value_at_risk_1d_nb trunc rs c /\
  tail_ratio_1d_nb trunc (drop_nan rs) = tail_ratio_1d_nb trunc rs.
Proof. intros. unfold value_at_risk_1d_nb, tail_ratio_1d_nb. now rewrite drop_drop. Qed.
