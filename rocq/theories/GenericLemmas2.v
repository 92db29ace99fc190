(** * Lemmas about rolling means and standard deviations *)
From Coq Require Import ZArith QArith Bool List Arith Lia Lqa.
From Verif Require Import Base Num GenericNb XQFacts GenericSpec GenericLemmas.
Import ListNotations.
Local Open Scope nat_scope.

(** ** Sums *)
Lemma vals_app : forall l1 l2, vals (l1 ++ l2) = vals l1 ++ vals l2.
Proof. induction l1 as [|[| | |q] l1 IH]; intros; cbn; rewrite ?IH; auto. Qed.

Lemma sum_app : forall l1 l2, (sum (l1 ++ l2) == sum l1 + sum l2)%Q.
Proof. induction l1 as [|x l1 IH]; intros; cbn [sum app]; [lra|]. rewrite IH. ring. Qed.

Lemma count_app : forall l1 l2, (count (l1 ++ l2) == count l1 + count l2)%Q.
Proof. intros. unfold count. rewrite app_length, Nat2Z.inj_add, inject_Z_plus. reflexivity. Qed.

Lemma count_nonneg : forall l, (0 <= count l)%Q.
Proof. intros. unfold count. change 0%Q with (inject_Z 0). rewrite <- Zle_Qle. lia. Qed.
Lemma count_pos : forall l, l <> [] -> (0 < count l)%Q.
Proof. intros [|x l] H; [congruence|]. unfold count. change 0%Q with (inject_Z 0). rewrite <- Zlt_Qlt. cbn [length]. lia. Qed.

Lemma vals_length : forall l, length (vals l) <= length l.
Proof. induction l as [|[| | |q] l IH]; cbn; lia. Qed.

Lemma window_split : forall (a : list XQ) w i, firstn (S i) a = firstn (S i - w) a ++ window w i a.
Proof.
  intros a w i. unfold window. rewrite <- (firstn_skipn (S i - w) (firstn (S i) a)) at 1.
  f_equal. rewrite firstn_firstn. f_equal. lia.
Qed.

Lemma tame_at : forall a i x, no_infinity a -> nth_error a i = Some x -> x = NaN \/ exists q, x = Fin q.
Proof.
  intros a i x H Hx. apply nth_error_In in Hx. destruct (H x Hx). destruct x; try congruence; eauto.
Qed.

(** ** Rolling mean *)
Definition mean_inv (a : list XQ) (k : nat) (s : XQ * Z * list XQ * list Z) : Prop :=
  let '(cumsum, nancnt, cs, ns) := s in
  (exists c, cumsum = Fin c /\ (c == sum (vals (firstn k a)))%Q) /\
  nancnt = (Z.of_nat k - Z.of_nat (length (vals (firstn k a))))%Z /\
  length cs = k /\ length ns = k /\
  (forall j, j < k -> exists c, nth j cs zero = Fin c /\ (c == sum (vals (firstn (S j) a)))%Q) /\
  (forall j, j < k -> nth j ns 0%Z = (Z.of_nat (S j) - Z.of_nat (length (vals (firstn (S j) a))))%Z).

Lemma mean_step : forall a w m k s x, no_infinity a -> 1 <= w -> nth_error a k = Some x -> mean_inv a k s ->
  exists s' r, mean_inv a (S k) s' /\
    rolling_mean_step w m k s x = (let! y := r in Ok (s', y)) /\
    let l := vals (window w k a) in
    (length l < m -> r = Ok NaN) /\
    (m <= length l -> l = [] -> r = Err ZeroDivision) /\
    (m <= length l -> l <> [] -> exists q, r = Ok (Fin q) /\ (q == mean l)%Q).
Proof.
  intros a w m k [[[cumsum nancnt] cs] ns] x HT Hw Hx ((c & -> & Hc) & Hn & Lc & Ln & Hcs & Hns).
  pose proof (nth_error_lt _ _ _ Hx) as Hk.
  set (n' := if isnan x then (nancnt + 1)%Z else nancnt).
  set (c' := if isnan x then Fin c else add (Fin c) x).
  assert (Hn' : n' = (Z.of_nat (S k) - Z.of_nat (length (vals (firstn (S k) a))))%Z).
  { unfold n'. rewrite (firstn_snoc _ _ _ _ Hx), vals_app, app_length.
    destruct (tame_at _ _ _ HT Hx) as [->|[q ->]]; cbn [isnan XQnum xq_isnan vals length]; lia. }
  assert (Hc' : exists q, c' = Fin q /\ (q == sum (vals (firstn (S k) a)))%Q).
  { unfold c'. rewrite (firstn_snoc _ _ _ _ Hx), vals_app.
    destruct (tame_at _ _ _ HT Hx) as [->|[q ->]]; cbn [isnan XQnum xq_isnan vals].
    - exists c. rewrite app_nil_r. auto.
    - eexists. split; [reflexivity|]. cbn [sum]. rewrite Qred_correct, sum_app. cbn [sum]. rewrite Hc. ring. }
  assert (Inv : mean_inv a (S k) (c', n', cs ++ [c'], ns ++ [n'])).
  { split; auto. split; auto. rewrite !app_length. cbn [length]. split; [lia|]. split; [lia|]. split.
    - intros j Hj. destruct (Nat.eq_dec j k) as [->|].
      + rewrite app_nth2 by lia. rewrite Lc, Nat.sub_diag. exact Hc'.
      + rewrite app_nth1 by lia. apply Hcs. lia.
    - intros j Hj. destruct (Nat.eq_dec j k) as [->|].
      + rewrite app_nth2 by lia. rewrite Ln, Nat.sub_diag. exact Hn'.
      + rewrite app_nth1 by lia. apply Hns. lia. }
  destruct Hc' as (q' & Ec' & Hq').
  set (l := vals (window w k a)).
  assert (Hlen : length (vals (firstn (S k) a)) = length (vals (firstn (S k - w) a)) + length l).
  { unfold l. rewrite (window_split a w k) at 1. rewrite vals_app, app_length. auto. }
  assert (Hsum : (sum (vals (firstn (S k) a)) == sum (vals (firstn (S k - w) a)) + sum l)%Q).
  { unfold l. rewrite (window_split a w k) at 1. rewrite vals_app, sum_app. reflexivity. }
  destruct (if Nat.ltb k w then ((Z.of_nat k + 1 - n')%Z, c')
            else ((Z.of_nat w - (n' - nth (k - w) (ns ++ [n']) 0))%Z, sub c' (nth (k - w) (cs ++ [c']) zero)))
    as [wl wc] eqn:Ew.
  assert (Hwl : wl = Z.of_nat (length l) /\ exists q, wc = Fin q /\ (q == sum l)%Q).
  { destruct (Nat.ltb k w) eqn:Ekw; [apply Nat.ltb_lt in Ekw|apply Nat.ltb_ge in Ekw]; apply pair_equal_spec in Ew; destruct Ew as [<- <-].
    - replace (S k - w) with 0 in * by lia. cbn [firstn vals length sum] in *. split; [lia|].
      exists q'. split; auto. rewrite Hq', Hsum. ring.
    - assert (Hj : k - w < S k) by lia. destruct Inv as (_ & _ & _ & _ & I1 & I2).
      specialize (I2 _ Hj). destruct (I1 _ Hj) as (cj & E1 & E2). rewrite I2, E1, Ec'.
      replace (S (k - w)) with (S k - w) in * by lia. split.
      + rewrite Hn'. pose proof (vals_length (firstn (S k - w) a)). rewrite Hlen. lia.
      + eexists. split; [reflexivity|]. rewrite Qred_correct, Hq', E2, Hsum. ring. }
  destruct Hwl as (Ewl & qs & Ewc & Hqs).
  exists (c', n', cs ++ [c'], ns ++ [n']).
  exists (if Z.ltb wl (Z.of_nat m) then Ok NaN else sdiv wc (ofZ wl)).
  split; [exact Inv|]. split.
  - unfold rolling_mean_step. fold n' c'. rewrite Ew. destruct (Z.ltb wl (Z.of_nat m)); [reflexivity|].
    destruct (sdiv wc (ofZ wl)); reflexivity.
  - rewrite Ewl. split; [|split].
    + intros Hl. replace (Z.ltb _ _) with true by (symmetry; apply Z.ltb_lt; lia). reflexivity.
    + intros Hl El. replace (Z.ltb _ _) with false by (symmetry; apply Z.ltb_ge; lia).
      rewrite El. reflexivity.
    + intros Hl El. replace (Z.ltb _ _) with false by (symmetry; apply Z.ltb_ge; lia).
      pose proof (count_pos l El) as Hp. unfold count in Hp.
      assert (E0 : Qeq_bool (inject_Z (Z.of_nat (length l))) 0 = false).
      { qbg. lra. }
      rewrite Ewc. unfold sdiv. cbn [eqb XQnum xq_eqb ofZ zero div xq_div].
      change (inject_Z 0) with 0%Q. rewrite E0. eexists. split; [reflexivity|]. unfold mean, count.
      rewrite Qred_correct, Hqs. reflexivity.
Qed.

Lemma rolling_mean_run : forall a w mp out, no_infinity a -> 1 <= w ->
  rolling_mean_1d_nb a w mp = Ok out ->
  length out = length a /\
  forall i, i < length a -> exists y, nth_error out i = Some y /\
    let l := vals (window w i a) in
    let m := match mp with None => w | Some m => m end in
    (length l < m -> y = NaN) /\
    (m <= length l -> exists q, y = Fin q /\ l <> [] /\ (q == mean l)%Q).
Proof.
  intros a w mp out HT Hw H. apply check_minp_ok in H as (m & Hm & Em & H).
  split; [eapply scanM_length; eauto|]. intros i Hi. rewrite <- Em.
  destruct (nth_error a i) as [x|] eqn:Ex; [|apply nth_error_None in Ex; lia].
  destruct (scanM_spec (rolling_mean_step w m) (mean_inv a) a (zero, 0%Z, [], []) out H) with (k := i) (x := x)
    as (s0 & s' & b & HI & Hs & Hb); auto.
  - split; [exists 0%Q; split; [reflexivity|reflexivity]|]. repeat split; auto; cbn; intros; lia.
  - intros k s z s' b Hz HI Hs. destruct (mean_step a w m k s z HT Hw Hz HI) as (s2 & r & HI2 & E & _).
    rewrite E in Hs. destruct r; [|discriminate]. injection Hs as <- _. auto.
  - exists b. split; auto. destruct (mean_step a w m i s0 x HT Hw Ex HI) as (s2 & r & HI2 & E & H1 & H2 & H3).
    rewrite E in Hs. cbv zeta. split.
    + intros Hl. rewrite H1 in Hs by auto. injection Hs as _ <-. auto.
    + intros Hl. destruct (vals (window w i a)) as [|v vs] eqn:Ev.
      * rewrite H2 in Hs by auto. discriminate.
      * destruct H3 as (q & -> & Hq); [auto|discriminate|]. injection Hs as _ <-. exists q. repeat split; auto. discriminate.
Qed.

Lemma rolling_mean_accepts : forall a w mp, no_infinity a -> 1 <= w ->
  let m := match mp with None => w | Some m => m end in
  1 <= m <= w -> exists out, rolling_mean_1d_nb a w mp = Ok out.
Proof.
  intros a w mp HT Hw m Hm. unfold rolling_mean_1d_nb, check_minp. fold m.
  replace (Nat.ltb w m) with false by (symmetry; apply Nat.ltb_ge; lia). cbn [raise_if].
  apply (scanM_ok _ (mean_inv a)).
  - split; [exists 0%Q; split; [reflexivity|reflexivity]|]. repeat split; auto; cbn; intros; lia.
  - intros k s x Hx HI. destruct (mean_step a w m k s x HT Hw Hx HI) as (s' & r & HI' & E & H1 & H2 & H3).
    rewrite E. destruct (Nat.lt_ge_cases (length (vals (window w k a))) m) as [Hl|Hl].
    + rewrite H1 by auto. cbn. eauto.
    + destruct H3 as (q & -> & _); auto; [|cbn; eauto].
      intros E0. rewrite E0 in Hl. cbn in Hl. lia.
Qed.

Lemma rolling_mean_causal : forall {T} {N : Num T} (a : list T) n w mp out,
  rolling_mean_1d_nb a w mp = Ok out -> rolling_mean_1d_nb (firstn n a) w mp = Ok (firstn n out).
Proof.
  intros T N a n w mp out H. unfold rolling_mean_1d_nb, check_minp in *. apply raise_if_ok in H as [H1 H].
  rewrite H1. cbn [raise_if]. apply scanM_firstn. auto.
Qed.

(** ** Rolling standard deviation *)
Definition sumsq (l : list Q) : Q := sum (map (fun x => x * x)%Q l).

Record var_inv (l : list Q) (v : Var XQ) (cadd crem : XQ) (m s : Q) : Prop := mkVI {
  vi_n : v_nobs v = Z.of_nat (length l);
  vi_m : v_mean v = Fin m;
  vi_s : v_m2 v = Fin s;
  vi_mean : (m * count l == sum l)%Q;
  vi_m0 : l = [] -> (m == 0)%Q;
  vi_sq : (s == sumsq l - m * sum l)%Q;
  vi_add : exists c, cadd = Fin c /\ (c == 0)%Q;
  vi_rem : exists c, crem = Fin c /\ (c == 0)%Q }.

Lemma sumsq_app : forall l1 l2, (sumsq (l1 ++ l2) == sumsq l1 + sumsq l2)%Q.
Proof. intros. unfold sumsq. rewrite map_app. apply sum_app. Qed.

Lemma count_snoc : forall l x, (count (l ++ [x]) == count l + 1)%Q.
Proof. intros. rewrite count_app. reflexivity. Qed.
Lemma count_cons : forall l x, (count (x :: l) == 1 + count l)%Q.
Proof. intros. change (x :: l) with ([x] ++ l). rewrite count_app. reflexivity. Qed.

Lemma add_var_q : forall m n s x S1 S2, (0 <= n)%Q -> (m * n == S1)%Q -> (s == S2 - m * S1)%Q ->
  let m' := (m + (x - m) / (n + 1))%Q in
  (m' * (n + 1) == S1 + x)%Q /\ (s + (x - m) * (x - m') == (S2 + x * x) - m' * (S1 + x))%Q.
Proof.
  intros m n s x S1 S2 Hn H1 H2 m'.
  assert (E : (m' * (n + 1) == S1 + x)%Q).
  { unfold m'. rewrite <- H1. field. lra. }
  split; auto. rewrite H2. rewrite <- H1 in *.
  assert (D : (m' * n == m * n + x - m')%Q) by lra.
  assert (D2 : (m * (m' * n) == m * (m * n + x - m'))%Q) by (rewrite D; reflexivity).
  lra.
Qed.

Lemma remove_var_q : forall m n s x S1 S2, (1 < n)%Q -> (m * n == S1)%Q -> (s == S2 - m * S1)%Q ->
  let m' := (m - (x - m) / (n - 1))%Q in
  (m' * (n - 1) == S1 - x)%Q /\ (s - (x - m) * (x - m') == (S2 - x * x) - m' * (S1 - x))%Q.
Proof.
  intros m n s x S1 S2 Hn H1 H2 m'.
  assert (E : (m' * (n - 1) == S1 - x)%Q).
  { unfold m'. rewrite <- H1. field. lra. }
  split; auto. rewrite H2. rewrite <- H1 in *.
  assert (D : (m' * n == m * n - x + m')%Q) by lra.
  assert (D2 : (m * (m' * n) == m * (m * n - x + m'))%Q) by (rewrite D; reflexivity).
  lra.
Qed.

Lemma div_fin : forall p q, ~ (q == 0)%Q -> div (Fin p) (Fin q) = Fin (Qred (p / q)).
Proof. intros p q H. cbn. replace (Qeq_bool q 0) with false; auto. symmetry. qbg. auto. Qed.

Lemma sub_fin : forall p q, sub (Fin p) (Fin q) = Fin (Qred (p - q)). Proof. reflexivity. Qed.
Lemma add_fin : forall p q, add (Fin p) (Fin q) = Fin (Qred (p + q)). Proof. reflexivity. Qed.
Lemma mul_fin : forall p q, mul (Fin p) (Fin q) = Fin (Qred (p * q)). Proof. reflexivity. Qed.
Lemma inject_plus1 : forall l : list Q, (inject_Z (Z.of_nat (length l) + 1) == count l + 1)%Q.
Proof. intros. rewrite inject_Z_plus. reflexivity. Qed.

Lemma add_var_inv : forall tol x l v cadd crem u m s, var_inv l v cadd crem m s ->
  x = NaN \/ (exists q, x = Fin q) ->
  exists v' cadd' u' m' s', add_var_nb tol x v cadd u = (v', cadd', u') /\ var_inv (l ++ vals [x]) v' cadd' crem m' s'.
Proof.
  intros tol x l v cadd crem u m s [Hn Hm Hs H1 H0 H2 (c & -> & Hc) Hr] [->|[q ->]]; cbn [vals].
  - unfold add_var_nb. cbn [isnan XQnum xq_isnan]. do 5 eexists. split; [reflexivity|]. rewrite app_nil_r.
    constructor; eauto.
  - unfold add_var_nb. cbn [isnan XQnum xq_isnan]. rewrite Hm, Hs, Hn.
    pose proof (count_nonneg l) as Hp.
    assert (Hne : ~ (inject_Z (Z.of_nat (length l) + 1) == 0)%Q) by (rewrite inject_plus1; lra).
    change (ofZ (Z.of_nat (length l) + 1) : XQ) with (Fin (inject_Z (Z.of_nat (length l) + 1))).
    repeat rewrite ?sub_fin, ?add_fin, ?mul_fin. rewrite div_fin by exact Hne. repeat rewrite ?sub_fin, ?add_fin, ?mul_fin.
    destruct (add_var_q m (count l) s q (sum l) (sumsq l) Hp H1 H2) as [A B].
    assert (Em : (Qred (m + Qred (Qred (Qred (q - c) - m) / inject_Z (Z.of_nat (length l) + 1))) ==
                  m + (q - m) / (count l + 1))%Q).
    { rewrite !Qred_correct, inject_plus1, Hc. field. lra. }
    match type of Em with (?t == _)%Q => set (M := t) in *; clearbody M end.
    do 5 eexists. split; [reflexivity|]. constructor; cbn [v_nobs v_mean v_m2].
    + rewrite app_length. cbn [length]. lia.
    + reflexivity.
    + reflexivity.
    + rewrite Em, count_snoc, sum_app. cbn [sum]. rewrite Qplus_0_r. exact A.
    + intros E. destruct l; discriminate.
    + rewrite !Qred_correct, !Em, sum_app, sumsq_app. unfold sumsq at 2. cbn [map sum].
      transitivity (s + (q - m) * (q - (m + (q - m) / (count l + 1))))%Q; [rewrite Hc; ring|].
      rewrite B. ring.
    + eexists. split; [reflexivity|]. rewrite !Qred_correct. ring.
    + auto.
Qed.

Lemma remove_var_inv : forall tol x l v cadd crem u m s, var_inv (vals [x] ++ l) v cadd crem m s ->
  x = NaN \/ (exists q, x = Fin q) ->
  exists v' crem' u' m' s', remove_var_nb tol x v crem u = (v', crem', u') /\ var_inv l v' cadd crem' m' s'.
Proof.
  intros tol x l v cadd crem u m s [Hn Hm Hs H1 H0 H2 Ha (c & -> & Hc)] [->|[q ->]]; cbn [vals] in *.
  - unfold remove_var_nb. cbn [isnan XQnum xq_isnan]. do 5 eexists. split; [reflexivity|].
    cbn [app] in *. constructor; eauto.
  - unfold remove_var_nb. cbn [isnan XQnum xq_isnan]. rewrite Hm, Hs, Hn. cbn [app length].
    replace (Z.of_nat (S (length l)) - 1)%Z with (Z.of_nat (length l)) by lia.
    cbn [app sum] in H1. rewrite count_cons in H1.
    destruct l as [|y l'].
    + cbn [length Z.of_nat Z.eqb]. do 5 eexists. split; [reflexivity|]. constructor; cbn [v_nobs v_mean v_m2]; try reflexivity; auto.
      exists c; auto.
    + assert (Hz : Z.eqb (Z.of_nat (length (y :: l'))) 0 = false) by (apply Z.eqb_neq; cbn; lia). rewrite Hz.
      set (l := y :: l') in *.
      assert (Hp : (0 < count l)%Q) by (apply count_pos; discriminate).
      change (ofZ (Z.of_nat (length l)) : XQ) with (Fin (count l)).
      repeat rewrite ?sub_fin, ?add_fin, ?mul_fin. rewrite div_fin by lra. repeat rewrite ?sub_fin, ?add_fin, ?mul_fin.
      assert (H2' : (s == sumsq (q :: l) - m * (q + sum l))%Q) by exact H2.
      destruct (remove_var_q m (1 + count l) s q (q + sum l) (sumsq (q :: l))) as [A B]; [lra|exact H1|exact H2'|].
      assert (Em : (Qred (m - Qred (Qred (Qred (q - c) - m) / count l)) ==
                    m - (q - m) / (1 + count l - 1))%Q).
      { rewrite !Qred_correct, Hc. field. lra. }
      match type of Em with (?t == _)%Q => set (M := t) in *; clearbody M end.
      do 5 eexists. split; [reflexivity|]. constructor; cbn [v_nobs v_mean v_m2].
      * reflexivity.
      * reflexivity.
      * reflexivity.
      * rewrite Em. transitivity (q + sum l - q)%Q; [rewrite <- A; ring|ring].
      * discriminate.
      * rewrite !Qred_correct, !Em.
        transitivity (s - (q - m) * (q - (m - (q - m) / (1 + count l - 1))))%Q; [rewrite Hc; ring|].
        rewrite B. unfold sumsq at 1. cbn [map sum]. fold (sumsq l). ring.
      * auto.
      * eexists. split; [reflexivity|]. rewrite !Qred_correct. ring.
Qed.

Lemma recompute_inv : forall tol xs, no_infinity xs ->
  exists v c m s, recompute_var tol xs = (v, c) /\ var_inv (vals xs) v c zero m s.
Proof.
  intros tol xs HT.
  assert (G : forall ys l v c u m s, no_infinity ys -> var_inv l v c (Fin 0) m s ->
    exists v' c' u' m' s', fold_left (fun '(v, c, u) x => add_var_nb tol x v c u) ys (v, c, u) = (v', c', u') /\
      var_inv (l ++ vals ys) v' c' (Fin 0) m' s').
  { induction ys as [|x ys IH]; intros l v c u m s Hy HI.
    - do 5 eexists. split; [reflexivity|]. cbn. rewrite app_nil_r. exact HI.
    - cbn [fold_left]. assert (Hx : x = NaN \/ exists q, x = Fin q).
      { apply (tame_at (x :: ys) 0); auto. }
      destruct (add_var_inv tol x l v c (Fin 0) u m s HI Hx) as (v1 & c1 & u1 & m1 & s1 & E & HI1). rewrite E.
      assert (Hy' : no_infinity ys) by (intros z Hz; apply Hy; right; auto).
      destruct (IH _ v1 c1 u1 m1 s1 Hy' HI1) as (v2 & c2 & u2 & m2 & s2 & E2 & HI2).
      do 5 eexists. split; [exact E2|]. replace (vals (x :: ys)) with (vals [x] ++ vals ys); [rewrite app_assoc; exact HI2|].
      rewrite <- vals_app. reflexivity. }
  destruct (G xs [] (mkVar 0 zero zero) zero false 0%Q 0%Q HT) as (v & c & u & m & s & E & HI).
  - constructor; try reflexivity; exists 0%Q; split; reflexivity.
  - unfold recompute_var. rewrite E. do 4 eexists. split; [reflexivity|]. exact HI.
Qed.

Lemma no_inf_window : forall a w i, no_infinity a -> no_infinity (window w i a).
Proof.
  intros a w i H x Hx. apply H. unfold window in Hx.
  assert (In x (firstn (S i) a)).
  { rewrite <- (firstn_skipn (S i - w) (firstn (S i) a)). apply in_or_app; auto. }
  rewrite <- (firstn_skipn (S i) a). apply in_or_app; auto.
Qed.

(** The window moves by one bar *)
Lemma window_grow : forall (a : list XQ) w i x, nth_error a (S i) = Some x -> S i < w ->
  window w (S i) a = window w i a ++ [x].
Proof.
  intros a w i x Hx Hw. unfold window. replace (S (S i) - w) with 0 by lia. replace (S i - w) with 0 by lia.
  cbn [skipn]. apply firstn_snoc. auto.
Qed.
Lemma window_slide : forall (a : list XQ) w i x y, nth_error a (S i) = Some x -> 1 <= w <= S i ->
  nth_error a (S i - w) = Some y -> y :: window w (S i) a = window w i a ++ [x].
Proof.
  intros a w i x y Hx Hw Hy. unfold window.
  assert (E : forall A n (l : list A) z, nth_error l n = Some z -> skipn n l = z :: skipn (S n) l).
  { intros A n. induction n as [|n IH]; intros [|h l] z H; try discriminate; cbn in H |- *; [congruence|]. apply IH; auto. }
  replace (S (S i) - w) with (S (S i - w)) by lia.
  rewrite <- E.
  - rewrite (firstn_snoc _ _ _ _ Hx), skipn_app. f_equal.
    pose proof (nth_error_lt _ _ _ Hx). rewrite firstn_length_le by lia. replace (S i - w - S i) with 0 by lia. auto.
  - rewrite <- Hy. destruct (Nat.lt_ge_cases (S i - w) (length (firstn (S (S i)) a))) as [Hl|Hl].
    + rewrite <- (firstn_skipn (S (S i)) a) at 2. rewrite nth_error_app1; auto.
    + pose proof (nth_error_lt _ _ _ Hx). rewrite firstn_length_le in Hl by lia. lia.
Qed.

Lemma variance_alt : forall l m ddof, l <> [] -> (m * count l == sum l)%Q ->
  (sum (map (fun x => (x - mean l) * (x - mean l))%Q l) / (count l - inject_Z ddof) ==
   (sumsq l - m * sum l) / (count l - inject_Z ddof))%Q.
Proof.
  intros l m ddof Hl Hm. pose proof (count_pos l Hl) as Hp.
  assert (Em : (mean l == m)%Q) by (unfold mean; rewrite <- Hm; field; lra).
  assert (G : forall k, (sum (map (fun x => (x - k) * (x - k))%Q l) == sumsq l - 2 * k * sum l + k * k * count l)%Q).
  { intros k. clear. induction l as [|x l IH].
    - cbn. unfold sumsq, count. cbn. ring.
    - cbn [map sum]. rewrite IH, count_cons. unfold sumsq. cbn [map sum]. ring. }
  rewrite G, Em. assert (E : (m * m * count l == m * sum l)%Q) by (rewrite <- Hm; ring).
  assert (E2 : (sumsq l - 2 * m * sum l + m * m * count l == sumsq l - m * sum l)%Q) by (rewrite E; ring).
  rewrite E2. reflexivity.
Qed.

Definition std_inv (a : list XQ) (w k : nat) (s : Var XQ * XQ * XQ * bool) : Prop :=
  let '(v, cadd, crem, u) := s in
  k = 0 \/ (u = false /\ exists m s, var_inv (vals (window w (k - 1) a)) v cadd crem m s).

Lemma std_step : forall sqrt tol a w mp ddof k s x, no_infinity a -> nth_error a k = Some x -> std_inv a w k s ->
  exists v cadd crem m q,
    rolling_std_step sqrt tol a w mp ddof k s x =
      ((v, cadd, crem, false), if (Z.of_nat mp <=? v_nobs v)%Z && (ddof <? v_nobs v)%Z
                               then sqrt (div (v_m2 v) (ofZ (v_nobs v - ddof))) else NaN) /\
    var_inv (vals (window w k a)) v cadd crem m q.
Proof.
  intros sqrt tol a w mp ddof k s x HT Hx HI. unfold rolling_std_step.
  change (slice (S k - w) (S k) a) with (window w k a).
  destruct (recompute_inv tol (window w k a) (no_inf_window a w k HT)) as (vr & cr & mr & sr & Er & HIr).
  destruct (Nat.eqb k 0 || Nat.eqb w 0) eqn:Eq0.
  - cbn [orb]. destruct s as [[[v0 ca0] cr0] u0]. rewrite Er.
    do 5 eexists. split; [reflexivity|]. exact HIr.
  - apply orb_false_iff in Eq0 as [Ek Ew]. apply Nat.eqb_neq in Ek. apply Nat.eqb_neq in Ew.
    destruct s as [[[v cadd] crem] u]. destruct HI as [->|(-> & m & q & HI)]; [congruence|].
    destruct k as [|k]; [congruence|]. replace (S k - 1) with k in HI by lia.
    assert (Hstep : exists v2 cadd2 crem2 u2 m2 q2,
      (let '(v0, crem0, u) := if Nat.leb w (S k) then remove_var_nb tol (nth (S k - w) a nan) v crem false
                               else (v, crem, false) in
       let '(v1, cadd0, u0) := add_var_nb tol x v0 cadd u in (v1, cadd0, crem0, u0)) = (v2, cadd2, crem2, u2) /\
      var_inv (vals (window w (S k) a)) v2 cadd2 crem2 m2 q2).
    { destruct (Nat.leb w (S k)) eqn:El.
      - apply Nat.leb_le in El. pose proof (nth_error_lt _ _ _ Hx) as Hk.
        destruct (nth_error a (S k - w)) as [y|] eqn:Ey; [|apply nth_error_None in Ey; lia].
        rewrite (nth_error_nth _ _ nan Ey).
        pose proof (window_slide a w k x y Hx ltac:(lia) Ey) as Esl.
        destruct (add_var_inv tol x _ v cadd crem false m q HI (tame_at _ _ _ HT Hx)) as (va & ca & ua & ma & sa & _ & _).
        (* remove first, then add *)
        destruct (window w k a) as [|y' wk] eqn:Ewk.
        { exfalso. apply (f_equal (@length XQ)) in Esl. cbn [length app] in Esl.
          unfold window in Esl. rewrite skipn_length, firstn_length in Esl. lia. }
        assert (Eyy : y = y') by apply (f_equal (hd NaN) Esl). subst y'.
        assert (Esl' : window w (S k) a = wk ++ [x]) by apply (f_equal (@tl XQ) Esl). clear Esl.
        replace (vals (y :: wk)) with (vals [y] ++ vals wk) in HI by (rewrite <- vals_app; reflexivity).
        destruct (remove_var_inv tol y (vals wk) v cadd crem false m q HI (tame_at _ _ _ HT Ey)) as (v1 & c1 & u1 & m1 & s1 & E1 & HI1).
        rewrite E1.
        destruct (add_var_inv tol x _ v1 cadd c1 u1 m1 s1 HI1 (tame_at _ _ _ HT Hx)) as (v2 & c2 & u2 & m2 & s2 & E2 & HI2).
        rewrite E2. do 6 eexists. split; [reflexivity|]. rewrite Esl', vals_app. exact HI2.
      - apply Nat.leb_gt in El.
        destruct (add_var_inv tol x _ v cadd crem false m q HI (tame_at _ _ _ HT Hx)) as (v2 & c2 & u2 & m2 & s2 & E2 & HI2).
        rewrite E2. do 6 eexists. split; [reflexivity|]. rewrite (window_grow a w k x Hx El), vals_app. exact HI2. }
    destruct Hstep as (v2 & cadd2 & crem2 & u2 & m2 & q2 & Es & HI2).
    rewrite Es. cbn [orb]. destruct u2.
    + rewrite Er. do 5 eexists. split; [reflexivity|]. exact HIr.
    + do 5 eexists. split; [reflexivity|]. exact HI2.
Qed.

Lemma rolling_std_run : forall sqrt tol a w mp ddof out, no_infinity a ->
  rolling_std_1d_nb sqrt tol a w mp ddof = Ok out ->
  length out = length a /\
  forall i, i < length a -> exists y, nth_error out i = Some y /\
    let l := vals (window w i a) in
    let m := Nat.max (match mp with None => w | Some m => m end) 1 in
    (length l < m \/ (Z.of_nat (length l) <= ddof)%Z -> y = NaN) /\
    (m <= length l -> (ddof < Z.of_nat (length l))%Z ->
       exists v, y = sqrt (Fin v) /\ (v == variance ddof l)%Q).
Proof.
  intros sqrt tol a w mp ddof out HT H. apply check_minp_ok in H as (m & Hm & Em & H). injection H as <-.
  split; [apply scan_length|]. intros i Hi. rewrite <- Em.
  destruct (nth_error a i) as [x|] eqn:Ex; [|apply nth_error_None in Ex; lia].
  destruct (scan_spec (rolling_std_step sqrt tol a w (Nat.max m 1) ddof) (std_inv a w) a
    (mkVar 0 zero zero, zero, zero, false)) with (k := i) (x := x) as (s & HI & Hn); auto.
  - left; auto.
  - intros k s z Hz HI. destruct (std_step sqrt tol a w (Nat.max m 1) ddof k s z HT Hz HI) as (v & ca & cr & mm & q & E & HV).
    rewrite E. cbn [fst]. right. split; auto. replace (S k - 1) with k by lia. eauto.
  - destruct (std_step sqrt tol a w (Nat.max m 1) ddof i s x HT Ex HI) as (v & ca & cr & mm & q & E & HV).
    eexists. split; [exact Hn|]. rewrite E. cbn [snd]. destruct HV as [Vn Vm Vs V1 V0 V2 _ _]. rewrite Vn.
    cbv zeta. set (l := vals (window w i a)) in *. split.
    + intros [Hl|Hl].
      * replace (Z.of_nat (Nat.max m 1) <=? Z.of_nat (length l))%Z with false by (symmetry; apply Z.leb_gt; lia). reflexivity.
      * replace (ddof <? Z.of_nat (length l))%Z with false by (symmetry; apply Z.ltb_ge; lia). rewrite andb_false_r. reflexivity.
    + intros Hl Hd.
      replace (Z.of_nat (Nat.max m 1) <=? Z.of_nat (length l))%Z with true by (symmetry; apply Z.leb_le; lia).
      replace (ddof <? Z.of_nat (length l))%Z with true by (symmetry; apply Z.ltb_lt; lia). cbn [andb].
      rewrite Vs. change (ofZ (Z.of_nat (length l) - ddof) : XQ) with (Fin (inject_Z (Z.of_nat (length l) - ddof))).
      assert (Hlt : (0 < inject_Z (Z.of_nat (length l) - ddof))%Q).
      { change 0%Q with (inject_Z 0). rewrite <- Zlt_Qlt. lia. }
      rewrite div_fin by lra. eexists. split; [reflexivity|]. unfold variance.
      rewrite variance_alt with (m := mm); auto; [|intros El; rewrite El in Hl; cbn in Hl; lia].
      rewrite Qred_correct, V2. unfold count. unfold Zminus. rewrite inject_Z_plus, inject_Z_opp. reflexivity.
Qed.

Lemma rolling_std_accepts : forall {T} {N : Num T} sqrt tol (a : list T) w mp ddof,
  match mp with None => w | Some m => m end <= w -> exists out, rolling_std_1d_nb sqrt tol a w mp ddof = Ok out.
Proof.
  intros T N sqrt tol a w mp ddof H. unfold rolling_std_1d_nb, check_minp.
  replace (Nat.ltb w _) with false by (symmetry; apply Nat.ltb_ge; auto). cbn. eauto.
Qed.
