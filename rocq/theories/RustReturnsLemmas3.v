(** * Proofs for C103: exact arithmetic *)
From Coq Require Import String ZArith QArith Qround Bool List Arith Lia Lqa.
From Verif Require Import Base Num XQFacts OrdLaws GenericNb RustGeneric RustGenericSpec RustGenericLemmas RustGenericLemmas2 RustLabelsSpec RustLabelsLemmas ReturnsNb RustReturns RustReturnsSpec RustReturnsLemmas RustReturnsLemmas2.
Import ListNotations.
Local Open Scope nat_scope.

Lemma fin_ext : forall p q, (p == q)%Q -> fin p = fin q.
Proof. intros p q H. unfold fin. f_equal. apply Qred_complete. exact H. Qed.
Lemma xq_nan_r : forall x : XQ, add x nan = nan /\ sub x nan = nan /\ mul x nan = nan /\ div x nan = nan.
Proof. intros [| | |q]; repeat split; reflexivity. Qed.

Lemma sgn_one : forall b q, xq_mul (xq_sgn_inf b q) (Fin 1) = xq_sgn_inf b q.
Proof. intros b q. unfold xq_sgn_inf. destruct (Qeq_bool q 0); [reflexivity|]. destruct (Bool.eqb _ b); reflexivity. Qed.
Lemma xq_ieee : ieee_like XQnum.
Proof.
  constructor.
  - intros [| | |q] H; try discriminate; reflexivity.
  - intros x. split; [reflexivity|apply xq_nan_r].
  - intros x. split; [reflexivity|apply xq_nan_r].
  - intros x. split; [reflexivity|apply xq_nan_r].
  - intros x. split; [reflexivity|apply xq_nan_r].
  - reflexivity.
  - intros [| | |q]; reflexivity.
  - intros [| | |q]; reflexivity.
  - intros x y. change (xq_mul (xq_mul x y) (Fin 1) = xq_mul x y).
    destruct x as [| | |p], y as [| | |q]; try reflexivity; try apply sgn_one.
    cbn [xq_mul]. unfold fin at 2. cbn [xq_mul fin]. apply fin_ext. rewrite Qred_correct. ring.
  - reflexivity.
  - reflexivity.
  - split; reflexivity.
Qed.

(** ** Deviations *)
Lemma variance_scale : forall (s : XQ) (n m : nat), 1 <= n -> 1 <= m ->
  div (mul (div s (ofZ (Z.of_nat n))) (ofZ (Z.of_nat n))) (ofZ (Z.of_nat m)) = div s (ofZ (Z.of_nat m)).
Proof.
  intros s n m Hn Hm. 
  assert (E : forall k, 1 <= k -> (0 < inject_Z (Z.of_nat k))%Q) by (intros k Hk; unfold Qlt, inject_Z; cbn; lia).
  pose proof (E n Hn) as Pn. pose proof (E m Hm) as Pm. clear E.
  assert (Zn : Qeq_bool (inject_Z (Z.of_nat n)) 0 = false) by (apply qeq_f; lra).
  assert (Zm : Qeq_bool (inject_Z (Z.of_nat m)) 0 = false) by (apply qeq_f; lra).
  assert (Ln : Qle_bool 0 (inject_Z (Z.of_nat n)) = true) by (apply qle_t; lra).
  assert (Tn : qlt_bool 0 (inject_Z (Z.of_nat n)) = true) by (apply qlt_t; lra).
  change (xq_div (xq_mul (xq_div s (Fin (inject_Z (Z.of_nat n)))) (Fin (inject_Z (Z.of_nat n)))) (Fin (inject_Z (Z.of_nat m))) = xq_div s (Fin (inject_Z (Z.of_nat m)))).
  destruct s as [| | |q]; cbn [xq_div xq_mul]; rewrite ?Ln, ?Zn; cbn [xq_mul]; auto.
  - unfold xq_sgn_inf. rewrite Zn, Tn. reflexivity.
  - unfold xq_sgn_inf. rewrite Zn, Tn. reflexivity.
  - unfold fin. cbn [xq_mul xq_div]. unfold fin. cbn [xq_div]. rewrite Zm. apply fin_ext. rewrite !Qred_correct. field. split; lra.
Qed.

Lemma nanstd_moments : forall sqrt (l : list XQ) ddof, nanstd_1d_nb sqrt l (Z.of_nat ddof) =
  (let '(_, n, sq) := moments l in if Nat.ltb ddof n then sqrt (div sq (ofZ (Z.of_nat (n - ddof)))) else nan).
Proof.
  intros sqrt l ddof. unfold nanstd_1d_nb, moments, np_nanvar, count_numbers. cbv zeta.
  set (n := length (filter (fun v => negb (isnan v)) l)). set (sq := fold_left _ l zero).
  destruct (Nat.ltb_spec ddof n) as [H|H].
  - destruct (Z.eqb_spec (Z.max (Z.of_nat n - Z.of_nat ddof) 0) 0) as [E|E]; [lia|].
    replace (Z.max (Z.of_nat n - Z.of_nat ddof) 0) with (Z.of_nat (n - ddof)) by lia. rewrite variance_scale by lia. reflexivity.
  - destruct (Z.eqb_spec (Z.max (Z.of_nat n - Z.of_nat ddof) 0) 0) as [E|E]; [reflexivity|lia].
Qed.

Lemma squares_run : forall A (value : A -> XQ) m l n s,
  fold_left (fun s x => let v := value x in if isnan v then s else (fst s + 1, add (snd s) (mul (sub v m) (sub v m)))) l (n, s) =
  (n + length (filter (fun v => negb (isnan v)) (map value l)), fold_left (fun c v => if isnan v then c else add c (mul (sub v m) (sub v m))) (map value l) s).
Proof.
  intros A value m. induction l as [|x l IH]; intros n s; cbn [fold_left map filter].
  - cbn. f_equal. lia.
  - cbv zeta in IH |- *. destruct (isnan (value x)) eqn:E; cbn [negb fst snd length]; rewrite IH; auto. f_equal. lia.
Qed.
Lemma nan_squares : forall (l : list XQ) s, 1 <= length (filter (fun v => negb (isnan v)) l) ->
  fold_left (fun c v => if isnan v then c else add c (mul (sub v nan) (sub v nan))) l s = nan.
Proof.
  assert (H : forall l : list XQ, fold_left (fun c v => if isnan v then c else add c (mul (sub v nan) (sub v nan))) l nan = nan).
  { induction l as [|x l IH]; cbn [fold_left]; auto. destruct (isnan x); auto. }
  induction l as [|x l IH]; intros s Hl; cbn [fold_left filter] in *; [cbn in Hl; lia|].
  destruct (isnan x) eqn:E; cbn [negb] in Hl; [apply IH; auto|].
  rewrite (proj1 (proj2 (xq_nan_r x))). replace (add s (mul nan nan)) with (nan : XQ) by (destruct s; reflexivity). apply H.
Qed.
Lemma nanstd_eq : forall sqrt, sqrt nan = nan -> forall A (value : A -> XQ) l ddof, rs_nanstd sqrt value l ddof = nanstd_1d_nb sqrt (map value l) (Z.of_nat ddof).
Proof.
  intros sqrt Hs A value l ddof. rewrite nanstd_moments. unfold rs_nanstd, moments. rewrite (nanmean_eq xq_ieee), squares_run. cbn [Nat.add].
  set (n := length (filter (fun v => negb (isnan v)) (map value l))).
  destruct (isnan (np_nanmean (map value l))) eqn:E.
  - destruct (Nat.ltb_spec ddof n) as [H|H]; [|reflexivity]. apply (one_nan _ xq_ieee) in E. rewrite E.
    rewrite nan_squares by (fold n; lia). symmetry. exact Hs.
  - destruct (Nat.ltb_spec ddof n) as [H|H]; destruct (Nat.leb_spec n ddof) as [H'|H']; try lia; reflexivity.
Qed.

Section Exact.
  Variable pow : XQ -> XQ -> XQ.
  Variable sqrt : XQ -> XQ.
  Hypothesis sqrt_nan : sqrt nan = nan.

  Lemma volatility_1d_eq : forall (returns : list XQ) f alpha ddof, eqb alpha zero = false ->
    annualized_volatility_1d_nb pow sqrt returns f alpha (Z.of_nat ddof) = Ok (rs_annualized_volatility_1d pow sqrt returns f alpha ddof).
  Proof.
    intros returns f alpha ddof Ha. unfold annualized_volatility_1d_nb, rs_annualized_volatility_1d, sdiv. rewrite Ha.
    destruct (Nat.ltb (length returns) 2); [reflexivity|]. cbn [bind]. rewrite (nanstd_eq sqrt sqrt_nan), map_id. reflexivity.
  Qed.
  Lemma sharpe_1d_eq : forall (returns : list XQ) f rf ddof, rs_sharpe_ratio_1d sqrt returns f rf ddof = sharpe_ratio_1d_nb sqrt returns f rf (Z.of_nat ddof).
  Proof.
    intros. unfold rs_sharpe_ratio_1d, sharpe_ratio_1d_nb. rewrite (nanmean_eq xq_ieee), (nanstd_eq sqrt sqrt_nan). reflexivity.
  Qed.
  Lemma information_1d_eq : forall (r b : list XQ) ddof, length r = length b -> rs_information_ratio_1d sqrt r b ddof = information_ratio_1d_nb sqrt (combine r b) (Z.of_nat ddof).
  Proof.
    intros r b ddof Hl. unfold rs_information_ratio_1d, information_ratio_1d_nb. rewrite combine_length, <- Hl, Nat.min_id.
    rewrite (nanmean_eq xq_ieee), (nanstd_eq sqrt sqrt_nan). reflexivity.
  Qed.

  Lemma volatility_2d_ok : forall nrows ncols f alpha ddof, 1 <= ncols ->
    reduces_columns (fun src => rs_annualized_volatility_2d_c pow sqrt src nrows ncols f alpha ddof)
      (fun a => rs_annualized_volatility_1d pow sqrt a f alpha ddof) nrows ncols.
  Proof.
    intros nrows ncols f alpha ddof Hn src Hs. unfold rs_annualized_volatility_2d_c. rewrite chunks_ok by auto. eexists; split; [reflexivity|].
    rewrite moments_c_eq, map_map. apply map_ext. intros c. fold (column src nrows ncols c).
    unfold rs_annualized_volatility_1d. rewrite column_length, (nanstd_eq sqrt sqrt_nan), map_id, nanstd_moments.
    destruct (moments (column src nrows ncols c)) as [[s n] sq].
    destruct (Nat.leb_spec 2 nrows); destruct (Nat.ltb_spec nrows 2); try lia; [|reflexivity].
    cbn [andb]. destruct (Nat.ltb ddof n); reflexivity.
  Qed.
  Lemma ratio_of_moments : forall (l : list XQ) ddof (k : XQ -> XQ), k nan = nan ->
    (let '(s, n, sq) := moments l in
     if Nat.ltb ddof n then (let mean := div s (ofZ (Z.of_nat n)) in let std := sqrt (div sq (ofZ (Z.of_nat (n - ddof)))) in
       if eqb std zero then pinf else k (div mean std)) else nan) =
    (let mean := np_nanmean l in let std := nanstd_1d_nb sqrt l (Z.of_nat ddof) in if eqb std zero then pinf else k (div mean std)).
  Proof.
    intros l ddof k Hk. rewrite nanstd_moments. unfold moments. cbv zeta.
    destruct (Nat.ltb ddof _); [reflexivity|]. change (eqb (nan : XQ) zero) with false. cbv iota.
    rewrite (proj2 (proj2 (proj2 (xq_nan_r (np_nanmean l))))), Hk. reflexivity.
  Qed.
  Lemma sharpe_2d_ok : forall nrows ncols f rf ddof, 1 <= ncols ->
    reduces_columns (fun src => rs_sharpe_ratio_2d_c sqrt src nrows ncols f rf ddof) (fun a => sharpe_ratio_1d_nb sqrt a f rf (Z.of_nat ddof)) nrows ncols.
  Proof.
    intros nrows ncols f rf ddof Hn src Hs. unfold rs_sharpe_ratio_2d_c. rewrite chunks_ok by auto. eexists; split; [reflexivity|].
    rewrite moments_c_eq, map_map. apply map_ext. intros c. unfold sharpe_ratio_1d_nb. rewrite column_length.
    replace (map (fun r => sub (nth (r * ncols + c) src nan) rf) (seq 0 nrows)) with (map (fun x => sub x rf) (column src nrows ncols c)) by (unfold column; rewrite map_map; reflexivity).
    rewrite <- (ratio_of_moments _ ddof (fun x => mul x (sqrt f))) by reflexivity.
    destruct (moments _) as [[s n] sq]. destruct (Nat.leb_spec 2 nrows); destruct (Nat.ltb_spec nrows 2); try lia; reflexivity.
  Qed.
  Lemma information_2d_ok : forall nrows ncols ddof, 1 <= ncols ->
    reduces_columns2 (fun a b => rs_information_ratio_2d_c sqrt a b nrows ncols ddof) (fun a b => information_ratio_1d_nb sqrt (combine a b) (Z.of_nat ddof)) nrows ncols.
  Proof.
    intros nrows ncols ddof Hn a b Ha Hb. unfold rs_information_ratio_2d_c. rewrite chunks_ok by auto. eexists; split; [reflexivity|].
    rewrite moments_c_eq, map_map. apply map_ext. intros c. unfold information_ratio_1d_nb. rewrite combine_length, !column_length, Nat.min_id.
    replace (map (fun r => sub (nth (r * ncols + c) a nan) (nth (r * ncols + c) b nan)) (seq 0 nrows)) with (map (fun x => sub (fst x) (snd x)) (combine (column a nrows ncols c) (column b nrows ncols c)))
      by (unfold column; rewrite combine_map2, map_map; reflexivity).
    rewrite <- (ratio_of_moments _ ddof (fun x => x)) by reflexivity.
    destruct (moments _) as [[s n] sq]. destruct (Nat.leb_spec 2 nrows); destruct (Nat.ltb_spec nrows 2); try lia; reflexivity.
  Qed.
End Exact.
