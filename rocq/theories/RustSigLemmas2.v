(** * Rust signal analysis: the kernels against the Numba ones *)
From Coq Require Import ZArith Bool List Arith String Lia QArith Lqa.
From Verif Require Import Base Num SignalsNb RustSigOps RustSigSpec RustSigLemmas.
Import ListNotations.
Open Scope list_scope.
Open Scope Z_scope.

Lemma between_ranges_ok : forall cols, carries (rs_between_ranges cols) (ranges_of_columns between_ranges_nb cols).
Proof. intros cols. apply over_columns. intros c a st. exact (proj1 (between_body a 0%nat c st)). Qed.

Lemma between_two_ok : forall from_other cols,
  carries (rs_between_two_ranges cols from_other) (ranges_of_columns (fun ab => between_two_ranges_nb (fst ab) (snd ab) from_other) cols).
Proof.
  intros fo cols. apply over_columns. intros c [a b] st. cbv zeta. cbn [fst snd]. rewrite !idxs_eq. unfold between_two_ranges_nb.
  destruct (flatnonzero a) as [|x xs] eqn:Ea; [cbn; now rewrite grow_nil|].
  destruct (flatnonzero b) as [|y ys] eqn:Eb; [cbn [map]; now rewrite grow_nil|].
  destruct fo.
  - exact (from_prev_body (x :: xs) (y :: ys) c 0%nat st ltac:(cbn; lia)).
  - exact (to_next_body (y :: ys) (x :: xs) c 0%nat st ltac:(lia)).
Qed.

Lemma partition_ok : forall cols, carries (rs_partition_ranges cols) (ranges_of_columns partition_ranges_nb cols).
Proof. intros cols. apply over_columns. intros c a st. exact (partition_body _ c a 0%nat eq_refl None (-1) st Logic.I). Qed.

Lemma between_partition_ok : forall cols, carries (rs_between_partition_ranges cols) (ranges_of_columns between_partition_ranges_nb cols).
Proof. intros cols. apply over_columns. intros c a st. exact (between_partition_body c a 0%nat false None st). Qed.

Lemma sig_rank_ok : forall a reset af ag, (match reset with Some r => List.length r = List.length a | None => True end) ->
  rs_sig_pos_rank a reset af ag = rank_nb (sig_pos_rank_nb ag) a (match reset with Some r => r | None => repeat false (List.length a) end) af (-1).
Proof.
  intros a reset af ag H. unfold rs_sig_pos_rank, rs_rank, rank_nb, rows_of. change 0 with (Z.of_nat 0) at 1 3.
  destruct reset as [r|]; [|change (rows_from 0 a) with (rows_from (Z.of_nat 0) a); rewrite rank_none];
    change (rows_from 0 a) with (rows_from (Z.of_nat 0) a);
    rewrite (rank_eq_some _ (sig_pos_rank_nb ag)); try reflexivity; cbn [Nat.add]; rewrite ?repeat_length; auto.
Qed.
Lemma part_rank_ok : forall a reset af, (match reset with Some r => List.length r = List.length a | None => True end) ->
  rs_part_pos_rank a reset af = rank_nb part_pos_rank_nb a (match reset with Some r => r | None => repeat false (List.length a) end) af (-1).
Proof.
  intros a reset af H. unfold rs_part_pos_rank, rs_rank, rank_nb, rows_of. change 0 with (Z.of_nat 0) at 1 3.
  destruct reset as [r|]; [|change (rows_from 0 a) with (rows_from (Z.of_nat 0) a); rewrite rank_none];
    change (rows_from 0 a) with (rows_from (Z.of_nat 0) a);
    rewrite (rank_eq_some _ part_pos_rank_nb); try reflexivity; cbn [Nat.add]; rewrite ?repeat_length; auto.
Qed.

(** ** The average position *)
Lemma Qred_inject : forall z, Qred (inject_Z z) = inject_Z z.
Proof.
  intros z. unfold Qred, inject_Z. cbn [Qnum Qden]. pose proof (Z.ggcd_correct_divisors z 1) as H. pose proof (Z.ggcd_gcd z 1) as H0.
  destruct (Z.ggcd z 1) as [g [aa bb]]. cbn [fst] in H0. rewrite Z.gcd_1_r in H0. subst g. destruct H as [H1 H2].
  rewrite Z.mul_1_l in H1, H2. subst. reflexivity.
Qed.
Lemma add_Z : forall x y, xq_add (Fin (inject_Z x)) (Fin (inject_Z y)) = Fin (inject_Z (x + y)).
Proof. intros x y. cbn [xq_add]. unfold fin. rewrite <- inject_Z_plus, Qred_inject. reflexivity. Qed.
Lemma sub_Z : forall x y, xq_sub (Fin (inject_Z x)) (Fin (inject_Z y)) = Fin (inject_Z (x - y)).
Proof. intros x y. cbn [xq_sub]. unfold fin. unfold Qminus. rewrite <- inject_Z_opp, <- inject_Z_plus, Qred_inject. reflexivity. Qed.

Lemma fold_Zadd : forall l x, fold_left Z.add l x = x + fold_left Z.add l 0.
Proof. induction l as [|y l IH]; intros x; cbn [fold_left]; [lia|]. rewrite IH, (IH (0 + y)). lia. Qed.

Lemma avg_fold : forall a i s c,
  fold_left (fun (sc : XQ * Z) (x : Z * bool) => let '(sum, cnt) := sc in let '(i, v) := x in if v then (@add _ XQnum sum (@ofZ _ XQnum i), cnt + 1) else (sum, cnt)) (rows_from (Z.of_nat i) a) (Fin (inject_Z s), c)
  = (Fin (inject_Z (s + fold_left Z.add (map Z.of_nat (true_idxs i a)) 0)), c + Z.of_nat (List.length (true_idxs i a))).
Proof.
  induction a as [|v a IH]; intros i s c; cbn [rows_from fold_left true_idxs map List.length].
  - f_equal; [do 2 f_equal|]; lia.
  - replace (Z.of_nat i + 1) with (Z.of_nat (S i)) by lia. destruct v; [|apply IH].
    cbn [add ofZ XQnum]. rewrite add_Z, IH. cbn [map fold_left List.length]. rewrite (fold_Zadd _ (0 + Z.of_nat i)).
    f_equal; [do 2 f_equal|]; lia.
Qed.

Lemma true_idxs_exists : forall a i, existsb (fun x => x) a = negb (Nat.eqb (List.length (true_idxs i a)) 0).
Proof. induction a as [|v a IH]; intros i; [reflexivity|]. cbn [existsb true_idxs]. destruct v; [reflexivity|apply IH]. Qed.

Definition avg_of (s c n : Z) : XQ := @sub _ XQnum (@div _ XQnum (@mul _ XQnum (@two _ XQnum) (@div _ XQnum (Fin (inject_Z s)) (@ofZ _ XQnum c))) (@sub _ XQnum (@ofZ _ XQnum n) (@one _ XQnum))) (@one _ XQnum).

Lemma Qeqb_Z : forall z, Qeq_bool (inject_Z z) 0 = (z =? 0).
Proof. intros z. unfold Qeq_bool, inject_Z, Zeq_bool. cbn. rewrite Z.mul_1_r. unfold Z.eqb. destruct z; reflexivity. Qed.

Lemma avg_num : forall s c n, c <> 0 -> n <> 1 ->
  avg_of s c n = Fin (Qred (Qred (Qred (inject_Z 2 * Qred (inject_Z s / inject_Z c)) / inject_Z (n - 1)) - inject_Z 1)).
Proof.
  intros s c n Hc Hn. unfold avg_of, two, one. cbn [sub div mul ofZ XQnum]. rewrite sub_Z. cbn [xq_div].
  rewrite Qeqb_Z. rewrite (proj2 (Z.eqb_neq c 0) Hc). unfold fin at 1. cbn [xq_mul]. unfold fin at 1. cbn [xq_div]. rewrite Qeqb_Z.
  replace (n - 1 =? 0) with false by (symmetry; apply Z.eqb_neq; lia). reflexivity.
Qed.

Lemma norm_nb_some : forall a, (2 <= List.length a)%nat -> existsb (fun x => x) a = true ->
  @norm_avg_index_1d_nb _ XQnum a = avg_of (fold_left Z.add (map Z.of_nat (flatnonzero a)) 0) (Z.of_nat (List.length (flatnonzero a))) (Z.of_nat (List.length a)).
Proof.
  intros a Hl He. unfold norm_avg_index_1d_nb. rewrite He. replace (Nat.leb (List.length a) 1) with false by (symmetry; apply Nat.leb_gt; lia).
  cbn [orb negb]. rewrite (true_idxs_exists a 0) in He. fold (flatnonzero a) in He. apply negb_true_iff, Nat.eqb_neq in He.
  rewrite avg_num by lia. set (s := fold_left _ _ _). set (c := Z.of_nat (List.length (flatnonzero a))).
  cbn [add sub div mul ofZ XQnum]. cbn [xq_div]. rewrite Qeqb_Z. replace (c =? 0) with false by (symmetry; apply Z.eqb_neq; unfold c; lia).
  unfold fin at 1. cbn [xq_sub]. unfold fin at 1. cbn [xq_mul]. unfold fin at 1. cbn [xq_div]. rewrite Qeqb_Z.
  replace (Z.of_nat (List.length a) - 1 - 0 =? 0) with false by (symmetry; apply Z.eqb_neq; lia).
  unfold fin at 1. cbn [xq_add]. unfold fin. f_equal. apply Qred_complete. rewrite Z.sub_0_r.
  rewrite !Qred_correct. change (inject_Z (1 - -1)) with (inject_Z 2). change (inject_Z (-1)) with (- inject_Z 1)%Q. 
  change (inject_Z 0) with 0%Q. unfold Qdiv. ring.
Qed.

Lemma norm_1d_ok : forall a, @rs_norm_avg_index_1d _ XQnum a = @norm_avg_index_1d_nb _ XQnum a.
Proof.
  intros a. unfold rs_norm_avg_index_1d, rows_of. change (@zero _ XQnum) with (Fin (inject_Z 0)). change (rows_from 0 a) with (rows_from (Z.of_nat 0) a). rewrite avg_fold. cbn [Z.add]. fold (flatnonzero a).
  destruct (Nat.leb (List.length a) 1) eqn:El.
  - unfold norm_avg_index_1d_nb. rewrite El. cbn [orb]. destruct a as [|v [|w a]]; [reflexivity| |cbn in El; discriminate]. destruct v; reflexivity.
  - apply Nat.leb_gt in El. destruct (existsb (fun x => x) a) eqn:Ee.
    + rewrite norm_nb_some by (auto; lia). reflexivity.
    + unfold norm_avg_index_1d_nb. rewrite Ee, orb_true_r. cbn [negb orb]. rewrite (true_idxs_exists a 0) in Ee. fold (flatnonzero a) in Ee. apply negb_false_iff, Nat.eqb_eq in Ee.
      destruct (flatnonzero a); [reflexivity|discriminate].
Qed.
Lemma norm_ok : forall a, @rs_norm_avg_index _ XQnum a = @norm_avg_index_1d_nb _ XQnum a.
Proof.
  intros a. rewrite <- norm_1d_ok. unfold rs_norm_avg_index, rs_norm_avg_index_1d, rows_of. change (@zero _ XQnum) with (Fin (inject_Z 0)). change (rows_from 0 a) with (rows_from (Z.of_nat 0) a). rewrite avg_fold. cbn [Z.add]. fold (flatnonzero a).
  destruct (flatnonzero a) as [|x l]; [reflexivity|]. replace (0 <? Z.of_nat (List.length (x :: l))) with true by (symmetry; apply Z.ltb_lt; cbn; lia). reflexivity.
Qed.

(** what the average is *)
Lemma sum_bounds : forall a i,
  Z.of_nat i * Z.of_nat (List.length (true_idxs i a)) <= fold_left Z.add (map Z.of_nat (true_idxs i a)) 0
  <= (Z.of_nat i + Z.of_nat (List.length a) - 1) * Z.of_nat (List.length (true_idxs i a)).
Proof.
  induction a as [|v a IH]; intros i; cbn [true_idxs List.length map fold_left]; [lia|].
  specialize (IH (S i)). destruct v; cbn [map fold_left List.length]; [rewrite fold_Zadd|]; nia.
Qed.

Lemma norm_value : forall a, (2 <= List.length a)%nat -> existsb (fun x => x) a = true ->
  exists q, @norm_avg_index_1d_nb _ XQnum a = Fin q /\
    (inject_Z (Z.of_nat (List.length (flatnonzero a))) * inject_Z (Z.of_nat (List.length a) - 1)%Z * (q + inject_Z 1)
     == inject_Z 2 * inject_Z (fold_left Z.add (map Z.of_nat (flatnonzero a)) 0%Z))%Q /\ (inject_Z (-1) <= q <= inject_Z 1)%Q.
Proof.
  intros a Hl He. rewrite norm_nb_some by auto. pose proof (sum_bounds a 0%nat) as [B1 B2]. fold (flatnonzero a) in *.
  rewrite (true_idxs_exists a 0) in He. fold (flatnonzero a) in He. apply negb_true_iff, Nat.eqb_neq in He.
  set (s := fold_left _ _ _) in *. set (c := Z.of_nat (List.length (flatnonzero a))) in *. set (n := Z.of_nat (List.length a)) in *.
  rewrite avg_num by (unfold c, n; lia). eexists. split; [reflexivity|].
  assert (Hc : 1 <= c) by (unfold c; lia). assert (Hn : 1 <= n - 1) by (unfold n; lia). clearbody s c n.
  assert (Qc : (inject_Z 1 <= inject_Z c)%Q) by (rewrite <- Zle_Qle; lia).
  assert (Qn : (inject_Z 1 <= inject_Z (n - 1))%Q) by (rewrite <- Zle_Qle; lia).
  assert (Qs : (inject_Z 0 <= inject_Z s)%Q) by (rewrite <- Zle_Qle; lia).
  assert (Qs2 : (inject_Z s <= inject_Z (n - 1) * inject_Z c)%Q) by (rewrite <- inject_Z_mult, <- Zle_Qle; nia).
  rewrite !Qred_correct. change (inject_Z (-1)) with (-1 # 1)%Q. change (inject_Z 1) with (1 # 1)%Q in *. change (inject_Z 2) with (2 # 1)%Q. change (inject_Z 0) with (0 # 1)%Q in *.
  set (S := inject_Z s) in *. set (C := inject_Z c) in *. set (M := inject_Z (n - 1)) in *. clearbody S C M.
  set (x := ((2 # 1) * (S / C) / M)%Q).
  assert (Hx : (x * (C * M) == (2 # 1) * S)%Q) by (unfold x; field; split; lra).
  assert (HCM : (0 < C * M)%Q) by nra.
  split; [|split].
  - rewrite <- Hx. ring.
  - assert (0 <= x)%Q by nra. lra.
  - assert (x <= 2 # 1)%Q by nra. lra.
Qed.
