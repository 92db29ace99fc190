(** * Lemmas about beta and about missing returns *)
From Coq Require Import ZArith QArith Qabs Bool List Arith Lia Lqa.
From Verif Require Import Base Num XQFacts OrdLaws GenericNb GenericSpec GenericLemmas GenericLemmas2
  ReturnsNb ReturnsSpec ReturnsLemmas ReturnsLemmas2 ReturnsLemmas3.
Import ListNotations.
Local Open Scope nat_scope.

Lemma nansum_fold : forall l c, no_infinity l ->
  exists s, fold_left (fun c v => if isnan v then c else add c v) l (Fin c) = Fin s /\ (s == c + sum (vals l))%Q.
Proof.
  induction l as [|x l IH]; intros c H.
  - exists c. split; [reflexivity|]. cbn [vals sum]. ring.
  - destruct (no_inf_hd _ _ H) as [->|[q ->]]; apply no_inf_cons in H; cbn [fold_left isnan XQnum xq_isnan].
    + destruct (IH c H) as (s & E & Hs). exists s. split; [exact E|exact Hs].
    + rewrite add_fin. destruct (IH (Qred (c + q)) H) as (s & E & Hs). exists s. split; [exact E|].
      rewrite Hs, Qred_correct. cbn [vals sum]. ring.
Qed.
Lemma count_numbers_vals : forall l, no_infinity l -> count_numbers l = Z.of_nat (length (vals l)).
Proof.
  intros l H. unfold count_numbers. f_equal. change (filter (fun v : XQ => negb (isnan v)) l) with (drop_nan l).
  rewrite drop_nan_vals by auto. apply map_length.
Qed.

Lemma nanmean_run : forall l, no_infinity l -> vals l <> [] -> is_number (np_nanmean l) (mean (vals l)).
Proof.
  intros l H Hne. unfold np_nanmean. change zero with (Fin 0). destruct (nansum_fold l 0 H) as (s & -> & Hs).
  rewrite count_numbers_vals by auto. pose proof (count_pos _ Hne) as Hp. unfold count in Hp.
  change (ofZ (Z.of_nat (length (vals l)))) with (Fin (inject_Z (Z.of_nat (length (vals l))))).
  rewrite div_fin by lra. eexists. split; [reflexivity|]. rewrite Qred_correct, Hs. unfold mean, count. field. lra.
Qed.

Lemma sum_ext : forall l l', Forall2 Qeq l l' -> (sum l == sum l')%Q.
Proof. intros l l' H. induction H; cbn [sum]; [lra|]. rewrite H, IHForall2. reflexivity. Qed.
Lemma F2_length : forall l l', Forall2 Qeq l l' -> length l = length l'.
Proof. intros l l' H. induction H; cbn; congruence. Qed.
Lemma mean_ext : forall l l', Forall2 Qeq l l' -> (mean l == mean l')%Q.
Proof. intros l l' H. unfold mean, count. rewrite (F2_length _ _ H), (sum_ext _ _ H). reflexivity. Qed.

Lemma sum_map_plus : forall A (f g : A -> Q) l, (sum (map (fun x => f x + g x) l) == sum (map f l) + sum (map g l))%Q.
Proof. induction l as [|x l IH]; cbn [map sum]; [ring|]. rewrite IH. ring. Qed.
Lemma sum_map_scale : forall A (f : A -> Q) c l, (sum (map (fun x => c * f x) l) == c * sum (map f l))%Q.
Proof. induction l as [|x l IH]; cbn [map sum]; [ring|]. rewrite IH. ring. Qed.
Lemma sum_map_const : forall A (c : Q) (l : list A), (sum (map (fun _ => c) l) == c * inject_Z (Z.of_nat (length l)))%Q.
Proof.
  induction l as [|x l IH]; cbn [map sum length]; [unfold inject_Z; ring|]. rewrite IH, Nat2Z.inj_succ, <- Z.add_1_r, inject_Z_plus.
  change (inject_Z 1) with 1%Q. ring.
Qed.
Lemma sum_map_ext : forall A (f g : A -> Q) l, (forall x, In x l -> (f x == g x)%Q) -> (sum (map f l) == sum (map g l))%Q.
Proof.
  induction l as [|x l IH]; intros H; cbn [map sum]; [reflexivity|]. rewrite (H x) by now left. rewrite IH; [reflexivity|].
  intros; apply H; now right.
Qed.

(** Deviations from the mean add up to nothing. *)
Lemma dev_sum : forall A (f : A -> Q) l, l <> [] -> (sum (map (fun x => f x - mean (map f l)) l) == 0)%Q.
Proof.
  intros A f l Hne. setoid_rewrite (sum_map_plus A f (fun _ => - mean (map f l))%Q l). rewrite sum_map_const.
  unfold mean, count. rewrite map_length.
  assert (Hp : (0 < inject_Z (Z.of_nat (length l)))%Q).
  { destruct l; [congruence|]. change 0%Q with (inject_Z 0). rewrite <- Zlt_Qlt. cbn [length]. lia. }
  field. lra.
Qed.

(** One-sided residuals suffice for the covariance. *)
Lemma covariance_alt : forall p, p <> [] ->
  (mean (map (fun x => (snd x - mean (map snd p)) * fst x)%Q p) == covariance p)%Q.
Proof.
  intros p Hne. unfold covariance, mean at 1 3, count. rewrite !map_length.
  assert (Hs : (sum (map (fun x => (fst x - mean (map fst p)) * (snd x - mean (map snd p)))%Q p) ==
    sum (map (fun x => (snd x - mean (map snd p)) * fst x)%Q p))%Q).
  { rewrite (sum_map_ext _ _ (fun x => (snd x - mean (map snd p)) * fst x + (- mean (map fst p)) * (snd x - mean (map snd p)))%Q)
      by (intros; ring).
    rewrite sum_map_plus, sum_map_scale, (dev_sum _ snd) by auto. ring. }
  rewrite Hs. reflexivity.
Qed.

(** ** The arrays of beta_1d_nb *)
Definition independent (rb : list (XQ * XQ)) : list XQ := map (fun x => if isnan (fst x) then nan else snd x) rb.

Lemma pairs_cons : forall r b rb, no_infinite_pair ((r, b) :: rb) ->
  no_infinite_pair rb /\
  ((isnan r || isnan b = true /\ pairs ((r, b) :: rb) = pairs rb) \/
   exists p q, r = Fin p /\ b = Fin q /\ pairs ((r, b) :: rb) = (p, q) :: pairs rb).
Proof.
  intros r b rb [H1 H2]. cbn [map fst snd] in *. split; [split; eapply no_inf_cons; eauto|].
  destruct (no_inf_hd _ _ H1) as [->|[p ->]]; [left; split; reflexivity|].
  destruct (no_inf_hd _ _ H2) as [->|[q ->]]; [left; split; reflexivity|]. right. exists p, q. auto.
Qed.

Lemma independent_vals : forall rb, no_infinite_pair rb ->
  no_infinity (independent rb) /\ vals (independent rb) = map snd (pairs rb).
Proof.
  induction rb as [|[r b] rb IH]; intros H; [split; [intros x []|reflexivity]|].
  apply pairs_cons in H as [H Hc]. destruct (IH H) as [I1 I2]. unfold independent. cbn [map fst snd]. fold (independent rb).
  destruct Hc as [[En ->]|(p & q & -> & -> & ->)].
  - destruct (isnan r) eqn:Er; [|cbn [orb] in En; destruct b; try discriminate].
    + split; [|exact I2]. intros x [<-|Hx]; [split; discriminate|auto].
    + split; [|exact I2]. intros x [<-|Hx]; [split; discriminate|auto].
  - cbn [isnan XQnum xq_isnan vals map snd]. split; [|now f_equal]. intros x [<-|Hx]; [split; discriminate|auto].
Qed.

Definition residual (m : Q) (rb : list (XQ * XQ)) : list XQ := map (fun y => sub y (Fin m)) (independent rb).

Lemma residual_cov : forall m rb, no_infinite_pair rb ->
  let l := map (fun p => mul (fst p) (snd p)) (combine (residual m rb) (map fst rb)) in
  no_infinity l /\ Forall2 Qeq (vals l) (map (fun x => (snd x - m) * fst x)%Q (pairs rb)).
Proof.
  intros m rb. induction rb as [|[r b] rb IH]; intros H; [split; [intros x []|constructor]|].
  apply pairs_cons in H as [H Hc]. destruct (IH H) as [I1 I2]. cbv zeta. unfold residual, independent.
  cbn [map fst snd combine]. fold (independent rb). fold (residual m rb).
  destruct Hc as [[En ->]|(p & q & -> & -> & ->)].
  - assert (E : mul (sub (if isnan r then nan else b) (Fin m)) r = NaN).
    { destruct (isnan r) eqn:Er; [destruct r; try discriminate; reflexivity|cbn [orb] in En].
      destruct b; try discriminate. reflexivity. }
    rewrite E. split; [|exact I2]. intros x [<-|Hx]; [split; discriminate|auto].
  - cbn [isnan XQnum xq_isnan]. rewrite sub_fin, mul_fin. cbn [vals map fst snd]. split.
    + intros x [<-|Hx]; [split; discriminate|auto].
    + constructor; [|exact I2]. rewrite !Qred_correct. reflexivity.
Qed.
Lemma residual_var : forall m rb, no_infinite_pair rb ->
  let l := map (fun e => mul e e) (residual m rb) in
  no_infinity l /\ Forall2 Qeq (vals l) (map (fun b => (b - m) * (b - m))%Q (map snd (pairs rb))).
Proof.
  intros m rb. induction rb as [|[r b] rb IH]; intros H; [split; [intros x []|constructor]|].
  apply pairs_cons in H as [H Hc]. destruct (IH H) as [I1 I2]. cbv zeta. unfold residual, independent.
  cbn [map fst snd]. fold (independent rb). fold (residual m rb).
  destruct Hc as [[En ->]|(p & q & -> & -> & ->)].
  - assert (E : sub (if isnan r then nan else b) (Fin m) = NaN).
    { destruct (isnan r) eqn:Er; [reflexivity|cbn [orb] in En]. destruct b; try discriminate. reflexivity. }
    rewrite E. cbn [mul XQnum xq_mul]. split; [|exact I2]. intros x [<-|Hx]; [split; discriminate|auto].
  - cbn [isnan XQnum xq_isnan]. rewrite sub_fin, mul_fin. cbn [vals map fst snd]. split.
    + intros x [<-|Hx]; [split; discriminate|auto].
    + constructor; [|exact I2]. rewrite !Qred_correct. reflexivity.
Qed.

Lemma F2_nil : forall (A : Type) (R : Q -> Q -> Prop) (l : list Q) (f : A -> Q) p, Forall2 R l (map f p) -> p <> [] -> l <> [].
Proof. intros A R l f p H Hp ->. inversion H. destruct p; [congruence|discriminate]. Qed.

Lemma variance_pop : forall l, l <> [] -> (variance 0 l == mean (map (fun x => (x - mean l) * (x - mean l))%Q l))%Q.
Proof.
  intros l Hne. unfold variance, mean at 3, count at 2. rewrite map_length. change (inject_Z 0) with 0%Q.
  pose proof (count_pos l Hne). unfold count in *. field. lra.
Qed.

Lemma beta_run : forall rb, no_infinite_pair rb -> 2 <= length rb ->
  ((1 # 10 ^ 30) <= variance 0 (map snd (pairs rb)))%Q ->
  is_number (beta_1d_nb rb) (covariance (pairs rb) / variance 0 (map snd (pairs rb))).
Proof.
  intros rb H HL HV. unfold beta_1d_nb. replace (Nat.ltb (length rb) 2) with false by (symmetry; now apply Nat.ltb_ge).
  fold (independent rb).
  assert (Hp : pairs rb <> []).
  { intros E. rewrite E in HV. apply Qle_bool_iff in HV. vm_compute in HV. discriminate. }
  destruct (independent_vals rb H) as [I1 I2].
  assert (Hm : map snd (pairs rb) <> []) by (destruct (pairs rb); [congruence|discriminate]).
  destruct (nanmean_run (independent rb)) as (m & -> & Em); [auto|now rewrite I2|]. rewrite I2 in Em.
  fold (residual m rb).
  destruct (residual_cov m rb H) as [C1 C2]. cbv zeta in C1, C2.
  destruct (residual_var m rb H) as [V1 V2]. cbv zeta in V1, V2.
  destruct (nanmean_run _ C1) as (cv & -> & Ec); [eapply F2_nil; eauto|]. rewrite (mean_ext _ _ C2) in Ec.
  destruct (nanmean_run _ V1) as (vr & -> & Ev); [eapply F2_nil; eauto|]. rewrite (mean_ext _ _ V2) in Ev.
  assert (Evr : (vr == variance 0 (map snd (pairs rb)))%Q).
  { rewrite Ev, variance_pop by auto. apply mean_ext. clear - Em.
    revert Em. generalize (mean (map snd (pairs rb))). intros m' Em. induction (map snd (pairs rb)); cbn [map]; constructor; auto.
    rewrite Em. reflexivity. }
  assert (Ecv : (cv == covariance (pairs rb))%Q).
  { rewrite Ec, <- covariance_alt by auto. apply mean_ext. clear - Em.
    revert Em. generalize (mean (map snd (pairs rb))). intros m' Em. induction (pairs rb); cbn [map]; constructor; auto.
    rewrite Em. reflexivity. }
  assert (Et : tiny = Fin (1 # 10 ^ 30)) by (vm_compute; reflexivity). rewrite Et.
  assert (Ept : (0 < 1 # 10 ^ 30)%Q) by reflexivity. revert Ept HV. generalize (1 # 10 ^ 30)%Q as t. intros t Ht HV.
  cbn [ltb XQnum xq_ltb].
  replace (qlt_bool vr t) with false by (symmetry; qbg; lra).
  cbn [eqb XQnum xq_eqb zero ofZ]. change (inject_Z 0) with 0%Q. replace (Qeq_bool vr 0) with false by (symmetry; qbg; lra).
  rewrite div_fin by lra. eexists. split; [reflexivity|]. rewrite Qred_correct, Ecv, Evr. reflexivity.
Qed.

(** A levered benchmark: covariance is leverage times variance. *)
Lemma covariance_linear : forall a k bs, bs <> [] ->
  (covariance (map (fun b => (a + k * b, b))%Q bs) == k * variance 0 bs)%Q.
Proof.
  intros a k bs Hne. set (p := map (fun b => (a + k * b, b)%Q) bs).
  assert (Hp : p <> []) by (unfold p; destruct bs; [congruence|discriminate]).
  rewrite <- covariance_alt by auto. unfold p. rewrite !map_map. cbn [fst snd]. rewrite map_id.
  rewrite variance_pop by auto. unfold mean at 1 3, count. rewrite !map_length.
  rewrite (sum_map_ext _ _ (fun b => (a + k * mean bs) * (b - mean bs) + k * ((b - mean bs) * (b - mean bs)))%Q) by (intros; ring).
  rewrite sum_map_plus, !sum_map_scale.
  pose proof (dev_sum Q (fun b => b) bs Hne) as Hd. rewrite map_id in Hd. rewrite Hd.
  assert (Hq : (0 < inject_Z (Z.of_nat (length bs)))%Q) by (apply (count_pos bs Hne)). field. lra.
Qed.

Lemma pairs_fin : forall l : list (Q * Q), pairs (map (fun x => (Fin (fst x), Fin (snd x))) l) = l.
Proof. induction l as [|[r b] l IH]; [reflexivity|]. cbn [map pairs fst snd]. now f_equal. Qed.
Lemma no_inf_pairs_fin : forall l : list (Q * Q), no_infinite_pair (map (fun x => (Fin (fst x), Fin (snd x))) l).
Proof.
  intros l. split; intros x Hx; rewrite map_map in Hx; apply in_map_iff in Hx as (y & <- & _); split; discriminate.
Qed.

Lemma beta_levered : forall a k bs, 2 <= length bs -> ((1 # 10 ^ 30) <= variance 0 bs)%Q ->
  is_number (beta_1d_nb (map (fun b => (Fin (a + k * b), Fin b)) bs)) k.
Proof.
  intros a k bs HL HV. set (l := map (fun b => (a + k * b, b)%Q) bs).
  assert (El : map (fun b => (Fin (a + k * b), Fin b)) bs = map (fun x => (Fin (fst x), Fin (snd x))) l).
  { unfold l. rewrite map_map. reflexivity. }
  rewrite El. assert (Es : map snd l = bs) by (unfold l; rewrite map_map; apply map_id).
  destruct (beta_run _ (no_inf_pairs_fin l)) as (q & Eq & Hq).
  - unfold l. now rewrite !map_length.
  - rewrite pairs_fin, Es. exact HV.
  - exists q. split; auto. rewrite Hq, pairs_fin, Es. unfold l.
    rewrite covariance_linear by (destruct bs; [cbn in HL; lia|discriminate]).
    assert (Ept : (0 < 1 # 10 ^ 30)%Q) by reflexivity. field. lra.
Qed.

(** ** Missing returns are ignored *)
Section Missing.
  Context {T : Type} {N : Num T}.
  Lemma fold_drop : forall (g : T -> T -> T) l c,
    fold_left (fun c v => if isnan v then c else g c v) (drop_nan l) c = fold_left (fun c v => if isnan v then c else g c v) l c.
  Proof.
    induction l as [|x l IH]; intros c; [reflexivity|]. unfold drop_nan. cbn [filter fold_left]. fold (drop_nan l).
    destruct (isnan x) eqn:E; cbn [negb fold_left]; rewrite ?E; apply IH.
  Qed.
  Lemma drop_drop : forall l : list T, drop_nan (drop_nan l) = drop_nan l.
  Proof.
    induction l as [|x l IH]; [reflexivity|]. unfold drop_nan. cbn [filter]. fold (drop_nan l).
    destruct (negb (isnan x)) eqn:E; cbn [filter]; rewrite ?E; [f_equal|]; apply IH.
  Qed.
  (** A map that keeps NaN. *)
  Lemma drop_map : forall (f : T -> T) l, (forall x, isnan (f x) = isnan x) -> map f (drop_nan l) = drop_nan (map f l).
  Proof.
    intros f l H. induction l as [|x l IH]; [reflexivity|]. unfold drop_nan. cbn [filter map]. fold (drop_nan l) (drop_nan (map f l)).
    rewrite H. destruct (negb (isnan x)); cbn [map]; now rewrite IH.
  Qed.
  Lemma nanmean_drop : forall l : list T, np_nanmean (drop_nan l) = np_nanmean l.
  Proof. intros. unfold np_nanmean. rewrite (fold_drop add). unfold count_numbers. fold (drop_nan l) (drop_nan (drop_nan l)). now rewrite drop_drop. Qed.
  Lemma nanvar_drop : forall l : list T, np_nanvar (drop_nan l) = np_nanvar l.
  Proof.
    intros. unfold np_nanvar. rewrite nanmean_drop. cbv zeta.
    rewrite (fold_drop (fun c v => add c (mul (sub v (np_nanmean l)) (sub v (np_nanmean l))))).
    unfold count_numbers. fold (drop_nan l) (drop_nan (drop_nan l)). now rewrite drop_drop.
  Qed.
  Lemma nanstd_drop : forall sqrt (l : list T) ddof, nanstd_1d_nb sqrt (drop_nan l) ddof = nanstd_1d_nb sqrt l ddof.
  Proof.
    intros. unfold nanstd_1d_nb. rewrite nanvar_drop. unfold count_numbers. fold (drop_nan l) (drop_nan (drop_nan l)).
    now rewrite drop_drop.
  Qed.
  Lemma nanprod_drop : forall l : list T, np_nanprod (drop_nan l) = np_nanprod l.
  Proof. intros. unfold np_nanprod. apply fold_drop. Qed.
End Missing.
