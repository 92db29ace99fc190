(** * Splitters: proofs *)
From Coq Require Import String ZArith QArith Qround Bool List Arith Lia Sorted.
From Verif Require Import Base Reshape Grouper Splitters BaseFnsSpec BaseFnsLemmas.
Import ListNotations.
Local Open Scope list_scope.
Local Open Scope Z_scope.

Lemma count_from_map : forall n a k, map (fun j => a + Z.of_nat j) (seq k n) = count_from (a + Z.of_nat k) n.
Proof.
  induction n as [|n IH]; intros a k; cbn [seq map count_from]; [reflexivity|]. f_equal. rewrite IH. f_equal. lia.
Qed.
Lemma arange_count : forall a b, arange a b = count_from a (Z.to_nat (b - a)).
Proof. intros. unfold arange. rewrite count_from_map. f_equal. lia. Qed.
Lemma arange_positions : forall a b, arange a (b + 1) = positions a b.
Proof. intros. rewrite arange_count. unfold positions. f_equal. lia. Qed.
Lemma count_from_app : forall m n a, count_from a m ++ count_from (a + Z.of_nat m) n = count_from a (m + n).
Proof.
  induction m as [|m IH]; intros n a; cbn [count_from app Nat.add].
  - f_equal. lia.
  - f_equal. rewrite <- IH. do 2 f_equal. lia.
Qed.
Lemma count_from_length : forall n a, length (count_from a n) = n.
Proof. induction n; intros; cbn; auto. Qed.

Lemma sum_z_acc : forall l a, fold_left Z.add l a = a + sum_of l.
Proof. induction l as [|x l IH]; intros a; cbn [fold_left sum_of]; [lia|]. rewrite IH. lia. Qed.
Lemma sum_z_sum : forall l, sum_z l = sum_of l.
Proof. intros. unfold sum_z. rewrite sum_z_acc. lia. Qed.
Lemma sum_of_app : forall a b, sum_of (a ++ b) = sum_of a + sum_of b.
Proof. induction a as [|x a IH]; intros; cbn [app sum_of]; [reflexivity|]. rewrite IH. lia. Qed.
Lemma sum_of_nonneg : forall l, Forall (fun z => 0 <= z) l -> 0 <= sum_of l.
Proof. induction 1; cbn [sum_of]; lia. Qed.

Lemma cut_sets_concat : forall lens s off, Forall (fun z => 0 <= z) lens ->
  concat (cut_sets s off lens) = count_from (s + off) (Z.to_nat (sum_of lens)).
Proof.
  induction lens as [|l lens IH]; intros s off H; cbn [cut_sets concat sum_of]; [reflexivity|].
  inversion H; subst. rewrite IH by assumption. rewrite arange_count. pose proof (sum_of_nonneg _ H3).
  replace (s + (off + l) - (s + off)) with l by lia.
  replace (s + (off + l)) with (s + off + Z.of_nat (Z.to_nat l)) by lia. rewrite count_from_app. f_equal. lia.
Qed.
Lemma cut_sets_lengths : forall lens s off, Forall (fun z => 0 <= z) lens -> map length_z (cut_sets s off lens) = lens.
Proof.
  induction lens as [|l lens IH]; intros s off H; cbn [cut_sets map]; [reflexivity|].
  inversion H; subst. rewrite IH by assumption. f_equal. unfold length_z. rewrite arange_count, count_from_length. lia.
Qed.

(** ** Asked lengths *)
Lemma is_fraction_dec : forall q, negb (Qle_bool q 0) && negb (Qle_bool 1 q) = true <-> is_fraction q.
Proof.
  intros q. rewrite andb_true_iff, !negb_true_iff. unfold is_fraction. split; intros [H1 H2]; split.
  - apply Qnot_le_lt. intros H. apply Qle_bool_iff in H. congruence.
  - apply Qnot_le_lt. intros H. apply Qle_bool_iff in H. congruence.
  - destruct (Qle_bool q 0) eqn:E; [|reflexivity]. apply Qle_bool_iff in E. exfalso. apply (Qlt_not_le _ _ H1 E).
  - destruct (Qle_bool 1 q) eqn:E; [|reflexivity]. apply Qle_bool_iff in E. exfalso. apply (Qlt_not_le _ _ H2 E).
Qed.

Lemma whole_not_fraction : forall q z, is_whole q z -> ~ is_fraction q.
Proof.
  intros q z Hw [H1 H2]. unfold is_whole in Hw. rewrite Hw in H1, H2.
  change (0%Q) with (inject_Z 0) in H1. change 1%Q with (inject_Z 1) in H2. rewrite <- Zlt_Qlt in H1, H2. lia.
Qed.

Lemma resolve_len_asked : forall q rl, valid_length q -> forall z, asked_length q rl z <-> resolve_len q rl = z.
Proof.
  intros q rl Hv z. unfold resolve_len, asked_length. destruct (negb (Qle_bool q 0) && negb (Qle_bool 1 q)) eqn:E.
  - apply is_fraction_dec in E. split; [intros [[_ ->]|[H _]]; [reflexivity|contradiction]|]. intros <-. left. auto.
  - assert (Hn : ~ is_fraction q) by (intros H; apply is_fraction_dec in H; congruence).
    destruct Hv as [Hv|[z0 [_ Hw]]]; [contradiction|]. assert (Hf : Qfloor q = z0) by (unfold is_whole in Hw; rewrite Hw; apply Qfloor_Z).
    split.
    + intros [[H _]|[_ H]]; [contradiction|]. unfold is_whole in H. rewrite H. apply Qfloor_Z.
    + intros <-. right. split; [exact Hn|]. rewrite Hf. exact Hw.
Qed.

Lemma resolve_len_nonneg : forall q rl, valid_length q -> 0 <= rl -> 0 <= resolve_len q rl.
Proof.
  intros q rl Hv Hr. unfold resolve_len. destruct (negb (Qle_bool q 0) && negb (Qle_bool 1 q)) eqn:E.
  - apply is_fraction_dec in E. destruct E as [E _]. change 0 with (Qfloor 0). apply Qfloor_resp_le.
    apply Qmult_le_0_compat; [now apply Qlt_le_weak|]. change 0%Q with (inject_Z 0). rewrite <- Zle_Qle. exact Hr.
  - destruct Hv as [Hv|[z0 [H0 Hw]]]; [apply is_fraction_dec in Hv; congruence|].
    unfold is_whole in Hw. rewrite Hw, Qfloor_Z. lia.
Qed.

Lemma resolve_lens_spec : forall qs rl, Forall valid_length qs -> 
  forall lens, resolve_lens qs rl = Ok lens <-> Forall2 (fun q z => asked_length q rl z) qs lens /\ Forall (fun z => z <> 0) lens.
Proof.
  induction qs as [|q qs IH]; intros rl Hv lens; cbn [resolve_lens].
  - split; [intros H; injection H as <-; split; constructor|]. intros [H _]. inversion H. reflexivity.
  - inversion Hv as [|? ? Hq Hqs]; subst. destruct (Z.eqb_spec (resolve_len q rl) 0) as [E|E]; cbn [raise_if].
    + split; [discriminate|]. intros [Ha Hb]. inversion Ha as [|? z ? zs Hz Hzs]; subst. inversion Hb; subst.
      apply resolve_len_asked in Hz; [|assumption]. congruence.
    + destruct (resolve_lens qs rl) as [ls|err] eqn:El; cbn [bind].
      * destruct (proj1 (IH rl Hqs ls) El) as [Ha Hb]. split.
        -- intros H. injection H as <-. split; constructor; auto. now apply resolve_len_asked.
        -- intros [Ha' Hb']. inversion Ha' as [|? z ? zs Hz Hzs]; subst. inversion Hb' as [|? ? Hz0 Hzs0]; subst.
           apply resolve_len_asked in Hz; [|assumption].
           assert (He : Ok ls = Ok zs) by (rewrite <- El; apply IH; auto). injection He as ->. rewrite Hz. reflexivity.
      * split; [discriminate|]. intros [Ha' Hb']. inversion Ha' as [|? z ? zs Hz Hzs]; subst. inversion Hb' as [|? ? Hz0 Hzs0]; subst.
        assert (He : resolve_lens qs rl = Ok zs) by (apply IH; auto). congruence.
Qed.

Lemma asked_nonneg : forall qs rl lens, Forall valid_length qs -> 0 <= rl -> Forall2 (fun q z => asked_length q rl z) qs lens ->
  Forall (fun z => 0 <= z) lens.
Proof.
  intros qs rl lens Hv Hr H. induction H; constructor; inversion Hv; subst.
  - apply resolve_len_asked in H; [|assumption]. rewrite <- H. now apply resolve_len_nonneg.
  - auto.
Qed.


(** ** One range *)
Lemma Forall2_len : forall {A B} (R : A -> B -> Prop) l m, Forall2 R l m -> length l = length m.
Proof. induction 1; cbn; auto. Qed.

Lemma split_range_sound : forall s e qs ltr sets, s <= e -> Forall valid_length qs -> split_range s e qs ltr = Ok sets ->
  concat sets = positions s e /\ Forall (fun l => l <> []) sets /\
    exists zs rest, Forall2 (fun q z => asked_length q (e - s + 1) z) qs zs /\
    map length_z sets = (if ltr then zs ++ [rest] else rest :: zs).
Proof.
  intros s e qs ltr sets Hse Hv H. unfold split_range in H.
  destruct (resolve_lens qs (e - s + 1)) as [lens|] eqn:El; [|discriminate]. cbn [bind] in H.
  apply raise_if_inv in H. destruct H as [Hlt H]. apply negb_false_iff, Z.ltb_lt in Hlt. rewrite sum_z_sum in *.
  apply resolve_lens_spec in El; [|assumption]. destruct El as [Ha Hnz].
  assert (Hnn := asked_nonneg qs (e - s + 1) lens Hv ltac:(lia) Ha).
  assert (Hpos : Forall (fun z => 1 <= z) lens).
  { rewrite Forall_forall in *. intros z Hz. specialize (Hnz z Hz). specialize (Hnn z Hz). cbv beta in *. lia. }
  set (all := if ltr then lens ++ [e - s + 1 - sum_of lens] else [e - s + 1 - sum_of lens] ++ lens) in *.
  assert (Hall : Forall (fun z => 1 <= z) all).
  { subst all. destruct ltr; apply Forall_app; split; auto; repeat constructor; lia. }
  assert (Hall0 : Forall (fun z => 0 <= z) all) by (eapply Forall_impl; [|exact Hall]; cbn; lia).
  assert (Hsum : sum_of all = e - s + 1).
  { subst all. destruct ltr; rewrite sum_of_app; cbn [sum_of]; lia. }
  injection H as <-. repeat split.
  - rewrite cut_sets_concat by exact Hall0. unfold positions. rewrite Hsum. f_equal. lia.
  - assert (Hl := cut_sets_lengths all s 0 Hall0). rewrite Forall_forall. intros l Hin ->.
    assert (Hz : In (length_z (@nil Z)) all) by (rewrite <- Hl; now apply in_map).
    rewrite Forall_forall in Hall. apply Hall in Hz. cbn in Hz. lia.
  - exists lens, (e - s + 1 - sum_of lens). split; [exact Ha|]. rewrite cut_sets_lengths by exact Hall0. subst all. destruct ltr; reflexivity.
Qed.

Lemma split_range_accepts : forall s e qs ltr, Forall valid_length qs ->
  (exists sets, split_range s e qs ltr = Ok sets) <->
  exists zs, Forall2 (fun q z => asked_length q (e - s + 1) z) qs zs /\ Forall (fun z => z <> 0) zs /\ sum_of zs < e - s + 1.
Proof.
  intros s e qs ltr Hv. unfold split_range. split.
  - intros [sets H]. destruct (resolve_lens qs (e - s + 1)) as [lens|] eqn:El; [|discriminate]. cbn [bind] in H.
    apply raise_if_inv in H. destruct H as [Hlt _]. apply negb_false_iff, Z.ltb_lt in Hlt. rewrite sum_z_sum in Hlt.
    apply resolve_lens_spec in El; [|assumption]. exists lens. tauto.
  - intros [zs [Ha [Hb Hc]]]. rewrite (proj2 (resolve_lens_spec qs _ Hv zs) (conj Ha Hb)). cbn [bind].
    rewrite sum_z_sum, (proj2 (Z.ltb_lt _ _) Hc). cbn. eauto.
Qed.

(** ** All ranges *)
Lemma no_sets_at : forall lens i, no_sets lens = true -> sets_for lens i = [].
Proof. intros [[|q l]|[|q l]] i H; try discriminate; [reflexivity|]. cbn. destruct i; reflexivity. Qed.
Lemma at_range_sets : forall lens i qs, at_range lens i = Ok qs -> sets_for lens i = qs.
Proof.
  intros [q|l] i qs H; cbn in *; [congruence|]. destruct (nth_error l i) eqn:E; [|discriminate]. injection H as ->. now apply nth_error_nth.
Qed.
Lemma at_range_direction : forall ltr i b, at_range ltr i = Ok b -> left_to_right_for ltr i = b.
Proof.
  intros [q|l] i qs H; cbn in *; [congruence|]. destruct (nth_error l i) eqn:E; [|discriminate]. injection H as ->. now apply nth_error_nth.
Qed.

Definition covers (lens : PerRange (list Q)) (ltr : PerRange bool) (i : nat) (r : Z * Z) (sets : list (list Z)) : Prop :=
  fst r <= snd r -> Forall valid_length (sets_for lens i) -> cuts (sets_for lens i) (left_to_right_for ltr i) (fst r) (snd r) sets.

Lemma positions_nonempty : forall s e, s <= e -> positions s e <> [].
Proof. intros s e H. unfold positions. destruct (Z.to_nat (e - s + 1)) eqn:E; [lia|discriminate]. Qed.

Lemma split_loop_sound : forall ranges i lens ltr tuples, split_loop ranges i lens ltr = Ok tuples ->
  length tuples = length ranges /\
    forall k r sets, nth_error ranges k = Some r -> nth_error tuples k = Some sets -> covers lens ltr (i + k) r sets.
Proof.
  induction ranges as [|[s e] ranges IH]; intros i lens ltr tuples H; cbn [split_loop] in H.
  - injection H as <-. split; [reflexivity|]. intros [|k]; discriminate.
  - match type of H with bind ?x _ = _ => destruct x as [sets0|] eqn:E0; [|discriminate] end. cbn [bind] in H.
    destruct (split_loop ranges (S i) lens ltr) as [others|] eqn:Eo; [|discriminate]. cbn [bind] in H. injection H as <-.
    destruct (IH _ _ _ _ Eo) as [Hl Hk]. split; [cbn; lia|]. intros [|k] r sets Hr Hs.
    + injection Hr as <-. injection Hs as <-. rewrite Nat.add_0_r. unfold covers. cbn [fst snd]. intros Hse Hv. unfold cuts.
      destruct (no_sets lens) eqn:En.
      * injection E0 as <-. rewrite (no_sets_at _ _ En) in *. cbn [concat]. rewrite app_nil_r, arange_positions. repeat split.
        -- constructor; [now apply positions_nonempty|constructor].
        -- exists [], (e - s + 1). split; [constructor|]. cbn [map app].
           assert (He : length_z (positions s e) = e - s + 1) by (unfold length_z, positions; rewrite count_from_length; lia).
           rewrite He. destruct (left_to_right_for ltr i); reflexivity.
      * destruct (at_range lens i) as [qs|] eqn:Eq; [|discriminate]. cbn [bind] in E0.
        destruct (at_range ltr i) as [b|] eqn:Eb; [|discriminate]. cbn [bind] in E0.
        rewrite (at_range_sets _ _ _ Eq) in *. rewrite (at_range_direction _ _ _ Eb).
        exact (split_range_sound s e qs b sets0 Hse Hv E0).
    + cbn [nth_error] in Hr, Hs. replace (i + S k)%nat with (S i + k)%nat by lia. eapply Hk; eauto.
Qed.

Lemma split_ranges_sound : forall starts ends lens ltr tuples, split_ranges_into_sets starts ends lens ltr = Ok tuples ->
  length starts = length ends /\ length tuples = length starts /\
    forall i s e sets, nth_error starts i = Some s -> nth_error ends i = Some e -> nth_error tuples i = Some sets ->
    covers lens ltr i (s, e) sets.
Proof.
  intros starts ends lens ltr tuples H. unfold split_ranges_into_sets in H. apply raise_if_inv in H. destruct H as [Hl H].
  apply negb_false_iff, Nat.eqb_eq in Hl. destruct (split_loop_sound _ _ _ _ _ H) as [Hlen Hc].
  rewrite combine_length in Hlen. split; [exact Hl|]. split; [lia|]. intros i s e sets Hs He Ht.
  apply (Hc i (s, e) sets); [|exact Ht]. clear - Hs He. revert ends i Hs He.
  induction starts as [|x starts IH]; intros [|y ends] [|i] Hs He; cbn in *; try discriminate; [congruence|auto].
Qed.

(** ** Choosing ranges evenly *)
Lemma round_bounds : forall p d, 0 < d -> 2 * p - d <= 2 * d * round_half_even p d <= 2 * p + d.
Proof.
  intros p d Hd. unfold round_half_even. pose proof (Z.div_mod p d ltac:(lia)) as H. pose proof (Z.mod_pos_bound p d Hd) as Hb.
  set (f := p / d) in *. set (r := p mod d) in *.
  destruct (Z.ltb_spec (2 * r) d); [nia|]. destruct (Z.ltb_spec d (2 * r)); [nia|]. destruct (Z.even f); nia.
Qed.
Lemma round_exact : forall k d, 0 < d -> round_half_even (k * d) d = k.
Proof. intros k d Hd. pose proof (round_bounds (k * d) d Hd). nia. Qed.

Lemma even_step : forall m n k, (2 <= n <= m)%nat -> (k + 1 < n)%nat ->
  round_half_even (Z.of_nat k * (Z.of_nat m - 1)) (Z.of_nat n - 1) < round_half_even (Z.of_nat (k + 1) * (Z.of_nat m - 1)) (Z.of_nat n - 1).
Proof.
  intros m n k Hn Hk. destruct (Nat.eq_dec m n) as [->|Hne].
  - rewrite !round_exact by lia. lia.
  - set (d := Z.of_nat n - 1). set (p := Z.of_nat k * (Z.of_nat m - 1)).
    assert (Hd : 0 < d) by lia. replace (Z.of_nat (k + 1) * (Z.of_nat m - 1)) with (p + (Z.of_nat m - 1)) by (subst p; lia).
    pose proof (round_bounds p d Hd) as H1. pose proof (round_bounds (p + (Z.of_nat m - 1)) d Hd) as H2.
    assert (Z.of_nat m - 1 >= d + 1) by lia. nia.
Qed.

Lemma even_range : forall m n k, (2 <= n <= m)%nat -> (k < n)%nat ->
  0 <= round_half_even (Z.of_nat k * (Z.of_nat m - 1)) (Z.of_nat n - 1) <= Z.of_nat m - 1.
Proof.
  intros m n k Hn Hk. set (d := Z.of_nat n - 1). assert (Hd : 0 < d) by lia.
  assert (H0 : round_half_even 0 d = 0) by (rewrite <- (round_exact 0 d Hd) at 2; f_equal; lia).
  assert (H1 : round_half_even (d * (Z.of_nat m - 1)) d = Z.of_nat m - 1) by (rewrite Z.mul_comm; now apply round_exact).
  pose proof (round_bounds (Z.of_nat k * (Z.of_nat m - 1)) d Hd) as H.
  assert (0 <= Z.of_nat k * (Z.of_nat m - 1) <= d * (Z.of_nat m - 1)) by nia. nia.
Qed.

Definition even_at (m n k : nat) : nat :=
  if Nat.eqb n 1 then O else Z.to_nat (round_half_even (Z.of_nat k * (Z.of_nat m - 1)) (Z.of_nat n - 1)).

Lemma even_at_mono : forall m n, (1 <= n <= m)%nat -> forall k j, (k < j < n)%nat -> (even_at m n k < even_at m n j)%nat.
Proof.
  intros m n Hn k j Hkj. unfold even_at. destruct (Nat.eqb_spec n 1); [lia|].
  induction j as [|j IH]; [lia|]. pose proof (even_step m n j ltac:(lia) ltac:(lia)) as Hs. replace (j + 1)%nat with (S j) in Hs by lia.
  pose proof (even_range m n j ltac:(lia) ltac:(lia)). destruct (Nat.eq_dec k j) as [->|]; [lia|]. specialize (IH ltac:(lia)). lia.
Qed.
Lemma even_at_lt : forall m n k, (1 <= n <= m)%nat -> (k < n)%nat -> (even_at m n k < m)%nat.
Proof.
  intros m n k Hn Hk. unfold even_at. destruct (Nat.eqb_spec n 1); [lia|]. pose proof (even_range m n k ltac:(lia) Hk). lia.
Qed.
Lemma even_at_first : forall m n, (1 <= n <= m)%nat -> even_at m n 0 = 0%nat.
Proof.
  intros m n Hn. unfold even_at. destruct (Nat.eqb_spec n 1); [reflexivity|].
  assert (H := round_exact 0 (Z.of_nat n - 1) ltac:(lia)). cbn [Z.of_nat Z.mul] in *. rewrite H. reflexivity.
Qed.
Lemma even_at_last : forall m n, (2 <= n <= m)%nat -> even_at m n (n - 1) = (m - 1)%nat.
Proof.
  intros m n Hn. unfold even_at. destruct (Nat.eqb_spec n 1); [lia|].
  replace (Z.of_nat (n - 1) * (Z.of_nat m - 1)) with ((Z.of_nat m - 1) * (Z.of_nat n - 1)) by lia. rewrite round_exact by lia. lia.
Qed.

(** Choosing by increasing positions keeps an order. *)
Lemma sorted_seq_map : forall {B} (R : B -> B -> Prop) (f : nat -> B) n k,
  (forall i j, (k <= i < j)%nat -> (j < k + n)%nat -> R (f i) (f j)) -> StronglySorted R (map f (seq k n)).
Proof.
  intros B R f n. induction n as [|n IH]; intros k H; cbn; constructor.
  - apply IH. intros i j Hij Hj. apply H; lia.
  - rewrite Forall_forall. intros y Hy. apply in_map_iff in Hy. destruct Hy as [j [<- Hj]]. apply in_seq in Hj. apply H; lia.
Qed.

Lemma sorted_nth_rel : forall {B} (R : B -> B -> Prop) l d i j, StronglySorted R l -> (i < j < length l)%nat -> R (nth i l d) (nth j l d).
Proof.
  intros B R l d i j H. revert i j. induction H as [|x l H IH Hf]; intros i j Hij; cbn [length] in Hij; [lia|].
  destruct j as [|j]; [lia|]. destruct i as [|i].
  - cbn. rewrite Forall_forall in Hf. apply Hf, nth_In. lia.
  - cbn. apply IH. lia.
Qed.

Lemma hd_error_rev : forall {B} (l : list B), hd_error (rev l) = nth_error l (length l - 1).
Proof.
  intros B l. destruct l as [|x l _] using rev_ind; [reflexivity|]. rewrite rev_app_distr, app_length. cbn.
  rewrite nth_error_app2 by lia. replace (length l + 1 - 1 - length l)%nat with 0%nat by lia. reflexivity.
Qed.

Lemma select_ranges_spec : forall ranges n chosen (R : Z * Z -> Z * Z -> Prop), select_ranges ranges n = Ok chosen -> ranges <> [] ->
  chosen_from R n ranges chosen.
Proof.
  intros ranges n chosen R H Hne. destruct n as [n|]; cbn [select_ranges] in H; [|injection H as <-; reflexivity].
  apply raise_if_inv in H. destruct H as [Hn H]. apply Nat.ltb_ge in Hn. injection H as <-. unfold even_idxs. rewrite map_map.
  change (fun x => nth (if Nat.eqb n 1 then 0%nat else Z.to_nat (round_half_even (Z.of_nat x * (Z.of_nat (length ranges) - 1)) (Z.of_nat n - 1))) ranges (0, 0))
    with (fun x => nth (even_at (length ranges) n x) ranges (0, 0)).
  set (f := fun x => nth (even_at (length ranges) n x) ranges (0, 0)).
  cbn [chosen_from]. rewrite map_length, seq_length. repeat split.
  - intros x Hx. apply in_map_iff in Hx. destruct Hx as [k [<- Hk]]. apply in_seq in Hk. apply nth_In. apply even_at_lt; lia.
  - intros Hs. apply sorted_seq_map. intros i j Hij Hj. apply sorted_nth_rel; [exact Hs|]. split; [apply even_at_mono; lia|apply even_at_lt; lia].
  - intros H1. destruct n as [|n]; [lia|]. cbn [seq map hd_error]. unfold f. rewrite even_at_first by lia.
    destruct ranges; [congruence|reflexivity].
  - intros H2. rewrite !hd_error_rev, map_length, seq_length. rewrite nth_error_map.
    assert (Hs : nth_error (seq 0 n) (n - 1) = Some (n - 1)%nat).
    { rewrite (nth_error_nth' _ 0%nat) by (rewrite seq_length; lia). rewrite seq_nth by lia. reflexivity. }
    rewrite Hs. cbn [option_map]. unfold f. rewrite even_at_last by lia. symmetry. apply nth_error_nth'. destruct ranges; [congruence|]. cbn. lia.
Qed.

(** ** The splitters *)
Lemma filter_ranges_ok : forall starts ends min_len kept, filter_ranges starts ends min_len = Ok kept ->
  kept = filter (fun p => Z.leb min_len (snd p - fst p + 1)) (combine starts ends) /\ kept <> [].
Proof.
  intros starts ends min_len kept H. unfold filter_ranges in H. cbv zeta in H.
  destruct (filter (fun p => Z.leb min_len (snd p - fst p + 1)) (combine starts ends)); [discriminate|].
  injection H as <-. split; [reflexivity|discriminate].
Qed.

Lemma combine_fst_snd : forall {A B} (l : list (A * B)), combine (map fst l) (map snd l) = l.
Proof. induction l as [|[a b] l IH]; cbn; congruence. Qed.

Lemma finish_sound : forall starts ends n min_len lens ltr tuples (R : Z * Z -> Z * Z -> Prop), 
  finish starts ends n min_len lens ltr = Ok tuples ->
  exists chosen, 
    chosen_from R n (filter (fun p => Z.leb min_len (snd p - fst p + 1)) (combine starts ends)) chosen /\
    length tuples = length chosen /\
    forall i r sets, nth_error chosen i = Some r -> nth_error tuples i = Some sets -> covers lens ltr i r sets.
Proof.
  intros starts ends n min_len lens ltr tuples R H. unfold finish in H.
  destruct (filter_ranges starts ends min_len) as [kept|] eqn:Ef; [|discriminate]. cbn [bind] in H.
  destruct (select_ranges kept n) as [chosen|] eqn:Es; [|discriminate]. cbn [bind] in H.
  apply filter_ranges_ok in Ef. destruct Ef as [-> Hne]. exists chosen. split; [now apply select_ranges_spec|].
  destruct (split_ranges_sound _ _ _ _ _ H) as [_ [Hl Hc]]. rewrite map_length in Hl. split; [exact Hl|].
  intros i r sets Hr Ht. destruct r as [s e].
  apply (Hc i s e sets); [rewrite nth_error_map, Hr; reflexivity|rewrite nth_error_map, Hr; reflexivity|exact Ht].
Qed.

Lemma chosen_in : forall {B} (R : B -> B -> Prop) n all chosen x, chosen_from R n all chosen -> In x chosen -> In x all.
Proof. intros B R [k|] all chosen x H Hx; cbn in H; [|congruence]. destruct H as [_ [H _]]. auto. Qed.

(** Windows of one length *)
Lemma windows_list : forall w len, combine (arange 0 (len - w + 1)) (arange (w - 1) len) =
  map (fun s => (s, s + w - 1)) (count_from 0 (Z.to_nat (len - w + 1))).
Proof.
  intros w len. rewrite !arange_count. replace (len - (w - 1)) with (len - w + 1) by lia.
  replace (len - w + 1 - 0) with (len - w + 1) by lia. generalize (Z.to_nat (len - w + 1)) as n. intros n.
  assert (H : forall n a, combine (count_from a n) (count_from (w - 1 + a) n) = map (fun s => (s, s + w - 1)) (count_from a n)).
  { clear. induction n as [|n IH]; intros a; cbn [count_from combine map]; [reflexivity|]. f_equal; [f_equal; lia|].
    rewrite <- IH. f_equal. f_equal. lia. }
  rewrite <- (H n 0). f_equal. f_equal. lia.
Qed.

Lemma filter_all : forall {A} (f : A -> bool) l, (forall x, In x l -> f x = true) -> filter f l = l.
Proof. induction l as [|x l IH]; intros H; cbn; [reflexivity|]. rewrite (H x) by now left. f_equal. apply IH. intros y Hy. apply H. now right. Qed.
Lemma filter_none : forall {A} (f : A -> bool) l, (forall x, In x l -> f x = false) -> filter f l = [].
Proof. induction l as [|x l IH]; intros H; cbn; [reflexivity|]. rewrite (H x) by now left. apply IH. intros y Hy. apply H. now right. Qed.

Lemma in_count_from : forall n a x, In x (count_from a n) <-> a <= x < a + Z.of_nat n.
Proof.
  induction n as [|n IH]; intros a x; cbn [count_from In]; [lia|]. rewrite IH. lia.
Qed.
Lemma count_from_sorted : forall n a, StronglySorted Z.lt (count_from a n).
Proof.
  induction n as [|n IH]; intros a; cbn [count_from]; constructor; [apply IH|]. rewrite Forall_forall. intros x Hx.
  apply in_count_from in Hx. lia.
Qed.

Lemma sorted_map : forall {A B} (R : A -> A -> Prop) (S : B -> B -> Prop) (f : A -> B) l,
  (forall x y, R x y -> S (f x) (f y)) -> StronglySorted R l -> StronglySorted S (map f l).
Proof.
  intros A B R S f l Hf H. induction H; cbn; constructor; auto. rewrite Forall_forall in *. intros y Hy.
  apply in_map_iff in Hy. destruct Hy as [x [<- Hx]]. auto.
Qed.

Lemma chosen_map : forall {A B} (R : A -> A -> Prop) (S : B -> B -> Prop) (f : A -> B) n all chosen,
  (forall x y, R x y -> S (f x) (f y)) -> (forall x y, S (f x) (f y) -> R x y) -> chosen_from R n all chosen -> chosen_from S n (map f all) (map f chosen).
Proof.
  intros A B R S f [k|] all chosen Hf Hg H; cbn in *; [|congruence]. destruct H as [H1 [H2 [H3 [H4 H5]]]].
  rewrite map_length. split; [exact H1|]. split.
  { intros x Hx. apply in_map_iff in Hx. destruct Hx as [y [<- Hy]]. apply in_map. auto. }
  split.
  { intros Hs. eapply sorted_map; [exact Hf|]. apply H3. clear - Hs Hg. induction all as [|a all IH]; constructor; cbn in Hs; inversion Hs; subst; auto.
    rewrite Forall_forall in *. intros y Hy. apply Hg. apply H2. now apply in_map. }
  split.
  - intros Hk. specialize (H4 Hk). destruct chosen, all; cbn in *; congruence.
  - intros Hk. specialize (H5 Hk). rewrite <- !map_rev. destruct (rev chosen), (rev all); cbn in *; congruence.
Qed.

Lemma windows_sound : forall len n w min_len lens ltr tuples, 1 <= min_len -> valid_sets lens ->
  finish (arange 0 (len - w + 1)) (arange (w - 1) len) n min_len lens ltr = Ok tuples ->
  1 <= w <= len /\
  exists starts, chosen_from Z.lt n (positions 0 (len - w)) starts /\
    yields lens ltr (map (fun s => (s, s + w - 1)) starts) tuples.
Proof.
  intros len n w min_len lens ltr tuples Hmin Hv H.
  assert (Hne : exists kept, filter_ranges (arange 0 (len - w + 1)) (arange (w - 1) len) min_len = Ok kept).
  { unfold finish in H. destruct (filter_ranges _ _ _); [eauto|discriminate]. }
  destruct Hne as [kept Hk]. apply filter_ranges_ok in Hk. destruct Hk as [Hk Hne]. rewrite windows_list in Hk.
  assert (Hall : forall (x : Z * Z), In x (map (fun s => (s, s + w - 1)) (count_from 0 (Z.to_nat (len - w + 1)))) -> snd x - fst x + 1 = w).
  { intros x Hx. apply in_map_iff in Hx. destruct Hx as [s [<- _]]. cbn [fst snd]. lia. }
  assert (Hw : min_len <= w).
  { destruct (Z.leb_spec min_len w); [assumption|]. exfalso. apply Hne. rewrite Hk. apply filter_none. intros x Hx.
    rewrite (Hall x Hx). apply Z.leb_gt. assumption. }
  rewrite filter_all in Hk by (intros x Hx; rewrite (Hall x Hx); now apply Z.leb_le).
  assert (Hlen : w <= len).
  { destruct (Z.leb_spec w len); [assumption|]. exfalso. apply Hne. rewrite Hk. replace (Z.to_nat (len - w + 1)) with 0%nat by lia. reflexivity. }
  split; [lia|].
  destruct (finish_sound _ _ _ _ _ _ _ (fun a b => fst a < fst b) H) as [chosen [Hc [Hl Hcov]]].
  rewrite windows_list in Hc. rewrite filter_all in Hc by (intros x Hx; rewrite (Hall x Hx); now apply Z.leb_le).
  assert (Hin : forall x, In x chosen -> x = (fst x, fst x + w - 1) /\ fst x <= snd x).
  { intros x Hx. apply (chosen_in _ _ _ _ _ Hc) in Hx. apply in_map_iff in Hx. destruct Hx as [s [<- _]]. cbn [fst snd]. split; [reflexivity|lia]. }
  exists (map fst chosen). split.
  - pose proof (chosen_map (fun a b => fst a < fst b) Z.lt fst n _ _ ltac:(auto) ltac:(auto) Hc) as Hm. rewrite map_map in Hm. cbn [fst] in Hm.
    rewrite map_id in Hm. unfold positions. replace (len - w - 0 + 1) with (len - w + 1) by lia. exact Hm.
  - assert (Hmm : map (fun s => (s, s + w - 1)) (map fst chosen) = chosen).
    { rewrite map_map. rewrite <- (map_id chosen) at 2. apply map_ext_in. intros x Hx. symmetry. now apply Hin. }
    rewrite Hmm. split; [exact Hl|]. intros i s e sets Hr Ht. pose proof (Hcov i (s, e) sets Hr Ht) as Hcv. unfold covers in Hcv. cbn [fst snd] in Hcv.
    apply Hcv; [|apply Hv]. apply nth_error_In in Hr. apply Hin in Hr. apply Hr.
Qed.

Lemma rolling_split_sound : forall len n wl min_len lens ltr tuples, 1 <= min_len -> valid_sets lens ->
  (forall q, wl = Some q -> valid_length q) ->
  rolling_split len n wl min_len lens ltr = Ok tuples ->
  exists w starts, window_asked len n wl w /\ 1 <= w <= Z.of_nat len /\
    chosen_from Z.lt n (positions 0 (Z.of_nat len - w)) starts /\
    yields lens ltr (map (fun s => (s, s + w - 1)) starts) tuples.
Proof.
  intros len n wl min_len lens ltr tuples Hmin Hv Hq H. unfold rolling_split in H.
  destruct (window_length len n wl) as [w|] eqn:Ew; [|discriminate]. cbn [bind] in H.
  destruct (windows_sound _ _ _ _ _ _ _ Hmin Hv H) as [Hw [starts [Hc Hy]]]. exists w, starts. split; [|auto].
  unfold window_length in Ew. unfold window_asked. destruct wl as [q|].
  - injection Ew as Ew. apply resolve_len_asked; auto.
  - destruct n as [[|k]|]; try discriminate. injection Ew as <-. reflexivity.
Qed.

Lemma expanding_list : forall len, combine (repeat 0 len) (arange 0 (Z.of_nat len)) = map (fun e => (0, e)) (count_from 0 len).
Proof.
  intros len. rewrite arange_count. replace (Z.to_nat (Z.of_nat len - 0)) with len by lia. generalize 0 at 2 4.
  induction len as [|len IH]; intros a; cbn [repeat count_from combine map]; [reflexivity|]. f_equal. apply IH.
Qed.

Lemma filter_count_from : forall n a m, filter (fun e => Z.leb m (e + 1)) (count_from a n) =
  count_from (Z.max a (m - 1)) (Z.to_nat (a + Z.of_nat n - Z.max a (m - 1))).
Proof.
  induction n as [|n IH]; intros a m; cbn [count_from filter].
  - replace (Z.to_nat (a + Z.of_nat 0 - Z.max a (m - 1))) with 0%nat by lia. reflexivity.
  - rewrite IH. destruct (Z.leb_spec m (a + 1)).
    + replace (Z.max a (m - 1)) with a by lia. replace (Z.max (a + 1) (m - 1)) with (a + 1) by lia.
      replace (Z.to_nat (a + Z.of_nat (S n) - a)) with (S n) by lia. cbn [count_from]. f_equal. f_equal. lia.
    + replace (Z.max a (m - 1)) with (m - 1) by lia. replace (Z.max (a + 1) (m - 1)) with (m - 1) by lia. f_equal. lia.
Qed.

Lemma filter_map : forall {A B} (f : B -> bool) (g : A -> B) l, filter f (map g l) = map g (filter (fun x => f (g x)) l).
Proof. induction l as [|x l IH]; cbn; [reflexivity|]. destruct (f (g x)); cbn; congruence. Qed.

Lemma expanding_split_sound : forall len n min_len lens ltr tuples, 1 <= min_len -> valid_sets lens ->
  expanding_split len n min_len lens ltr = Ok tuples ->
  exists lasts, chosen_from Z.lt n (positions (min_len - 1) (Z.of_nat len - 1)) lasts /\
    yields lens ltr (map (fun e => (0, e)) lasts) tuples.
Proof.
  intros len n min_len lens ltr tuples Hmin Hv H. unfold expanding_split in H.
  destruct (finish_sound _ _ _ _ _ _ _ (fun a b => snd a < snd b) H) as [chosen [Hc [Hl Hcov]]].
  rewrite expanding_list in Hc. rewrite filter_map in Hc. cbn [fst snd] in Hc.
  rewrite (filter_ext (fun x => min_len <=? x - 0 + 1) (fun e => Z.leb min_len (e + 1))) in Hc by (intros x; f_equal; lia).
  rewrite filter_count_from in Hc. replace (Z.max 0 (min_len - 1)) with (min_len - 1) in Hc by lia.
  assert (Hin : forall x, In x chosen -> x = (0, snd x) /\ fst x <= snd x).
  { intros x Hx. apply (chosen_in _ _ _ _ _ Hc) in Hx. apply in_map_iff in Hx. destruct Hx as [s [<- Hs]]. apply in_count_from in Hs. cbn [fst snd]. split; [reflexivity|lia]. }
  exists (map snd chosen). split.
  - pose proof (chosen_map (fun a b => snd a < snd b) Z.lt snd n _ _ ltac:(auto) ltac:(auto) Hc) as Hm. rewrite map_map in Hm. cbn [snd] in Hm.
    rewrite map_id in Hm. unfold positions. replace (Z.of_nat len - 1 - (min_len - 1) + 1) with (0 + Z.of_nat len - (min_len - 1)) by lia. exact Hm.
  - assert (Hmm : map (fun e => (0, e)) (map snd chosen) = chosen).
    { rewrite map_map. rewrite <- (map_id chosen) at 2. apply map_ext_in. intros x Hx. symmetry. now apply Hin. }
    rewrite Hmm. split; [exact Hl|]. intros i s e sets Hr Ht. pose proof (Hcov i (s, e) sets Hr Ht) as Hcv. unfold covers in Hcv. cbn [fst snd] in Hcv.
    apply Hcv; [|apply Hv]. apply nth_error_In in Hr. apply Hin in Hr. apply Hr.
Qed.

Lemma range_split_sound : forall len n rl min_len starts ends lens ltr tuples, 1 <= min_len -> valid_sets lens -> length starts = length ends ->
  range_split len n rl min_len (Some starts) (Some ends) lens ltr = Ok tuples ->
  exists chosen, chosen_from (fun _ _ => True) n (filter (fun p => Z.leb min_len (snd p - fst p + 1)) (combine starts ends)) chosen /\
    yields lens ltr chosen tuples.
Proof.
  intros len n rl min_len starts ends lens ltr tuples Hmin Hv Hl H. unfold range_split, broadcast2 in H. rewrite Hl, Nat.eqb_refl in H. cbn [bind fst snd] in H.
  destruct (finish_sound _ _ _ _ _ _ _ (fun _ _ => True) H) as [chosen [Hc [Hlen Hcov]]]. exists chosen. split; [exact Hc|]. split; [exact Hlen|].
  intros i s e sets Hr Ht. pose proof (Hcov i (s, e) sets Hr Ht) as Hcv. unfold covers in Hcv. cbn [fst snd] in Hcv.
  apply Hcv; [|apply Hv]. apply nth_error_In in Hr. apply (chosen_in _ _ _ _ _ Hc) in Hr. apply filter_In in Hr. destruct Hr as [_ Hr].
  cbn [fst snd] in Hr. apply Z.leb_le in Hr. lia.
Qed.
