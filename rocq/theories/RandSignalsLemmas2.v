(** * Random entries and exits: the columns *)
From Coq Require Import String ZArith QArith Bool List Arith Lia Permutation Sorting.
From Verif Require Import Base SignalsNb SignalsSpec SignalsLemmas SignalsLemmas2 SignalsLemmas4 SignalsLemmas7 RandSignals RandSignalsSpec RandSignalsLemmas.
Import ListNotations.
Local Open Scope list_scope.
Local Open Scope nat_scope.

(** Bars that are at least [d] apart *)
Fixpoint spaced (d : nat) (l : list nat) : Prop :=
  match l with
  | x :: ((y :: _) as l') => x + d <= y /\ spaced d l'
  | _ => True
  end.
Lemma spaced_sorted : forall d l, 0 < d -> spaced d l -> StronglySorted lt l.
Proof.
  intros d l Hd H. apply Sorted_StronglySorted; [intros a b c; lia|]. induction l as [|x l IH]; [constructor|].
  destruct l as [|y l]; [repeat constructor|]. destruct H as [H1 H2]. constructor; [apply IH; exact H2|]. constructor. lia.
Qed.
Lemma spaced_nth : forall d l j a b, spaced d l -> nth_error l j = Some a -> nth_error l (S j) = Some b -> a + d <= b.
Proof.
  intros d l. induction l as [|x l IH]; intros j a b H Ha Hb; [destruct j; discriminate|]. destruct l as [|y l]; [destruct j; discriminate|].
  destruct H as [H1 H2]. destruct j as [|j]; [cbn in Ha, Hb; inversion Ha; inversion Hb; subst; exact H1|]. exact (IH j a b H2 Ha Hb).
Qed.

Lemma z_sum_nonneg : forall l, Forall (fun z => (0 <= z)%Z) l -> (0 <= z_sum l)%Z.
Proof. intros l H. induction H; cbn; [lia|]. unfold z_sum in *. lia. Qed.

Lemma cumsum_facts : forall d l s, (0 <= s)%Z -> Forall (fun z => (Z.of_nat d <= z)%Z) l -> (forall x r, l = x :: r -> (0 <= x)%Z) ->
  exists es, cumsum_from s l = map Z.of_nat es /\ List.length es = List.length l /\ spaced d es /\
    Forall (fun e => (Z.of_nat e <= s + z_sum l)%Z) es /\
    (forall e r, es = e :: r -> (s + Z.of_nat d <= Z.of_nat e)%Z).
Proof.
  intros d l. induction l as [|x l IH]; intros s Hs Hf _; [exists []; cbn; repeat split; auto; discriminate|].
  apply Forall_cons_iff in Hf as [Hx Hf]. destruct (IH (s + x)%Z) as (es & E1 & E2 & E3 & E4 & E5); [lia|exact Hf| |].
  { intros y r ->. apply Forall_inv in Hf. lia. }
  assert (Hnn : (0 <= z_sum l)%Z) by (apply z_sum_nonneg; eapply Forall_impl; [|exact Hf]; cbv beta; lia).
  exists (Z.to_nat (s + x) :: es). cbn [cumsum_from map List.length]. rewrite E1, E2, Z2Nat.id by lia. split; [reflexivity|]. split; [reflexivity|].
  split; [|split].
  - destruct es as [|e es]; [exact I|]. split; [specialize (E5 e es eq_refl); lia|exact E3].
  - constructor; [cbn; unfold z_sum in *; lia|]. eapply Forall_impl; [|exact E4]. cbn. unfold z_sum. lia.
  - intros e r [= <- <-]. lia.
Qed.

(** The entries of one column *)
Lemma entries_column : forall rg rows n ew xw pos, generator rg -> 1 <= n -> 0 < ew + xw -> room_for n ew xw <= rows ->
  exists out pos' es, rand_entries rg (Z.of_nat rows) (Z.of_nat n) (Z.of_nat ew) (Z.of_nat xw) pos = Ok (out, pos') /\
    List.length es = n /\ spaced (ew + xw) es /\ Forall (fun e => e + xw < rows) es /\
    List.length out = rows /\ (forall i, tr out i <-> In i es) /\ flatnonzero out = es.
Proof.
  intros rg rows n ew xw pos Hg Hn Hw Hr. unfold room_for in Hr. unfold rand_entries.
  destruct (Z.eqb_spec (Z.of_nat n) 1) as [E1|E1].
  - assert (n = 1) by lia. subst n. unfold randint. destruct (Z.leb_spec (Z.of_nat rows - Z.of_nat xw) 0) as [C|_]; [lia|]. cbn [raise_if bind].
    destruct (proj1 (proj2 Hg) pos (Z.of_nat rows - Z.of_nat xw)%Z) as [B1 B2]; [lia|].
    set (i := rg_below rg pos (Z.of_nat rows - Z.of_nat xw)) in *.
    destruct (mask_of_ok rows [Z.to_nat i]) as (out & M1 & M2 & M3 & M4); [repeat constructor|repeat constructor; lia|].
    cbn [map] in M1. rewrite Z2Nat.id in M1 by lia. rewrite M1. cbn [bind].
    eexists _, _, [Z.to_nat i]. split; [reflexivity|]. repeat split; auto; try (apply M3). repeat constructor. lia.
  - destruct (Z.ltb_spec (Z.of_nat rows) ((Z.of_nat ew + Z.of_nat xw) * (Z.of_nat n - 1) + Z.of_nat xw + 1)) as [C|C]; [nia|]. cbn [raise_if].
    assert (H2 : (2 <= Z.of_nat n)%Z) by lia.
    set (mr := (Z.of_nat ew + Z.of_nat xw)%Z) in *. set (R := Z.of_nat rows) in *. set (N := Z.of_nat n) in *. set (X := Z.of_nat xw) in *.
    set (free := (Z.min (R - mr * (N - 1) - 1) (3 * R / (N + 1)) - X)%Z).
    assert (Hfree : (0 <= free)%Z).
    { assert ((X <= 3 * R / (N + 1))%Z); [|unfold free; lia]. apply Z.div_le_lower_bound; [lia|].
      assert (X * (N - 1) <= mr * (N - 1))%Z by (apply Z.mul_le_mono_nonneg_r; unfold mr; lia). nia. }
    destruct (uniform_summing_to_one_nb rg pos 6) as [[fs1 pos1]|e] eqn:U1; [|discriminate U1]. cbn [bind].
    destruct (summing_to_one _ _ _ _ _ Hg U1) as (A1 & A2 & A3).
    destruct (rescale_float_to_int_nb rg pos1 fs1 0 free free) as [spaces pos2] eqn:R1.
    pose proof (rescaled rg pos1 fs1 0 free free Hg) as S1. rewrite R1 in S1. cbn [fst] in S1.
    destruct S1 as (S1 & S2 & S3); [lia|exact Hfree|exact A1|exact A2|lia|].
    destruct spaces as [|s0 [|s1 [|s2 [|s3 [|s4 [|s5 [|]]]]]]]; cbn [List.length] in S1; try lia. clear S1 R1.
    rewrite !Forall_cons_iff in S2. destruct S2 as (P0 & P1 & P2 & P3 & P4 & P5 & _). cbn [z_sum fold_right] in S3. cbn [nth].
    set (last_ := (R - (s4 + s5) - X - 1)%Z). set (total := (last_ - s0)%Z). set (maxr := (total - (N - 2) * mr)%Z).
    assert (Ht : (mr * (N - 1) <= total)%Z) by (unfold total, last_, free in *; lia).
    destruct (uniform_summing_to_one_nb rg pos2 (N - 1)) as [[fs2 pos3]|e] eqn:U2.
    2:{ unfold uniform_summing_to_one_nb in U2. destruct (Z.ltb_spec (N - 1) 1); [lia|discriminate U2]. }
    cbn [bind]. destruct (summing_to_one _ _ _ _ _ Hg U2) as (C1 & C2 & C3).
    destruct (rescale_float_to_int_nb rg pos3 fs2 mr maxr total) as [ranges pos4] eqn:R2.
    pose proof (rescaled rg pos3 fs2 mr maxr total Hg) as S. rewrite R2 in S. cbn [fst] in S.
    destruct S as (S1 & S4 & S5); [lia|unfold maxr; nia|exact C1|exact C2|rewrite C3; unfold maxr; nia|].
    destruct (cumsum_facts (ew + xw) ranges s0) as (es & K1 & K2 & K3 & K4 & K5); [exact P0| | |].
    { eapply Forall_impl; [|exact S4]. cbv beta. unfold mr. lia. }
    { intros x r ->. apply Forall_inv in S4. unfold mr in S4. lia. }
    assert (Hx : (s0 + z_sum ranges + X < R)%Z) by (rewrite S5; unfold total, last_; lia).
    assert (Hz : (0 <= z_sum ranges)%Z) by (apply z_sum_nonneg; eapply Forall_impl; [|exact S4]; cbv beta; unfold mr; lia).
    assert (Hsp : spaced (ew + xw) (Z.to_nat s0 :: es)).
    { destruct es as [|e es]; [exact I|]. split; [specialize (K5 e es eq_refl); lia|exact K3]. }
    assert (Hall : Forall (fun e => e + xw < rows) (Z.to_nat s0 :: es)).
    { constructor; [unfold X, R in Hx; lia|]. eapply Forall_impl; [|exact K4]. cbv beta. unfold X, R in Hx. lia. }
    destruct (mask_of_ok rows (Z.to_nat s0 :: es)) as (out & M1 & M2 & M3 & M4).
    { eapply spaced_sorted; [|exact Hsp]. exact Hw. }
    { eapply Forall_impl; [|exact Hall]. cbv beta. lia. }
    cbn [cumsum_from]. change (0 + s0)%Z with s0. rewrite K1. cbn [map] in M1. rewrite Z2Nat.id in M1 by exact P0. fold R in M1. rewrite M1. cbn [bind].
    exists out, pos4, (Z.to_nat s0 :: es). split; [reflexivity|]. split; [cbn [List.length]; lia|]. repeat split; auto; apply M3.
Qed.

(** The exits of one column *)
Lemma exits_idxs : forall rg rows ew xw es pos, generator rg -> spaced (ew + xw) es -> Forall (fun e => e + xw < rows) es ->
  exists xs pos', rand_exit_idxs rg (Z.of_nat rows) (Z.of_nat ew) (Z.of_nat xw) pos es = Ok (map Z.of_nat xs, pos') /\
    List.length xs = List.length es /\
    (forall j e x, nth_error es j = Some e -> nth_error xs j = Some x -> e + xw <= x < rows) /\
    (forall j x e, nth_error xs j = Some x -> nth_error es (S j) = Some e -> x + ew <= e).
Proof.
  intros rg rows ew xw es. induction es as [|e es IH]; intros pos Hg Hs Hf; cbn [rand_exit_idxs].
  - exists [], pos. split; [reflexivity|]. split; [reflexivity|]. split; intros [|j]; discriminate.
  - apply Forall_cons_iff in Hf as [He Hf].
    set (hi := match es with e' :: _ => (Z.of_nat e' - Z.of_nat ew)%Z | [] => (Z.of_nat rows - 1)%Z end).
    assert (Hhi : (Z.of_nat e + Z.of_nat xw <= hi)%Z) by (unfold hi; destruct es as [|e' es]; [lia|destruct Hs as [Hs _]; lia]).
    assert (Hhi' : (hi < Z.of_nat rows)%Z) by (unfold hi; destruct es as [|e' es]; [lia|apply Forall_inv in Hf; lia]).
    unfold randint. destruct (Z.leb_spec (hi - (Z.of_nat e + Z.of_nat xw) + 1) 0) as [C|_]; [lia|]. cbn [raise_if bind].
    destruct (proj1 (proj2 Hg) pos (hi - (Z.of_nat e + Z.of_nat xw) + 1)%Z) as [B1 B2]; [lia|].
    set (i := rg_below rg pos _) in *.
    destruct (IH (S pos) Hg) as (xs & pos' & E1 & E2 & E3 & E4); [destruct es; [exact I|apply Hs]|exact Hf|].
    rewrite E1. cbn [bind]. exists (Z.to_nat (Z.of_nat e + Z.of_nat xw + i) :: xs), pos'. cbn [map List.length]. rewrite Z2Nat.id by lia.
    split; [reflexivity|]. split; [congruence|]. split.
    + intros [|j] e0 x He0 Hx; [cbn in He0, Hx; inversion He0; inversion Hx; subst; lia|]. exact (E3 j e0 x He0 Hx).
    + intros [|j] x e0 Hx He0; [|exact (E4 j x e0 Hx He0)]. cbn in Hx, He0. inversion Hx; subst x. unfold hi in *. destruct es as [|e' es]; [discriminate|].
      inversion He0; subst e0. lia.
Qed.

Lemma paired : forall rows n ew xw es xs en ex, 0 < ew + xw -> List.length es = n -> List.length xs = n ->
  List.length en = rows -> (forall i, tr en i <-> In i es) -> List.length ex = rows -> (forall i, tr ex i <-> In i xs) ->
  spaced (ew + xw) es ->
  (forall j e x, nth_error es j = Some e -> nth_error xs j = Some x -> e + xw <= x < rows) ->
  (forall j x e, nth_error xs j = Some x -> nth_error es (S j) = Some e -> x + ew <= e) -> n_pairs rows n ew xw en ex.
Proof.
  intros rows n ew xw es xs en ex Hw L1 L2 L3 T1 L4 T2 Hs P1 P2. exists es, xs. split; [exact L1|]. split; [exact L2|].
  split; [apply sorted_signals; auto; eapply spaced_sorted; [|exact Hs]; exact Hw|]. split; [|auto].
  split; [exact L4|]. split; [exact T2|]. intros j a b Ha Hb.
  assert (Hj : S j < List.length es) by (rewrite L1, <- L2; apply nth_error_Some; congruence).
  destruct (nth_error es (S j)) as [e|] eqn:Ee; [|apply nth_error_None in Ee; lia].
  specialize (P2 j a e Ha Ee). specialize (P1 (S j) e b Ee Hb). lia.
Qed.

Lemma xs_sorted : forall rows n ew xw es xs, 0 < ew + xw -> List.length es = n -> List.length xs = n ->
  (forall j e x, nth_error es j = Some e -> nth_error xs j = Some x -> e + xw <= x < rows) ->
  (forall j x e, nth_error xs j = Some x -> nth_error es (S j) = Some e -> x + ew <= e) -> StronglySorted lt xs.
Proof.
  intros rows n ew xw es xs Hw L1 L2 P1 P2. apply Sorted_StronglySorted; [intros a b c; lia|].
  revert es n L1 L2 P1 P2. induction xs as [|x xs IH]; intros es n L1 L2 P1 P2; [constructor|].
  destruct es as [|e es]; [cbn in *; lia|]. cbn [List.length] in *. constructor.
  - apply (IH es (n - 1)); [lia|lia| |]; [intros j a b; exact (P1 (S j) a b)|intros j a b; exact (P2 (S j) a b)].
  - destruct xs as [|y xs]; constructor. destruct es as [|e' es]; [cbn in *; lia|].
    specialize (P1 1 e' y eq_refl eq_refl). specialize (P2 0 x e' eq_refl eq_refl). lia.
Qed.

Lemma exits_column : forall rg rows n ew xw en es pos, generator rg -> 0 < ew + xw -> List.length es = n ->
  spaced (ew + xw) es -> Forall (fun e => e + xw < rows) es ->
  List.length en = rows -> (forall i, tr en i <-> In i es) -> flatnonzero en = es ->
  exists ex pos', rand_exits rg (Z.of_nat rows) (Z.of_nat ew) (Z.of_nat xw) pos en = Ok (ex, pos') /\ n_pairs rows n ew xw en ex.
Proof.
  intros rg rows n ew xw en es pos Hg Hw Hn Hs Hf Hl Ht Hz. unfold rand_exits. rewrite Hz.
  destruct (exits_idxs rg rows ew xw es pos Hg Hs Hf) as (xs & pos' & E1 & E2 & E3 & E4). rewrite E1. cbn [bind].
  destruct (mask_of_ok rows xs) as (out & M1 & M2 & M3 & M4).
  { apply (xs_sorted rows n ew xw es xs); auto. congruence. }
  { apply Forall_forall. intros x Hx. apply In_nth_error in Hx as (j & Hj).
    destruct (nth_error es j) as [e|] eqn:Ee; [specialize (E3 j e x Ee Hj); lia|].
    apply nth_error_None in Ee. assert (j < List.length xs) by (apply nth_error_Some; congruence). lia. }
  rewrite M1. cbn [bind]. exists out, pos'. split; [reflexivity|]. apply (paired rows n ew xw es xs); auto; congruence.
Qed.

(** ** All columns *)
Lemma columns_all : forall {A B} (f : nat -> A -> res (B * nat)) (P : A -> B -> Prop) l,
  (forall pos a, In a l -> exists b pos', f pos a = Ok (b, pos') /\ P a b) ->
  forall pos, exists bs pos', columns_loop f pos l = Ok (bs, pos') /\ Forall2 P l bs.
Proof.
  intros A B f P l. induction l as [|a l IH]; intros H pos; cbn [columns_loop]; [eexists [], _; split; [reflexivity|constructor]|].
  destruct (H pos a (or_introl eq_refl)) as (b & pos1 & E & Hb). rewrite E. cbn [bind].
  destruct (IH (fun p a Ha => H p a (or_intror Ha)) pos1) as (bs & pos2 & E2 & Hbs). rewrite E2. cbn [bind]. eauto.
Qed.
Lemma columns_fail : forall {A B} (f : nat -> A -> res (B * nat)) (bad : A -> Prop) e l,
  (forall pos a, In a l -> bad a -> f pos a = Err e) -> (forall pos a, In a l -> bad a \/ exists b pos', f pos a = Ok (b, pos')) ->
  (exists a, In a l /\ bad a) -> forall pos, columns_loop f pos l = Err e.
Proof.
  intros A B f bad e l. induction l as [|a l IH]; intros H1 H2 (x & Hx & Hb) pos; [contradiction|]. cbn [columns_loop].
  destruct (H2 pos a (or_introl eq_refl)) as [Ha|(b & pos1 & E)]; [rewrite (H1 pos a (or_introl eq_refl) Ha); reflexivity|].
  rewrite E. cbn [bind]. destruct Hx as [->|Hx]; [rewrite (H1 pos x (or_introl eq_refl) Hb) in E; discriminate|].
  rewrite IH; [reflexivity| | |eauto]; intros; [apply H1|apply H2]; auto; now right.
Qed.

(** Column by column: number, entries, exits *)
Theorem random_pairs : forall rg rows ns ew xw, generator rg -> 0 < ew + xw -> ~ (ew = 1 /\ xw = 1) ->
  Forall (fun n => 1 <= n /\ room_for n ew xw <= rows) ns ->
  exists entries exits, generate_rand_enex_nb rg rows ns ew xw = Ok (entries, exits) /\
    List.length entries = List.length ns /\ List.length exits = List.length ns /\
    forall c n en ex, nth_error ns c = Some n -> nth_error entries c = Some en -> nth_error exits c = Some ex -> n_pairs rows n ew xw en ex.
Proof.
  intros rg rows ns ew xw Hg Hw H1 Hn. unfold generate_rand_enex_nb.
  replace (Nat.eqb ew 0 && Nat.eqb xw 0) with false by (symmetry; apply andb_false_iff; destruct (Nat.eqb_spec ew 0), (Nat.eqb_spec xw 0); auto; lia).
  replace (Nat.eqb ew 1 && Nat.eqb xw 1) with false by (symmetry; apply andb_false_iff; destruct (Nat.eqb_spec ew 1), (Nat.eqb_spec xw 1); auto; exfalso; auto).
  cbn [raise_if].
  pose (P := fun (n : nat) (en : list bool) => exists es, List.length es = n /\ spaced (ew + xw) es /\ Forall (fun e => e + xw < rows) es /\
    List.length en = rows /\ (forall i, tr en i <-> In i es) /\ flatnonzero en = es).
  destruct (columns_all (fun pos n => rand_entries rg (Z.of_nat rows) (Z.of_nat n) (Z.of_nat ew) (Z.of_nat xw) pos) P ns) with (pos := 0) as (ens & pos1 & E1 & F1).
  { intros pos n Hin. rewrite Forall_forall in Hn. destruct (Hn n Hin) as [Hn1 Hn2].
    destruct (entries_column rg rows n ew xw pos Hg Hn1 Hw Hn2) as (out & pos' & es & E & Hes). exists out, pos'. split; [exact E|]. exists es. exact Hes. }
  rewrite E1. cbn [bind].
  assert (HQ : Forall (fun en => exists n, P n en) ens).
  { clear -F1. induction F1; constructor; eauto. }
  destruct (columns_all (rand_exits rg (Z.of_nat rows) (Z.of_nat ew) (Z.of_nat xw)) (fun en ex => forall n, P n en -> n_pairs rows n ew xw en ex) ens) with (pos := pos1) as (exs & pos2 & E2 & F2).
  { intros pos en Hin. rewrite Forall_forall in HQ. destruct (HQ en Hin) as (n & es & A1 & A2 & A3 & A4 & A5 & A6).
    destruct (exits_column rg rows n ew xw en es pos Hg Hw A1 A2 A3 A4 A5 A6) as (ex & pos' & E & Hp). exists ex, pos'. split; [exact E|].
    intros n' (es' & A1' & _ & _ & _ & _ & A6'). replace n' with n by congruence. exact Hp. }
  rewrite E2. cbn [bind]. exists ens, exs. split; [reflexivity|].
  assert (L1 : List.length ens = List.length ns) by (clear -F1; induction F1; cbn; congruence).
  assert (L2 : List.length exs = List.length ens) by (clear -F2; induction F2; cbn; congruence).
  split; [exact L1|]. split; [congruence|].
  clear -F1 F2. revert exs F2. induction F1 as [|n en ns ens HP F1 IH]; intros exs F2 c n0 en0 ex0 Hc He Hx; [destruct c; discriminate|].
  inversion F2; subst. destruct c as [|c]; [cbn in Hc, He, Hx; inversion Hc; inversion He; inversion Hx; subst; auto|]. exact (IH _ H3 c n0 en0 ex0 Hc He Hx).
Qed.

(** Too many for the rows *)
Lemma entries_short : forall rg rows n ew xw pos, 1 <= n -> rows < room_for n ew xw ->
  exists m, rand_entries rg (Z.of_nat rows) (Z.of_nat n) (Z.of_nat ew) (Z.of_nat xw) pos = Err (ValueError m).
Proof.
  intros rg rows n ew xw pos Hn Hr. unfold room_for in Hr. unfold rand_entries.
  destruct (Z.eqb_spec (Z.of_nat n) 1) as [E1|E1].
  - assert (n = 1) by lia. subst n. unfold randint. destruct (Z.leb_spec (Z.of_nat rows - Z.of_nat xw) 0) as [C|C]; [eexists; reflexivity|lia].
  - destruct (Z.ltb_spec (Z.of_nat rows) ((Z.of_nat ew + Z.of_nat xw) * (Z.of_nat n - 1) + Z.of_nat xw + 1)) as [C|C]; [eexists; reflexivity|nia].
Qed.
Theorem too_many : forall rg rows ns ew xw, generator rg -> 0 < ew + xw -> ~ (ew = 1 /\ xw = 1) ->
  Forall (fun n => 1 <= n) ns -> (exists n, In n ns /\ rows < room_for n ew xw) ->
  exists m, generate_rand_enex_nb rg rows ns ew xw = Err (ValueError m).
Proof.
  intros rg rows ns ew xw Hg Hw H1 Hn Hex. unfold generate_rand_enex_nb.
  replace (Nat.eqb ew 0 && Nat.eqb xw 0) with false by (symmetry; apply andb_false_iff; destruct (Nat.eqb_spec ew 0), (Nat.eqb_spec xw 0); auto; lia).
  replace (Nat.eqb ew 1 && Nat.eqb xw 1) with false by (symmetry; apply andb_false_iff; destruct (Nat.eqb_spec ew 1), (Nat.eqb_spec xw 1); auto; exfalso; auto).
  cbn [raise_if].
  match goal with |- context [columns_loop ?F 0 ns] => set (f := F) end.
  assert (G : forall l pos, Forall (fun n => 1 <= n) l -> (exists n, In n l /\ rows < room_for n ew xw) -> exists m, columns_loop f pos l = Err (ValueError m)).
  { clear Hn Hex. induction l as [|n l IH]; intros pos Hn (x & Hx & Hb); [contradiction|]. apply Forall_cons_iff in Hn as [Hn1 Hn]. cbn [columns_loop].
    destruct (Nat.lt_ge_cases rows (room_for n ew xw)) as [Hs|Hs].
    - unfold f at 1. destruct (entries_short rg rows n ew xw pos Hn1 Hs) as (m & ->). eexists; reflexivity.
    - unfold f at 1. destruct (entries_column rg rows n ew xw pos Hg Hn1 Hw Hs) as (out & pos1 & es & -> & _). cbn [bind].
      destruct (IH pos1 Hn) as (m & ->); [exists x; split; [|exact Hb]; destruct Hx as [->|Hx]; [lia|exact Hx]|]. eexists; reflexivity. }
  destruct (G ns 0 Hn Hex) as (m & ->). eexists; reflexivity.
Qed.

(** ** Both waits are 1 *)
Lemma evens_odds : forall {A} (l : list A) j, nth_error (evens l) j = nth_error l (2 * j) /\ nth_error (odds l) j = nth_error l (2 * j + 1).
Proof.
  intros A. assert (E : forall n (l : list A) j, List.length l <= n -> nth_error (evens l) j = nth_error l (2 * j)).
  { induction n as [|n IH]; intros l j Hl.
    - destruct l; [|cbn in Hl; lia]. destruct j; reflexivity.
    - destruct l as [|x [|y l]]; [destruct j; reflexivity| |].
      { destruct j as [|j]; [reflexivity|]. rewrite !(proj2 (nth_error_None _ _)); cbn; auto; lia. }
      cbn in Hl. destruct j as [|j]; [reflexivity|]. replace (2 * S j) with (S (S (2 * j))) by lia. cbn [evens nth_error]. apply IH. lia. }
  intros l j. split; [apply (E (List.length l)); lia|]. unfold odds. rewrite (E (List.length (tl l))) by lia. destruct l as [|x l]; cbn [tl].
  - rewrite !(proj2 (nth_error_None _ _)); cbn; auto; lia.
  - replace (2 * j + 1) with (S (2 * j)) by lia. reflexivity.
Qed.

Lemma rand_mask : forall rg pos rows n, generator rg ->
  exists out, generate_rand_nb rg pos rows n = Ok out /\ List.length out = rows /\ List.length (flatnonzero out) = Nat.min rows n.
Proof.
  intros rg pos rows n Hg. unfold generate_rand_nb.
  set (c := fun (_ : nat) (from to : Z) => map Z.of_nat (rand_choice_nb (rg_perm rg pos) (Z.to_nat from) (Z.to_nat to) n)).
  set (l := rand_choice_nb (rg_perm rg pos) 0 rows n).
  assert (El : c 0 0%Z (Z.of_nat rows) = map Z.of_nat l) by (unfold c, l; rewrite Nat2Z.id; reflexivity).
  assert (Hp : forall l, Permutation (rg_perm rg pos l) l) by (intros; apply Hg).
  destruct (rand_choice_nodup (rg_perm rg pos) 0 rows n Hp) as [Hnd Hlen]. fold l in Hnd, Hlen. rewrite Nat.sub_0_r in Hlen.
  assert (Hb : forall i, In i l -> i < rows).
  { intros i Hi. apply rand_choice_in in Hi; [lia|exact Hp]. }
  destruct (generate_nb rows false c) as [out|e] eqn:E.
  - exists out. split; [reflexivity|]. destruct (generate_sound _ _ _ _ E) as [L T]. split; [exact L|]. rewrite <- Hlen.
    apply Permutation_length. apply NoDup_Permutation; [|exact Hnd|].
    + pose proof (flatnonzero_sorted out) as S. clear -S. induction S as [|x l S IH F]; constructor; [|exact IH]. intros C. rewrite Forall_forall in F. specialize (F _ C). lia.
    + intros i. rewrite flatnonzero_in, T, El. split.
      * intros (z & -> & _ & Hz). apply in_map_iff in Hz as (k & <- & Hk). rewrite Nat2Z.id. exact Hk.
      * intros Hi. exists (Z.of_nat i). rewrite Nat2Z.id. split; [reflexivity|]. split; [specialize (Hb i Hi); lia|]. apply in_map. exact Hi.
  - exfalso. unfold generate_nb in E. rewrite El in E. destruct l as [|x l'] eqn:El'; cbn [map] in E; [discriminate|].
    destruct (existsb (out_of 0 (Z.of_nat rows)) (Z.of_nat x :: map Z.of_nat l')) eqn:Ex; [|discriminate].
    change (Z.of_nat x :: map Z.of_nat l') with (map Z.of_nat (x :: l')) in Ex. apply existsb_exists in Ex as (z & Hz & C).
    apply in_map_iff in Hz as (k & <- & Hk). specialize (Hb k Hk). unfold out_of in C. apply orb_true_iff in C as [C|C]; lia.
Qed.

Lemma sorted_nth_lt : forall l i j a b, StronglySorted lt l -> i < j -> nth_error l i = Some a -> nth_error l j = Some b -> a < b.
Proof.
  intros l i j a b H. revert i j. induction H as [|x l Hs IH Hf]; intros i j Hij Ha Hb; [destruct i; discriminate|].
  destruct j as [|j]; [lia|]. destruct i as [|i]; [|apply (IH i j); auto; lia]. inversion Ha; subst a. rewrite Forall_forall in Hf. apply Hf. cbn in Hb. apply nth_error_In in Hb. exact Hb.
Qed.
Lemma nth_sorted : forall l, (forall j a b, nth_error l j = Some a -> nth_error l (S j) = Some b -> a < b) -> StronglySorted lt l.
Proof.
  intros l H. apply Sorted_StronglySorted; [intros a b c; lia|]. induction l as [|x l IH]; [constructor|].
  constructor; [apply IH; intros j a b; exact (H (S j) a b)|]. destruct l as [|y l]; constructor. exact (H 0 x y eq_refl eq_refl).
Qed.
Lemma nth_lt : forall {A} (l : list A) i, i < List.length l -> exists a, nth_error l i = Some a.
Proof. intros A l i H. destruct (nth_error l i) eqn:E; [eauto|]. apply nth_error_None in E. lia. Qed.
Lemma nth_ge : forall {A} (l : list A) i a, nth_error l i = Some a -> i < List.length l.
Proof. intros A l i a H. apply nth_error_Some. congruence. Qed.
Lemma evens_length : forall {A} (l : list A), List.length (evens l) = (List.length l + 1) / 2 /\ List.length (odds l) = List.length l / 2.
Proof.
  intros A. assert (E : forall n (l : list A), List.length l <= n -> List.length (evens l) = (List.length l + 1) / 2).
  { induction n as [|n IH]; intros l Hl; [destruct l; [reflexivity|cbn in Hl; lia]|]. destruct l as [|x [|y l]]; try reflexivity.
    cbn [evens List.length] in *. rewrite IH by lia. replace (S (S (List.length l)) + 1) with (1 * 2 + (List.length l + 1)) by lia. rewrite Nat.div_add_l by lia. lia. }
  intros l. split; [apply (E (List.length l)); lia|]. unfold odds. rewrite (E (List.length (tl l))) by lia. destruct l as [|x l]; [reflexivity|].
  cbn [tl List.length]. f_equal. lia.
Qed.

(** What one column looks like: alternating signals, entry first *)
Lemma both_column : forall rg pos rows n, generator rg ->
  exists en ex, rand_both rg pos rows n = Ok (en, ex) /\
    alternating rows ((Nat.min rows (2 * n) + 1) / 2) (Nat.min rows (2 * n) / 2) 1 1 en ex.
Proof.
  intros rg pos rows n Hg. unfold rand_both. destruct (rand_mask rg pos rows (n * 2) Hg) as (out & E & L & C). rewrite E. cbn [bind]. rewrite (Nat.mul_comm n 2) in C.
  set (l := flatnonzero out) in *. pose proof (flatnonzero_sorted out) as Hs. fold l in Hs.
  assert (Hb : forall i, In i l -> i < rows) by (intros i Hi; apply flatnonzero_in, tr_lt in Hi; lia).
  destruct (evens_length l) as [L1 L2].
  assert (S1 : StronglySorted lt (evens l)).
  { apply nth_sorted. intros j a b Ha Hb'. rewrite (proj1 (evens_odds l j)) in Ha. rewrite (proj1 (evens_odds l (S j))) in Hb'.
    eapply (sorted_nth_lt l); [exact Hs| |exact Ha|exact Hb']. lia. }
  assert (S2 : StronglySorted lt (odds l)).
  { apply nth_sorted. intros j a b Ha Hb'. rewrite (proj2 (evens_odds l j)) in Ha. rewrite (proj2 (evens_odds l (S j))) in Hb'.
    eapply (sorted_nth_lt l); [exact Hs| |exact Ha|exact Hb']. lia. }
  assert (B1 : Forall (fun e => e < rows) (evens l)).
  { apply Forall_forall. intros e He. apply In_nth_error in He as (j & Hj). rewrite (proj1 (evens_odds l j)) in Hj. apply nth_error_In in Hj. auto. }
  assert (B2 : Forall (fun e => e < rows) (odds l)).
  { apply Forall_forall. intros e He. apply In_nth_error in He as (j & Hj). rewrite (proj2 (evens_odds l j)) in Hj. apply nth_error_In in Hj. auto. }
  assert (Em : forall k (l : list nat), List.length l <= k -> evens (map Z.of_nat l) = map Z.of_nat (evens l)).
  { induction k as [|k IH]; intros l0 Hl; [destruct l0; [reflexivity|cbn in Hl; lia]|]. destruct l0 as [|x [|y l0]]; try reflexivity. cbn in *. rewrite IH by lia. reflexivity. }
  assert (Om : odds (map Z.of_nat l) = map Z.of_nat (odds l)).
  { unfold odds. rewrite <- (Em (List.length (tl l))) by lia. destruct l; reflexivity. }
  rewrite (Em (List.length l)) by lia. rewrite Om.
  destruct (mask_of_ok rows (evens l) S1 B1) as (en & N1 & N2 & N3 & _). destruct (mask_of_ok rows (odds l) S2 B2) as (ex & X1 & X2 & X3 & _).
  rewrite N1. cbn [bind]. rewrite X1. cbn [bind]. exists en, ex. split; [reflexivity|]. exists (evens l), (odds l).
  split; [rewrite L1, C; reflexivity|]. split; [rewrite L2, C; reflexivity|].
  split; [apply sorted_signals; auto|]. split; [apply sorted_signals; auto|]. split.
  - intros j e x He Hx. rewrite (proj1 (evens_odds l j)) in He. rewrite (proj2 (evens_odds l j)) in Hx.
    split; [|apply Hb; eapply nth_error_In; exact Hx]. assert (e < x) by (eapply (sorted_nth_lt l); [exact Hs| |exact He|exact Hx]; lia). lia.
  - intros j x e Hx He. rewrite (proj1 (evens_odds l (S j))) in He. rewrite (proj2 (evens_odds l j)) in Hx.
    assert (x < e) by (eapply (sorted_nth_lt l); [exact Hs| |exact Hx|exact He]; lia). lia.
Qed.

Theorem random_alternating : forall rg rows ns, generator rg ->
  exists entries exits, generate_rand_enex_nb rg rows ns 1 1 = Ok (entries, exits) /\
    List.length entries = List.length ns /\ List.length exits = List.length ns /\
    forall c n en ex, nth_error ns c = Some n -> nth_error entries c = Some en -> nth_error exits c = Some ex ->
      alternating rows ((Nat.min rows (2 * n) + 1) / 2) (Nat.min rows (2 * n) / 2) 1 1 en ex /\ (2 * n <= rows -> n_pairs rows n 1 1 en ex).
Proof.
  intros rg rows ns Hg. unfold generate_rand_enex_nb. cbn [Nat.eqb andb raise_if].
  destruct (columns_all (fun pos n => let! r := rand_both rg pos rows n in Ok (r, S pos))
    (fun n r => alternating rows ((Nat.min rows (2 * n) + 1) / 2) (Nat.min rows (2 * n) / 2) 1 1 (fst r) (snd r)) ns) with (pos := 0) as (rs & pos1 & E1 & F1).
  { intros pos n _. destruct (both_column rg pos rows n Hg) as (en & ex & E & H). rewrite E. cbn [bind]. exists (en, ex), (S pos). split; [reflexivity|exact H]. }
  rewrite E1. cbn [bind]. exists (map fst rs), (map snd rs). split; [reflexivity|]. rewrite !map_length.
  assert (L : List.length rs = List.length ns) by (clear -F1; induction F1; cbn; congruence).
  split; [exact L|]. split; [exact L|]. intros c n en ex Hc He Hx.
  assert (H : alternating rows ((Nat.min rows (2 * n) + 1) / 2) (Nat.min rows (2 * n) / 2) 1 1 en ex).
  { clear -F1 Hc He Hx. revert c Hc He Hx. induction F1 as [|m r ns rs HP F1 IH]; intros c Hc He Hx; [destruct c; discriminate|].
    destruct c as [|c]; [cbn in Hc, He, Hx; inversion Hc; inversion He; inversion Hx; subst; exact HP|]. exact (IH c Hc He Hx). }
  split; [exact H|]. intros H2. rewrite Nat.min_r in H by exact H2.
  replace ((2 * n + 1) / 2) with n in H by (rewrite Nat.mul_comm, Nat.div_add_l by lia; cbn; lia).
  replace (2 * n / 2) with n in H by (rewrite Nat.mul_comm, Nat.div_mul; lia). exact H.
Qed.
