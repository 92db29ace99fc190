(** * Lemmas on alternately generated entries and exits (C34) *)
From Coq Require Import ZArith Bool List Arith Lia Sorting.
From Verif Require Import Base Num SignalsNb SignalsSpec SignalsLemmas SignalsLemmas2.
Import ListNotations.
Open Scope list_scope.
Open Scope nat_scope.

Lemma last_in : forall (l : list Z) z d, In (last (z :: l) d) (z :: l).
Proof.
  induction l as [|y l IH]; intros z d; [cbn; auto|].
  change (last (z :: y :: l) d) with (last (y :: l) d). right. apply IH.
Qed.

Lemma sorted_first_last : forall (l : list Z) z x d, StronglySorted Z.le (z :: l) -> In x (z :: l) ->
  (z <= x <= last (z :: l) d)%Z.
Proof.
  induction l as [|y l IH]; intros z x d Hs Hx.
  - destruct Hx as [<-|[]]. cbn. lia.
  - inversion Hs as [|? ? Hs' Hf]; subst. rewrite Forall_forall in Hf.
    change (last (z :: y :: l) d) with (last (y :: l) d).
    assert (Hy : forall x', In x' (y :: l) -> (y <= x' <= last (y :: l) d)%Z) by (intros; apply IH; auto).
    destruct Hx as [<-|Hx].
    + pose proof (Hf y (or_introl eq_refl)). pose proof (Hy y (or_introl eq_refl)). lia.
    + specialize (Hf x Hx). specialize (Hy x Hx). lia.
Qed.

Section EnEx.
  Context (n : nat) (ew xw : Z) (ep xp : bool) (ec xc : Choice).
  Context (Hew : (0 <= ew)%Z) (Hxw : (0 <= xw)%Z).
  Context (Hec : ep = true \/ ascending ec) (Hxc : xp = true \/ ascending xc).

  Definition enex_from (i : nat) (prev : Z) : Z :=
    if Nat.even i then (if Nat.eqb i 0 then 0 else prev + ew)%Z else (prev + xw)%Z.

  Fixpoint rounds (i : nat) (prev : Z) (gs : list (list Z)) : Prop :=
    match gs with
    | [] => True
    | g :: gs' =>
        g <> [] /\ (forall z, In z g -> (enex_from i prev <= z < Z.of_nat n)%Z /\ (z <= last g 0)%Z) /\
        ((if Nat.even i then ep else xp) = true -> length g = 1) /\
        rounds (S i) (last g 0%Z) gs'
    end.

  (** What one round that does not end the loop does *)
  Lemma enex_round : forall fuel i st r,
    enex_loop (S fuel) n ew xw ep xp ec xc i st = Some (Ok r) ->
    r = st \/
    exists g, g <> [] /\
      (forall z, In z g -> (enex_from i (ee_prev st) <= z < Z.of_nat n)%Z /\ (z <= last g 0)%Z) /\
      ((if Nat.even i then ep else xp) = true -> length g = 1) /\
      enex_loop fuel n ew xw ep xp ec xc (S i)
        (mkEnEx (if Nat.even i then set_all (ee_entries st) g else ee_entries st)
                (if Nat.even i then ee_exits st else set_all (ee_exits st) g)
                (ee_prev st) (last g 0%Z)) = Some (Ok r).
  Proof.
    intros fuel i st r H. cbn [enex_loop] in H. fold (enex_from i (ee_prev st)) in H.
    destruct (Z.leb_spec (Z.of_nat n) (enex_from i (ee_prev st))) as [|Hft]; [left; congruence|].
    assert (Hs : (if Nat.even i then ep else xp) = true \/
       StronglySorted Z.le (if Nat.even i then ec i (enex_from i (ee_prev st)) (Z.of_nat n) else xc i (enex_from i (ee_prev st)) (Z.of_nat n))).
    { destruct (Nat.even i); [destruct Hec|destruct Hxc]; auto. }
    set (pf := if Nat.even i then ep else xp) in *. clearbody pf.
    destruct (if Nat.even i then ec i (enex_from i (ee_prev st)) (Z.of_nat n) else xc i (enex_from i (ee_prev st)) (Z.of_nat n))
      as [|z zs] eqn:E; [left; congruence|].
    destruct ((z =? ee_prev st)%Z && (ee_prev st =? ee_prev_prev st)%Z); [discriminate|].
    destruct (Z.ltb_spec z (enex_from i (ee_prev st))) as [|Hz]; [discriminate|].
    destruct (Z.leb_spec (Z.of_nat n) (if pf then z else last (z :: zs) 0%Z)) as [|Hl]; [discriminate|].
    right. destruct pf.
    - exists [z]. split; [discriminate|]. split; [intros z' [<-|[]]; cbn; lia|]. split; auto.
    - destruct Hs as [|Hs]; [discriminate|]. exists (z :: zs). split; [discriminate|]. split; [|split; [discriminate|exact H]].
      intros z' Hz'. pose proof (sorted_first_last zs z z' 0%Z Hs Hz'). lia.
  Qed.

  Lemma enex_from_nonneg : forall i prev, i = 0 \/ (0 <= prev)%Z -> (0 <= enex_from i prev)%Z.
  Proof.
    intros i prev H. unfold enex_from. destruct (Nat.eqb_spec i 0) as [->|].
    - cbn. lia.
    - destruct H; [congruence|]. destruct (Nat.even i); lia.
  Qed.

  Lemma even_add : forall i k, Nat.even (i + S k) = Nat.even (S i + k).
  Proof. intros. f_equal. lia. Qed.

  Lemma enex_ok : forall fuel i st r,
    length (ee_entries st) = n -> length (ee_exits st) = n -> i = 0 \/ (0 <= ee_prev st)%Z ->
    enex_loop fuel n ew xw ep xp ec xc i st = Some (Ok r) ->
    exists gs, rounds i (ee_prev st) gs /\ length (ee_entries r) = n /\ length (ee_exits r) = n /\
      (forall j, tr (ee_entries r) j <-> tr (ee_entries st) j \/
         exists k g, nth_error gs k = Some g /\ Nat.even (i + k) = true /\ In (Z.of_nat j) g) /\
      (forall j, tr (ee_exits r) j <-> tr (ee_exits st) j \/
         exists k g, nth_error gs k = Some g /\ Nat.even (i + k) = false /\ In (Z.of_nat j) g).
  Proof.
    induction fuel as [|fuel IH]; intros i st r He Hx Hp H; [discriminate|].
    apply enex_round in H as [->|(g & G1 & G2 & G3 & H)].
    { exists []. split; [exact I|]. split; auto. split; auto.
      split; intros j; split; auto; intros [|(k & g & C & _)]; auto; destruct k; discriminate. }
    assert (Hlast : In (last g 0%Z) g) by (destruct g; [congruence|apply last_in]).
    assert (Hge := enex_from_nonneg i (ee_prev st) Hp).
    apply IH in H as (gs & R1 & R2 & R3 & R4 & R5); cbn [ee_entries ee_exits ee_prev] in *.
    2:{ destruct (Nat.even i); auto. rewrite set_all_length. auto. }
    2:{ destruct (Nat.even i); auto. rewrite set_all_length. auto. }
    2:{ specialize (G2 _ Hlast). lia. }
    exists (g :: gs). split; [cbn [rounds]; auto|]. split; auto. split; auto.
    assert (Hbase : forall j a, length a = n -> (tr (set_all a g) j <-> tr a j \/ In (Z.of_nat j) g)).
    { intros j a Ha. rewrite tr_set_all. split.
      - intros [|(Hj & z & Hin & ->)]; auto. right. rewrite Z2Nat.id; auto. specialize (G2 _ Hin). lia.
      - intros [|Hin]; auto. right. split; [|exists (Z.of_nat j); rewrite Nat2Z.id; auto].
        specialize (G2 _ Hin). lia. }
    assert (Hcons : forall j v, (exists k g', nth_error (g :: gs) k = Some g' /\ Nat.even (i + k) = v /\ In (Z.of_nat j) g') <->
       (Nat.even i = v /\ In (Z.of_nat j) g) \/ (exists k g', nth_error gs k = Some g' /\ Nat.even (S i + k) = v /\ In (Z.of_nat j) g')).
    { intros j v. split.
      - intros ([|k] & g' & K1 & K2 & K3); cbn [nth_error] in K1.
        + injection K1 as <-. rewrite Nat.add_0_r in K2. auto.
        + rewrite even_add in K2. eauto 6.
      - intros [[K1 K2]|(k & g' & K1 & K2 & K3)].
        + exists 0, g. rewrite Nat.add_0_r. auto.
        + exists (S k), g'. rewrite even_add. auto. }
    split; intros j; rewrite Hcons; [rewrite R4|rewrite R5]; destruct (Nat.even i) eqn:Ev; rewrite ?Hbase by auto;
      intuition congruence.
  Qed.

  (** *** Termination *)
  Context (Hw : (ew =? 0)%Z && (xw =? 0)%Z = false).

  Definition progress (i : nat) (prev : Z) : Prop :=
    (prev < Z.of_nat n)%Z /\
    if Nat.even i then i = 0 /\ prev = (-1)%Z \/ 2 <= i /\ (0 <= prev)%Z /\ (if (xw =? 0)%Z then Z.of_nat i - 2 <= 2 * prev else Z.of_nat i <= 2 * prev)%Z
    else (0 <= prev)%Z /\ (Z.of_nat i - 1 <= 2 * prev)%Z.

  Lemma progress_step : forall i prev prev', progress i prev -> (enex_from i prev <= prev' < Z.of_nat n)%Z -> progress (S i) prev'.
  Proof.
    intros i prev prev' [P1 P2] Hf. split; [lia|]. unfold enex_from in Hf. rewrite Nat.even_succ, <- Nat.negb_even.
    apply andb_false_iff in Hw. rewrite !Z.eqb_neq in Hw.
    destruct (Nat.even i) eqn:Ev; cbn [negb].
    - destruct P2 as [[-> ->]|(A & B & C)]; [cbn in Hf; lia|].
      rewrite (proj2 (Nat.eqb_neq i 0)) in Hf by lia. destruct (Z.eqb_spec xw 0); lia.
    - right. split; [destruct i; [discriminate|lia]|]. destruct (Z.eqb_spec xw 0); lia.
  Qed.

  Lemma enex_terminates : forall fuel i st, progress i (ee_prev st) -> 2 * n + 2 <= fuel + i ->
    enex_loop fuel n ew xw ep xp ec xc i st <> None.
  Proof.
    induction fuel as [|fuel IH]; intros i st P Hf.
    - exfalso. destruct P as [P1 P2]. destruct (Nat.even i).
      + destruct P2 as [[-> _]|(A & B & C)]; [lia|]. destruct (xw =? 0)%Z; lia.
      + lia.
    - cbn [enex_loop]. fold (enex_from i (ee_prev st)).
      destruct (Z.leb_spec (Z.of_nat n) (enex_from i (ee_prev st))) as [|Hft]; [congruence|].
      assert (Hs : (if Nat.even i then ep else xp) = true \/
         StronglySorted Z.le (if Nat.even i then ec i (enex_from i (ee_prev st)) (Z.of_nat n) else xc i (enex_from i (ee_prev st)) (Z.of_nat n))).
      { destruct (Nat.even i); [destruct Hec|destruct Hxc]; auto. }
      set (pf := if Nat.even i then ep else xp) in *. clearbody pf.
      destruct (if Nat.even i then ec i (enex_from i (ee_prev st)) (Z.of_nat n) else xc i (enex_from i (ee_prev st)) (Z.of_nat n))
        as [|z zs] eqn:E; [congruence|].
      destruct ((z =? ee_prev st)%Z && (ee_prev st =? ee_prev_prev st)%Z); [discriminate|].
      destruct (Z.ltb_spec z (enex_from i (ee_prev st))) as [|Hz]; [discriminate|].
      destruct (Z.leb_spec (Z.of_nat n) (if pf then z else last (z :: zs) 0%Z)) as [|Hl]; [discriminate|].
      apply IH; [|lia]. cbn [ee_prev]. eapply progress_step; [exact P|].
      destruct pf; [lia|]. destruct Hs as [|Hs]; [discriminate|].
      pose proof (sorted_first_last zs z z 0%Z Hs (or_introl eq_refl)). lia.
  Qed.
End EnEx.

Lemma enex_fuel_mono : forall n ew xw ep xp ec xc fuel fuel' i st r,
  enex_loop fuel n ew xw ep xp ec xc i st = Some r -> fuel <= fuel' ->
  enex_loop fuel' n ew xw ep xp ec xc i st = Some r.
Proof.
  intros n ew xw ep xp ec xc. induction fuel as [|fuel IH]; intros fuel' i st r H Hf; [discriminate|].
  destruct fuel' as [|fuel']; [lia|]. cbn [enex_loop] in *.
  repeat match type of H with context [if (?b <=? ?c)%Z then Some _ else _] => destruct (b <=? c)%Z; auto end.
  destruct (if Nat.even i then ec _ _ _ else xc _ _ _) as [|z zs]; auto.
  destruct (_ && _)%bool; auto. destruct (z <? _)%Z; auto.
  destruct (Z.of_nat n <=? (if if Nat.even i then ep else xp then z else last (z :: zs) 0%Z))%Z; auto.
  apply IH; auto. lia.
Qed.

(** ** Statements about generate_enex_nb *)

(** Whatever the number of rounds allowed, the result is the same once it is
    reached, and 2n+2 rounds are enough. *)
Lemma generate_enex_terminates : forall n ew xw ep xp ec xc, (0 <= ew)%Z -> (0 <= xw)%Z ->
  ep = true \/ ascending ec -> xp = true \/ ascending xc ->
  exists r, forall fuel, 2 * n + 2 <= fuel -> generate_enex_fuel fuel n ew xw ep xp ec xc = Some r.
Proof.
  intros n ew xw ep xp ec xc Hew Hxw Hec Hxc. unfold generate_enex_fuel.
  destruct ((ew =? 0)%Z && (xw =? 0)%Z) eqn:Hw; [eauto|].
  set (st := mkEnEx (repeat false n) (repeat false n) (-2) (-1)).
  destruct (enex_loop (2 * n + 2) n ew xw ep xp ec xc 0 st) as [[st'|e]|] eqn:E.
  - eexists. intros fuel Hf. rewrite (enex_fuel_mono _ _ _ _ _ _ _ _ _ _ _ _ E Hf). reflexivity.
  - eexists. intros fuel Hf. rewrite (enex_fuel_mono _ _ _ _ _ _ _ _ _ _ _ _ E Hf). reflexivity.
  - exfalso. revert E. apply enex_terminates; auto; [|lia]. split; cbn; [lia|]. left. auto.
Qed.

Lemma rounds_nth : forall n ew xw ep xp gs i prev k, (0 <= ew)%Z -> (0 <= xw)%Z ->
  rounds n ew xw ep xp i prev gs -> i = 0 \/ (0 <= prev)%Z -> k < length gs ->
  exists prev', rounds n ew xw ep xp (i + k) prev' (skipn k gs) /\ (i + k = 0 \/ (0 <= prev')%Z).
Proof.
  intros n ew xw ep xp gs. induction gs as [|g gs IH]; intros i prev k Hew Hxw R Hp Hk; [cbn in Hk; lia|].
  destruct k as [|k]; [rewrite Nat.add_0_r; eauto|].
  destruct R as (G1 & G2 & _ & R). cbn [skipn]. replace (i + S k) with (S i + k) by lia. eapply IH; eauto; [|cbn in Hk; lia].
  right. pose proof (enex_from_nonneg ew xw Hew Hxw i prev Hp).
  assert (Hl : In (last g 0%Z) g) by (destruct g; [congruence|apply last_in]). specialize (G2 _ Hl). lia.
Qed.

Lemma skipn_nth_cons : forall {A} (l : list A) k g, nth_error l k = Some g -> skipn k l = g :: skipn (S k) l.
Proof.
  induction l as [|x l IH]; intros [|k] g H; try discriminate.
  - cbn in H. injection H as <-. reflexivity.
  - cbn in H. cbn [skipn]. apply IH. auto.
Qed.

Lemma even_double : forall m, Nat.even m = true <-> exists k, m = 2 * k.
Proof. intros m. rewrite Nat.even_spec. reflexivity. Qed.
Lemma odd_double : forall m, Nat.even m = false <-> exists k, m = 2 * k + 1.
Proof.
  intros m. split.
  - intros H. assert (O : Nat.odd m = true) by (unfold Nat.odd; rewrite H; auto). apply Nat.odd_spec in O. auto.
  - intros [k ->]. rewrite Nat.add_1_r, Nat.even_succ, <- Nat.negb_even, Nat.even_mul. auto.
Qed.

Lemma generate_enex_groups : forall fuel n ew xw ep xp ec xc entries exits, (0 <= ew)%Z -> (0 <= xw)%Z ->
  ep = true \/ ascending ec -> xp = true \/ ascending xc ->
  generate_enex_fuel fuel n ew xw ep xp ec xc = Some (Ok (entries, exits)) ->
  length entries = n /\ length exits = n /\ exists groups, enex_groups n ew xw ep xp entries exits groups.
Proof.
  intros fuel n ew xw ep xp ec xc entries exits Hew Hxw Hec Hxc H. unfold generate_enex_fuel in H.
  destruct ((ew =? 0)%Z && (xw =? 0)%Z); [discriminate|].
  destruct (enex_loop fuel n ew xw ep xp ec xc 0 _) as [[r|e]|] eqn:E; try discriminate. injection H as <- <-.
  apply enex_ok in E as (gs & R1 & R2 & R3 & R4 & R5); auto; try apply repeat_length.
  cbn [ee_prev ee_entries ee_exits] in *. split; auto. split; auto.
  assert (Hr : forall k g, nth_error gs k = Some g -> exists prev,
     rounds n ew xw ep xp k prev (g :: skipn (S k) gs) /\ (k = 0 \/ (0 <= prev)%Z)).
  { intros k g Hk. rewrite <- (skipn_nth_cons _ _ _ Hk). apply (rounds_nth _ _ _ _ _ gs 0 (-1)%Z); auto.
    apply nth_error_Some. congruence. }
  assert (Hpos : forall k g z, nth_error gs k = Some g -> In z g -> (0 <= z < Z.of_nat n)%Z).
  { intros k g z Hk Hz. destruct (Hr k g Hk) as (prev & (G1 & G2 & _) & Hp).
    pose proof (enex_from_nonneg ew xw Hew Hxw k prev Hp). specialize (G2 _ Hz). lia. }
  assert (Hconv : forall k g i, nth_error gs k = Some g -> (In (Z.of_nat i) g <-> In i (map Z.to_nat g))).
  { intros k g i Hk. rewrite in_map_iff. split.
    - intros Hi. exists (Z.of_nat i). rewrite Nat2Z.id. auto.
    - intros (z & <- & Hz). rewrite Z2Nat.id; auto. eapply Hpos; eauto. }
  assert (Hnth : forall k h, nth_error (map (map Z.to_nat) gs) k = Some h <-> exists g, nth_error gs k = Some g /\ h = map Z.to_nat g).
  { intros k h. rewrite nth_error_map. destruct (nth_error gs k) as [g|]; cbn; split.
    - intros E'. injection E' as <-. eauto.
    - intros (g' & E1 & ->). congruence.
    - discriminate.
    - intros (g' & E1 & _). discriminate. }
  exists (map (map Z.to_nat) gs). unfold enex_groups. repeat match goal with |- _ /\ _ => split end.
  - intros k h Hh. apply Hnth in Hh as (g & Hk & ->). split.
    + destruct (Hr k g Hk) as (prev & (G1 & _) & _). destruct g; [congruence|discriminate].
    + intros x Hx. apply in_map_iff in Hx as (z & <- & Hz). specialize (Hpos _ _ _ Hk Hz). lia.
  - intros i. rewrite R4. split.
    + intros [C|(k & g & Hk & Ev & Hi)]; [apply tr_repeat in C as []|]. apply even_double in Ev as [m Em]. change (0 + k) with k in Em.
      exists m, (map Z.to_nat g). split; [apply Hnth; exists g; split; auto; rewrite <- Em; auto|]. eapply Hconv; eauto.
    + intros (m & h & Hh & Hi). apply Hnth in Hh as (g & Hk & ->). right. exists (2 * m), g. split; auto.
      split; [apply even_double; cbn; eauto|]. eapply Hconv; eauto.
  - intros i. rewrite R5. split.
    + intros [C|(k & g & Hk & Ev & Hi)]; [apply tr_repeat in C as []|]. apply odd_double in Ev as [m Em]. change (0 + k) with k in Em.
      exists m, (map Z.to_nat g). split; [apply Hnth; exists g; split; auto; rewrite <- Em; auto|]. eapply Hconv; eauto.
    + intros (m & h & Hh & Hi). apply Hnth in Hh as (g & Hk & ->). right. exists (2 * m + 1), g. split; auto.
      split; [apply odd_double; cbn; eauto|]. eapply Hconv; eauto.
  - intros k g' h' x y Hg Hh Hx Hy. apply Hnth in Hg as (g & Hg & ->). apply Hnth in Hh as (h & Hh & ->).
    eapply Hconv in Hx; eauto. eapply Hconv in Hy; eauto.
    destruct (Hr k g Hg) as (prev & (_ & G2 & _ & R) & _). rewrite (skipn_nth_cons _ _ _ Hh) in R. destruct R as (_ & H2 & _).
    specialize (G2 _ Hx). specialize (H2 _ Hy). unfold enex_from in H2. cbn [Nat.eqb] in H2.
    rewrite Nat.even_succ, <- Nat.negb_even in H2. destruct (Nat.even k); cbn [negb] in H2; lia.
  - intros Hep k h Hh. apply Hnth in Hh as (g & Hk & ->). rewrite map_length.
    destruct (Hr _ g Hk) as (prev & (_ & _ & G3 & _) & _). apply G3. rewrite (proj2 (even_double (2 * k))); eauto.
  - intros Hep k h Hh. apply Hnth in Hh as (g & Hk & ->). rewrite map_length.
    destruct (Hr _ g Hk) as (prev & (_ & _ & G3 & _) & _). apply G3. rewrite (proj2 (odd_double (2 * k + 1))); eauto.
Qed.

(** Read off the outputs when one signal is picked per round *)
Section Alternate.
  Context (n : nat) (ew xw : Z) (entries exits : list bool) (groups : list (list nat)).
  Context (Hew : (0 <= ew)%Z) (Hxw : (0 <= xw)%Z) (HG : enex_groups n ew xw true true entries exits groups).

  Lemma group_chain : forall d k g h x y, nth_error groups k = Some g -> nth_error groups (k + S d) = Some h ->
    In x g -> In y h -> (Z.of_nat x + (if Nat.even k then xw else ew) <= Z.of_nat y)%Z.
  Proof.
    destruct HG as (A & _ & _ & B & _). induction d as [|d IH]; intros k g h x y Hg Hh Hx Hy.
    - rewrite Nat.add_1_r in Hh. eapply B; eauto.
    - destruct (nth_error groups (k + S d)) as [m|] eqn:Em.
      + destruct (A _ _ Em) as [Ne _]. destruct m as [|z m]; [congruence|].
        specialize (IH k g (z :: m) x z Hg Em Hx (or_introl eq_refl)).
        replace (k + S (S d)) with (S (k + S d)) in Hh by lia.
        pose proof (B _ _ _ z y Em Hh (or_introl eq_refl) Hy). destruct (Nat.even (k + S d)); lia.
      + apply nth_error_None in Em. assert (k + S (S d) < length groups) by (apply nth_error_Some; congruence). lia.
  Qed.

  Lemma group_exists : forall k l g, k <= l -> nth_error groups l = Some g -> exists h x, nth_error groups k = Some h /\ In x h.
  Proof.
    destruct HG as (A & _). intros k l g Hkl Hg. destruct (nth_error groups k) as [h|] eqn:E.
    - destruct (A _ _ E) as [Ne _]. destruct h as [|x h]; [congruence|]. exists (x :: h), x. split; cbn; auto.
    - apply nth_error_None in E. assert (l < length groups) by (apply nth_error_Some; congruence). lia.
  Qed.

  Lemma enex_exit_between : forall e e', e < e' -> tr entries e -> tr entries e' ->
    exists x, tr exits x /\ (Z.of_nat e + xw <= Z.of_nat x)%Z /\ (Z.of_nat x + ew <= Z.of_nat e')%Z.
  Proof.
    intros e e' Hlt He He'. pose proof HG as (A & B & C & D & E1 & E2).
    apply B in He as (k & g & Hg & Hin). apply B in He' as (k' & g' & Hg' & Hin').
    destruct (Nat.lt_trichotomy k k') as [Hk|[->|Hk]].
    - destruct (group_exists (2 * k + 1) (2 * k') g') as (h & x & Hh & Hx); [lia|auto|].
      exists x. split; [apply C; eauto|].
      pose proof (group_chain 0 (2 * k) g h e x Hg Hh Hin Hx) as P1.
      pose proof (group_chain (2 * (k' - k - 1)) (2 * k + 1) h g' x e' Hh) as P2.
      replace (2 * k + 1 + S (2 * (k' - k - 1))) with (2 * k') in P2 by lia. specialize (P2 Hg' Hx Hin').
      rewrite (proj2 (even_double (2 * k))) in P1 by eauto. rewrite (proj2 (odd_double (2 * k + 1))) in P2 by eauto. auto.
    - rewrite Hg in Hg'. injection Hg' as <-. specialize (E1 eq_refl _ _ Hg).
      destruct g as [|a [|b g]]; try discriminate. destruct Hin as [->|[]], Hin' as [->|[]]. lia.
    - pose proof (group_chain (2 * (k - k' - 1) + 1) (2 * k') g' g e' e Hg') as P.
      replace (2 * k' + S (2 * (k - k' - 1) + 1)) with (2 * k) in P by lia. specialize (P Hg Hin' Hin).
      destruct (Nat.even (2 * k')); lia.
  Qed.

  Lemma enex_entry_between : forall e e', e < e' -> tr exits e -> tr exits e' ->
    exists x, tr entries x /\ (Z.of_nat e + ew <= Z.of_nat x)%Z /\ (Z.of_nat x + xw <= Z.of_nat e')%Z.
  Proof.
    intros e e' Hlt He He'. pose proof HG as (A & B & C & D & E1 & E2).
    apply C in He as (k & g & Hg & Hin). apply C in He' as (k' & g' & Hg' & Hin').
    destruct (Nat.lt_trichotomy k k') as [Hk|[->|Hk]].
    - destruct (group_exists (2 * (k + 1)) (2 * k' + 1) g') as (h & x & Hh & Hx); [lia|auto|].
      exists x. split; [apply B; eauto|].
      pose proof (group_chain 0 (2 * k + 1) g h e x Hg) as P1. replace (2 * k + 1 + 1) with (2 * (k + 1)) in P1 by lia.
      specialize (P1 Hh Hin Hx).
      pose proof (group_chain (2 * (k' - k - 1)) (2 * (k + 1)) h g' x e' Hh) as P2.
      replace (2 * (k + 1) + S (2 * (k' - k - 1))) with (2 * k' + 1) in P2 by lia. specialize (P2 Hg' Hx Hin').
      rewrite (proj2 (odd_double (2 * k + 1))) in P1 by eauto. rewrite (proj2 (even_double (2 * (k + 1)))) in P2 by eauto. auto.
    - rewrite Hg in Hg'. injection Hg' as <-. specialize (E2 eq_refl _ _ Hg).
      destruct g as [|a [|b g]]; try discriminate. destruct Hin as [->|[]], Hin' as [->|[]]. lia.
    - pose proof (group_chain (2 * (k - k' - 1) + 1) (2 * k' + 1) g' g e' e Hg') as P.
      replace (2 * k' + 1 + S (2 * (k - k' - 1) + 1)) with (2 * k + 1) in P by lia. specialize (P Hg Hin' Hin).
      destruct (Nat.even (2 * k' + 1)); lia.
  Qed.

  Lemma enex_entry_before : forall x, tr exits x -> exists e, tr entries e /\ (Z.of_nat e + xw <= Z.of_nat x)%Z.
  Proof.
    intros x Hx. pose proof HG as (A & B & C & D & E1 & E2). apply C in Hx as (k & g & Hg & Hin).
    destruct (group_exists (2 * k) (2 * k + 1) g) as (h & e & Hh & He); [lia|auto|].
    exists e. split; [apply B; eauto|]. pose proof (group_chain 0 (2 * k) h g e x Hh Hg He Hin) as P.
    rewrite (proj2 (even_double (2 * k))) in P by eauto. auto.
  Qed.
End Alternate.

(** ** Unsorted choices: the loop may never end *)
Definition unsorted_choice : Choice := fun _ from _ => [from; 0%Z].

Lemma unsorted_runs_forever : forall fuel, generate_enex_fuel fuel 3 1 1 false false unsorted_choice unsorted_choice = None.
Proof.
  assert (H : forall fuel i st, 1 <= i -> ee_prev st = 0%Z -> ee_prev_prev st = 0%Z \/ ee_prev_prev st = (-1)%Z ->
     enex_loop fuel 3 1 1 false false unsorted_choice unsorted_choice i st = None).
  { induction fuel as [|fuel IH]; intros i st Hi H1 H2; [reflexivity|]. cbn [enex_loop]. rewrite H1.
    replace (if Nat.even i then if Nat.eqb i 0 then 0%Z else (0 + 1)%Z else (0 + 1)%Z) with 1%Z.
    2:{ destruct i; [lia|]. cbn [Nat.eqb]. destruct (Nat.even (S i)); auto. }
    replace (if Nat.even i then unsorted_choice i 1%Z (Z.of_nat 3) else unsorted_choice i 1%Z (Z.of_nat 3)) with [1%Z; 0%Z]
      by (destruct (Nat.even i); auto).
    replace (if Nat.even i then false else false) with false by (destruct (Nat.even i); auto).
    cbn -[enex_loop Nat.even set_all]. apply IH; [lia|auto|auto]. }
  intros fuel. unfold generate_enex_fuel. cbn [Z.eqb andb].
  destruct fuel as [|fuel]; [reflexivity|].
  assert (E : enex_loop (S fuel) 3 1 1 false false unsorted_choice unsorted_choice 0
                (mkEnEx (repeat false 3) (repeat false 3) (-2) (-1)) =
              enex_loop fuel 3 1 1 false false unsorted_choice unsorted_choice 1
                (mkEnEx [true; false; false] [false; false; false] (-1) 0)) by reflexivity.
  rewrite E, (H fuel 1); auto.
Qed.
