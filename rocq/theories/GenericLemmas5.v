(** * Lemmas about drawdowns *)
From Coq Require Import ZArith Bool List Arith Lia Sorting.
From Verif Require Import Base Num GenericNb XQFacts GenericSpec OrdLaws GenericLemmas GenericLemmas4.
Import ListNotations.
Local Open Scope nat_scope.

Section Drawdowns.
  Context {T : Type} {N : Num T} {L : OrdLaws N}.

  Definition dd_new_ok (col : nat) (ts : list T) (id0 k : nat) (new : list (DrawdownRec T)) : Prop :=
    (forall j r, nth_error new j = Some r -> dd_id r = id0 + j /\ dd_col r = col /\ is_drawdown ts r /\
        (dd_end_idx r < Z.of_nat k)%Z) /\
    (forall i j a b, i < j -> nth_error new i = Some a -> nth_error new j = Some b -> (dd_end_idx a <= dd_peak_idx b)%Z).

  Definition dd_covered (new : list (DrawdownRec T)) (i : nat) : Prop :=
    exists r, In r new /\ (dd_peak_idx r < Z.of_nat i)%Z /\
      ((Z.of_nat i < dd_end_idx r)%Z \/ (dd_status r = Active /\ dd_end_idx r = Z.of_nat i)).

  Definition at_peak (ts : list T) (k p : nat) (s : DDState T) : Prop :=
    ds_peak_idx s = Z.of_nat p /\ p < k /\ holds ts p (ds_peak_val s) /\
    (forall j x, j <= p -> holds ts j x -> leb x (ds_peak_val s) = true).

  Definition dd_inv (col : nat) (ts : list T) (recs0 : list (DrawdownRec T)) (k : nat) (s : DDState T) : Prop :=
    exists new, ds_recs s = recs0 ++ new /\ k <= length ts /\ dd_new_ok col ts (length recs0) k new /\
      (forall i, i < k -> under_water ts i -> dd_covered new i \/
            (ds_started s = true /\ (ds_peak_idx s < Z.of_nat i)%Z)) /\
      ((* no number yet *)
       (ds_started s = false /\ (forall j x, j < k -> ~ holds ts j x) /\ ds_peak_val s = hd nan ts) \/
       (* at the peak *)
       (ds_started s = false /\ exists p, at_peak ts k p s /\ (forall j x, p < j < k -> ~ holds ts j x) /\
          (forall r, In r new -> (dd_end_idx r <= Z.of_nat p)%Z)) \/
       (* below the peak *)
       (ds_started s = true /\ exists p v, at_peak ts k p s /\ (forall r, In r new -> (dd_end_idx r <= Z.of_nat p)%Z) /\
          (forall j x, p < j < k -> holds ts j x -> ltb x (ds_peak_val s) = true) /\
          ds_valley_idx s = Z.of_nat v /\ p < v < k /\ holds ts v (ds_valley_val s) /\
          (forall j x, p < j < v -> holds ts j x -> ltb (ds_valley_val s) x = true) /\
          (forall j x, v <= j < k -> holds ts j x -> leb (ds_valley_val s) x = true) /\
          (k = length ts -> exists y, nth_error ts (k - 1) = Some y /\ isnan y = true)) \/
       (* finished *)
       (ds_started s = false /\ k = length ts)).

  Lemma holds_fun : forall (ts : list T) i x y, holds ts i x -> holds ts i y -> x = y.
  Proof. intros ts i x y [H1 _] [H2 _]. congruence. Qed.

  Lemma dd_new_ok_mono : forall col ts id0 k new, dd_new_ok col ts id0 k new -> dd_new_ok col ts id0 (S k) new.
  Proof.
    intros col ts id0 k new [H1 H2]. split; auto. intros j r Hj. destruct (H1 _ _ Hj) as (A & B & C & D).
    split; [|split; [|split]]; auto. lia.
  Qed.

  Lemma dd_new_ok_snoc : forall col ts recs0 k new r, dd_new_ok col ts (length recs0) k new ->
    dd_id r = length (recs0 ++ new) -> dd_col r = col -> is_drawdown ts r -> (dd_end_idx r < Z.of_nat (S k))%Z ->
    (forall r', In r' new -> (dd_end_idx r' <= dd_peak_idx r)%Z) ->
    dd_new_ok col ts (length recs0) (S k) (new ++ [r]).
  Proof.
    intros col ts recs0 k new r [H1 H2] E1 E2 E3 E4 E5. split.
    - intros j r' Hj. apply nth_error_snoc in Hj as [[Hj Hj']|[Hj ->]].
      + destruct (H1 _ _ Hj') as (A & B & C & D). split; [|split; [|split]]; auto. lia.
      + rewrite app_length in E1. split; [lia|]. auto.
    - intros i j a b Hij Ha Hb. apply nth_error_snoc in Hb as [[Hb Hb']|[Hb ->]].
      + apply nth_error_snoc in Ha as [[Ha Ha']|[Ha ->]]; [exact (H2 _ _ _ _ Hij Ha' Hb')|lia].
      + apply nth_error_snoc in Ha as [[Ha Ha']|[Ha ->]]; [|lia]. apply E5. eapply nth_error_In; eauto.
  Qed.

  Lemma covered_snoc : forall new r i, dd_covered new i -> dd_covered (new ++ [r]) i.
  Proof. intros new r i (r' & Hin & H). exists r'. split; auto. apply in_or_app; auto. Qed.

  Lemma dd_step : forall col ts recs0 k s x, nth_error ts k = Some x ->
    dd_inv col ts recs0 k s -> dd_inv col ts recs0 (S k) (drawdown_step (length ts) col s (k, x)).
  Proof.
    intros col ts recs0 k s x Hx (new & ER & Hk & HN & HC & HS).
    assert (Hlt : k < length ts) by (apply nth_error_Some; congruence).
    unfold drawdown_step. destruct (isnan x) eqn:Ex.
    - (* no number *)
      assert (Hnh : forall y, ~ holds ts k y) by (intros y [Hy1 Hy2]; congruence).
      exists new. split; auto. split; [lia|]. split; [apply dd_new_ok_mono; auto|]. split.
      + intros i Hi Hu. destruct (Nat.eq_dec i k) as [->|]; [|apply HC; auto; lia].
        destruct Hu as (z & _ & _ & Hz & _). destruct (Hnh _ Hz).
      + destruct HS as [(H1 & H2 & H3)|[(H1 & p & H2 & H3 & H4)|[(H1 & p & v & H2 & H3 & H4 & H5 & H6 & H7 & H8 & H9 & H10)|(H1 & H2)]]].
        * left. split; auto. split; auto. intros j y Hj. destruct (Nat.eq_dec j k) as [->|]; auto. apply H2. lia.
        * right. left. split; auto. exists p. destruct H2 as (A & B & C & D). split; [|split]; auto.
          -- split; [|split; [|split]]; auto.
          -- intros j y Hj. destruct (Nat.eq_dec j k) as [->|]; auto. apply H3. lia.
        * right. right. left. split; auto. exists p, v. destruct H2 as (A & B & C & D).
          split; [split; [|split; [|split]]; auto|]. split; auto. split.
          { intros j y Hj Hh. destruct (Nat.eq_dec j k) as [->|]; [destruct (Hnh _ Hh)|]. eapply H4; [|exact Hh]. lia. }
          split; auto. split; [lia|]. split; auto. split; auto. split.
          { intros j y Hj Hh. destruct (Nat.eq_dec j k) as [->|]; [destruct (Hnh _ Hh)|]. eapply H9; [|exact Hh]. lia. }
          intros _. replace (S k - 1) with k by lia. eauto.
        * lia.
    - assert (Hh : holds ts k x) by (split; auto).
      destruct HS as [(H1 & H2 & H3)|[(H1 & p & (A & B & C & D) & H3 & H4)|[(H1 & p & v & (A & B & C & D) & H3 & H4 & H5 & H6 & H7 & H8 & H9 & H10)|(H1 & H2)]]].
      + (* first number *)
        rewrite H1, H3. cbn [negb].
        assert (Ec : isnan (hd nan ts) || geb x (hd nan ts) = true).
        { destruct ts as [|t0 ts']; [cbn in Hlt; lia|]. cbn [hd].
          destruct k as [|k]; [cbn in Hx; injection Hx as ->; unfold geb; rewrite (leb_refl x Ex); apply orb_true_r|].
          destruct (isnan t0) eqn:E0; auto. exfalso. apply (H2 0 t0); [lia|]. split; auto. }
        rewrite Ec. rewrite andb_false_r. exists new. cbn [ds_recs ds_started ds_peak_idx ds_peak_val ds_valley_idx ds_valley_val].
        split; auto. split; [lia|]. split; [apply dd_new_ok_mono; auto|]. split.
        * intros i Hi (z & j & y & Hz & Hj & Hy & _). exfalso. apply (H2 j y); auto. lia.
        * right. left. split; auto. exists k. split; [|split].
          -- split; [|split; [|split]]; auto. intros j y Hj Hy. destruct (Nat.eq_dec j k) as [->|].
             ++ rewrite (holds_fun _ _ _ _ Hy Hh). apply leb_refl; auto.
             ++ exfalso. apply (H2 j y); auto. lia.
          -- intros; lia.
          -- intros r Hin. apply In_nth_error in Hin as (j & Hj). destruct (proj1 HN _ _ Hj) as (_ & _ & _ & Hd). lia.
      + (* at the peak *)
        destruct (geb x (ds_peak_val s)) eqn:Eg; [rewrite orb_true_r|rewrite orb_false_r; rewrite (proj2 C)]; rewrite H1; cbn [negb].
        * rewrite andb_false_r. exists new. cbn [ds_recs ds_started ds_peak_idx ds_peak_val ds_valley_idx ds_valley_val].
          split; auto. split; [lia|]. split; [apply dd_new_ok_mono; auto|].
          assert (Hmax : forall j y, j <= k -> holds ts j y -> leb y x = true).
          { intros j y Hj Hy. destruct (Nat.eq_dec j k) as [->|].
            - rewrite (holds_fun _ _ _ _ Hy Hh). apply leb_refl; auto.
            - destruct (le_lt_dec j p); [|exfalso; apply (H3 j y); auto; lia].
              eapply leb_trans; [eapply D; eauto|exact Eg]. }
          split.
          -- intros i Hi Hu. destruct (Nat.eq_dec i k) as [->|].
             ++ exfalso. destruct Hu as (z & j & y & Hz & Hj & Hy & Hl). rewrite (holds_fun _ _ _ _ Hz Hh) in Hl.
                assert (Hle : leb y x = true) by (apply (Hmax j); auto; lia). rewrite (ltb_true_leb_false _ _ Hl) in Hle. discriminate.
             ++ destruct (HC i) as [|[Ht _]]; auto; [lia|congruence].
          -- right. left. split; auto. exists k. split; [|split].
             ++ split; [|split; [|split]]; auto.
             ++ intros; lia.
             ++ intros r Hin. specialize (H4 r Hin). lia.
        * (* a drawdown starts *)
          assert (Hlx : ltb x (ds_peak_val s) = true).
          { unfold geb in Eg. apply leb_false_ltb; auto. apply (proj2 C). }
          assert (Hcov : forall i, i < S k -> under_water ts i -> dd_covered new i \/ (Z.of_nat p < Z.of_nat i)%Z).
          { intros i Hi Hu. destruct (Nat.eq_dec i k) as [->|]; [right; lia|].
            destruct (HC i) as [|[Ht _]]; auto; [lia|congruence]. }
          destruct (Nat.eqb (S k) (length ts)) eqn:El; cbn [andb].
          -- (* at the last bar *)
             apply Nat.eqb_eq in El.
             eexists (new ++ [_]). cbn [ds_recs ds_started ds_peak_idx ds_peak_val ds_valley_idx ds_valley_val].
             rewrite ER, app_assoc. split; [reflexivity|]. split; [lia|]. split.
             { apply dd_new_ok_snoc; auto; cbn [dd_id dd_col dd_end_idx dd_peak_idx]; [|lia|rewrite A; auto].
               exists p, k, k. cbn [dd_peak_idx dd_start_idx dd_valley_idx dd_end_idx dd_peak_val dd_valley_val dd_end_val dd_status].
               rewrite A. split; [reflexivity|]. split; [lia|]. split; [reflexivity|]. split; [reflexivity|]. split; [lia|].
               split; [exact C|]. split; [exact Hh|]. split; [exact Hh|]. split; [exact D|].
               split; [intros j y Hj Hy; exfalso; apply (H3 j y); auto; lia|].
               split; [intros j y Hj Hy; exfalso; apply (H3 j y); auto; lia|].
               split; [|split; [exact Hlx|split; [exact El|exact Hlx]]].
               intros j y Hj Hy. replace j with k in Hy by lia. rewrite (holds_fun _ _ _ _ Hy Hh). apply leb_refl; auto. }
             split.
             { intros i Hi Hu. left. destruct (Hcov i Hi Hu) as [Hc|Hp]; [apply covered_snoc; auto|].
               eexists. split; [apply in_or_app; right; left; reflexivity|]. cbn [dd_peak_idx dd_end_idx dd_status].
               split; [lia|]. destruct (Nat.eq_dec i k) as [->|]; [right; auto|left; lia]. }
             right. right. right. auto.
          -- apply Nat.eqb_neq in El. exists new. cbn [ds_recs ds_started ds_peak_idx ds_peak_val ds_valley_idx ds_valley_val].
             split; auto. split; [lia|]. split; [apply dd_new_ok_mono; auto|]. split.
             { intros i Hi Hu. destruct (Hcov i Hi Hu); auto. right. split; auto. lia. }
             right. right. left. split; auto. exists p, k. split; [split; [|split; [|split]]; auto|]. split; auto. split.
             { intros j y Hj Hy. destruct (Nat.eq_dec j k) as [->|]; [rewrite (holds_fun _ _ _ _ Hy Hh); auto|exfalso; apply (H3 j y); auto; lia]. }
             split; auto. split; [lia|]. split; auto. split; [intros j y Hj Hy; exfalso; apply (H3 j y); auto; lia|]. split.
             { intros j y Hj Hy. replace j with k in Hy by lia. rewrite (holds_fun _ _ _ _ Hy Hh). apply leb_refl; auto. }
             intros; lia.
      + (* below the peak *)
        assert (Hcov : forall i, i < k -> under_water ts i -> dd_covered new i \/ (Z.of_nat p < Z.of_nat i)%Z).
        { intros i Hi Hu. destruct (HC i) as [|[_ Ht]]; auto. rewrite A in Ht. auto. }
        destruct (geb x (ds_peak_val s)) eqn:Eg; [rewrite orb_true_r|rewrite orb_false_r; rewrite (proj2 C)]; rewrite H1; cbn [negb].
        * (* recovered *)
          rewrite andb_false_r.
          eexists (new ++ [_]). cbn [ds_recs ds_started ds_peak_idx ds_peak_val ds_valley_idx ds_valley_val].
          rewrite ER, app_assoc. split; [reflexivity|]. split; [lia|].
          assert (Hmax : forall j y, j <= k -> holds ts j y -> leb y x = true).
          { intros j y Hj Hy. destruct (Nat.eq_dec j k) as [->|].
            - rewrite (holds_fun _ _ _ _ Hy Hh). apply leb_refl; auto.
            - eapply leb_trans; [|exact Eg]. destruct (le_lt_dec j p); [eapply D; eauto|].
              apply ltb_leb. apply (H4 j); auto. lia. }
          split.
          { apply dd_new_ok_snoc; auto; cbn [dd_id dd_col dd_end_idx dd_peak_idx]; [|lia|rewrite A; auto].
            exists p, v, k. cbn [dd_peak_idx dd_start_idx dd_valley_idx dd_end_idx dd_peak_val dd_valley_val dd_end_val dd_status].
            rewrite A. split; [reflexivity|]. split; [lia|]. split; [exact H5|]. split; [reflexivity|]. split; [lia|].
            split; [exact C|]. split; [exact H7|]. split; [exact Hh|]. split; [exact D|].
            split; [exact H4|]. split; [exact H8|].
            assert (Hvp : ltb (ds_valley_val s) (ds_peak_val s) = true) by (apply (H4 v); auto; lia).
            split; [|split; [exact Hvp|split; [lia|exact Eg]]].
            intros j y Hj Hy. destruct (Nat.eq_dec j k) as [->|]; [|apply (H9 j); auto; lia].
            rewrite (holds_fun _ _ _ _ Hy Hh). eapply leb_trans; [apply ltb_leb; exact Hvp|exact Eg]. }
          split.
          { intros i Hi Hu. left. destruct (Nat.eq_dec i k) as [->|].
            - exfalso. destruct Hu as (z & j & y & Hz & Hj & Hy & Hl). rewrite (holds_fun _ _ _ _ Hz Hh) in Hl.
              assert (Hle : leb y x = true) by (apply (Hmax j); auto; lia). rewrite (ltb_true_leb_false _ _ Hl) in Hle. discriminate.
            - destruct (Hcov i) as [Hc|Hp]; auto; [lia|apply covered_snoc; auto|].
              eexists. split; [apply in_or_app; right; left; reflexivity|]. cbn [dd_peak_idx dd_end_idx dd_status].
              rewrite A. split; [lia|]. left; lia. }
          right. left. split; auto. exists k. split; [|split].
          -- split; [|split; [|split]]; auto.
          -- intros; lia.
          -- intros r Hin. apply in_app_or in Hin as [Hin|[<-|[]]]; [specialize (H3 r Hin); lia|cbn; lia].
        * assert (Hlx : ltb x (ds_peak_val s) = true).
          { unfold geb in Eg. apply leb_false_ltb; auto. apply (proj2 C). }
          (* the valley after this bar *)
          assert (HV : exists v' vi vv, (if ltb x (ds_valley_val s)
                then (true, ds_peak_idx s, Z.of_nat k, ds_peak_val s, x, @None DrawdownStatus)
                else (true, ds_peak_idx s, ds_valley_idx s, ds_peak_val s, ds_valley_val s, None)) =
                (true, ds_peak_idx s, vi, ds_peak_val s, vv, None) /\ vi = Z.of_nat v' /\ p < v' <= k /\ holds ts v' vv /\
              (forall j y, p < j < v' -> holds ts j y -> ltb vv y = true) /\
              (forall j y, v' <= j <= k -> holds ts j y -> leb vv y = true)).
          { destruct (ltb x (ds_valley_val s)) eqn:Ev.
            - exists k, (Z.of_nat k), x. split; [reflexivity|]. split; [reflexivity|]. split; [lia|]. split; [exact Hh|]. split.
              + intros j y Hj Hy. destruct (le_lt_dec v j).
                * eapply ltb_leb_trans; [exact Ev|]. apply (H9 j); auto. lia.
                * eapply ltb_trans; [exact Ev|]. apply (H8 j); auto. lia.
              + intros j y Hj Hy. replace j with k in Hy by lia. rewrite (holds_fun _ _ _ _ Hy Hh). apply leb_refl; auto.
            - exists v, (ds_valley_idx s), (ds_valley_val s). split; [reflexivity|]. split; [exact H5|]. split; [lia|]. split; [exact H7|].
              split; [exact H8|]. intros j y Hj Hy. destruct (Nat.eq_dec j k) as [->|]; [|apply (H9 j); auto; lia].
              rewrite (holds_fun _ _ _ _ Hy Hh). apply ltb_false_leb; auto. apply (proj2 H7). }
          destruct HV as (v' & vi & vv & -> & -> & Hv' & Hhv & HV1 & HV2).
          destruct (Nat.eqb (S k) (length ts)) eqn:El; cbn [andb].
          -- apply Nat.eqb_eq in El.
             eexists (new ++ [_]). cbn [ds_recs ds_started ds_peak_idx ds_peak_val ds_valley_idx ds_valley_val].
             rewrite ER, app_assoc. split; [reflexivity|]. split; [lia|].
             assert (H4' : forall j y, p < j <= k -> holds ts j y -> ltb y (ds_peak_val s) = true).
             { intros j y Hj Hy. destruct (Nat.eq_dec j k) as [->|]; [rewrite (holds_fun _ _ _ _ Hy Hh); auto|apply (H4 j); auto; lia]. }
             split.
             { apply dd_new_ok_snoc; auto; cbn [dd_id dd_col dd_end_idx dd_peak_idx]; [|lia|rewrite A; auto].
               exists p, v', k. cbn [dd_peak_idx dd_start_idx dd_valley_idx dd_end_idx dd_peak_val dd_valley_val dd_end_val dd_status].
               rewrite A. split; [reflexivity|]. split; [lia|]. split; [reflexivity|]. split; [reflexivity|]. split; [lia|].
               split; [exact C|]. split; [exact Hhv|]. split; [exact Hh|]. split; [exact D|].
               split; [exact H4|]. split; [exact HV1|]. split; [exact HV2|].
               split; [apply (H4' v'); auto|]. split; [exact El|exact Hlx]. }
             split.
             { intros i Hi Hu. left.
               destruct (Nat.eq_dec i k) as [->|].
               - eexists. split; [apply in_or_app; right; left; reflexivity|]. cbn [dd_peak_idx dd_end_idx dd_status]. split; [lia|]. right; auto.
               - destruct (Hcov i) as [Hc|Hp]; auto; [lia|apply covered_snoc; auto|].
                 eexists. split; [apply in_or_app; right; left; reflexivity|]. cbn [dd_peak_idx dd_end_idx dd_status].
                 rewrite A. split; [lia|]. left; lia. }
             right. right. right. auto.
          -- apply Nat.eqb_neq in El. exists new. cbn [ds_recs ds_started ds_peak_idx ds_peak_val ds_valley_idx ds_valley_val].
             split; auto. split; [lia|]. split; [apply dd_new_ok_mono; auto|]. split.
             { intros i Hi Hu. destruct (Nat.eq_dec i k) as [->|]; [right; split; auto; lia|].
               destruct (Hcov i) as [Hc|Hp]; auto; [lia|]. right. split; auto. lia. }
             right. right. left. split; auto. exists p, v'. split; [split; [|split; [|split]]; auto|]. split; auto. split.
             { intros j y Hj Hy. destruct (Nat.eq_dec j k) as [->|]; [rewrite (holds_fun _ _ _ _ Hy Hh); auto|apply (H4 j); auto; lia]. }
             split; auto. split; [lia|]. split; auto. split; auto. split.
             { intros j y Hj Hy. apply (HV2 j); auto. lia. }
             intros; lia.
      + lia.
  Qed.

  Lemma drawdowns_col_run : forall col ts recs0,
    exists new, drawdowns_col recs0 col ts = recs0 ++ new /\ dd_new_ok col ts (length recs0) (length ts) new /\
      ((exists y, holds ts (length ts - 1) y) -> forall i, under_water ts i -> dd_covered new i).
  Proof.
    intros col ts recs0. unfold drawdowns_col.
    set (s0 := mkDDS _ _ _ _ _ _).
    assert (H : dd_inv col ts recs0 (length ts) (fold_left (drawdown_step (length ts) col) (enumerate ts) s0)).
    { apply (fold_enum _ _ _ (dd_inv col ts recs0)).
      - exists []. rewrite app_nil_r. split; auto. split; [lia|]. split; [|split].
        + split; [intros [|j] r Hj; discriminate Hj|intros [|i] j a b Hij Ha; discriminate Ha].
        + intros; lia.
        + left. split; auto. split; auto. intros; lia.
      - intros. apply dd_step; auto. }
    destruct H as (new & -> & _ & HN & HC & HS). exists new. split; auto. split; auto.
    intros (y & Hy) i Hu. assert (Hl : i < length ts) by (destruct Hu as (x & _ & _ & [Hx _] & _); apply nth_error_Some; congruence).
    destruct (HC i Hl Hu) as [|[Ht _]]; auto.
    destruct HS as [(C & _)|[(C & _)|[(_ & p & v & _ & _ & _ & _ & _ & _ & _ & _ & HL)|(C & _)]]]; try congruence.
    destruct (HL eq_refl) as (z & Hz & Hn). destruct Hy as [Hy1 Hy2]. congruence.
  Qed.

  Lemma get_drawdowns_run : forall ts,
    let recs := get_drawdowns_nb ts in
    (forall j r, nth_error recs j = Some r -> dd_id r = j /\ exists c, nth_error ts (dd_col r) = Some c /\ is_drawdown c r) /\
    (forall i j a b, i < j -> nth_error recs i = Some a -> nth_error recs j = Some b ->
        dd_col a < dd_col b \/ (dd_col a = dd_col b /\ (dd_end_idx a <= dd_peak_idx b)%Z)) /\
    (forall col c i, nth_error ts col = Some c -> (exists y, holds c (length c - 1) y) -> under_water c i ->
        exists r, In r recs /\ dd_col r = col /\ (dd_peak_idx r < Z.of_nat i)%Z /\
          ((Z.of_nat i < dd_end_idx r)%Z \/ (dd_status r = Active /\ dd_end_idx r = Z.of_nat i))).
  Proof.
    intros ts recs.
    assert (H : (fun k recs => (forall j r, nth_error recs j = Some r -> dd_id r = j /\ dd_col r < k /\
                    exists c, nth_error ts (dd_col r) = Some c /\ is_drawdown c r) /\
      (forall i j a b, i < j -> nth_error recs i = Some a -> nth_error recs j = Some b ->
        dd_col a < dd_col b \/ (dd_col a = dd_col b /\ (dd_end_idx a <= dd_peak_idx b)%Z)) /\
      (forall col c i, col < k -> nth_error ts col = Some c -> (exists y, holds c (length c - 1) y) -> under_water c i ->
        exists r, In r recs /\ dd_col r = col /\ (dd_peak_idx r < Z.of_nat i)%Z /\
          ((Z.of_nat i < dd_end_idx r)%Z \/ (dd_status r = Active /\ dd_end_idx r = Z.of_nat i))))
      (length ts) recs).
    { unfold recs, get_drawdowns_nb. apply fold_enum.
      - split; [|split].
        + intros [|j] r H; discriminate H.
        + intros [|i] j a b Hij Ha; discriminate Ha.
        + intros; lia.
      - intros k rs c Hk (H1 & H2 & H3). destruct (drawdowns_col_run k c rs) as (new & -> & (A & B) & C).
        assert (Happ : forall j r, nth_error (rs ++ new) j = Some r ->
            (j < length rs /\ nth_error rs j = Some r) \/ (length rs <= j /\ nth_error new (j - length rs) = Some r)).
        { intros j r Hj. destruct (lt_dec j (length rs)); [left; rewrite nth_error_app1 in Hj by auto; auto|
            right; rewrite nth_error_app2 in Hj by lia; split; auto; lia]. }
        split; [|split].
        + intros j r Hj. apply Happ in Hj as [[Hl Hj]|[Hl Hj]].
          * destruct (H1 _ _ Hj) as (X & Y & Z). split; auto.
          * destruct (A _ _ Hj) as (X & Y & Z & _). split; [lia|]. split; [lia|]. exists c. subst k. auto.
        + intros i j a b Hij Ha Hb. apply Happ in Ha as [[Hl Ha]|[Hl Ha]]; apply Happ in Hb as [[Hm Hb]|[Hm Hb]].
          * eauto.
          * left. destruct (H1 _ _ Ha) as (_ & Y & _). destruct (A _ _ Hb) as (_ & Y' & _). lia.
          * lia.
          * right. destruct (A _ _ Ha) as (_ & Y & _). destruct (A _ _ Hb) as (_ & Y' & _). split; [congruence|].
            eapply B; [|exact Ha|exact Hb]. lia.
        + intros col c' i Hcol Hc' Hlast Hu. destruct (Nat.eq_dec col k) as [->|Hne].
          * rewrite Hk in Hc'. injection Hc' as <-. destruct (C Hlast i Hu) as (r & Hin & Hir). exists r. split; [apply in_or_app; auto|].
            apply In_nth_error in Hin as (j & Hj). destruct (A _ _ Hj) as (_ & Y & _). auto.
          * destruct (H3 col c' i) as (r & Hin & Hr); auto; [lia|]. exists r. split; auto. apply in_or_app; auto. }
    destruct H as (H1 & H2 & H3). split; [|split]; auto.
    - intros j r Hj. destruct (H1 _ _ Hj) as (X & Y & Z). auto.
    - intros col c i Hc. apply H3; auto. apply nth_error_Some. congruence.
  Qed.
End Drawdowns.
