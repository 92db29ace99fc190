(** * Lemmas about ranges *)
From Coq Require Import ZArith Bool List Arith Lia Sorting.
From Verif Require Import Base Num GenericNb XQFacts GenericSpec GenericLemmas.
Import ListNotations.
Local Open Scope nat_scope.

Lemma enumerate_nth : forall A (l : list A) k, nth_error (enumerate l) k = match nth_error l k with Some x => Some (k, x) | None => None end.
Proof.
  intros A l. unfold enumerate.
  assert (E : forall (l : list A) n k, nth_error (combine (seq n (length l)) l) k = match nth_error l k with Some x => Some (n + k, x) | None => None end).
  { induction l0 as [|x l0 IH]; intros n [|k]; cbn [length seq combine nth_error]; auto.
    - rewrite Nat.add_0_r; auto.
    - rewrite IH. destruct (nth_error l0 k); auto. do 2 f_equal. lia. }
  intros k. rewrite E. reflexivity.
Qed.
Lemma enumerate_length : forall A (l : list A), length (enumerate l) = length l.
Proof. intros. unfold enumerate. rewrite combine_length, seq_length. lia. Qed.

Lemma fold_enum : forall A S (f : S -> nat * A -> S) (P : nat -> S -> Prop) (l : list A) s,
  P 0 s -> (forall k s x, nth_error l k = Some x -> P k s -> P (Datatypes.S k) (f s (k, x))) ->
  P (length l) (fold_left f (enumerate l) s).
Proof.
  intros A S f P l s H0 Hs. unfold enumerate.
  assert (E : forall l' n s, (forall k x, nth_error l' k = Some x -> nth_error l (n + k) = Some x) -> P n s ->
     P (n + length l') (fold_left f (combine (seq n (length l')) l') s)).
  { induction l' as [|x l' IH]; intros n s' Hn Hp; cbn [length seq combine fold_left].
    - rewrite Nat.add_0_r; auto.
    - replace (n + Datatypes.S (length l')) with (Datatypes.S n + length l') by lia. apply IH.
      + intros k y Hy. replace (Datatypes.S n + k) with (n + Datatypes.S k) by lia. apply Hn. auto.
      + apply Hs; auto. replace n with (n + 0) by lia. apply Hn. reflexivity. }
  apply (E l 0 s); auto.
Qed.

Lemma nth_error_snoc : forall A (l : list A) x k y, nth_error (l ++ [x]) k = Some y ->
  (k < length l /\ nth_error l k = Some y) \/ (k = length l /\ y = x).
Proof.
  intros A l x k y H. destruct (lt_dec k (length l)).
  - left. rewrite nth_error_app1 in H by auto. auto.
  - right. rewrite nth_error_app2 in H by lia. destruct (k - length l) as [|m] eqn:E; cbn in H.
    + injection H as <-. split; auto; lia.
    + destruct m; discriminate.
Qed.

Lemma iter_swap' : forall B (g : B -> B) n b, Nat.iter n g (g b) = Nat.iter (S n) g b.
Proof. intros B g n b. induction n; [reflexivity|]. cbn [Nat.iter nat_rect] in *. unfold Nat.iter in *. cbn [nat_rect] in *. f_equal. exact IHn. Qed.

Section Ranges.
  Context {T : Type} {N : Num T}.
  Variable gap : T.

  Lemma filled_dec : forall (ts : list T) i, filled gap ts i \/ ~ filled gap ts i.
  Proof.
    intros ts i. destruct (nth_error ts i) as [x|] eqn:E.
    - destruct (is_gap gap x) eqn:G.
      + right. intros (y & Ey & Gy). rewrite E in Ey. injection Ey as <-. congruence.
      + left. exists x. auto.
    - right. intros (y & Ey & _). congruence.
  Qed.

  Lemma in_range_run : forall ts r i, maximal_run gap ts r -> in_range r i = true -> filled gap ts i.
  Proof.
    intros ts r i (s & e & Es & He & Hf & _ & Hst) H. unfold in_range in H. apply andb_prop in H as [H1 H2].
    apply Z.leb_le in H1. apply Hf. destruct (rg_status r); apply Z.ltb_lt in H2; lia.
  Qed.

  Definition col_inv (col : nat) (ts : list T) (recs0 : list RangeRec) (k : nat) (s : bool * Z * list RangeRec) : Prop :=
    let '(started, start, recs) := s in
    exists new, recs = recs0 ++ new /\ k <= length ts /\
      (forall j r, nth_error new j = Some r -> rg_id r = length recs0 + j /\ rg_col r = col /\ maximal_run gap ts r /\
          (rg_end r < Z.of_nat k)%Z) /\
      (forall i j a b, i < j -> nth_error new i = Some a -> nth_error new j = Some b -> (rg_end a < rg_start b)%Z) /\
      (forall i, i < k -> filled gap ts i -> (exists r, In r new /\ in_range r i = true) \/ (started = true /\ (start <= Z.of_nat i)%Z)) /\
      (if started then exists s0, start = Z.of_nat s0 /\ s0 < k < length ts /\ (forall i, s0 <= i < k -> filled gap ts i) /\
           (s0 = 0 \/ ~ filled gap ts (s0 - 1)) /\ (forall r, In r new -> (rg_end r < start)%Z)
       else k = 0 \/ k = length ts \/ ~ filled gap ts (k - 1)).

  Lemma col_step : forall col ts recs0 k s x, nth_error ts k = Some x ->
    col_inv col ts recs0 k s -> col_inv col ts recs0 (S k) (find_ranges_step gap (length ts) col s (k, x)).
  Proof.
    intros col ts recs0 k [[started start] recs] x Hx (new & -> & Hk & Hr & Ho & Hc & Hs).
    assert (Hlt : k < length ts) by (apply nth_error_Some; congruence).
    unfold find_ranges_step. destruct (is_gap gap x) eqn:G.
    - assert (Hnf : ~ filled gap ts k).
      { intros (y & Ey & Gy). rewrite Hx in Ey. injection Ey as <-. congruence. }
      destruct started.
      + destruct Hs as (s0 & -> & Hs0 & Hf & Hst & Hen).
        eexists (new ++ [_]). rewrite app_assoc. split; [reflexivity|]. split; [lia|].
        split; [|split; [|split]].
        * intros j r Hj. apply nth_error_snoc in Hj as [[Hj Hj']|[Hj ->]].
          -- destruct (Hr _ _ Hj') as (A & B & C & D). split; [|split; [|split]]; auto. lia.
          -- cbn [rg_id rg_col rg_end rg_start]. rewrite app_length. split; [lia|]. split; auto. split; [|lia].
             exists s0, k. cbn [rg_start rg_status rg_end]. split; [reflexivity|]. split; [lia|]. split; [exact Hf|]. split; [exact Hst|]. split; [reflexivity|]. split; [lia|exact Hnf].
        * intros i j a b Hij Ha Hb. apply nth_error_snoc in Hb as [[Hb Hb']|[Hb ->]].
          -- apply nth_error_snoc in Ha as [[Ha Ha']|[Ha ->]]; [exact (Ho _ _ _ _ Hij Ha' Hb')|lia].
          -- apply nth_error_snoc in Ha as [[Ha Ha']|[Ha ->]]; [|lia]. cbn [rg_start]. apply Hen. eapply nth_error_In; eauto.
        * intros i Hi Hfi. left. destruct (Nat.eq_dec i k) as [->|Hik]; [contradiction|].
          destruct (Hc i) as [(r & Hin & Hir)|[_ Hge]]; auto; [lia| |].
          -- exists r. split; auto. apply in_or_app; auto.
          -- eexists. split; [apply in_or_app; right; left; reflexivity|]. unfold in_range. cbn [rg_start rg_status rg_end].
             apply andb_true_intro. split; [apply Z.leb_le; auto|apply Z.ltb_lt; lia].
        * cbn [andb]. right. right. replace (S k - 1) with k by lia. auto.
      + exists new. split; auto. split; [lia|]. split; [|split; [|split]]; auto.
        * intros j r Hj. destruct (Hr _ _ Hj) as (A & B & C & D). split; [|split; [|split]]; auto. lia.
        * intros i Hi Hfi. destruct (Nat.eq_dec i k) as [->|Hik]; [contradiction|]. apply Hc; auto. lia.
        * right. right. replace (S k - 1) with k by lia. auto.
    - assert (Hfk : filled gap ts k) by (exists x; auto).
      set (start' := if started then start else Z.of_nat k).
      assert (HS : exists s0, start' = Z.of_nat s0 /\ s0 <= k /\ (forall i, s0 <= i <= k -> filled gap ts i) /\
           (s0 = 0 \/ ~ filled gap ts (s0 - 1)) /\ (forall r, In r new -> (rg_end r < start')%Z) /\
           (started = true -> start' = start)).
      { unfold start'. destruct started.
        - destruct Hs as (s0 & -> & Hs0 & Hf & Hst & Hen). exists s0. split; auto. split; [lia|]. split.
          + intros i Hi. destruct (Nat.eq_dec i k) as [->|]; auto. apply Hf. lia.
          + auto.
        - exists k. split; auto. split; auto. split; [|split; [|split]].
          + intros i Hi. replace i with k by lia. auto.
          + destruct Hs as [->|[->|Hs]]; auto. lia.
          + intros r Hin. apply In_nth_error in Hin as (j & Hj). destruct (Hr _ _ Hj) as (_ & _ & _ & D). auto.
          + discriminate. }
      clearbody start'. destruct HS as (s0 & -> & Hs0 & Hf & Hst & Hen & Hss).
      destruct (Nat.eqb (S k) (length ts)) eqn:El.
      + apply Nat.eqb_eq in El. eexists (new ++ [_]). rewrite app_assoc. split; [reflexivity|]. split; [lia|].
        split; [|split; [|split]].
        * intros j r Hj. apply nth_error_snoc in Hj as [[Hj Hj']|[Hj ->]].
          -- destruct (Hr _ _ Hj') as (A & B & C & D). split; [|split; [|split]]; auto. lia.
          -- cbn [rg_id rg_col rg_end rg_start]. rewrite app_length. split; [lia|]. split; auto. split; [|lia].
             exists s0, (S k). cbn [rg_start rg_status rg_end]. split; auto. split; [lia|]. split; [intros i Hi; apply Hf; lia|].
             split; auto. split; lia.
        * intros i j a b Hij Ha Hb. apply nth_error_snoc in Hb as [[Hb Hb']|[Hb ->]].
          -- apply nth_error_snoc in Ha as [[Ha Ha']|[Ha ->]]; [exact (Ho _ _ _ _ Hij Ha' Hb')|lia].
          -- apply nth_error_snoc in Ha as [[Ha Ha']|[Ha ->]]; [|lia]. cbn [rg_start]. apply Hen. eapply nth_error_In; eauto.
        * intros i Hi Hfi. left. 
          assert (HD : (exists r, In r new /\ in_range r i = true) \/ s0 <= i).
          { destruct (le_lt_dec s0 i) as [|Hl]; auto. left. destruct (Hc i) as [Hx'|[Ht Hge]]; auto; [lia|].
            specialize (Hss Ht). lia. }
          destruct HD as [(r & Hin & Hir)|Hge].
          -- exists r. split; auto. apply in_or_app; auto.
          -- eexists. split; [apply in_or_app; right; left; reflexivity|]. unfold in_range. cbn [rg_start rg_status rg_end].
             apply andb_true_intro. split; [apply Z.leb_le; lia|apply Z.ltb_lt; lia].
        * right. left. auto.
      + apply Nat.eqb_neq in El. exists new. split; auto. split; [lia|]. split; [|split; [|split]]; auto.
        * intros j r Hj. destruct (Hr _ _ Hj) as (A & B & C & D). split; [|split; [|split]]; auto. lia.
        * intros i Hi Hfi. destruct (le_lt_dec s0 i) as [|Hl]; [right; split; auto; lia|].
          left. destruct (Hc i) as [Hx'|[Ht Hge]]; auto; [lia|]. specialize (Hss Ht). lia.
        * exists s0. split; auto. split; [lia|]. split; [intros i Hi; apply Hf; lia|]. auto.
  Qed.

  Lemma find_ranges_col_run : forall col ts recs0,
    exists new, find_ranges_col gap recs0 col ts = recs0 ++ new /\
      (forall j r, nth_error new j = Some r -> rg_id r = length recs0 + j /\ rg_col r = col /\ maximal_run gap ts r) /\
      (forall i j a b, i < j -> nth_error new i = Some a -> nth_error new j = Some b -> (rg_end a < rg_start b)%Z) /\
      (forall i, filled gap ts i -> exists r, In r new /\ in_range r i = true).
  Proof.
    intros col ts recs0. unfold find_ranges_col.
    assert (H : col_inv col ts recs0 (length ts)
       (fold_left (find_ranges_step gap (length ts) col) (enumerate ts) (false, (-1)%Z, recs0))).
    { apply (fold_enum _ _ _ (col_inv col ts recs0)).
      - exists []. rewrite app_nil_r. split; auto. split; [lia|]. split; [|split; [|split]].
        + intros [|j] r H; discriminate H.
        + intros [|i] j a b Hij Ha; discriminate Ha.
        + intros; lia.
        + auto.
      - intros. apply col_step; auto. }
    destruct (fold_left _ _ _) as [[started start] recs]. cbn [snd]. destruct H as (new & -> & _ & Hr & Ho & Hc & Hs).
    exists new. split; auto. split; [|split]; auto.
    - intros j r Hj. destruct (Hr _ _ Hj) as (A & B & C & D). auto.
    - intros i Hi. assert (Hl : i < length ts) by (destruct Hi as (x & Hx & _); apply nth_error_Some; congruence).
      destruct (Hc i Hl Hi) as [|[-> _]]; auto. destruct Hs as (s0 & _ & Hs0 & _). lia.
  Qed.

  Lemma find_ranges_run : forall ts,
    let recs := find_ranges_nb gap ts in
    (forall j r, nth_error recs j = Some r -> rg_id r = j /\ exists c, nth_error ts (rg_col r) = Some c /\ maximal_run gap c r) /\
    (forall i j a b, i < j -> nth_error recs i = Some a -> nth_error recs j = Some b ->
        rg_col a < rg_col b \/ (rg_col a = rg_col b /\ (rg_end a < rg_start b)%Z)) /\
    (forall col c i, nth_error ts col = Some c -> filled gap c i -> exists r, In r recs /\ rg_col r = col /\ in_range r i = true).
  Proof.
    intros ts recs.
    assert (H : (fun k recs => (forall j r, nth_error recs j = Some r -> rg_id r = j /\ rg_col r < k /\
                    exists c, nth_error ts (rg_col r) = Some c /\ maximal_run gap c r) /\
      (forall i j a b, i < j -> nth_error recs i = Some a -> nth_error recs j = Some b ->
        rg_col a < rg_col b \/ (rg_col a = rg_col b /\ (rg_end a < rg_start b)%Z)) /\
      (forall col c i, col < k -> nth_error ts col = Some c -> filled gap c i -> exists r, In r recs /\ rg_col r = col /\ in_range r i = true))
      (length ts) recs).
    { unfold recs, find_ranges_nb. apply fold_enum.
      - split; [|split].
        + intros [|j] r H; discriminate H.
        + intros [|i] j a b Hij Ha; discriminate Ha.
        + intros; lia.
      - intros k rs c Hk (H1 & H2 & H3). destruct (find_ranges_col_run k c rs) as (new & -> & A & B & C).
        assert (Happ : forall j r, nth_error (rs ++ new) j = Some r ->
            (j < length rs /\ nth_error rs j = Some r) \/ (length rs <= j /\ nth_error new (j - length rs) = Some r)).
        { intros j r Hj. destruct (lt_dec j (length rs)); [left; rewrite nth_error_app1 in Hj by auto; auto|
            right; rewrite nth_error_app2 in Hj by lia; split; auto; lia]. }
        split; [|split].
        + intros j r Hj. apply Happ in Hj as [[Hl Hj]|[Hl Hj]].
          * destruct (H1 _ _ Hj) as (X & Y & Z). split; auto.
          * destruct (A _ _ Hj) as (X & Y & Z). split; [lia|]. split; [lia|]. exists c. subst k. auto.
        + intros i j a b Hij Ha Hb. apply Happ in Ha as [[Hl Ha]|[Hl Ha]]; apply Happ in Hb as [[Hm Hb]|[Hm Hb]].
          * eauto.
          * left. destruct (H1 _ _ Ha) as (_ & Y & _). destruct (A _ _ Hb) as (_ & Y' & _). lia.
          * lia.
          * right. destruct (A _ _ Ha) as (_ & Y & _). destruct (A _ _ Hb) as (_ & Y' & _). split; [congruence|].
            eapply B; [|exact Ha|exact Hb]. lia.
        + intros col c' i Hcol Hc' Hf. destruct (Nat.eq_dec col k) as [->|Hne].
          * rewrite Hk in Hc'. injection Hc' as <-. destruct (C i Hf) as (r & Hin & Hir). exists r. split; [apply in_or_app; auto|].
            apply In_nth_error in Hin as (j & Hj). destruct (A _ _ Hj) as (_ & Y & _). auto.
          * destruct (H3 col c' i) as (r & Hin & Hr); auto; [lia|]. exists r. split; auto. apply in_or_app; auto. }
    destruct H as (H1 & H2 & H3). split; [|split]; auto.
    - intros j r Hj. destruct (H1 _ _ Hj) as (X & Y & Z). auto.
    - intros col c i Hc. apply H3; auto. apply nth_error_Some. congruence.
  Qed.

  Lemma duration_run : forall ts r, maximal_run gap ts r ->
    range_duration_nb r = Z.of_nat (length (filter (in_range r) (seq 0 (length ts)))).
  Proof.
    intros ts r (s & e & Es & He & _ & _ & Hst).
    assert (E : forall n, length (filter (in_range r) (seq 0 n)) = Nat.min n e - Nat.min n s).
    { induction n as [|n IH]; [reflexivity|]. rewrite seq_S, filter_app, app_length, IH. cbn [Nat.add filter].
      assert (Ei : in_range r n = Nat.leb s n && Nat.ltb n e).
      { unfold in_range. rewrite Es. f_equal.
        - destruct (Nat.leb s n) eqn:E; [apply Nat.leb_le in E; apply Z.leb_le|apply Nat.leb_gt in E; apply Z.leb_gt]; lia.
        - destruct (rg_status r); destruct Hst as [-> _]; destruct (Nat.ltb n e) eqn:E;
            [apply Nat.ltb_lt in E; apply Z.ltb_lt|apply Nat.ltb_ge in E; apply Z.ltb_ge|
             apply Nat.ltb_lt in E; apply Z.ltb_lt|apply Nat.ltb_ge in E; apply Z.ltb_ge]; lia. }
      rewrite Ei. destruct (Nat.leb_spec s n); destruct (Nat.ltb_spec n e); cbn [andb length]; lia. }
    rewrite E. unfold range_duration_nb. destruct (rg_status r); destruct Hst as [-> Hst]; lia.
  Qed.

  (** Painting records over bars *)
  Lemma paint_spec : forall B (g : B -> B) recs (out : list B) i,
    nth_error (fold_left (fun out r => map (fun '(i, b) => if in_range r i then g b else b) (enumerate out)) recs out) i =
    option_map (fun b => Nat.iter (length (filter (fun r => in_range r i) recs)) g b) (nth_error out i).
  Proof.
    intros B g recs. induction recs as [|r recs IH]; intros out i; cbn [fold_left filter].
    - destruct (nth_error out i); reflexivity.
    - rewrite IH. rewrite nth_error_map, enumerate_nth. destruct (nth_error out i) as [b|]; cbn [option_map]; auto.
      f_equal. destruct (in_range r i); cbn [length]; auto. apply iter_swap'.
  Qed.
  Lemma paint_length : forall B (g : B -> B) recs (out : list B),
    length (fold_left (fun out r => map (fun '(i, b) => if in_range r i then g b else b) (enumerate out)) recs out) = length out.
  Proof.
    intros B g recs. induction recs as [|r recs IH]; intros out; cbn [fold_left]; auto.
    rewrite IH, map_length, enumerate_length. auto.
  Qed.
End Ranges.

Section Ranges2.
  Context {T : Type} {N : Num T}.
  Variable gap : T.

  Lemma nth_error_repeat' : forall A (x : A) n i, nth_error (repeat x n) i = if Nat.ltb i n then Some x else None.
  Proof.
    intros A x n. induction n as [|n IH]; intros [|i]; cbn [repeat nth_error]; auto. rewrite IH. reflexivity.
  Qed.

  Lemma nth_error_ext' : forall A (l l' : list A), (forall i, nth_error l i = nth_error l' i) -> l = l'.
  Proof.
    intros A l. induction l as [|x l IH]; intros [|y l'] H; auto; try (specialize (H 0); discriminate).
    f_equal; [specialize (H 0); injection H; auto|]. apply IH. intros i. apply (H (S i)).
  Qed.

  Lemma mask_run : forall ts col c, nth_error ts col = Some c ->
    ranges_to_mask_nb (of_column col (find_ranges_nb gap ts)) (length c) = map (fun x => negb (is_gap gap x)) c.
  Proof.
    intros ts col c Hc. destruct (find_ranges_run gap ts) as (H1 & _ & H3).
    apply nth_error_ext'. intros i. unfold ranges_to_mask_nb.
    rewrite (paint_spec _ (fun _ => true)), nth_error_repeat', nth_error_map.
    destruct (Nat.ltb i (length c)) eqn:El.
    2:{ apply Nat.ltb_ge in El. rewrite (proj2 (nth_error_None _ _)) by auto. reflexivity. }
    apply Nat.ltb_lt in El. destruct (nth_error c i) as [x|] eqn:Ex; [|apply nth_error_None in Ex; lia].
    cbn [option_map]. f_equal. destruct (is_gap gap x) eqn:G; cbn [negb].
    - replace (filter _ _) with (@nil RangeRec); [reflexivity|]. symmetry.
      destruct (filter _ _) as [|r l] eqn:F; auto. exfalso.
      assert (Hin : In r (filter (fun r => in_range r i) (of_column col (find_ranges_nb gap ts)))) by (rewrite F; left; auto).
      apply filter_In in Hin as [Hin Hir]. apply filter_In in Hin as [Hin Hcol]. apply Nat.eqb_eq in Hcol.
      apply In_nth_error in Hin as (j & Hj). destruct (H1 _ _ Hj) as (_ & c' & Hc' & Hm). rewrite Hcol, Hc in Hc'. injection Hc' as <-.
      destruct (in_range_run gap _ _ _ Hm Hir) as (y & Ey & Gy). rewrite Ex in Ey. injection Ey as <-. congruence.
    - destruct (H3 col c i Hc) as (r & Hin & Hcol & Hir); [exists x; auto|].
      assert (Hin' : In r (filter (fun r => in_range r i) (of_column col (find_ranges_nb gap ts)))).
      { apply filter_In. split; auto. apply filter_In. split; auto. apply Nat.eqb_eq; auto. }
      destruct (filter _ _) as [|r' l]; [destruct Hin'|]. reflexivity.
  Qed.

  (** No bar is drawn twice *)
  Lemma once : forall ts col c i, nth_error ts col = Some c ->
    length (filter (fun r => in_range r i) (of_column col (find_ranges_nb gap ts))) <= 1.
  Proof.
    intros ts col c i Hc. destruct (find_ranges_run gap ts) as (H1 & H2 & _).
    assert (G : forall recs, 
        (forall j r, nth_error recs j = Some r -> rg_col r = col -> maximal_run gap c r) ->
        (forall k j a b, k < j -> nth_error recs k = Some a -> nth_error recs j = Some b ->
        rg_col a < rg_col b \/ (rg_col a = rg_col b /\ (rg_end a < rg_start b)%Z)) ->
        length (filter (fun r => in_range r i) (of_column col recs)) <= 1).
    { induction recs as [|r recs IH]; intros HA HB; [cbn; lia|]. unfold of_column. cbn [filter].
      assert (HI : length (filter (fun r => in_range r i) (of_column col recs)) <= 1).
      { apply IH.
        - intros j r' Hj. apply (HA (S j)); auto.
        - intros k j a b Hkj Ha Hb. apply (HB (S k) (S j)); auto. lia. }
      destruct (Nat.eqb (rg_col r) col) eqn:Ec; [|exact HI]. cbn [filter]. destruct (in_range r i) eqn:Er; [|exact HI].
      apply Nat.eqb_eq in Ec. cbn [length]. fold (of_column col recs).
      destruct (filter _ (of_column col recs)) as [|r2 l] eqn:F; [cbn; lia|exfalso].
      assert (Hin : In r2 (filter (fun r => in_range r i) (of_column col recs))) by (rewrite F; left; auto).
      apply filter_In in Hin as [Hin Hir]. apply filter_In in Hin as [Hin Hcol]. apply Nat.eqb_eq in Hcol.
      apply In_nth_error in Hin as (j & Hj).
      destruct (HB 0 (S j) r r2) as [X|[_ X]]; auto; [lia|lia|].
      unfold in_range in Er, Hir. apply andb_prop in Er as [E1 E2]. apply andb_prop in Hir as [E3 E4].
      apply Z.leb_le in E1, E3. destruct (rg_status r); apply Z.ltb_lt in E2; lia. }
    apply G.
    - intros j r Hj Hcol. destruct (H1 _ _ Hj) as (_ & c' & Hc' & Hm). rewrite Hcol, Hc in Hc'. injection Hc' as <-. auto.
    - exact H2.
  Qed.

  Lemma filter_count : forall A B (f : A -> bool) (g : B -> bool) (l : list A) (l' : list B),
    length l = length l' -> (forall i x y, nth_error l i = Some x -> nth_error l' i = Some y -> f x = g y) ->
    length (filter f l) = length (filter g l').
  Proof.
    intros A B f g l. induction l as [|x l IH]; intros [|y l'] HL H; try discriminate; auto. cbn [filter].
    rewrite (H 0 x y) by reflexivity. assert (E : length (filter f l) = length (filter g l')).
    { apply IH; [injection HL; auto|]. intros i. apply (H (S i)). }
    destruct (g y); cbn [length]; auto.
  Qed.

  Lemma coverage_run : forall ts col c, nth_error ts col = Some c ->
    range_coverage_nb (of_column col (find_ranges_nb gap ts)) (length c) false =
      length (filter (fun x => negb (is_gap gap x)) c) /\
    range_coverage_nb (of_column col (find_ranges_nb gap ts)) (length c) true = 0.
  Proof.
    intros ts col c Hc. pose proof (mask_run ts col c Hc) as HM.
    assert (Hk : forall i, i < length c ->
       nth_error (fold_left (fun out r => map (fun '(i, k) => if in_range r i then Datatypes.S k else k) (enumerate out))
                  (of_column col (find_ranges_nb gap ts)) (repeat 0 (length c))) i =
       Some (length (filter (fun r => in_range r i) (of_column col (find_ranges_nb gap ts))))).
    { intros i Hi. rewrite (paint_spec _ S), nth_error_repeat'. replace (Nat.ltb i (length c)) with true by (symmetry; apply Nat.ltb_lt; auto).
      cbn [option_map]. f_equal. generalize (length (filter (fun r => in_range r i) (of_column col (find_ranges_nb gap ts)))).
      induction n; cbn; auto. }
    unfold range_coverage_nb. split.
    - apply filter_count; [rewrite (paint_length _ S), repeat_length; auto|].
      intros i k x Hi Hx. assert (Hl : i < length c) by (apply nth_error_Some; congruence). rewrite (Hk i Hl) in Hi. injection Hi as <-.
      assert (E : nth_error (ranges_to_mask_nb (of_column col (find_ranges_nb gap ts)) (length c)) i = Some (negb (is_gap gap x))).
      { rewrite HM, nth_error_map, Hx. reflexivity. }
      unfold ranges_to_mask_nb in E. rewrite (paint_spec _ (fun _ => true)), nth_error_repeat' in E.
      replace (Nat.ltb i (length c)) with true in E by (symmetry; apply Nat.ltb_lt; auto). cbn [option_map] in E. injection E as <-.
      destruct (length (filter _ _)); reflexivity.
    - match goal with |- length (filter _ ?l) = 0 => assert (F : filter (fun k => Nat.ltb 1 k) l = []) end.
      { destruct (filter _ _) as [|k l] eqn:F; auto. exfalso.
        assert (Hin : In k (k :: l)) by (left; auto). rewrite <- F in Hin. apply filter_In in Hin as [Hin Hlt].
        apply Nat.ltb_lt in Hlt. apply In_nth_error in Hin as (i & Hi).
        assert (Hl : i < length c).
        { rewrite <- (repeat_length 0 (length c)), <- (paint_length _ S (of_column col (find_ranges_nb gap ts))). apply nth_error_Some. congruence. }
        rewrite (Hk i Hl) in Hi. injection Hi as <-. pose proof (once ts col c i Hc). lia. }
      rewrite F. reflexivity.
  Qed.
End Ranges2.
