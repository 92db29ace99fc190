(** * Lemmas on reducers that look for the best value *)
From Coq Require Import ZArith Bool List Arith Lia.
From Verif Require Import Base Num OrdLaws GenericNb Reduce ReduceSpec ReduceLemmas ReduceLemmas2.
Import ListNotations.

Section ArgBest.
  Context {T : Type} {N : Num T}.
  Variable better : T -> T -> bool.
  Hypothesis b_asym : forall a b, better a b = true -> better b a = false.
  Hypothesis b_trans : forall a b c, better a b = true -> better b c = true -> better a c = true.
  Hypothesis b_neg : forall a b c, isnan b = false -> better a b = false -> better b c = false -> better a c = false.

  Lemma b_irrefl : forall a, better a a = false.
  Proof. intros a. destruct (better a a) eqn:E; auto. rewrite <- E. apply b_asym in E. auto. Qed.

  Definition arg_inv (l : list T) (j : nat) (s : nat * T) : Prop :=
    fst s < j /\ snd s = nth (fst s) l nan /\
    forall q, q < j -> better (nth q l nan) (snd s) = false /\ (q < fst s -> better (snd s) (nth q l nan) = true).

  Lemma arg_fold : forall l, (forall x, In x l -> isnan x = false) ->
    forall k j s, j + k = length l -> arg_inv l j s ->
    arg_inv l (length l) (fold_left (arg_step better) (combine (seq j k) (skipn j l)) s).
  Proof.
    intros l Hn. induction k as [|k IH]; intros j s Hj Hs.
    - cbn. replace (length l) with j by lia. auto.
    - assert (Hlt : j < length l) by lia.
      assert (E : skipn j l = nth j l nan :: skipn (S j) l).
      { clear - Hlt. revert l Hlt. induction j; intros [|x l] H; cbn in *; try lia; auto. apply IHj. lia. }
      rewrite E. cbn [seq combine fold_left]. apply IH; [lia|].
      destruct Hs as (H1 & H2 & H3). unfold arg_step. cbn [snd].
      destruct (better (nth j l nan) (snd s)) eqn:B.
      + split; [|split]; cbn [fst snd]; auto. intros q Hq.
        assert (C : q = j \/ q < j) by lia. destruct C as [->|C].
        * split; [apply b_irrefl|]. intros; lia.
        * destruct (H3 q C) as [Q1 Q2]. split.
          -- destruct (better (nth q l nan) (nth j l nan)) eqn:D; auto.
             rewrite (b_trans _ _ _ D B) in Q1. discriminate.
          -- intros _. destruct (better (nth j l nan) (nth q l nan)) eqn:D; auto.
             rewrite (b_neg _ (nth q l nan) (snd s)) in B; try discriminate; auto. apply Hn. apply nth_In. lia.
      + split; [|split]; auto. intros q Hq. assert (C : q = j \/ q < j) by lia. destruct C as [->|C].
        * split; auto. intros; lia.
        * apply H3; auto.
  Qed.

  Lemma arg_best_spec : forall l, (forall x, In x l -> isnan x = false) -> l <> [] ->
    arg_best better l < length l /\
    forall q, q < length l -> better (nth q l nan) (nth (arg_best better l) l nan) = false /\
      (q < arg_best better l -> better (nth (arg_best better l) l nan) (nth q l nan) = true).
  Proof.
    intros l Hn Hl. destruct l as [|x l]; [congruence|]. unfold arg_best.
    pose proof (arg_fold (x :: l) Hn (length l) 1 (0, x)) as H. cbn [skipn] in H.
    destruct H as (H1 & H2 & H3); [cbn; lia| |].
    - split; [|split]; cbn [fst snd]; auto. intros q Hq. replace q with 0 by lia. split; [apply b_irrefl|]. intros; lia.
    - split; auto. rewrite H2 in H3. auto.
  Qed.

  (** With NaN replaced by a value that nothing is worse than *)
  Variable worst : T.
  Hypothesis w_num : isnan worst = false.
  Hypothesis nan_r : forall a b, isnan b = true -> better a b = false.
  Hypothesis nan_l : forall a b, isnan a = true -> better a b = false.
  Let fill (x : T) : T := if isnan x then worst else x.

  Lemma arg_best_missing : forall l, (exists q, q < length l /\ better (nth q l nan) worst = true) ->
    let p := arg_best better (map fill l) in
    p < length l /\ isnan (nth p l nan) = false /\
    forall q, q < length l -> better (nth q l nan) (nth p l nan) = false /\
      (q < p -> isnan (nth q l nan) = true \/ better (nth p l nan) (nth q l nan) = true).
  Proof.
    intros l (q0 & Hq0 & Hb) p.
    assert (Hne : map fill l <> []) by (destruct l; cbn in *; [lia|discriminate]).
    assert (Hnum : forall x, In x (map fill l) -> isnan x = false).
    { intros x Hx. apply in_map_iff in Hx as (y & <- & _). unfold fill. destruct (isnan y) eqn:E; auto. }
    destruct (arg_best_spec _ Hnum Hne) as [HP HQ]. fold p in HP, HQ. rewrite map_length in HP, HQ.
    assert (F : forall q, q < length l -> nth q (map fill l) nan = fill (nth q l nan)) by (intros; apply nth_map; auto).
    assert (P0 : isnan (nth p l nan) = false).
    { destruct (isnan (nth p l nan)) eqn:E; auto. destruct (HQ q0 Hq0) as [Q _]. rewrite !F in Q by auto. unfold fill in Q. rewrite E in Q.
      destruct (isnan (nth q0 l nan)) eqn:E0; [rewrite nan_l in Hb; congruence|congruence]. }
    split; auto. split; auto. intros q Hq. destruct (HQ q Hq) as [Q1 Q2]. rewrite !F in Q1, Q2 by auto. unfold fill in Q1, Q2. rewrite P0 in Q1, Q2.
    destruct (isnan (nth q l nan)) eqn:Eq.
    - split; auto.
    - split; auto.
  Qed.
End ArgBest.

Section Idx.
  Context {T : Type} {N : Num T} {L : OrdLaws N}.

  Lemma gtb_asym : forall a b : T, gtb a b = true -> gtb b a = false.
  Proof. unfold gtb. intros a b. apply ol_asym. Qed.
  Lemma gtb_trans : forall a b c : T, gtb a b = true -> gtb b c = true -> gtb a c = true.
  Proof. unfold gtb. intros a b c H1 H2. eapply ltb_trans; eauto. Qed.
  Lemma gtb_neg : forall a b c : T, isnan b = false -> gtb a b = false -> gtb b c = false -> gtb a c = false.
  Proof. unfold gtb. intros a b c H H1 H2. apply (ol_negtrans c b a); auto. Qed.

  Lemma all_nan_none : forall l : list T, forallb isnan l = false -> exists q, q < length l /\ isnan (nth q l nan) = false.
  Proof.
    intros l H. induction l as [|x l IH]; cbn in H; [discriminate|]. destruct (isnan x) eqn:E.
    - destruct IH as (q & Hq & Eq); auto. exists (S q). cbn. split; [lia|auto].
    - exists 0. cbn. split; [lia|auto].
  Qed.

  (** A reducer that finds the first best number if one is better than [limit], and
      refuses only lists without numbers *)
  Definition finds_first_best (better : T -> T -> bool) (limit : T) (reducer : nat -> list T -> res nat) : Prop :=
    forall g xs,
      (forallb isnan xs = true -> exists e, reducer g xs = Err e) /\
      (forallb isnan xs = false -> exists p, reducer g xs = Ok p /\
         ((exists q, q < length xs /\ better (nth q xs nan) limit = true) ->
          p < length xs /\ isnan (nth p xs nan) = false /\
          forall q, q < length xs -> better (nth q xs nan) (nth p xs nan) = false /\
            (q < p -> isnan (nth q xs nan) = true \/ better (nth p xs nan) (nth q xs nan) = true))).

  Lemma argmin_finds : infinity_on_top N -> finds_first_best ltb pinf argmin_reduce_nb.
  Proof.
    intros (P1 & _ & _ & _) g xs. unfold argmin_reduce_nb. split; intros E; rewrite E; cbn [raise_if]; eauto.
    eexists. split; [reflexivity|]. intros Hq.
    apply (arg_best_missing ltb (fun a b => ol_asym a b) (fun a b c => ltb_trans a b c) (fun a b c => ol_negtrans a b c) pinf P1); auto;
      intros; ((apply ol_nan_l; assumption) || (apply ol_nan_r; assumption)).
  Qed.
  Lemma argmax_finds : infinity_on_top N -> finds_first_best gtb ninf argmax_reduce_nb.
  Proof.
    intros (_ & P1 & _ & _) g xs. unfold argmax_reduce_nb. split; intros E; rewrite E; cbn [raise_if]; eauto.
    eexists. split; [reflexivity|]. intros Hq.
    apply (arg_best_missing gtb gtb_asym gtb_trans gtb_neg ninf P1); auto;
      unfold gtb; intros; ((apply ol_nan_l; assumption) || (apply ol_nan_r; assumption)).
  Qed.

  Lemma flat_has_better : forall better limit by_rows (a : mat T) lens g xs, is_flat_group nan by_rows a lens g xs ->
    has_better better limit a (first_col lens g) (nth g lens 0) -> exists q, q < length xs /\ better (nth q xs nan) limit = true.
  Proof.
    intros better limit by_rows a lens g xs [LX HX] (i & c & Hi & Hc & Hb).
    set (k := c - first_col lens g). assert (Hk : k < nth g lens 0) by (unfold k; lia).
    exists (if by_rows then i * nth g lens 0 + k else k * nrows a + i). split.
    - rewrite LX. destruct by_rows; nia.
    - rewrite HX by auto. replace (first_col lens g + k) with c by (unfold k; lia). auto.
  Qed.

  Lemma flat_all_nan : forall by_rows (a : mat T) lens g xs, is_flat_group nan by_rows a lens g xs ->
    (forallb isnan xs = true <-> all_missing a (first_col lens g) (nth g lens 0)).
  Proof.
    intros by_rows a lens g xs [LX HX]. split; intros H.
    - intros i c Hi Hc. set (k := c - first_col lens g). assert (Hk : k < nth g lens 0) by (unfold k; lia).
      specialize (HX i k Hi Hk). replace (first_col lens g + k) with c in HX by (unfold k; lia). rewrite <- HX.
      rewrite forallb_forall in H. apply H. apply nth_In. rewrite LX. destruct by_rows; nia.
    - apply forallb_forall. intros x Hx. apply (In_nth _ _ nan) in Hx as (p & Hp & <-). rewrite LX in Hp.
      destruct (cell_of by_rows (nrows a) (nth g lens 0) p) as [i k] eqn:E. destruct (cell_of_spec _ _ _ _ _ _ Hp E) as (Hi & Hk & ->).
      rewrite HX by auto. apply H; auto. lia.
  Qed.

  Lemma idx_groups_ok : forall better limit reducer, finds_first_best better limit reducer ->
    forall (a : mat T) lens by_rows out, rectangular a -> groups_of a lens ->
    idx_best reducer a (Some lens) by_rows = Ok out ->
    length out = length lens /\
    forall g, g < length lens -> exists i, nth_error out g = Some (Some i) /\
      (has_better better limit a (first_col lens g) (nth g lens 0) ->
       exists c, first_best better by_rows a (first_col lens g) (nth g lens 0) i c).
  Proof.
    intros better limit reducer F a lens by_rows out R G H. unfold idx_best in H. apply bind_ok in H as (rs & H & E). injection E as <-.
    apply to_rows_ok in H as [Ln H]; auto. rewrite map_length. split; auto. intros g Hg.
    destruct (H g Hg) as (xs & p & Hx & Hp & E). eexists. split; [rewrite nth_error_map, E; reflexivity|].
    intros HB. destruct (F g xs) as [F1 F2]. destruct (forallb isnan xs) eqn:EA; [destruct (F1 eq_refl) as (e & Fe); congruence|].
    destruct (F2 eq_refl) as (p' & Ep & FP). rewrite Ep in Hp. injection Hp as ->.
    destruct (FP (flat_has_better _ _ _ _ _ _ _ Hx HB)) as (PL & PN & PQ).
    destruct (cell_of by_rows (nrows a) (nth g lens 0) p) as [i k] eqn:Ec. cbn [fst].
    pose proof Hx as [LX HX]. rewrite LX in PL. destruct (cell_of_spec _ _ _ _ _ _ PL Ec) as (Hi & Hk & EP).
    assert (PV : nth p xs nan = val nan a i (first_col lens g + k)) by (rewrite EP, <- HX by auto; auto).
    exists (first_col lens g + k). rewrite PV in PN, PQ. split; auto. split; [lia|]. split; auto.
    intros i' c' Hi' Hc'. set (k' := c' - first_col lens g). assert (Hk' : k' < nth g lens 0) by (unfold k'; lia).
    assert (Ek : c' = first_col lens g + k') by (unfold k'; lia). clearbody k'. subst c'.
    rewrite <- (HX i' k') by auto.
    set (q := if by_rows then i' * nth g lens 0 + k' else k' * nrows a + i').
    assert (Hq : q < length xs) by (rewrite LX; unfold q; destruct by_rows; nia).
    destruct (PQ q Hq) as [Q1 Q2]. split; auto. intros S. apply Q2. unfold seen_before in S. rewrite EP. unfold q.
    clear - S Hi Hi' Hk Hk'. destruct by_rows.
    - destruct S as [S|[-> S]]; [|lia]. assert (i' * nth g lens 0 + nth g lens 0 <= i * nth g lens 0) by nia. lia.
    - destruct S as [S|[S1 S]]; [|replace k' with k by lia; lia]. assert (Hkk : k' < k) by lia.
      assert (k' * nrows a + nrows a <= k * nrows a) by nia. lia.
  Qed.

  Lemma idx_groups_err : forall better limit reducer, finds_first_best better limit reducer ->
    forall (a : mat T) lens by_rows e, rectangular a -> groups_of a lens ->
    idx_best reducer a (Some lens) by_rows = Err e -> exists g, g < length lens /\ all_missing a (first_col lens g) (nth g lens 0).
  Proof.
    intros better limit reducer F a lens by_rows e R G H. unfold idx_best, reduce_flat_to_rows in H.
    destruct (flat_reduce_grouped_nb a lens by_rows reducer) as [o|e'] eqn:E; cbn [bind] in H; [discriminate|].
    apply flat_groups_err in E as (g & xs & Hg & Hx & E); auto. exists g. split; auto. apply (flat_all_nan _ _ _ _ _ Hx).
    destruct (F g xs) as [_ F2]. destruct (forallb isnan xs) eqn:EA; auto. destruct (F2 eq_refl) as (p & Ep & _). congruence.
  Qed.

  Lemma column_nth : forall (a : mat T) c i, i < nrows a -> nth i (column a c) nan = val nan a i c.
  Proof. intros a c i H. unfold column. rewrite nth_map_seq; auto. Qed.
  Lemma column_length : forall (a : mat T) c, length (column a c) = nrows a.
  Proof. intros. unfold column. rewrite map_length, seq_length. auto. Qed.

  Lemma idx_columns_ok : forall better limit reducer, finds_first_best better limit reducer ->
    forall (a : mat T) by_rows, exists out,
    idx_best reducer a None by_rows = Ok out /\ length out = ncols a /\
    forall c, c < ncols a ->
      (all_missing a c 1 -> nth_error out c = Some None) /\
      (~ all_missing a c 1 -> exists i, nth_error out c = Some (Some i) /\
         (has_better better limit a c 1 -> first_best better by_rows a c 1 i c)).
  Proof.
    intros better limit reducer F a by_rows. unfold idx_best.
    set (body := fun col => let c := col_of nan a col in if forallb isnan c then Ok None else let! p := reducer col c in Ok (Some p)).
    assert (B : exists out, collect body (seq 0 (ncols a)) = Ok out).
    { destruct (collect body (seq 0 (ncols a))) as [o|e] eqn:E; eauto. apply collect_err in E as (c & _ & E). unfold body in E. cbv zeta in E.
      destruct (F c (col_of nan a c)) as [_ F2]. destruct (forallb isnan (col_of nan a c)); [discriminate|].
      destruct (F2 eq_refl) as (p & Ep & _). rewrite Ep in E. discriminate. }
    destruct B as (out & E). exists out. split; auto. pose proof (collect_length _ _ _ _ _ E) as Ln. rewrite seq_length in Ln. split; auto.
    intros c Hc. destruct (collect_nth _ _ _ _ _ c c E) as (y & Hy & Ey).
    { rewrite (nth_error_nth' _ 0) by (rewrite seq_length; auto). rewrite seq_nth; auto. }
    unfold body in Ey. cbv zeta in Ey. rewrite column_col_of in Ey.
    assert (A : forallb isnan (column a c) = true <-> all_missing a c 1).
    { split; intros H.
      - intros i c' Hi Hc'. replace c' with c by lia. rewrite <- column_nth by auto. rewrite forallb_forall in H. apply H. apply nth_In. rewrite column_length. auto.
      - apply forallb_forall. intros x Hx. apply (In_nth _ _ nan) in Hx as (i & Hi & <-). rewrite column_length in Hi. rewrite column_nth by auto. apply H; auto. lia. }
    destruct (forallb isnan (column a c)) eqn:EA.
    - injection Ey as <-. split; auto. intros n. exfalso. apply n. apply A. auto.
    - split; [intros H; apply A in H; discriminate|]. intros _. apply bind_ok in Ey as (p & Hp & Ey). injection Ey as <-. exists p. split; auto.
      intros (i0 & c0 & Hi0 & Hc0 & Hb). replace c0 with c in Hb by lia.
      destruct (F c (column a c)) as [_ F2]. rewrite EA in F2. destruct (F2 eq_refl) as (p' & Ep & FP). rewrite Ep in Hp. injection Hp as ->.
      rewrite column_length in FP. destruct FP as (P1 & P2 & P3).
      { exists i0. split; auto. rewrite column_nth; auto. }
      rewrite column_nth in P2, P3 by auto.
      split; auto. split; [lia|]. split; auto. intros i' c' Hi' Hc'. replace c' with c by lia. destruct (P3 i' Hi') as [Q1 Q2].
      rewrite column_nth in Q1, Q2 by auto. split; auto. intros S. apply Q2. unfold seen_before in S. destruct by_rows; lia.
  Qed.

  (** ** Least, greatest, sum, count and n-th *)
  Lemma nan_best_fold : forall (before : T -> T -> bool),
    (forall a b c, before a b = true -> before b c = true -> before a c = true) ->
    (forall a b, before a b = true -> before b a = false) ->
    (forall a b c, isnan b = false -> before a b = false -> before b c = false -> before a c = false) ->
    (forall a b, isnan a = true -> before a b = false) ->
    (forall a b, isnan b = true -> before a b = false) ->
    forall l x, let m := fold_left (fun m v => if isnan v then m else if before m v then m else v) l x in
    (m = x \/ In m l) /\ (isnan m = true -> isnan x = true /\ forall y, In y l -> isnan y = true) /\
    (before x m = false) /\ (forall y, In y l -> before y m = false).
  Proof.
    intros before B_t B_a B_n B_l B_r l. induction l as [|v l IH]; intros x; cbn [fold_left].
    - cbv zeta. split; auto. split; [intros H; split; auto; intros y []|]. split; [|intros y []].
      destruct (before x x) eqn:E; auto. rewrite <- E. apply B_a; auto.
    - set (x' := if isnan v then x else if before x v then x else v). specialize (IH x'). cbv zeta in IH |- *.
      set (m := fold_left _ l x') in *. destruct IH as (I1 & I2 & I3 & I4).
      assert (X : x' = x \/ x' = v) by (unfold x'; destruct (isnan v); auto; destruct (before x v); auto).
      split; [|split; [|split]].
      + destruct I1 as [->|I1]; [|right; right; auto]. destruct X as [->| ->]; auto. right; left; auto.
      + intros Hm. destruct (I2 Hm) as [I2a I2b]. unfold x' in I2a. destruct (isnan v) eqn:Ev.
        * split; auto. intros y [<-|Hy]; auto.
        * destruct (before x v) eqn:Eb; [|congruence]. exfalso. rewrite B_l in Eb; auto. discriminate.
      + destruct (isnan v) eqn:Ev; [unfold x' in I3; auto|]. unfold x' in I3. destruct (before x v) eqn:Eb; auto.
        destruct (before x m) eqn:Exm; auto. exfalso.
        assert (before x m = false); [|congruence]. apply (B_n x v m); auto.
      + intros y [<-|Hy]; auto. destruct (isnan v) eqn:Ev; [apply B_l; auto|]. unfold x' in I3. destruct (before x v) eqn:Eb; auto.
        destruct (before v m) eqn:Evm; auto. rewrite (B_t x v m) in I3; auto.
  Qed.

  Lemma ltb_best : forall c (l : list T), l <> [] -> exists m, min_reduce_nb c l = Ok m /\ In m l /\
    (isnan m = true -> forall y, In y l -> isnan y = true) /\ forall y, In y l -> ltb y m = false.
  Proof.
    intros c [|x l] H; [congruence|]. eexists. split; [reflexivity|].
    destruct (nan_best_fold ltb (fun a b c => ltb_trans a b c) (fun a b => ol_asym a b) (fun a b c => ol_negtrans a b c) (fun a b => ol_nan_l a b) (fun a b => ol_nan_r a b) l x) as (I1 & I2 & I3 & I4).
    split; [destruct I1 as [->|I1]; [left|right]; auto|]. split.
    - intros Hm. destruct (I2 Hm) as [I2a I2b]. intros y [<-|Hy]; auto.
    - intros y [<-|Hy]; auto.
  Qed.
  Lemma gtb_best : forall c (l : list T), l <> [] -> exists m, max_reduce_nb c l = Ok m /\ In m l /\
    (isnan m = true -> forall y, In y l -> isnan y = true) /\ forall y, In y l -> ltb m y = false.
  Proof.
    intros c [|x l] H; [congruence|]. eexists. split; [reflexivity|].
    destruct (nan_best_fold gtb gtb_trans gtb_asym gtb_neg (fun a b => ol_nan_r b a) (fun a b => ol_nan_l b a) l x) as (I1 & I2 & I3 & I4).
    split; [destruct I1 as [->|I1]; [left|right]; auto|]. split.
    - intros Hm. destruct (I2 Hm) as [I2a I2b]. intros y [<-|Hy]; auto.
    - intros y [<-|Hy]; [apply I3|apply I4]; auto.
  Qed.
End Idx.

From Verif Require Import B64.
Lemma xq_infinity : infinity_on_top XQnum.
Proof. repeat split; auto; intros []; auto. Qed.
Lemma b64_infinity : infinity_on_top B64num.
Proof. repeat split; auto; intros [[]|[]| |[] m e h]; auto. Qed.
