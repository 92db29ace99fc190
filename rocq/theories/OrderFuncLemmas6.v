(** * Simulation with callbacks: orders given as arrays *)
From Coq Require Import String ZArith Bool List Arith Lia Permutation.
From Verif Require Import Base Num Order OrderGen CallSeq Account Simulate SimSpec ReturnsNb OrderFunc OrderFuncSpec CallSeqLemmas OrderFuncLemmas OrderFuncLemmas2 OrderFuncLemmas3.
Import ListNotations.
Open Scope list_scope.

Definition same_outcome {A B} (R : A -> B -> Prop) (a : res A) (b : res B) : Prop :=
  match a, b with Ok x, Ok y => R x y | Err e, Err e' => e = e' | _, _ => False end.
Lemma foldM_same : forall {A B X} (R : A -> B -> Prop) (f : A -> X -> res A) (h : B -> X -> res B) l a b,
  (forall a b x, In x l -> R a b -> same_outcome R (f a x) (h b x)) -> R a b -> same_outcome R (foldM f a l) (foldM h b l).
Proof.
  intros A B X R f h l. induction l as [|x l IH]; intros a b H HR; cbn [foldM]; [exact HR|].
  pose proof (H a b x (or_introl eq_refl) HR) as E. destruct (f a x) as [a'|e], (h b x) as [b'|e']; cbn [same_outcome bind] in E |- *; try contradiction; [|exact E].
  apply IH; [|exact E]. intros; apply H; auto. now right.
Qed.

Section FromOrders.
  Context {T : Type} {N : Num T}.
  Variables (draws : nat -> T) (inp : Inputs T) (fl : Flags) (lens : list nat) (pre post : bool).
  Notation op := (array_options inp fl lens pre post).
  Notation cb := (array_callbacks inp fl op).
  Notation sh := (is_grouped lens).
  Hypothesis Hvp : forall i c, ffill_val_price fl = true -> isnan (resolve_val_price inp i c (resolve_price inp i c)) = false.
  Hypothesis Hpos : Forall (fun n => 0 < n) lens.
  Hypothesis Hseq : auto_call_seq fl = true -> default_call_seq lens (in_call_seq inp).

  Definition vprice (i c : nat) : T := resolve_val_price inp i c (resolve_price inp i c).
  Lemma store_vprice : forall vp i c, store_val_price fl vp c (vprice i c) = fupd vp c (vprice i c).
  Proof.
    intros vp i c. unfold store_val_price. destruct (ffill_val_price fl) eqn:E; cbn [negb]; [|now rewrite orb_true_r].
    unfold vprice. now rewrite (Hvp i c eq_refl).
  Qed.

  (** The state when group [g] has finished the rows before [i]; [f0] is the
      state when it started. *)
  Record tied (g : Seg) (i : nat) (f0 : FState T) (st : Sim T) (f : FState T) : Prop := {
    td_cash : fs_cash f (sg_group g) = sm_cash st; td_free : fs_free f (sg_group g) = sm_free st;
    td_pos : forall c, fs_pos f c = sm_pos st c; td_debt : forall c, fs_debt f c = sm_debt st c;
    td_rc : fs_rc f = sm_rc st;
    td_seq : sh = true -> forall r c, fs_seq f r c = sm_seq st r c;
    td_fresh : sh = true -> forall r c, sg_from g <= c -> sg_from g + sg_len g <= c \/ i <= r -> fs_seq f r c = in_call_seq inp r c;
    td_other : forall k, k <> sg_group g -> fs_cash f k = fs_cash f0 k /\ fs_free f k = fs_free f0 k }.
  (** ... and the prices of row [i] are known *)
  Definition valued_same (g : Seg) (st : Sim T) (f : FState T) : Prop :=
    forall c, in_seg g c -> fs_value f (slot op g c) = ps_value (order_state sh st c).
  Record ready (g : Seg) (i : nat) (f0 : FState T) (st : Sim T) (f : FState T) : Prop := {
    rd_tied : tied g (S i) f0 st f;
    rd_vp : forall c, in_seg g c -> fs_vp f c = sm_vp st c;
    rd_price : forall c, in_seg g c -> sm_price st c = resolve_price inp i c;
    rd_calls : sh = false -> forall k, k < sg_len g -> fs_seq f i (sg_from g + k) = k }.

  (** Without cash sharing groups are single columns *)
  Lemma single : forall g, In g (segs 0 0 lens) -> sh = false -> sg_len g = 1 /\ sg_from g = sg_group g.
  Proof.
    intros g Hg Hs. unfold is_grouped in Hs.
    assert (Forall (fun n => n = 1) lens) as H1.
    { clear Hg Hseq Hvp. induction lens as [|n l IH]; [constructor|]. cbn [existsb] in Hs. apply orb_false_iff in Hs as [Hn Hs].
      inversion Hpos; subst. apply Nat.ltb_ge in Hn. constructor; [lia|auto]. }
    enough (forall l k, Forall (fun n => n = 1) l -> In g (segs k k l) -> sg_len g = 1 /\ sg_from g = sg_group g) as G by (eapply G; eauto).
    clear. induction l as [|n l IH]; intros k H Hg; cbn in Hg; [contradiction|]. inversion H; subst. destruct Hg as [<-|Hg]; [auto|].
    replace (k + 1) with (S k) in Hg by lia. eapply IH; eauto.
  Qed.
  Lemma slot_group : forall g c, In g (segs 0 0 lens) -> in_seg g c -> slot op g c = sg_group g.
  Proof.
    intros g c Hg [H1 H2]. unfold slot. cbn [fo_sharing array_options]. destruct sh eqn:E; [reflexivity|].
    destruct (single g Hg E). lia.
  Qed.

  (** One order *)
  Lemma order_same : forall g i f0 st f u k, In g (segs 0 0 lens) -> k < sg_len g -> ready g i f0 st f ->
    valued_same g st f ->
    same_outcome (fun st' fu => ready g i f0 st' (fst fu) /\ (sh = true -> valued_same g st' (fst fu)))
      (order_step draws inp fl sh i (sg_group g) (sg_from g) (sg_len g) st k) (call_step draws op cb tt g i (f, u) k).
  Proof.
    intros g i f0 st f u k Hg Hk [HT RV RP RC] HV. unfold order_step, call_step. cbn [array_callbacks cb_order].
    assert (Hpick : pick_col sh (sm_seq st) i (sg_from g) (sg_len g) k =
                    if Nat.leb (sg_len g) (fs_seq f i (sg_from g + k)) then Err (ValueError "Call index exceeds bounds of the group")
                    else Ok (sg_from g + fs_seq f i (sg_from g + k))).
    { unfold pick_col. destruct sh eqn:Es.
      - rewrite (td_seq _ _ _ _ _ HT Es). unfold raise_if. reflexivity.
      - rewrite (RC eq_refl k Hk), (proj2 (Nat.leb_gt _ _) Hk). reflexivity. }
    rewrite Hpick. unfold raise_if. destruct (Nat.leb_spec (sg_len g) (fs_seq f i (sg_from g + k))) as [Hc|Hc]; [reflexivity|]. cbn [bind].
    set (col := sg_from g + fs_seq f i (sg_from g + k)) in *. assert (Hcol : in_seg g col) by (unfold in_seg, col; lia). clearbody col.
    unfold process_step.
    assert (Eo : resolve_order_price (fo_close op) i col (make_order inp i col (in_price inp i col)) = make_order inp i col (sm_price st col)).
    { rewrite (RP col Hcol). unfold resolve_order_price, resolve_price, replace_inf_price_nb. cbn [o_price make_order fo_close array_options].
      destruct (isinf (in_price inp i col)); reflexivity. }
    assert (Es : order_state_now op f g col = order_state sh st col).
    { pose proof (HV col Hcol) as Hv. unfold order_state_now. rewrite Hv. unfold order_state at 2. cbn [ps_value].
      rewrite (slot_group g col Hg Hcol), (td_cash _ _ _ _ _ HT), (td_free _ _ _ _ _ HT), (td_pos _ _ _ _ _ HT), (td_debt _ _ _ _ _ HT), (RV col Hcol). reflexivity. }
    rewrite Eo, Es, (td_rc _ _ _ _ _ HT). cbn [fo_update array_options].
    destruct (process_order_nb _ _ _ _ _ _ _ _) as [[[r s'] rc']|e]; cbn [bind same_outcome]; [|reflexivity].
    unfold store_order. cbn [fo_fill_pos array_options array_callbacks cb_post_order bind same_outcome].
    rewrite (slot_group g col Hg Hcol). cbn [fst].
    split; [constructor|].
    - constructor; cbn [fs_cash fs_free fs_pos fs_debt fs_rc fs_seq sm_cash sm_free sm_pos sm_debt sm_rc sm_seq store_state].
      + unfold fupd. now rewrite Nat.eqb_refl.
      + unfold fupd. now rewrite Nat.eqb_refl.
      + intros c. unfold fupd. destruct (Nat.eqb c col); [reflexivity|apply (td_pos _ _ _ _ _ HT)].
      + intros c. unfold fupd. destruct (Nat.eqb c col); [reflexivity|apply (td_debt _ _ _ _ _ HT)].
      + reflexivity.
      + exact (td_seq _ _ _ _ _ HT).
      + exact (td_fresh _ _ _ _ _ HT).
      + intros j Hj. unfold fupd. apply Nat.eqb_neq in Hj as Hj'. rewrite Hj'. exact (td_other _ _ _ _ _ HT j Hj).
    - intros c Hcc. cbn [fs_vp sm_vp store_state]. unfold store_vp, store_val_price. cbn [fo_ffill array_options].
      destruct (_ || _); [|apply RV; exact Hcc]. unfold fupd. destruct (Nat.eqb c col); [reflexivity|apply RV; exact Hcc].
    - exact RP.
    - exact RC.
    - intros Hsh c Hcc. rewrite (slot_group g c Hg Hcc). unfold order_state. rewrite Hsh. cbn [fs_value ps_value store_state sm_value].
      unfold fupd. now rewrite Nat.eqb_refl.
  Qed.

  Lemma orders_same : forall g i f0 st f u, In g (segs 0 0 lens) -> ready g i f0 st f -> valued_same g st f ->
    same_outcome (fun st' fu => ready g i f0 st' (fst fu))
      (foldM (order_step draws inp fl sh i (sg_group g) (sg_from g) (sg_len g)) st (seq 0 (sg_len g)))
      (foldM (call_step draws op cb tt g i) (f, u) (seq 0 (sg_len g))).
  Proof.
    intros g i f0 st f u Hg HR HV. destruct sh eqn:Es.
    - assert (H : same_outcome (fun st' (fu : FState T * unit) => ready g i f0 st' (fst fu) /\ valued_same g st' (fst fu))
        (foldM (order_step draws inp fl sh i (sg_group g) (sg_from g) (sg_len g)) st (seq 0 (sg_len g)))
        (foldM (call_step draws op cb tt g i) (f, u) (seq 0 (sg_len g)))).
      { apply foldM_same; [|auto]. intros a [b v] k Hk [R V]. apply in_seq in Hk. pose proof (order_same g i f0 a b v k Hg ltac:(lia) R V) as H.
        destruct (order_step _ _ _ _ _ _ _ _ _ _) as [a'|e], (call_step _ _ _ _ _ _ _ _) as [b'|e']; cbn in H |- *; auto.
        destruct H as [H1 H2]. auto. }
      rewrite Es in H. destruct (foldM (order_step _ _ _ _ _ _ _ _) _ _) as [a'|e], (foldM (call_step _ _ _ _ _ _) _ _) as [b'|e']; cbn in H |- *; auto. apply H.
    - destruct (single g Hg Es) as [E1 _]. rewrite E1. cbn [seq foldM]. pose proof (order_same g i f0 st f u 0 Hg ltac:(lia) HR HV) as H.
      rewrite Es, E1 in H.
      destruct (order_step _ _ _ _ _ _ _ _ _ _) as [a'|e], (call_step _ _ _ _ _ _ _ _) as [b'|e']; cbn [same_outcome bind] in H |- *; auto. apply H.
  Qed.

  (** Prices of a row *)
  Lemma prices_sim : forall i l st, NoDup l ->
    let st' := fold_left (price_step inp fl i) l st in
    sm_cash st' = sm_cash st /\ sm_free st' = sm_free st /\ sm_pos st' = sm_pos st /\ sm_debt st' = sm_debt st /\ sm_seq st' = sm_seq st /\ sm_rc st' = sm_rc st /\
    (forall c, In c l -> sm_vp st' c = vprice i c /\ sm_price st' c = resolve_price inp i c) /\
    (forall c, ~ In c l -> sm_vp st' c = sm_vp st c /\ sm_price st' c = sm_price st c).
  Proof.
    intros i. induction l as [|x l IH]; intros st Hn st'; [cbn; repeat split; auto; contradiction|].
    inversion Hn as [|? ? Hx Hl]; subst. unfold st'. cbn [fold_left].
    destruct (IH (price_step inp fl i st x) Hl) as (E1 & E2 & E3 & E4 & E5 & E6 & H1 & H2). cbv zeta in *.
    repeat (split; [assumption|]). unfold price_step in H1, H2 |- *. cbv zeta in *.
    split.
    - intros c [<-|Hc]; [|apply H1; exact Hc]. destruct (H2 x Hx) as [-> ->]. cbn [sm_vp sm_price].
      fold (vprice i x). rewrite store_vprice. unfold fupd. rewrite Nat.eqb_refl. auto.
    - intros c Hc. destruct (H2 c) as [-> ->]; [intros C; apply Hc; now right|]. cbn [sm_vp sm_price]. fold (vprice i x). rewrite store_vprice. unfold fupd.
      destruct (Nat.eqb_spec c x) as [->|]; [exfalso; apply Hc; now left|auto].
  Qed.

  Lemma fold_frame : forall (f : FState T -> nat -> FState T) l s,
    (forall s k, fs_cash (f s k) = fs_cash s /\ fs_free (f s k) = fs_free s /\ fs_pos (f s k) = fs_pos s /\ fs_debt (f s k) = fs_debt s /\
       fs_seq (f s k) = fs_seq s /\ fs_rc (f s k) = fs_rc s) ->
    let s' := fold_left f l s in
    fs_cash s' = fs_cash s /\ fs_free s' = fs_free s /\ fs_pos s' = fs_pos s /\ fs_debt s' = fs_debt s /\ fs_seq s' = fs_seq s /\ fs_rc s' = fs_rc s.
  Proof.
    intros f l. induction l as [|k l IH]; intros s H s'; cbn [fold_left] in s'; [subst s'; auto 10|].
    destruct (IH (f s k) H) as (E1 & E2 & E3 & E4 & E5 & E6). destruct (H s k) as (F1 & F2 & F3 & F4 & F5 & F6). subst s'.
    rewrite E1, E2, E3, E4, E5, E6. auto 10.
  Qed.
  Lemma revalue_frame : forall g s, let s' := revalue op g s in
    fs_cash s' = fs_cash s /\ fs_free s' = fs_free s /\ fs_pos s' = fs_pos s /\ fs_debt s' = fs_debt s /\ fs_seq s' = fs_seq s /\ fs_rc s' = fs_rc s.
  Proof. intros g s s'. subst s'. unfold revalue. destruct (fo_sharing op); [cbn; auto 10|]. apply fold_frame. cbn. auto 10. Qed.
  Lemma close_frame : forall g i s, let s' := close_value op g (close_vp op g i s) in
    fs_cash s' = fs_cash s /\ fs_free s' = fs_free s /\ fs_pos s' = fs_pos s /\ fs_debt s' = fs_debt s /\ fs_seq s' = fs_seq s /\ fs_rc s' = fs_rc s.
  Proof.
    intros g i s s'. subst s'. unfold close_value. destruct (fo_sharing op); [cbn; auto 10|].
    apply (fold_frame (fun st col => shift_value st col (column_value st col)) _ (close_vp op g i s)). cbn. auto 10.
  Qed.

  Lemma group_value_ext : forall from len cash (p p' v v' : nat -> T),
    (forall c, from <= c < from + len -> p c = p' c /\ v c = v' c) ->
    get_group_value_nb from len cash p v = get_group_value_nb from len cash p' v'.
  Proof.
    intros from len cash p p' v v' H. unfold get_group_value_nb. apply fold_left_ext_in. intros x c Hc. apply in_seq in Hc.
    destruct (H c Hc) as [-> ->]. reflexivity.
  Qed.

  (** The sorted call sequence *)
  Lemma sort_call_same : forall g i (st : Sim T) (f : FState T),
    fo_sharing op = true -> (forall k, k < sg_len g -> sm_seq st i (sg_from g + k) = k) ->
    fs_cash f (sg_group g) = sm_cash st -> fs_free f (sg_group g) = sm_free st ->
    (forall c, in_seg g c -> fs_pos f c = sm_pos st c) -> (forall c, in_seg g c -> fs_vp f c = sm_vp st c) ->
    sort_call_seq_out_nb op g f (fun k => in_size inp i (sg_from g + k)) (fun k => in_size_type inp i (sg_from g + k))
      (fun k => in_direction inp i (sg_from g + k)) (map (fun k => sm_seq st i (sg_from g + k)) (seq 0 (sg_len g))) =
    Ok (map snd (insert_argsort_nb (map (fun k =>
            let col := sg_from g + k in
            (approx_order_value_nb (in_size inp i col) (in_size_type inp i col)
               (in_direction inp i col) (sm_cash st) (sm_pos st col) (sm_free st)
               (sm_vp st col) (get_group_value_nb (sg_from g) (sg_len g) (sm_cash st) (sm_pos st) (sm_vp st)), sm_seq st i col)) (seq 0 (sg_len g))))).
  Proof.
    intros g i st f Hs Hd E1 E2 E3 E4. unfold sort_call_seq_out_nb, get_group_value_ctx_nb. rewrite Hs. cbn [negb raise_if bind].
    rewrite (group_value_ext _ _ _ (fs_pos f) (sm_pos st) (fs_vp f) (sm_vp st)) by (intros c Hc; split; [apply E3|apply E4]; exact Hc).
    rewrite E1, E2. set (v := get_group_value_nb _ _ _ _ _).
    match goal with |- context [foldM ?F _ _] => set (G := F) end.
    assert (H : forall l acc, (forall k, In k l -> k < sg_len g) ->
      foldM G acc l = Ok (acc ++ map (fun k => let col := sg_from g + k in
            (approx_order_value_nb (in_size inp i col) (in_size_type inp i col)
               (in_direction inp i col) (sm_cash st) (sm_pos st col) (sm_free st)
               (sm_vp st col) v, sm_seq st i col)) l)).
    { induction l as [|k l IH]; intros acc Hl; cbn [foldM map]; [now rewrite app_nil_r|].
      assert (Hk : k < sg_len g) by (apply Hl; now left). unfold G at 1. cbv zeta.
      assert (En : nth k (map (fun k0 => sm_seq st i (sg_from g + k0)) (seq 0 (sg_len g))) 0 = sm_seq st i (sg_from g + k)).
      { rewrite (nth_indep _ 0 (sm_seq st i (sg_from g + 0))) by (rewrite map_length, seq_length; exact Hk).
        rewrite (map_nth (fun j => sm_seq st i (sg_from g + j))), seq_nth by exact Hk. reflexivity. }
      rewrite En, (Hd k Hk), Nat.eqb_refl. cbn [negb raise_if bind].
      rewrite IH by (intros; apply Hl; now right). rewrite <- app_assoc. cbn [app].
      rewrite (E3 (sg_from g + k)), (E4 (sg_from g + k)) by (unfold in_seg; lia). reflexivity. }
    rewrite H by (intros k Hk; apply in_seq in Hk; lia). reflexivity.
  Qed.

  Lemma vp_callback : forall i c (old : T), (let v := resolve_val_price inp i c (resolve_price inp i c) in
    if isnan v && ffill_val_price fl then old else v) = vprice i c.
  Proof.
    intros i c old. cbv zeta. unfold vprice. destruct (ffill_val_price fl) eqn:E; [|now rewrite andb_false_r].
    rewrite (Hvp i c eq_refl). reflexivity.
  Qed.

  Lemma set_slice_own : forall (sq : nat -> nat -> nat) i from len r c,
    set_slice sq i from (map (fun k => sq i (from + k)) (seq 0 len)) r c = sq r c.
  Proof.
    intros sq i from len r c. unfold set_slice. rewrite map_length, seq_length.
    destruct (Nat.eqb_spec r i) as [->|]; cbn [andb]; [|reflexivity].
    destruct (Nat.leb_spec from c); cbn [andb]; [|reflexivity]. destruct (Nat.ltb_spec c (from + len)); [|reflexivity].
    rewrite (nth_indep _ 0 (sq i (from + 0))) by (rewrite map_length, seq_length; lia).
    rewrite (map_nth (fun k => sq i (from + k))), seq_nth by lia. f_equal. lia.
  Qed.
  Lemma set_slice_out : forall (sq : nat -> nat -> nat) i from vals r c, r <> i \/ c < from \/ from + List.length vals <= c ->
    set_slice sq i from vals r c = sq r c.
  Proof.
    intros sq i from vals r c H. unfold set_slice. destruct (Nat.eqb_spec r i); cbn [andb]; [|reflexivity].
    destruct (Nat.leb_spec from c); cbn [andb]; [|reflexivity]. destruct (Nat.ltb_spec c (from + List.length vals)); [lia|reflexivity].
  Qed.

  Lemma bar_same : forall g i f0 st f u, In g (segs 0 0 lens) -> tied g i f0 st f ->
    same_outcome (fun st' fu => tied g (S i) f0 st' (fst fu))
      (bar_step draws inp fl sh (sg_group g) (sg_from g) (sg_len g) st i)
      (segment draws op cb ByCallSeq tt g i (f, u)).
  Proof.
    intros g i f0 st f u Hg HT. unfold bar_step, segment. cbn [fo_mask fo_call_pre fo_call_post array_options]. rewrite orb_true_r, orb_true_r.
    destruct (prices_sim i (seq (sg_from g) (sg_len g)) st (seq_NoDup _ _)) as (P1 & P2 & P3 & P4 & P5 & P6 & P7 & _). cbv zeta in *.
    set (st1 := fold_left (price_step inp fl i) (seq (sg_from g) (sg_len g)) st) in *.
    cbn [array_callbacks cb_pre_segment].
    set (vp := fun c => let v := resolve_val_price inp i c (resolve_price inp i c) in if isnan v && ffill_val_price fl then fs_vp f c else v).
    assert (Evp : forall c, vp c = vprice i c) by (intros c; apply vp_callback).
    set (now := map (fun k => fs_seq f i (sg_from g + k)) (seq 0 (sg_len g))).
    (* the call sequence of this row *)
    assert (Hcalls : exists calls, (if fo_sharing op then
             if auto_call_seq fl then
               sort_call_seq_out_nb op g (take_segment g i vp now f) (fun k => in_size inp i (sg_from g + k))
                 (fun k => in_size_type inp i (sg_from g + k)) (fun k => in_direction inp i (sg_from g + k)) now
             else Ok now
           else Ok (seq 0 (sg_len g))) = Ok calls /\ List.length calls = sg_len g /\
           (sh = true -> forall r c, set_slice (fs_seq f) i (sg_from g) calls r c = sm_seq (sort_step inp fl sh i (sg_from g) (sg_len g) st1) r c) /\
           (sh = false -> calls = seq 0 (sg_len g))).
    { destruct sh eqn:Es.
      - change (fo_sharing op) with sh. rewrite Es. unfold sort_step. destruct (auto_call_seq fl) eqn:Ea.
        + assert (Hd : forall k, k < sg_len g -> sm_seq st1 i (sg_from g + k) = k).
          { intros k Hk. rewrite P5, <- (td_seq _ _ _ _ _ HT Es), (td_fresh _ _ _ _ _ HT Es) by lia. apply (Hseq eq_refl); assumption. }
          assert (En : now = map (fun k => sm_seq st1 i (sg_from g + k)) (seq 0 (sg_len g))).
          { unfold now. apply map_ext. intros k. rewrite P5. apply (td_seq _ _ _ _ _ HT Es). }
          rewrite En. eexists. split; [apply sort_call_same with (st := st1); [exact Es|exact Hd| | | |]|].
          * cbn. rewrite P1. apply (td_cash _ _ _ _ _ HT).
          * cbn. rewrite P2. apply (td_free _ _ _ _ _ HT).
          * intros c Hc. cbn. rewrite P3. apply (td_pos _ _ _ _ _ HT).
          * intros c [Hc1 Hc2]. cbn [take_segment with_vp_seq fs_vp]. rewrite (proj2 (Nat.leb_le _ _) Hc1), (proj2 (Nat.ltb_lt _ _) Hc2). cbn [andb]. rewrite Evp.
            symmetry. apply P7. apply in_seq. lia.
          * split; [|split; [|discriminate]].
            -- rewrite map_length, <- (Permutation_length (argsort_perm _)), map_length, seq_length. reflexivity.
            -- intros _ r c. cbn [sm_seq]. unfold set_slice. rewrite P5, (td_seq _ _ _ _ _ HT Es r c). reflexivity.
        + exists now. split; [reflexivity|]. split; [unfold now; rewrite map_length, seq_length; reflexivity|]. split; [|discriminate].
          intros _ r c. cbn [sm_seq]. unfold now. rewrite set_slice_own, P5. apply (td_seq _ _ _ _ _ HT Es).
      - change (fo_sharing op) with sh. rewrite Es. eexists. split; [reflexivity|]. rewrite seq_length. split; [reflexivity|]. split; [discriminate|reflexivity]. }
    destruct Hcalls as (calls & Ec & Hlen & Hcs & Hcd). cbv zeta. fold vp. fold now. rewrite Ec. cbn [bind].
    unfold open_stats. cbn [fo_fill_pos array_options bind].
    set (f1 := take_segment g i vp calls f). set (st2 := sort_step inp fl sh i (sg_from g) (sg_len g) st1) in *.
    destruct (revalue_frame g f1) as (F1 & F2 & F3 & F4 & F5 & F6). cbv zeta in *.
    destruct (revalue_valued op g f1) as (VV & _ & _ & _ & F7).
    assert (S2 : sm_cash st2 = sm_cash st /\ sm_free st2 = sm_free st /\ sm_pos st2 = sm_pos st /\ sm_debt st2 = sm_debt st /\ sm_rc st2 = sm_rc st /\
                 sm_vp st2 = sm_vp st1 /\ sm_price st2 = sm_price st1 /\
                 (sh = true -> sm_value st2 = get_group_value_nb (sg_from g) (sg_len g) (sm_cash st) (sm_pos st) (sm_vp st1))).
    { unfold st2, sort_step. rewrite <- P1, <- P2, <- P3, <- P4, <- P6. destruct sh; cbn; auto 10. repeat split; auto. discriminate. }
    destruct S2 as (S1 & S2 & S3 & S4 & S5 & S6 & S7 & S8).
    assert (Hv1 : forall c, in_seg g c -> fs_vp f1 c = sm_vp st2 c).
    { intros c [Hc1 Hc2]. unfold f1. cbn [take_segment with_vp_seq fs_vp]. rewrite (proj2 (Nat.leb_le _ _) Hc1), (proj2 (Nat.ltb_lt _ _) Hc2). cbn [andb]. rewrite Evp, S6.
      symmetry. apply P7. apply in_seq. lia. }
    assert (R : ready g i f0 st2 (revalue op g f1)).
    { constructor.
      - constructor.
        + rewrite F1, S1. apply (td_cash _ _ _ _ _ HT).
        + rewrite F2, S2. apply (td_free _ _ _ _ _ HT).
        + intros c. rewrite F3, S3. apply (td_pos _ _ _ _ _ HT).
        + intros c. rewrite F4, S4. apply (td_debt _ _ _ _ _ HT).
        + rewrite F6, S5. apply (td_rc _ _ _ _ _ HT).
        + intros Es r c. rewrite F5. unfold f1. cbn [take_segment with_vp_seq fs_seq]. rewrite firstn_all2 by lia. apply Hcs. exact Es.
        + intros Es r c Hc1 Hc2. rewrite F5. unfold f1. cbn [take_segment with_vp_seq fs_seq]. rewrite firstn_all2 by lia.
          rewrite set_slice_out by lia. apply (td_fresh _ _ _ _ _ HT Es); lia.
        + intros k Hk. rewrite F1, F2. apply (td_other _ _ _ _ _ HT k Hk).
      - intros c Hc. rewrite F7. apply Hv1. exact Hc.
      - intros c Hc. rewrite S7. apply P7. apply in_seq. exact Hc.
      - intros Es k Hk. rewrite F5. unfold f1. cbn [take_segment with_vp_seq fs_seq]. rewrite firstn_all2 by lia. rewrite (Hcd Es).
        unfold set_slice. rewrite seq_length, Nat.eqb_refl, (proj2 (Nat.leb_le _ _)), (proj2 (Nat.ltb_lt _ _)) by lia. cbn [andb].
        rewrite seq_nth by lia. lia. }
    assert (V : valued_same g st2 (revalue op g f1)).
    { intros c Hc. destruct (VV c Hc) as [-> _]. unfold current_value. change (fo_sharing op) with sh. rewrite F1, F3, F7.
      unfold order_state. cbn [ps_value]. destruct sh eqn:Es.
      - rewrite (S8 eq_refl), <- group_value_spec. change (fs_cash f1) with (fs_cash f). change (fs_pos f1) with (fs_pos f).
        rewrite (td_cash _ _ _ _ _ HT). apply group_value_ext. intros x Hx. split; [apply (td_pos _ _ _ _ _ HT)|]. rewrite <- S6. apply Hv1. exact Hx.
      - change (fs_cash f1) with (fs_cash f). change (fs_pos f1) with (fs_pos f). rewrite (Hv1 c Hc), (td_pos _ _ _ _ _ HT), S1, S3.
        replace (fs_cash f c) with (sm_cash st); [unfold neb; destruct (eqb _ _); reflexivity|].
        rewrite <- (td_cash _ _ _ _ _ HT). f_equal. destruct (single g Hg Es). unfold in_seg in Hc. lia. }
    cbn [orders_of_segment].
    pose proof (orders_same g i f0 st2 (revalue op g f1) u Hg R V) as O.
    destruct (foldM (order_step _ _ _ _ _ _ _ _) _ _) as [a'|e], (foldM (call_step _ _ _ _ _ _) _ _) as [[b' u']|e']; cbn [same_outcome bind] in O |- *; auto.
    cbn [array_callbacks cb_post_segment bind fst same_outcome] in *.
    destruct O as [O _ _ _]. destruct (close_frame g i b') as (G1 & G2 & G3 & G4 & G5 & G6). cbv zeta in *.
    constructor; rewrite ?G1, ?G2, ?G3, ?G4, ?G5, ?G6; apply O.
  Qed.

  (** Between groups *)
  Record between (cash : list T) (k from : nat) (st : Sim T) (f : FState T) : Prop := {
    bt_pos : forall c, fs_pos f c = sm_pos st c; bt_debt : forall c, fs_debt f c = sm_debt st c; bt_rc : fs_rc f = sm_rc st;
    bt_seq : sh = true -> forall r c, fs_seq f r c = sm_seq st r c;
    bt_fresh : sh = true -> forall r c, from <= c -> fs_seq f r c = in_call_seq inp r c;
    bt_cash : forall j, k <= j -> fs_cash f j = nth j cash nan /\ fs_free f j = nth j cash nan }.

  Lemma group_same : forall cash nrows g st f u c, In g (segs 0 0 lens) -> nth_error cash (sg_group g) = Some c ->
    between cash (sg_group g) (sg_from g) st f ->
    same_outcome (fun st' fu => between cash (S (sg_group g)) (sg_from g + sg_len g) st' (fst fu))
      (sim_group draws inp fl sh nrows (sg_group g) (sg_from g) (sg_len g) c st)
      (group_run draws op cb ByCallSeq nrows tt (f, u) g).
  Proof.
    intros cash nrows g st f u c Hg Hc [B1 B2 B3 B4 B5 B6]. unfold sim_group, group_run. cbn [array_callbacks cb_pre_group cb_post_group bind].
    assert (L : forall n i st f2 u, tied g i f st f2 ->
      same_outcome (fun st' fu => tied g (i + n) f st' (fst fu))
        (foldM (bar_step draws inp fl sh (sg_group g) (sg_from g) (sg_len g)) st (seq i n))
        (foldM (fun su i => segment draws op cb ByCallSeq tt g i su) (f2, u) (seq i n))).
    { clear - Hg Hvp Hpos Hseq. induction n as [|n IH]; intros i st f2 u HT; cbn [seq foldM]; [rewrite Nat.add_0_r; exact HT|].
      pose proof (bar_same g i f st f2 u Hg HT) as B.
      destruct (bar_step _ _ _ _ _ _ _ _ _) as [a|e], (segment _ _ _ _ _ _ _ _) as [[b u']|e']; cbn [same_outcome bind fst] in B |- *; try contradiction; auto.
      replace (i + S n) with (S i + n) by lia. apply IH. exact B. }
    pose proof (nth_error_nth cash _ nan Hc) as En.
    pose proof (L nrows 0 (mkSim c c (sm_value st) (sm_pos st) (sm_debt st) (sm_vp st) (sm_price st) (sm_seq st) (sm_rc st)) f u) as O.
    destruct (foldM (bar_step _ _ _ _ _ _ _) _ _) as [a|e], (foldM _ (f, u) _) as [[b u']|e']; cbn [same_outcome bind fst] in O |- *;
      (assert (HT : tied g 0 f (mkSim c c (sm_value st) (sm_pos st) (sm_debt st) (sm_vp st) (sm_price st) (sm_seq st) (sm_rc st)) f);
       [constructor; cbn; auto;
         [rewrite <- En; apply B6; lia|rewrite <- En; apply B6; lia]
       |specialize (O HT)]); auto.
    destruct O as [T1 T2 T3 T4 T5 T6 T7 T8]. constructor; auto.
    - intros Es r x Hx. apply T7; auto; lia.
    - intros j Hj. destruct (T8 j) as [-> ->]; [lia|]. apply B6. lia.
  Qed.

  Lemma groups_same : forall cash nrows l k from st f u, incl (segs k from l) (segs 0 0 lens) -> k + List.length l = List.length cash ->
    between cash k from st f ->
    same_outcome (fun st' fu => fs_rc (fst fu) = sm_rc st')
      (sim_groups draws inp fl sh nrows k from l cash st)
      (foldM (group_run draws op cb ByCallSeq nrows tt) (f, u) (segs k from l)).
  Proof.
    intros cash nrows l. induction l as [|n l IH]; intros k from st f u Hi Hl HB; cbn [sim_groups segs foldM]; [apply (bt_rc _ _ _ _ _ HB)|].
    cbn [List.length] in Hl. destruct (nth_error cash k) as [c|] eqn:Ec; [|apply nth_error_None in Ec; lia].
    pose proof (group_same cash nrows (mkSeg k from n) st f u c) as G. cbn [sg_group sg_from sg_len] in G.
    specialize (G (Hi _ (or_introl eq_refl)) Ec HB).
    destruct (sim_group _ _ _ _ _ _ _ _ _ _) as [a|e], (group_run _ _ _ _ _ _ _ _) as [[b u']|e']; cbn [same_outcome bind fst] in G |- *; try contradiction; auto.
    apply IH; [intros g Hg; apply Hi; now right|lia|exact G].
  Qed.

  Theorem arrays_as_callbacks : forall rng nrows ncols cash e mo ml,
    (let! (orders, logs, _) := simulate_from_orders_nb draws rng nrows ncols lens cash inp fl mo ml in Ok (orders, logs)) =
    (let! (st, _) := simulate_nb draws op cb ByCallSeq nrows ncols lens cash (finit cash e (in_call_seq inp) nrows ncols mo ml rng) tt in
     Ok (rc_orders (fs_rc st), rc_logs (fs_rc st))).
  Proof.
    intros rng nrows ncols cash e mo ml. unfold simulate_from_orders_nb, simulate_nb, check_groups. change (fo_sharing op) with sh.
    destruct (Nat.eqb_spec (sum_lens lens) ncols) as [En|En]; cbn [negb raise_if bind]; [|reflexivity].
    destruct (Nat.eqb_spec (List.length cash) (if sh then List.length lens else ncols)) as [El|El]; cbn [negb raise_if bind]; [|reflexivity].
    cbn [array_callbacks cb_pre_sim cb_post_sim bind].
    assert (Hl : List.length lens = List.length cash).
    { destruct sh eqn:Es; [congruence|]. rewrite El, <- En. clear - Hpos Es. unfold is_grouped in Es. induction lens as [|n l IH]; [reflexivity|].
      cbn [existsb] in Es. apply orb_false_iff in Es as [Hn Es]. apply Nat.ltb_ge in Hn. inversion Hpos; subst. unfold sum_lens in *. cbn. rewrite <- IH by assumption.
      lia. }
    pose proof (groups_same cash nrows lens 0 0 (sim_init inp nrows ncols mo ml rng) (finit cash e (in_call_seq inp) nrows ncols mo ml rng) tt
      (fun g H => H) Hl) as G.
    match type of G with ?A -> _ => assert (B : A) by (constructor; cbn; auto) end. specialize (G B).
    destruct (sim_groups _ _ _ _ _ _ _ _ _ _) as [a|e'], (foldM _ _ _) as [[b u']|e'']; cbn [same_outcome bind fst] in G |- *; try contradiction; [rewrite G; reflexivity|congruence].
  Qed.
End FromOrders.
