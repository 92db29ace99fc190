(** * Simulation with callbacks: values, returns and latest records *)
From Coq Require Import String ZArith Bool List Arith Lia.
From Verif Require Import Base Num Order OrderGen CallSeq Account Simulate SimSpec ReturnsNb OrderFunc OrderFuncSpec OrderFuncLemmas OrderFuncLemmas2.
Import ListNotations.
Open Scope list_scope.

Section Values.
  Context {T : Type} {N : Num T} {U A0 A1 A2 : Type}.
  Implicit Types (st : FState T) (u : U).
  Notation events := (list (Call * FState T)).

  (** ** Groups do not overlap *)
  Lemma segs_bounds : forall lens k f g, In g (segs k f lens) -> k <= sg_group g /\ f <= sg_from g.
  Proof.
    induction lens as [|n lens IH]; intros k f g H; cbn in H; [contradiction|].
    destruct H as [<-|H]; [cbn; lia|]. apply IH in H. lia.
  Qed.
  Lemma segs_apart : forall lens k f g g', In g (segs k f lens) -> In g' (segs k f lens) ->
    sg_group g = sg_group g' \/ (exists c, in_seg g c /\ in_seg g' c) -> g = g'.
  Proof.
    induction lens as [|n lens IH]; intros k f g g' H H' E; cbn in H, H'; [contradiction|].
    destruct H as [<-|H]; destruct H' as [<-|H'].
    - reflexivity.
    - apply segs_bounds in H'. exfalso. destruct E as [E|(c & [E1 E2] & [E3 E4])]; cbn in *; lia.
    - apply segs_bounds in H. exfalso. destruct E as [E|(c & [E1 E2] & [E3 E4])]; cbn in *; lia.
    - eapply IH; eassumption.
  Qed.
  Lemma slots_apart : forall (op : FOpts T) lens g g' c c', In g (segs 0 0 lens) -> In g' (segs 0 0 lens) ->
    in_seg g c -> in_seg g' c' -> slot op g c = slot op g' c' -> g = g'.
  Proof.
    intros op lens g g' c c' H H' Hc Hc' E. eapply segs_apart; [exact H|exact H'|]. unfold slot in E.
    destruct (fo_sharing op); [left; exact E|right]. subst c'. eauto.
  Qed.

  Lemma column_value_spec : forall st c,
    column_value st c = if eqb (fs_pos st c) zero then fs_cash st c else add (fs_cash st c) (mul (fs_pos st c) (fs_vp st c)).
  Proof. reflexivity. Qed.
  Lemma group_value_spec : forall st f n cash,
    get_group_value_nb f n cash (fs_pos st) (fs_vp st) =
    fold_left (fun v k => if eqb (fs_pos st k) zero then v else add v (mul (fs_pos st k) (fs_vp st k))) (seq f n) cash.
  Proof.
    intros st f n cash. unfold get_group_value_nb. apply fold_left_ext_in. intros v k _. unfold neb. destruct (eqb _ _); reflexivity.
  Qed.

  (** ** Revaluation before the orders *)
  Lemma fold_revalue : forall l st, NoDup l ->
    let f := fun st col => let v := column_value st col in
        with_value st (fupd (fs_value st) col v) (fupd (fs_return st) col (get_return_nb (fs_second st col) v)) in
    let st' := fold_left f l st in
    fs_cash st' = fs_cash st /\ fs_pos st' = fs_pos st /\ fs_vp st' = fs_vp st /\ fs_second st' = fs_second st /\ fs_temp st' = fs_temp st /\
    (forall c, In c l -> fs_value st' c = column_value st c /\ fs_return st' c = get_return_nb (fs_second st c) (column_value st c)) /\
    (forall c, ~ In c l -> fs_value st' c = fs_value st c /\ fs_return st' c = fs_return st c).
  Proof.
    induction l as [|x l IH]; intros st Hn f st'; [cbn; repeat split; auto; contradiction|].
    inversion Hn as [|? ? Hx Hl]; subst. unfold st'. cbn [fold_left].
    destruct (IH (f st x) Hl) as (E1 & E2 & E3 & E4 & E5 & H1 & H2). fold f in E1, E2, E3, E4, E5, H1, H2.
    repeat (split; [assumption|]). split.
    - intros c [<-|Hc].
      + destruct (H2 x Hx) as [-> ->]. cbn. unfold fupd. rewrite Nat.eqb_refl. auto.
      + destruct (H1 c Hc) as [-> ->]. auto.
    - intros c Hc. destruct (H2 c) as [-> ->]; [intros C; apply Hc; now right|]. cbn. unfold fupd.
      destruct (Nat.eqb_spec c x) as [->|]; [exfalso; apply Hc; now left|auto].
  Qed.

  Lemma revalue_valued : forall (op : FOpts T) g st, valued op g (revalue op g st) /\ fs_temp (revalue op g st) = fs_temp st /\
    fs_pos (revalue op g st) = fs_pos st /\ fs_cash (revalue op g st) = fs_cash st /\ fs_vp (revalue op g st) = fs_vp st.
  Proof.
    intros op g st. unfold valued, current_value, slot, revalue. destruct (fo_sharing op).
    - cbn. unfold fupd. rewrite Nat.eqb_refl, group_value_spec. auto.
    - destruct (fold_revalue (seq (sg_from g) (sg_len g)) st (seq_NoDup _ _)) as (E1 & E2 & E3 & E4 & E5 & H1 & _).
      cbv zeta in E1, E2, E3, E4, E5, H1 |- *. rewrite E1, E2, E3, E4, E5. split; [|auto]. intros c Hc. destruct (H1 c) as [-> ->]; [apply in_seq; exact Hc|]. auto.
  Qed.

  (** ** Valuation after the orders *)
  Lemma fold_shift : forall l st, NoDup l ->
    let st' := fold_left (fun st col => shift_value st col (column_value st col)) l st in
    fs_cash st' = fs_cash st /\ fs_pos st' = fs_pos st /\ fs_vp st' = fs_vp st /\
    (forall c, In c l -> fs_value st' c = column_value st c /\ fs_second st' c = fs_temp st c /\ fs_temp st' c = column_value st c /\
       fs_return st' c = get_return_nb (fs_temp st c) (column_value st c)) /\
    (forall c, ~ In c l -> fs_value st' c = fs_value st c /\ fs_second st' c = fs_second st c /\ fs_temp st' c = fs_temp st c /\
       fs_return st' c = fs_return st c).
  Proof.
    induction l as [|x l IH]; intros st Hn st'; [cbn; repeat split; auto; contradiction|].
    inversion Hn as [|? ? Hx Hl]; subst. unfold st'. cbn [fold_left].
    destruct (IH (shift_value st x (column_value st x)) Hl) as (E1 & E2 & E3 & H1 & H2).
    repeat (split; [assumption|]). split.
    - intros c [<-|Hc].
      + destruct (H2 x Hx) as (-> & -> & -> & ->). cbn. unfold fupd. rewrite Nat.eqb_refl. auto.
      + destruct (H1 c Hc) as (-> & -> & -> & ->). cbn. unfold fupd.
        destruct (Nat.eqb_spec c x) as [->|]; [contradiction|auto].
    - intros c Hc. destruct (H2 c) as (-> & -> & -> & ->); [intros C; apply Hc; now right|]. cbn. unfold fupd.
      destruct (Nat.eqb_spec c x) as [->|]; [exfalso; apply Hc; now left|auto].
  Qed.

  (** What a segment leaves behind *)
  Definition left_by (op : FOpts T) g i st st' : Prop :=
    priced_at_close op g i st' /\ valued op g st' /\
    (forall c, in_seg g c -> fs_second st' (slot op g c) = fs_temp st (slot op g c) /\ fs_temp st' (slot op g c) = fs_value st' (slot op g c)) /\
    (forall k, (forall c, in_seg g c -> k <> slot op g c) -> (fo_sharing op = true -> k <> sg_group g) -> fs_temp st' k = fs_temp st k).

  Lemma close_vp_vp : forall (op : FOpts T) i l vp, NoDup l ->
    let vp' := fold_left (fun vp col => store_vp op vp col (fo_close op i col)) l vp in
    (forall c, ~ In c l -> vp' c = vp c) /\
    (forall c, In c l -> isnan (fo_close op i c) = false \/ fo_ffill op = false -> vp' c = fo_close op i c).
  Proof.
    intros op i. induction l as [|x l IH]; intros vp Hn vp'; [split; [auto|intros c []]|].
    inversion Hn as [|? ? Hx Hl]; subst. unfold vp'. cbn [fold_left].
    destruct (IH (store_vp op vp x (fo_close op i x)) Hl) as [H1 H2]. split.
    - intros c Hc. rewrite H1 by (intros C; apply Hc; now right). unfold store_vp, fupd.
      destruct (negb _ || negb _); [|reflexivity]. destruct (Nat.eqb_spec c x) as [->|]; [exfalso; apply Hc; now left|reflexivity].
    - intros c [<-|Hc] Hk; [|apply H2; auto]. rewrite H1 by assumption. unfold store_vp, fupd.
      destruct Hk as [-> | ->]; cbn [negb]; rewrite ?orb_true_r; cbn [orb]; rewrite Nat.eqb_refl; reflexivity.
  Qed.

  Lemma close_left_by : forall (op : FOpts T) g i st, left_by op g i st (close_value op g (close_vp op g i st)).
  Proof.
    intros op g i st. set (s1 := close_vp op g i st).
    destruct (close_vp_vp op i (seq (sg_from g) (sg_len g)) (fs_vp st) (seq_NoDup _ _)) as [_ Hvp].
    unfold left_by, priced_at_close, valued, current_value, slot, close_value. destruct (fo_sharing op) eqn:Es.
    - cbn [shift_value fs_vp fs_value fs_return fs_second fs_temp fs_cash fs_pos]. unfold fupd. rewrite Nat.eqb_refl.
      split; [|split; [|split]].
      + intros c Hc Hk. cbn. apply Hvp; [apply in_seq; exact Hc|exact Hk].
      + intros c Hc. rewrite group_value_spec. auto.
      + auto.
      + intros k Hk Hk2. destruct (Nat.eqb_spec k (sg_group g)) as [->|]; [now destruct (Hk2 eq_refl)|]. reflexivity.
    - destruct (fold_shift (seq (sg_from g) (sg_len g)) s1 (seq_NoDup _ _)) as (E1 & E2 & E3 & H1 & H2).
      cbv zeta in E1, E2, E3, H1, H2. rewrite E1, E2, E3. split; [|split; [|split]].
      + intros c Hc Hk. cbn. apply Hvp; [apply in_seq; exact Hc|exact Hk].
      + intros c Hc. destruct (H1 c) as (-> & -> & _ & ->); [apply in_seq; exact Hc|]. auto.
      + intros c Hc. destruct (H1 c) as (-> & -> & -> & _); [apply in_seq; exact Hc|]. auto.
      + intros k Hk _. destruct (H2 k) as (_ & _ & -> & _); [|reflexivity]. intros C. apply in_seq in C. now apply (Hk k C).
  Qed.

  (** ** Orders keep what is compared at the end of the segment *)
  Lemma process_temp : forall draws op (cb : Callbacks T U A0 A1 A2) a g i col k o st u st' u',
    process_step draws op cb a g i col k o st u = Ok (st', u') -> fs_temp st' = fs_temp st.
  Proof.
    intros draws op cb a g i col k o st u st' u' H. unfold process_step in H.
    apply bind_ok in H as ([[r s'] rc'] & H1 & H). apply bind_ok in H as (st1 & H2 & H). apply bind_ok in H as (u1 & _ & H).
    inversion H; subst. unfold store_order in H2. apply bind_ok in H2 as (rec' & _ & H2). inversion H2; subst. reflexivity.
  Qed.
  Lemma flex_temp : forall draws op (cb : Callbacks T U A0 A1 A2) a g i fuel k st u st' u',
    flex_loop draws op cb a g i fuel k st u = Some (Ok (st', u')) -> fs_temp st' = fs_temp st.
  Proof.
    intros draws op cb a g i fuel. induction fuel as [|fuel IH]; intros k st u st' u' H; cbn [flex_loop] in H;
      (destruct (cb_flex_order cb a g i k st u) as [[[[c|] o] u0]|e]; [|inversion H; subst; reflexivity|discriminate]);
      (destruct (Nat.ltb c (sg_from g) || Nat.leb (sg_from g + sg_len g) c); [discriminate|]);
      (destruct (process_step _ _ _ _ _ _ _ _ _ _ _) as [[st1 u1]|e] eqn:Ep; [|discriminate]); [discriminate|].
    apply process_temp in Ep. apply IH in H. congruence.
  Qed.
  Lemma orders_temp : forall draws op (cb : Callbacks T U A0 A1 A2) m a g i st u st' u',
    orders_of_segment draws op cb m a g i st u = Ok (st', u') -> fs_temp st' = fs_temp st.
  Proof.
    intros draws op cb m a g i st u st' u' H. unfold orders_of_segment in H. destruct m as [|fuel].
    - refine (foldM_inv nat _ (fun s => fs_temp (fst s) = fs_temp st) _ _ (st, u) (st', u') _ eq_refl H).
      intros [s v] k [s' v'] Hs _ Hk. cbn [fst] in *. unfold call_step in Hk.
      apply raise_if_ok in Hk as [_ Hk]. apply bind_ok in Hk as ([o v1] & _ & Hk). apply process_temp in Hk. congruence.
    - destruct (flex_loop _ _ _ _ _ _ _ _ _ _) as [r|] eqn:Ef; [|discriminate]. subst. eapply flex_temp. exact Ef.
  Qed.
  Lemma open_stats_keeps : forall (op : FOpts T) g st st', open_stats op g st = Ok st' -> exists r, st' = with_recs st r.
  Proof.
    intros op g st st' H. unfold open_stats in H. destruct (fo_fill_pos op); [|inversion H; subst; exists (fs_rec st'); destruct st'; reflexivity].
    refine (foldM_inv nat _ (fun s => exists r, s = with_recs st r) open_stats_step _ st st' _ _ H).
    - intros s a s' (r & ->) _ Hf. unfold open_stats_step in Hf. apply bind_ok in Hf as (r' & _ & Hf). inversion Hf; subst. eexists. reflexivity.
    - exists (fs_rec st). destruct st; reflexivity.
  Qed.

  Lemma segment_left_by : forall draws op (cb : Callbacks T U A0 A1 A2) m a g i st u st' u',
    segment draws op cb m a g i (st, u) = Ok (st', u') -> left_by op g i st st'.
  Proof.
    intros draws op cb m a g i st u st' u' H. unfold segment in H.
    apply bind_ok in H as ([[out st1] u1] & H1 & H). apply bind_ok in H as (st2 & H2 & H).
    apply bind_ok in H as ([st4 u4] & H3 & H). apply bind_ok in H as (st6 & H4 & H). apply bind_ok in H as (u6 & _ & H).
    inversion H; subst.
    assert (E1 : fs_temp st1 = fs_temp st).
    { destruct (fo_call_pre op || fo_mask op i (sg_group g)); [|inversion H1; reflexivity].
      apply bind_ok in H1 as ([[[a2 vp] calls] u0] & _ & H1). inversion H1; subst. reflexivity. }
    apply open_stats_keeps in H2 as (r2 & ->). apply open_stats_keeps in H4 as (r4 & ->).
    assert (E4 : fs_temp st4 = fs_temp st).
    { destruct (revalue_valued op g (with_recs st1 r2)) as (_ & E & _). cbn [fs_temp with_recs] in E.
      destruct (fo_mask op i (sg_group g)); [|inversion H3; subst; congruence].
      destruct out as [a2|]; [|discriminate]. apply orders_temp in H3. congruence. }
    pose proof (close_left_by op g i st4) as (L1 & L2 & L3 & L4). rewrite E4 in L3, L4.
    split; [exact L1|]. split; [exact L2|]. split; [exact L3|exact L4].
  Qed.

  (** ** The latest records *)
  Definition pointers st : Prop := forall col,
    latest or_col (rc_orders (fs_rc st)) col (fs_oidx st col) /\ latest lg_col (rc_logs (fs_rc st)) col (fs_lidx st col).

  Lemma latest_snoc : forall R (colf : R -> nat) l r c o, latest colf l c o ->
    latest colf (l ++ [r]) c (if Nat.eqb c (colf r) then Some (List.length l) else o).
  Proof.
    intros R colf l r c o H. destruct (Nat.eqb_spec c (colf r)) as [->|Hne].
    - exists r. split; [now rewrite nth_error_app2, Nat.sub_diag by lia|]. split; [reflexivity|].
      intros j r' Hj Hlt. assert (j < List.length (l ++ [r])) by (apply nth_error_Some; congruence). rewrite app_length in H0. cbn in H0. lia.
    - destruct o as [k|]; cbn in *.
      + destruct H as (r0 & E & Ec & Hl). exists r0. assert (k < List.length l) by (apply nth_error_Some; congruence).
        split; [now rewrite nth_error_app1|]. split; [exact Ec|]. intros j r' Hj Hlt.
        destruct (Nat.lt_ge_cases j (List.length l)) as [Hj2|Hj2]; [rewrite nth_error_app1 in Hj by assumption; eauto|].
        rewrite nth_error_app2 in Hj by assumption. destruct (j - List.length l) as [|n]; cbn in Hj; [congruence|]. destruct n; discriminate.
      + intros r' Hr. apply in_app_or in Hr as [Hr|[<-|[]]]; [auto|congruence].
  Qed.

  Lemma store_pointers : forall draws (op : FOpts T) g i col st o r s' rc' st', pointers st ->
    process_order_nb draws i col (sg_group g) (order_state_now op st g col) (fo_update op) o (fs_rc st) = Ok (r, s', rc') ->
    store_order op g i col st r s' rc' = Ok st' -> pointers st'.
  Proof.
    intros draws op g i col st o r s' rc' st' HP Hp Hs. unfold store_order in Hs. apply bind_ok in Hs as (rec' & _ & Hs).
    inversion Hs; subst. apply process_order_inv in Hp as (es & _ & _ & _ & _ & _ & Ho & Hl & _).
    intros c. cbn [fs_rc fs_oidx fs_lidx]. destruct (HP c) as [H1 H2]. rewrite Ho, Hl. split.
    - destruct (is_filled r); [|rewrite Nat.eqb_refl; exact H1]. rewrite app_length. cbn [List.length].
      replace (Nat.eqb (List.length (rc_orders (fs_rc st))) (List.length (rc_orders (fs_rc st)) + 1)) with false by (symmetry; apply Nat.eqb_neq; lia).
      unfold fupd. apply (latest_snoc _ or_col _ (mkOrderRec (List.length (rc_orders (fs_rc st))) col i (r_size r) (r_price r) (r_fees r) (r_side r)) c _ H1).
    - destruct (o_log o); [|rewrite Nat.eqb_refl; exact H2]. rewrite app_length. cbn [List.length].
      replace (Nat.eqb (List.length (rc_logs (fs_rc st))) (List.length (rc_logs (fs_rc st)) + 1)) with false by (symmetry; apply Nat.eqb_neq; lia).
      unfold fupd. match goal with |- latest lg_col (_ ++ [?x]) _ _ => apply (latest_snoc _ lg_col _ x c _ H2) end.
  Qed.

  Lemma pointers_rc : forall st st', fs_rc st' = fs_rc st -> fs_oidx st' = fs_oidx st -> fs_lidx st' = fs_lidx st -> pointers st -> pointers st'.
  Proof. intros st st' H1 H2 H3 H c. rewrite H1, H2, H3. apply H. Qed.
  Lemma fold_idx : forall (f : FState T -> nat -> FState T) l st,
    (forall st k, fs_oidx (f st k) = fs_oidx st /\ fs_lidx (f st k) = fs_lidx st) ->
    fs_oidx (fold_left f l st) = fs_oidx st /\ fs_lidx (fold_left f l st) = fs_lidx st.
  Proof. intros f l. induction l as [|k l IH]; intros st H; cbn; [auto|]. destruct (IH (f st k) H) as [-> ->]. apply H. Qed.
  Lemma revalue_pointers : forall (op : FOpts T) g st, pointers st -> pointers (revalue op g st).
  Proof.
    intros op g st H. apply pointers_rc with (st := st); [apply revalue_rc| | |exact H]; unfold revalue;
      (destruct (fo_sharing op); [reflexivity|]; apply fold_idx; auto).
  Qed.
  Lemma close_pointers : forall (op : FOpts T) g i st, pointers st -> pointers (close_value op g (close_vp op g i st)).
  Proof.
    intros op g i st H. apply pointers_rc with (st := st); [rewrite close_value_rc; reflexivity| | |exact H]; unfold close_value;
      (destruct (fo_sharing op); [reflexivity|]).
    - refine (proj1 (fold_idx (fun st col => shift_value st col (column_value st col)) _ (close_vp op g i st) _)). auto.
    - refine (proj2 (fold_idx (fun st col => shift_value st col (column_value st col)) _ (close_vp op g i st) _)). auto.
  Qed.

  (** ** The history *)
  Section History.
    Variables (op : FOpts T) (lens : list nat) (cash : list T).
    Notation groups := (segs 0 0 lens).
    Definition value_before (l : events) (g : Seg) (k : nat) : T :=
      match last_segment (sg_group g) l with Some s' => fs_value s' k | None => nth k cash nan end.
    Definition history st (l : events) : Prop :=
      (fo_call_post op = true -> forall g c, In g groups -> in_seg g c -> fs_temp st (slot op g c) = value_before l g (slot op g c)) /\
      (forall l1 c s l2, l = l1 ++ (c, s) :: l2 -> sees op groups cash l1 c s).

    Lemma last_segment_app : forall g l1 l2, last_segment g (l1 ++ l2) =
      match last_segment g l2 with Some s => Some s | None => @last_segment T g l1 end.
    Proof.
      intros g l1 l2. induction l1 as [|[c s] l1 IH]; cbn; [destruct (last_segment g l2); reflexivity|].
      rewrite IH. destruct (last_segment g l2); reflexivity.
    Qed.
    Lemma last_segment_none : forall g (l : events), (forall i, ~ In (PostSegment g i) (map fst l)) -> last_segment g l = None.
    Proof.
      intros g l. induction l as [|[c s] l IH]; intros H; cbn; [reflexivity|].
      rewrite IH by (intros i C; apply (H i); now right). destruct c; try reflexivity.
      destruct (Nat.eqb_spec g0 g) as [->|]; [|reflexivity]. exfalso. apply (H i). now left.
    Qed.

    Lemma snoc_split : forall X (l t l1 l2 : list X) x, l ++ t = l1 ++ x :: l2 ->
      (exists m, l = l1 ++ x :: m) \/ (exists t1 t2, t = t1 ++ x :: t2 /\ l1 = l ++ t1).
    Proof.
      intros X. induction l as [|y l IH]; intros t l1 l2 x H; cbn in H.
      - right. exists l1, l2. auto.
      - destruct l1 as [|z l1]; cbn in H; inversion H; subst.
        + left. exists l. reflexivity.
        + destruct (IH _ _ _ _ H2) as [(m & ->)|(t1 & t2 & -> & ->)]; [left; exists m; reflexivity|right; exists t1, t2; auto].
    Qed.

    Definition inner (g i : nat) (c : Call) : Prop :=
      match c with
      | PreSegment g' i' _ | OrderCall g' i' _ _ | PostOrderCall g' i' _ _ | FlexCall g' i' _ _ => g' = g /\ i' = i
      | _ => False
      end.
    Lemma segment_shape : forall m g i cs, segment_calls op m g i cs ->
      exists t0, (cs = t0 ++ [PostSegment (sg_group g) i] \/ (cs = t0 /\ fo_call_post op = false)) /\ Forall (inner (sg_group g) i) t0.
    Proof.
      intros m g i cs H. destruct H as [calls Hm|calls Hm _ _ _|calls fuel cols Hm _ _].
      - exists (if fo_call_pre op then [PreSegment (sg_group g) i calls] else []). split.
        + destruct (fo_call_post op); [left; reflexivity|right]. rewrite app_nil_r. auto.
        + destruct (fo_call_pre op); repeat constructor.
      - exists (PreSegment (sg_group g) i calls :: order_calls (sg_group g) i (sg_from g) 0 calls). split; [left; reflexivity|].
        constructor; [cbn; auto|]. generalize 0. induction calls as [|x cs IH]; intros k; cbn; [constructor|]. repeat constructor; auto.
      - exists (PreSegment (sg_group g) i calls :: flex_calls (sg_group g) i 0 cols). split; [left; reflexivity|].
        constructor; [cbn; auto|]. generalize 0. induction cols as [|x cs IH]; intros k; cbn; repeat constructor; auto.
    Qed.
    Lemma inner_not_post : forall g i l, Forall (inner g i) l -> forall g' j, ~ In (PostSegment g' j) l.
    Proof. intros g i l H g' j C. rewrite Forall_forall in H. exact (H _ C). Qed.

    Lemma history_segment : forall m g i st st' l t, In g groups -> history st l -> left_by op g i st st' ->
      segment_events op pointers m g i st st' t -> history st' (l ++ t).
    Proof.
      intros m g i st st' l t Hg [HJ1 HJ2] (L1 & L2 & L3 & L4) (Hc & Hgood & _ & _ & Hpost & Hord & Hflex).
      apply segment_shape in Hc as (cs & Hc & Hin). split.
      - intros Hcp g' c Hg' Hc'. destruct Hc as [Hc|[_ Hc]]; [|congruence].
        assert (exists t0, t = t0 ++ [(PostSegment (sg_group g) i, st')] /\ map fst t0 = cs) as (t0 & -> & Et0).
        { destruct (exists_last (l := t)) as (t0 & [x s] & ->); [intros ->; now destruct cs|].
          rewrite map_app in Hc. apply app_inj_tail in Hc as [Hc1 Hc2]. cbn in Hc2. subst x. exists t0. split; [|exact Hc1].
          rewrite (Hpost s); [reflexivity|]. apply in_or_app. right. now left. }
        unfold value_before. rewrite !last_segment_app. cbn [last_segment].
        destruct (Nat.eqb_spec (sg_group g) (sg_group g')) as [Eg|Eg].
        + assert (g = g') by (eapply segs_apart; eauto). subst g'. apply L3. exact Hc'.
        + rewrite last_segment_none by (intros j; rewrite Et0; apply (inner_not_post _ _ _ Hin)).
          rewrite L4; [exact (HJ1 Hcp g' c Hg' Hc')| |].
          * intros c0 Hc0 E. apply Eg. f_equal. symmetry. eapply slots_apart; [exact Hg'|exact Hg|exact Hc'|exact Hc0|exact E].
          * intros Es E. unfold slot in E. rewrite Es in E. congruence.
      - intros l1 c s l2 E. apply snoc_split in E as [(r & E)|(t1 & t2 & E & ->)]; [eapply HJ2; exact E|].
        assert (In (c, s) t) as HIn by (rewrite E; apply in_or_app; right; now left).
        assert (In c (map fst t)) as HIc by (apply in_map with (f := fst) in HIn; exact HIn).
        assert (inner (sg_group g) i c \/ c = PostSegment (sg_group g) i) as Hcase.
        { rewrite Forall_forall in Hin. destruct Hc as [Hc|[Hc _]]; rewrite Hc in HIc; [|left; auto].
          apply in_app_or in HIc as [HIc|[<-|[]]]; [left; auto|right; reflexivity]. }
        split; [unfold good in Hgood; rewrite Forall_forall in Hgood; exact (Hgood _ HIn)|].
        destruct Hcase as [Hcase|Hcase].
        + destruct c; cbn in Hcase; try contradiction; try exact I; destruct Hcase as [-> ->]; destruct k as [|k]; try exact I;
            intros g' Hg' Eg; assert (g' = g) by (eapply segs_apart; eauto); subst g'.
          * destruct (Hord _ _ HIn) as (s0 & ->). apply revalue_valued.
          * destruct (Hflex _ _ HIn) as (s0 & ->). apply revalue_valued.
        + subst c. rewrite (Hpost s HIn). intros g' Hg' Eg. assert (g' = g) by (eapply segs_apart; eauto). subst g'.
          split; [exact L1|]. split; [exact L2|]. intros Hcp col Hcol. destruct (L3 col Hcol) as [-> _].
          rewrite last_segment_app, last_segment_none; [exact (HJ1 Hcp g col Hg Hcol)|].
          intros j C. rewrite E, map_app in Hc. cbn [map fst] in Hc. destruct Hc as [Hc|[Hc _]].
          * assert (map fst t1 = cs /\ t2 = []) as [Hc1 _].
            { destruct t2 as [|x t2] using rev_ind; [cbn in Hc; apply app_inj_tail in Hc as [Hc _]; auto|clear IHt2].
              exfalso. rewrite map_app, app_comm_cons, app_assoc in Hc. apply app_inj_tail in Hc as [Hc _].
              apply (inner_not_post _ _ _ Hin (sg_group g) i). rewrite <- Hc. apply in_or_app. right. now left. }
            rewrite Hc1 in C. exact (inner_not_post _ _ _ Hin _ _ C).
          * apply (inner_not_post _ _ _ Hin (sg_group g) j). rewrite <- Hc. apply in_or_app. now left.
    Qed.

    Lemma history_outer : forall st l c, outer c -> pointers st -> history st l -> history st (l ++ [(c, st)]).
    Proof.
      intros st l c Hc HP [HJ1 HJ2]. split.
      - intros Hcp g c' Hg Hc'. unfold value_before. rewrite last_segment_app.
        replace (last_segment (sg_group g) [(c, st)]) with (@None (FState T)) by (destruct c; try contradiction; reflexivity).
        exact (HJ1 Hcp g c' Hg Hc').
      - intros l1 c0 s l2 E. apply snoc_split in E as [(r & E)|(t1 & t2 & E & ->)]; [eapply HJ2; exact E|].
        destruct t1 as [|x t1]; [|inversion E; destruct t1; discriminate]. inversion E; subst.
        split; [exact HP|]. destruct c0; try contradiction; exact I.
    Qed.
  End History.

  Lemma init_history : forall (op : FOpts T) lens cash e cs nrows ncols mo ml rng,
    pointers (finit cash e cs nrows ncols mo ml rng) /\
    history op lens cash (finit cash e cs nrows ncols mo ml rng) [].
  Proof.
    intros. split; [|split].
    - intros col. split; intros r [].
    - intros _ g c _ _. reflexivity.
    - intros l1 c s l2 E. destruct l1; discriminate.
  Qed.

  Lemma columns_see : forall draws (op : FOpts T) (cb : Callbacks T U A0 A1 A2) m nrows ncols lens cash e cs mo ml rng u st u' t,
    full_call_seq cb ->
    simulate_nb draws op (spy cb) m nrows ncols lens cash (finit cash e cs nrows ncols mo ml rng) (u, []) = Ok (st, (u', t)) ->
    forall before c s after, t = before ++ (c, s) :: after -> sees op (segs 0 0 lens) cash before c s.
  Proof.
    intros draws op cb m nrows ncols lens cash e cs mo ml rng u st u' t HF H.
    destruct (init_history op lens cash e cs nrows ncols mo ml rng) as [HP HJ].
    pose proof (simulate_spy op (segs 0 0 lens) draws (fun _ => True) (fun _ => True) pointers
      (fun g i vp calls st _ _ H => H) (fun st r H => H) (fun g st _ => revalue_pointers op g st)
      (fun g i st _ => close_pointers op g i st) (fun g i col st o r s' rc' st' _ _ _ => store_pointers draws op g i col st _ r s' rc' st')
      cb HF (fun _ _ _ _ _ _ _ _ _ _ _ => I) (fun _ _ _ _ _ _ _ _ _ _ _ => I) (fun _ _ _ _ _ _ _ _ _ _ _ => I)
      (fun st l => pointers st /\ history op lens cash st l)) as L.
    specialize (L (fun st l c Ho HJ => conj (proj1 HJ) (history_outer op lens cash st l c Ho (proj1 HJ) (proj2 HJ)))).
    specialize (L (fun m a g i st u st' u' l t Hg HP HJ Hs Ht => conj (proj1 (proj2 (proj2 Ht)))
      (history_segment op lens cash m g i st st' l t Hg (proj2 HJ) (segment_left_by draws op cb m a g i st u st' u' Hs) Ht))).
    specialize (L m nrows ncols lens cash _ u eq_refl HP (conj HP HJ)). rewrite H in L.
    unfold shadows in L. destruct (simulate_nb draws op cb m nrows ncols lens cash _ u) as [[st1 u1]|]; [|discriminate].
    destruct L as (t' & E & _ & _ & _ & _ & _ & Hh). inversion E; subst. exact Hh.
  Qed.

  Lemma rows_see : forall draws (op : FOpts T) (cb : Callbacks T U A0 A1 A2) m nrows ncols lens cash e cs mo ml rng u st u' t,
    full_call_seq cb ->
    simulate_row_wise_nb draws op (spy cb) m nrows ncols lens cash (finit cash e cs nrows ncols mo ml rng) (u, []) = Ok (st, (u', t)) ->
    forall before c s after, t = before ++ (c, s) :: after -> sees op (segs 0 0 lens) cash before c s.
  Proof.
    intros draws op cb m nrows ncols lens cash e cs mo ml rng u st u' t HF H.
    destruct (init_history op lens cash e cs nrows ncols mo ml rng) as [HP HJ].
    pose proof (simulate_row_wise_spy op (segs 0 0 lens) draws (fun _ => True) (fun _ => True) pointers
      (fun g i vp calls st _ _ H => H) (fun st r H => H) (fun g st _ => revalue_pointers op g st)
      (fun g i st _ => close_pointers op g i st) (fun g i col st o r s' rc' st' _ _ _ => store_pointers draws op g i col st _ r s' rc' st')
      cb HF (fun _ _ _ _ _ _ _ _ _ _ _ => I) (fun _ _ _ _ _ _ _ _ _ _ _ => I) (fun _ _ _ _ _ _ _ _ _ _ _ => I)
      (fun st l => pointers st /\ history op lens cash st l)) as L.
    specialize (L (fun st l c Ho HJ => conj (proj1 HJ) (history_outer op lens cash st l c Ho (proj1 HJ) (proj2 HJ)))).
    specialize (L (fun m a g i st u st' u' l t Hg HP HJ Hs Ht => conj (proj1 (proj2 (proj2 Ht)))
      (history_segment op lens cash m g i st st' l t Hg (proj2 HJ) (segment_left_by draws op cb m a g i st u st' u' Hs) Ht))).
    specialize (L m nrows ncols lens cash _ u eq_refl HP (conj HP HJ)). rewrite H in L.
    unfold shadows in L. destruct (simulate_row_wise_nb draws op cb m nrows ncols lens cash _ u) as [[st1 u1]|]; [|discriminate].
    destruct L as (t' & E & _ & _ & _ & _ & _ & Hh). inversion E; subst. exact Hh.
  Qed.

  Lemma columns_called : forall draws (op : FOpts T) (cb : Callbacks T U A0 A1 A2) m nrows ncols lens cash init u, full_call_seq cb ->
    match simulate_nb draws op cb m nrows ncols lens cash init u with
    | Err e => simulate_nb draws op (spy cb) m nrows ncols lens cash init (u, []) = Err e
    | Ok (st, u') => exists t, simulate_nb draws op (spy cb) m nrows ncols lens cash init (u, []) = Ok (st, (u', t)) /\
        simulation_calls op m nrows (segs 0 0 lens) (map fst t)
    end.
  Proof.
    intros draws op cb m nrows ncols lens cash init u HF.
    pose proof (simulate_spy op (segs 0 0 lens) draws (fun _ => True) (fun _ => True) (fun _ => True)
      (fun _ _ _ _ _ _ _ _ => I) (fun _ _ _ => I) (fun _ _ _ _ => I) (fun _ _ _ _ _ => I) (fun _ _ _ _ _ _ _ _ _ _ _ _ _ _ _ => I)
      cb HF (fun _ _ _ _ _ _ _ _ _ _ _ => I) (fun _ _ _ _ _ _ _ _ _ _ _ => I) (fun _ _ _ _ _ _ _ _ _ _ _ => I)
      (fun _ _ => True) (fun _ _ _ _ _ => I) (fun _ _ _ _ _ _ _ _ _ _ _ _ _ _ _ => I) m nrows ncols lens cash init u eq_refl I I) as L.
    unfold shadows in L. destruct (simulate_nb draws op cb m nrows ncols lens cash init u) as [[st1 u1]|]; [|exact L].
    destruct L as (t & E & Hc & _). exists t. auto.
  Qed.
  Lemma rows_called : forall draws (op : FOpts T) (cb : Callbacks T U A0 A1 A2) m nrows ncols lens cash init u, full_call_seq cb ->
    match simulate_row_wise_nb draws op cb m nrows ncols lens cash init u with
    | Err e => simulate_row_wise_nb draws op (spy cb) m nrows ncols lens cash init (u, []) = Err e
    | Ok (st, u') => exists t, simulate_row_wise_nb draws op (spy cb) m nrows ncols lens cash init (u, []) = Ok (st, (u', t)) /\
        row_simulation_calls op m nrows (segs 0 0 lens) (map fst t)
    end.
  Proof.
    intros draws op cb m nrows ncols lens cash init u HF.
    pose proof (simulate_row_wise_spy op (segs 0 0 lens) draws (fun _ => True) (fun _ => True) (fun _ => True)
      (fun _ _ _ _ _ _ _ _ => I) (fun _ _ _ => I) (fun _ _ _ _ => I) (fun _ _ _ _ _ => I) (fun _ _ _ _ _ _ _ _ _ _ _ _ _ _ _ => I)
      cb HF (fun _ _ _ _ _ _ _ _ _ _ _ => I) (fun _ _ _ _ _ _ _ _ _ _ _ => I) (fun _ _ _ _ _ _ _ _ _ _ _ => I)
      (fun _ _ => True) (fun _ _ _ _ _ => I) (fun _ _ _ _ _ _ _ _ _ _ _ _ _ _ _ => I) m nrows ncols lens cash init u eq_refl I I) as L.
    unfold shadows in L. destruct (simulate_row_wise_nb draws op cb m nrows ncols lens cash init u) as [[st1 u1]|]; [|exact L].
    destruct L as (t & E & Hc & _). exists t. auto.
  Qed.
End Values.
