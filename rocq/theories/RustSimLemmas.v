(** * The simulations of the two engines agree, step by step *)
From Coq Require Import ZArith Bool List String Arith Lia.
From Verif Require Import Base Num Order CallSeq Account Simulate RustOrder RustSim RustLemmas OrderGen.
Import ListNotations.
Open Scope list_scope.

(** Numba divides by zero, or both raise the same, or both go on with related states. *)
Definition sim_res {A B} (P : A -> B -> Prop) (x : res A) (y : res B) : Prop :=
  x = Err ZeroDivision \/ (exists e, x = Err e /\ y = Err e) \/
  (exists a b, x = Ok a /\ y = Ok b /\ P a b).

Lemma sim_res_bind : forall A B A' B' (P : A -> B -> Prop) (Q : A' -> B' -> Prop) x y f g,
  sim_res P x y -> (forall a b, x = Ok a -> P a b -> sim_res Q (f a) (g b)) ->
  sim_res Q (bind x f) (bind y g).
Proof.
  intros A B A' B' P Q x y f g [->|[(e & -> & ->)|(a & b & -> & -> & H)]] HQ; cbn [bind].
  - left; auto.
  - right; left; eauto.
  - apply HQ; auto.
Qed.

Lemma sim_res_mono : forall A B (P Q : A -> B -> Prop) x y,
  sim_res P x y -> (forall a b, P a b -> Q a b) -> sim_res Q x y.
Proof.
  intros A B P Q x y [->|[(e & -> & ->)|(a & b & -> & -> & H)]] HQ; [left|right; left|right; right]; eauto 6.
Qed.

Lemma foldM_sim : forall X A B (P : nat -> A -> B -> Prop) (f : A -> X -> res A) (g : B -> X -> res B) l n a b,
  (forall k x a b, nth_error l k = Some x -> P (n + k) a b -> sim_res (P (S (n + k))) (f a x) (g b x)) ->
  P n a b -> sim_res (P (n + List.length l)) (foldM f a l) (foldM g b l).
Proof.
  intros X A B P f g; induction l as [|x l IH]; intros n a b Hs H; cbn [foldM List.length].
  - rewrite Nat.add_0_r. right; right. eauto.
  - eapply sim_res_bind.
    + pose proof (Hs 0 x a b eq_refl) as H0. rewrite Nat.add_0_r in H0. apply H0; auto.
    + intros a' b' _ H'. replace (n + S (List.length l)) with (S n + List.length l) by lia.
      apply IH; auto. intros k y a1 b1 Hk Hp. replace (S n + k) with (n + S k) by lia.
      apply Hs; [exact Hk|]. replace (n + S k) with (S n + k) by lia. auto.
Qed.

Section Gen.
  Context {T : Type} {N : Num T}.

  Definition cap (m : nat) (rc : Recs T) : Recs T :=
    mkRecs (rc_orders rc) (rc_logs rc) m (rc_max_logs rc) (rc_rng rc).

  Definition cap_res (m : nat) (x : res (OrderResult T * ProcState T * Recs T)) :=
    match x with Ok (r, s, rc) => Ok (r, s, cap m rc) | Err e => Err e end.

  Lemma process_cap : forall draws i col group s uv o rc m,
    Nat.leb (rc_max_orders rc) (List.length (rc_orders rc)) = Nat.leb m (List.length (rc_orders rc)) ->
    process_order_nb draws i col group s uv o (cap m rc) =
    cap_res m (process_order_nb draws i col group s uv o rc).
  Proof.
    intros draws i col group s uv o rc m H. unfold process_order_nb.
    cbn [cap rc_rng rc_orders rc_logs rc_max_orders rc_max_logs].
    destruct (execute_order_nb draws (rc_rng rc) s o) as [[[es r] rng']|e]; cbn [bind]; auto.
    unfold raise_if.
    destruct (is_rejected r && o_raise_reject o); [reflexivity|].
    destruct (if is_filled r && uv then _ else _) as [nvp nv]. rewrite <- H.
    destruct (is_filled r && _); [reflexivity|]. destruct (o_log o); [|reflexivity].
    cbn [andb]. destruct (Nat.leb (rc_max_logs rc) (List.length (rc_logs rc))); reflexivity.
  Qed.

  Lemma process_lengths : forall draws i col group s uv o rc r s' rc',
    process_order_nb draws i col group s uv o rc = Ok (r, s', rc') ->
    List.length (rc_orders rc') <= S (List.length (rc_orders rc)) /\ rc_max_orders rc' = rc_max_orders rc.
  Proof.
    intros draws i col group s uv o rc r s' rc' H.
    apply process_order_inv in H as (es & _ & _ & _ & _ & _ & Ho & _ & _ & _ & Hm & _).
    rewrite Ho, Hm. destruct (is_filled r); rewrite ?app_length; cbn [List.length]; split; auto; lia.
  Qed.
End Gen.

Section Run.
  Context {T : Type} {N : Num T} {R : RustOps T} {L : RustLaws N R}.
  Variables (draws : nat -> T) (inp : Inputs T) (fl : Flags) (sharing : bool) (nrows ncols : nat).
  Variable init_cash : list T.
  (** What holds of the state during a group, and between groups *)
  Variables (P PG : Sim T -> Prop).
  Hypothesis H_start : forall c st, PG st -> In c init_cash ->
    P (mkSim c c (sm_value st) (sm_pos st) (sm_debt st) (sm_vp st) (sm_price st) (sm_seq st) (sm_rc st)).
  Hypothesis H_end : forall st, P st -> PG st.
  Hypothesis H_price : forall st i col, P st -> i < nrows -> col < ncols -> P (price_step inp fl i st col).
  Hypothesis H_sort : forall st i from len, P st -> i < nrows -> from + len <= ncols ->
    P (sort_step inp fl sharing i from len st).
  Hypothesis H_order : forall st i group from len k st', P st -> i < nrows -> from + len <= ncols -> k < len ->
    order_step draws inp fl sharing i group from len st k = Ok st' -> P st'.
  Hypothesis H_ok : forall st i col p, P st -> i < nrows -> col < ncols ->
    order_ok (order_state sharing st col) (make_order inp i col p).
  Hypothesis H_approx : forall st i col, P st -> i < nrows -> col < ncols -> auto_call_seq fl = true ->
    in_size_type inp i col <> Percent \/
    isnan (mul (sm_pos st col) (sm_vp st col)) = false /\ isnan (sm_free st) = false.

  Variable M : nat.
  Definition K : nat := nrows * ncols.

  Lemma leb_cap : forall len, len < K -> Nat.leb M len = Nat.leb (Nat.min M K) len.
  Proof.
    intros len H. destruct (Nat.leb M len) eqn:E1, (Nat.leb (Nat.min M K) len) eqn:E2; auto.
    - apply Nat.leb_le in E1. apply Nat.leb_gt in E2. lia.
    - apply Nat.leb_gt in E1. apply Nat.leb_le in E2. lia.
  Qed.

  (** The states of the two engines after at most [n] orders *)
  Record rel (n : nat) (a b : Sim T) : Prop := mkRel {
    rl_cash : sm_cash b = sm_cash a; rl_free : sm_free b = sm_free a;
    rl_value : sharing = true -> sm_value b = sm_value a;
    rl_spos : sm_pos b = sm_pos a; rl_sdebt : sm_debt b = sm_debt a; rl_svp : sm_vp b = sm_vp a;
    rl_price : sm_price b = sm_price a; rl_seq : sm_seq b = sm_seq a;
    rl_rc : sm_rc b = cap (Nat.min M K) (sm_rc a);
    rl_max : rc_max_orders (sm_rc a) = M;
    rl_len : List.length (rc_orders (sm_rc a)) <= n }.

  Lemma order_price_eq : forall i col, rs_order_price inp i col = resolve_price inp i col.
  Proof.
    intros i col. unfold rs_order_price, resolve_price. destruct (isinf _); auto. destruct (gtb _ _); auto.
    destruct i; cbn [Nat.ltb Nat.leb]; auto. rewrite Nat.sub_succ, Nat.sub_0_r. auto.
  Qed.

  Lemma val_price_eq : forall i col p, rs_val_price_now inp i col p = resolve_val_price inp i col p.
  Proof.
    intros i col p. unfold rs_val_price_now, resolve_val_price. destruct (isinf _); auto. destruct (gtb _ _); auto.
    destruct i; cbn [Nat.ltb Nat.leb]; auto. rewrite Nat.sub_succ, Nat.sub_0_r. auto.
  Qed.

  Lemma price_rel : forall n i a b col, rel n a b ->
    rel n (price_step inp fl i a col) (rs_price_pass inp (ffill_val_price fl) i b col).
  Proof.
    intros n i a b col [? ? ? ? ? ? ? ? ? ? ?]. unfold price_step, rs_price_pass.
    rewrite order_price_eq, val_price_eq.
    constructor; cbn [sm_cash sm_free sm_value sm_pos sm_debt sm_vp sm_price sm_seq sm_rc]; auto; try congruence.
    unfold store_val_price. destruct (_ || _)%bool; congruence.
  Qed.

  Lemma prices_rel : forall n i cols a b, rel n a b -> P a -> i < nrows -> (forall c, In c cols -> c < ncols) ->
    rel n (fold_left (price_step inp fl i) cols a) (fold_left (rs_price_pass inp (ffill_val_price fl) i) cols b) /\
    P (fold_left (price_step inp fl i) cols a).
  Proof.
    intros n i; induction cols as [|c cols IH]; intros a b H HP Hi Hc; cbn [fold_left]; [auto|].
    apply IH; auto; [apply price_rel; auto|apply H_price; auto; apply Hc; left; auto|].
    intros; apply Hc; right; auto.
  Qed.

  Lemma argsort_eq : forall l : list (T * nat), rs_insert_argsort l = insert_argsort_nb l.
  Proof. reflexivity. Qed.

  Lemma sort_rel : forall n i from len a b, rel n a b -> P a -> i < nrows -> from + len <= ncols ->
    rel n (sort_step inp fl sharing i from len a)
          (rs_sort_pass inp (auto_call_seq fl) sharing i from len b).
  Proof.
    intros n i from len a b H HP Hi Hl. unfold sort_step, rs_sort_pass.
    destruct (bool_dec sharing true) as [Es|Es];
      [|apply not_true_is_false in Es; rewrite Es; exact H].
    rewrite Es. destruct H as [H1 H2 H3 H4 H5 H6 H7 H8 H9 H10 H11].
    assert (Hv : rs_get_group_value from (from + len) (sm_cash b) (sm_pos b) (sm_vp b) =
                 get_group_value_nb from len (sm_cash a) (sm_pos a) (sm_vp a)).
    { rewrite H1, H4, H6. unfold rs_get_group_value, get_group_value_nb.
      replace (from + len - from) with len by lia. reflexivity. }
    cbv zeta. rewrite Hv.
    constructor; cbn [sm_cash sm_free sm_value sm_pos sm_debt sm_vp sm_price sm_seq sm_rc]; auto.
    destruct (auto_call_seq fl) eqn:Ea; [|exact H8]. rewrite H8, argsort_eq. do 3 f_equal.
    apply map_ext_in. intros k Hk. apply in_seq in Hk. f_equal.
    rewrite H1, H2, H4, H6. apply approx_agrees. apply H_approx; auto. lia.
  Qed.

  Lemma order_rel : forall n i group from len k a b, rel n a b -> P a -> n < K -> i < nrows ->
    from + len <= ncols -> k < len ->
    sim_res (rel (S n)) (order_step draws inp fl sharing i group from len a k)
      (rs_order_pass draws inp (ffill_val_price fl) (update_value fl) sharing i group from len b k).
  Proof.
    intros n i group from len k a b H HP Hn Hi Hl Hk.
    destruct H as [H1 H2 H3 H4 H5 H6 H7 H8 H9 H10 H11].
    unfold order_step, rs_order_pass.
    eapply (sim_res_bind _ _ _ _ (fun c c' : nat => c' = c /\ c < ncols)).
    { unfold pick_col, raise_if. rewrite H8. destruct sharing.
      - destruct (Nat.leb len _) eqn:E; [right; left; eauto|]. apply Nat.leb_gt in E.
        right; right. do 2 eexists. repeat split; lia.
      - right; right. do 2 eexists. repeat split; lia. }
    intros col c' _ [-> Hc].
    set (o := make_order inp i col (sm_price a col)).
    assert (Hagr : agrees (process_order_nb draws i col group (order_state sharing a col) (update_value fl) o (sm_rc b))
      (rs_process_order draws i col group (order_state sharing a col) (update_value fl) o (sm_rc b)))
      by (apply process_agrees, H_ok; auto).
    assert (Hst : mkProc (sm_cash b) (sm_pos b col) (sm_debt b col) (sm_free b) (sm_vp b col)
       (if sharing then sm_value b
        else if neb (sm_pos b col) zero then add (sm_cash b) (mul (sm_pos b col) (sm_vp b col)) else sm_cash b) =
       order_state sharing a col).
    { unfold order_state. rewrite H1, H2, H4, H5, H6. f_equal. destruct sharing; auto. }
    cbv zeta. rewrite Hst. rewrite H7. change (rs_make_order inp i col (sm_price a col)) with o.
    rewrite H9 in *.
    rewrite process_cap in Hagr by (rewrite H10; apply leb_cap; lia).
    set (x := process_order_nb draws i col group (order_state sharing a col) (update_value fl) o (sm_rc a)) in *.
    destruct x as [[[r s'] rc']|e] eqn:Ex; cbn [cap_res] in Hagr; unfold agrees in Hagr.
    - destruct Hagr as [Hagr|Hagr]; [discriminate|]. rewrite Hagr. cbn [bind].
      right; right. do 2 eexists. split; [reflexivity|]. split; [reflexivity|].
      apply process_lengths in Ex as [Hlen Hmax].
      constructor; cbn [store_state sm_cash sm_free sm_value sm_pos sm_debt sm_vp sm_price sm_seq sm_rc]; auto; try congruence.
      + destruct sharing; [auto|discriminate].
      + unfold store_val_price. destruct (_ || _)%bool; congruence.
      + lia.
    - destruct Hagr as [Hagr|Hagr]; [injection Hagr as ->; left; reflexivity|].
      rewrite Hagr. right; left. cbn [bind]. eauto.
  Qed.

  Lemma nth_error_seq : forall s l k x, nth_error (seq s l) k = Some x -> x = s + k /\ k < l.
  Proof.
    intros s l k x H. assert (Hk : k < l) by (rewrite <- (seq_length l s); apply nth_error_Some; congruence).
    rewrite (nth_error_nth' _ 0) in H by (rewrite seq_length; auto). injection H as <-.
    rewrite seq_nth; auto.
  Qed.

  Lemma bar_rel : forall n group from len i a b, rel n a b -> P a -> n + len <= K -> i < nrows -> from + len <= ncols ->
    sim_res (fun a b => rel (n + len) a b /\ P a) (bar_step draws inp fl sharing group from len a i)
      (rs_bar draws inp (auto_call_seq fl) (ffill_val_price fl) (update_value fl) sharing group from len b i).
  Proof.
    intros n group from len i a b H HP Hn Hi Hl. unfold bar_step, rs_bar.
    destruct (prices_rel n i (seq from len) a b H HP Hi) as [H1 HP1].
    { intros c Hc. apply in_seq in Hc. lia. }
    set (a1 := fold_left (price_step inp fl i) (seq from len) a) in *.
    set (b1 := fold_left (rs_price_pass inp (ffill_val_price fl) i) (seq from len) b) in *.
    cbv zeta. set (b2 := mkSim (sm_cash b1) _ _ _ _ _ _ _ _).
    assert (H2 : rel n (sort_step inp fl sharing i from len a1)
               (rs_sort_pass inp (auto_call_seq fl) sharing i from len b2)).
    { destruct (bool_dec sharing true) as [Es|Es].
      - pose proof (sort_rel n i from len a1 b1 H1 HP1 Hi Hl) as H2. unfold rs_sort_pass in *. rewrite Es in H2 |- *. exact H2.
      - apply not_true_is_false in Es. unfold sort_step, rs_sort_pass. rewrite Es.
        destruct H1. constructor; cbn; auto. congruence. }
    assert (HP2 : P (sort_step inp fl sharing i from len a1)) by (apply H_sort; auto).
    pose proof (foldM_sim _ _ _ (fun m a b => rel m a b /\ P a)
      (order_step draws inp fl sharing i group from len)
      (rs_order_pass draws inp (ffill_val_price fl) (update_value fl) sharing i group from len) (seq 0 len) n
      (sort_step inp fl sharing i from len a1) (rs_sort_pass inp (auto_call_seq fl) sharing i from len b2)) as HF.
    rewrite seq_length in HF. apply HF; auto.
    intros k x a' b' Hk [Hr Hp]. apply nth_error_seq in Hk as [-> Hk]. cbn [Nat.add].
    pose proof (order_rel (n + k) i group from len k a' b' Hr Hp ltac:(lia) Hi Hl Hk) as HS.
    destruct HS as [HS|[HS|(a2 & b3 & E1 & E2 & HS)]]; [left; auto|right; left; auto|].
    right; right. exists a2, b3. repeat split; auto; try apply HS. eapply H_order; eauto.
  Qed.

  Lemma group_rel : forall group from len c a b, rel (nrows * from) a b -> PG a -> In c init_cash ->
    from + len <= ncols ->
    sim_res (fun a b => rel (nrows * (from + len)) a b /\ PG a)
      (sim_group draws inp fl sharing nrows group from len c a)
      (foldM (rs_bar draws inp (auto_call_seq fl) (ffill_val_price fl) (update_value fl) sharing group from len)
         (mkSim c c (sm_value b) (sm_pos b) (sm_debt b) (sm_vp b) (sm_price b) (sm_seq b) (sm_rc b))
         (seq 0 nrows)).
  Proof.
    intros group from len c a b H HP Hc Hl. unfold sim_group.
    pose proof (foldM_sim _ _ _ (fun m a b => rel (nrows * from + m * len) a b /\ P a)
      (bar_step draws inp fl sharing group from len)
      (rs_bar draws inp (auto_call_seq fl) (ffill_val_price fl) (update_value fl) sharing group from len)
      (seq 0 nrows) 0
      (mkSim c c (sm_value a) (sm_pos a) (sm_debt a) (sm_vp a) (sm_price a) (sm_seq a) (sm_rc a))
      (mkSim c c (sm_value b) (sm_pos b) (sm_debt b) (sm_vp b) (sm_price b) (sm_seq b) (sm_rc b))) as HF.
    rewrite seq_length in HF. eapply sim_res_mono; [apply HF|].
    - intros k i a' b' Hk [Hr Hp]. apply nth_error_seq in Hk as [-> Hk]. cbn [Nat.add] in *.
      eapply sim_res_mono; [apply (bar_rel (nrows * from + k * len)); auto|].
      + unfold K. assert (nrows * (from + len) <= nrows * ncols) by (apply Nat.mul_le_mono_l; auto).
        assert (S k * len <= nrows * len) by (apply Nat.mul_le_mono_r; lia). lia.
      + intros a2 b2 [H1 H2]. split; auto. replace (nrows * from + S k * len) with (nrows * from + k * len + len) by lia. auto.
    - split; [|apply H_start; auto]. destruct H. constructor; cbn; auto. lia.
    - intros a2 b2 [H1 H2]. split; auto. replace (nrows * (from + len)) with (nrows * from + (0 + nrows) * len) by lia. auto.
  Qed.

  Lemma groups_rel : forall lens group from a b, rel (nrows * from) a b -> PG a ->
    from + sum_lens lens <= ncols ->
    sim_res (fun a b => rel (nrows * (from + sum_lens lens)) a b /\ PG a)
      (sim_groups draws inp fl sharing nrows group from lens init_cash a)
      (rs_sim_groups draws inp (auto_call_seq fl) (ffill_val_price fl) (update_value fl) sharing nrows group from
         lens init_cash b).
  Proof.
    induction lens as [|len lens IH]; intros group from a b H HP Hl; cbn [sim_groups rs_sim_groups sum_lens fold_right] in *.
    - rewrite Nat.add_0_r. right; right; eauto 6.
    - destruct (nth_error init_cash group) as [c|] eqn:Ec; [|right; left; eauto].
      apply nth_error_In in Ec. eapply sim_res_bind.
      + apply group_rel; eauto. change (fold_right Nat.add 0 lens) with (sum_lens lens) in Hl. lia.
      + intros a' b' _ [H1 H2]. change (fold_right Nat.add 0 lens) with (sum_lens lens) in *.
        rewrite Nat.add_assoc. apply IH; auto. lia.
  Qed.

  (** ** Column by column *)
  Record crel (seq0 : nat -> nat -> nat) (col n : nat) (a : Sim T) (b : RsCol) : Prop := mkCrel {
    cl_cash : rk_cash b = sm_cash a; cl_free : rk_free b = sm_free a;
    cl_pos : rk_pos b = sm_pos a col; cl_debt : rk_debt b = sm_debt a col; cl_vp : rk_vp b = sm_vp a col;
    cl_rc : rk_rc b = cap (Nat.min M K) (sm_rc a);
    cl_max : rc_max_orders (sm_rc a) = M;
    cl_len : List.length (rc_orders (sm_rc a)) <= n;
    cl_seq : sm_seq a = seq0;
    cl_rest : forall c, col < c -> sm_pos a c = zero /\ sm_debt a c = zero /\ sm_vp a c = nan }.

  Hypothesis Hsh : sharing = false.

  Lemma sort_none : forall i from len st, sort_step inp fl sharing i from len st = st.
  Proof. intros. unfold sort_step. rewrite Hsh. auto. Qed.

  Lemma col_bar_rel : forall seq0 col n i a b, crel seq0 col n a b -> P a -> n < K -> i < nrows -> col < ncols ->
    sim_res (fun a b => crel seq0 col (S n) a b /\ P a) (bar_step draws inp fl sharing col col 1 a i)
      (rs_col_bar draws inp (ffill_val_price fl) (update_value fl) col b i).
  Proof.
    intros seq0 col n i a b [H1 H2 H3 H4 H5 H6 H7 H8 H9 H10] HP Hn Hi Hc.
    unfold bar_step. rewrite sort_none. cbn [seq fold_left foldM].
    set (a1 := price_step inp fl i a col).
    assert (HP1 : P a1) by (apply H_price; auto).
    assert (Hone : forall k st', order_step draws inp fl sharing i col col 1 a1 0 = Ok st' -> k = st' -> P k).
    { intros k st' E ->. eapply H_order; [exact HP1|exact Hi| |constructor|exact E]. lia. }
    unfold order_step in Hone |- *. rewrite Hsh in Hone |- *. cbn [pick_col bind] in Hone |- *. rewrite Nat.add_0_r in Hone |- *.
    assert (Hvp : sm_vp a1 col = (if negb (isnan (rs_val_price_now inp i col (rs_order_price inp i col))) ||
                     negb (ffill_val_price fl) then rs_val_price_now inp i col (rs_order_price inp i col) else rk_vp b)).
    { unfold a1, price_step. cbn [sm_vp]. rewrite order_price_eq, val_price_eq. unfold store_val_price.
      destruct (_ || _)%bool; [apply fupd_same|auto]. }
    unfold rs_col_bar. cbv zeta. rewrite <- Hvp.
    assert (Hst : mkProc (rk_cash b) (rk_pos b) (rk_debt b) (rk_free b) (sm_vp a1 col)
       (if neb (rk_pos b) zero then add (rk_cash b) (mul (rk_pos b) (sm_vp a1 col)) else rk_cash b) =
       order_state false a1 col).
    { unfold order_state. rewrite H1, H2, H3, H4. unfold a1. cbn [price_step sm_cash sm_pos sm_debt sm_free].
      reflexivity. }
    rewrite Hst.
    assert (Hpr : sm_price a1 col = rs_order_price inp i col).
    { unfold a1, price_step. cbn [sm_price]. rewrite fupd_same. symmetry. apply order_price_eq. }
    rewrite <- Hpr. change (rs_make_order inp i col (sm_price a1 col)) with (make_order inp i col (sm_price a1 col)).
    set (o := make_order inp i col (sm_price a1 col)) in *.
    assert (Hrc : sm_rc a1 = sm_rc a) by reflexivity. rewrite Hrc in *. rewrite H6 in *.
    assert (Hagr : agrees (process_order_nb draws i col col (order_state false a1 col) (update_value fl) o (cap (Nat.min M K) (sm_rc a)))
      (rs_process_order draws i col col (order_state false a1 col) (update_value fl) o (cap (Nat.min M K) (sm_rc a)))).
    { apply process_agrees. pose proof (H_ok a1 i col (sm_price a1 col) HP1 Hi Hc) as Hk. try rewrite Hsh in Hk. exact Hk. }
    rewrite process_cap in Hagr by (rewrite H7; apply leb_cap; lia).
    set (x := process_order_nb draws i col col (order_state false a1 col) (update_value fl) o (sm_rc a)) in *.
    destruct x as [[[r s'] rc']|e] eqn:Ex; cbn [cap_res] in Hagr; unfold agrees in Hagr.
    - destruct Hagr as [Hagr|Hagr]; [discriminate|]. rewrite Hagr. cbn [bind] in *.
      right; right. do 2 eexists. split; [reflexivity|]. split; [reflexivity|].
      split; [|eapply Hone; [reflexivity|reflexivity]].
      apply process_lengths in Ex as [Hlen Hmax].
      constructor; cbn [store_state sm_cash sm_free sm_value sm_pos sm_debt sm_vp sm_price sm_seq sm_rc
                        rk_cash rk_free rk_pos rk_debt rk_vp rk_rc]; auto; try congruence.
      + rewrite fupd_same. auto.
      + rewrite fupd_same. auto.
      + unfold store_val_price. destruct (negb (isnan (ps_val_price s')) || negb (ffill_val_price fl))%bool; [rewrite fupd_same|]; auto.
      + lia.
      + intros c Hcc. rewrite !fupd_other by lia. destruct (H10 c Hcc) as (R1 & R2 & R3).
        unfold a1. cbn [price_step sm_pos sm_debt sm_vp]. split; [auto|]. split; [auto|].
        unfold store_val_price. repeat (destruct (_ || _)%bool); rewrite ?fupd_other by lia; auto.
    - destruct Hagr as [Hagr|Hagr]; [injection Hagr as ->; left; reflexivity|].
      rewrite Hagr. right; left. cbn [bind]. eauto.
  Qed.

  Definition fresh_from (from : nat) (a : Sim T) : Prop :=
    forall c, from <= c -> sm_pos a c = zero /\ sm_debt a c = zero /\ sm_vp a c = nan.

  Lemma cols_rel : forall seq0 lens from a rc, (forall l, In l lens -> l = 1) -> from + List.length lens = ncols ->
    PG a -> rc = cap (Nat.min M K) (sm_rc a) -> rc_max_orders (sm_rc a) = M ->
    List.length (rc_orders (sm_rc a)) <= nrows * from -> sm_seq a = seq0 -> fresh_from from a ->
    sim_res (fun a rc => rc = cap (Nat.min M K) (sm_rc a) /\ sm_seq a = seq0)
      (sim_groups draws inp fl sharing nrows from from lens init_cash a)
      (foldM (fun rc col =>
        match nth_error init_cash col with
        | None => Err (IndexError "init_cash")
        | Some c =>
            let! st := foldM (rs_col_bar draws inp (ffill_val_price fl) (update_value fl) col)
                         (mkRsCol c c zero zero nan rc) (seq 0 nrows) in
            Ok (rk_rc st)
        end) rc (seq from (List.length lens))).
  Proof.
    intros seq0; induction lens as [|len lens IH]; intros from a rc Hl Hlen HP Hrc Hm Hn Hs Hf;
      cbn [sim_groups List.length seq foldM] in *.
    - right; right; eauto 6.
    - rewrite (Hl len) by (left; auto).
      destruct (nth_error init_cash from) as [c|] eqn:Ec; [|right; left; cbn [bind]; eauto].
      apply nth_error_In in Ec.
      eapply (sim_res_bind _ _ _ _ (fun a' rc' => PG a' /\ rc' = cap (Nat.min M K) (sm_rc a') /\
        rc_max_orders (sm_rc a') = M /\ List.length (rc_orders (sm_rc a')) <= nrows * S from /\
        sm_seq a' = seq0 /\ fresh_from (S from) a')).
      + pose proof (foldM_sim _ _ _ (fun m a b => crel seq0 from (nrows * from + m) a b /\ P a)
          (bar_step draws inp fl sharing from from 1)
          (rs_col_bar draws inp (ffill_val_price fl) (update_value fl) from) (seq 0 nrows) 0
          (mkSim c c (sm_value a) (sm_pos a) (sm_debt a) (sm_vp a) (sm_price a) (sm_seq a) (sm_rc a))
          (mkRsCol c c zero zero nan rc)) as HF.
        rewrite seq_length in HF. unfold sim_group.
        lapply HF; [clear HF; intros HF; lapply HF; [clear HF; intros HF|]|].
        * assert (HF' : sim_res (fun a' rc' => PG a' /\ rc' = cap (Nat.min M K) (sm_rc a') /\
            rc_max_orders (sm_rc a') = M /\ List.length (rc_orders (sm_rc a')) <= nrows * S from /\
            sm_seq a' = seq0 /\ fresh_from (S from) a')
            (bind (foldM (bar_step draws inp fl sharing from from 1)
               (mkSim c c (sm_value a) (sm_pos a) (sm_debt a) (sm_vp a) (sm_price a) (sm_seq a) (sm_rc a))
               (seq 0 nrows)) Ok)
            (bind (foldM (rs_col_bar draws inp (ffill_val_price fl) (update_value fl) from)
               (mkRsCol c c zero zero nan rc) (seq 0 nrows)) (fun st => Ok (rk_rc st)))).
          { eapply sim_res_bind; [exact HF|]. intros a' b' _ [[? ? ? ? ? ? ? ? ? Hre] HPa].
            right; right. do 2 eexists. split; [reflexivity|]. split; [reflexivity|].
            split; [auto|]. split; [auto|]. split; [auto|]. split; [lia|]. split; [auto|].
            intros c1 Hc1. apply Hre. lia. }
          destruct (foldM (bar_step _ _ _ _ _ _ _) _ _) in HF' |- *; exact HF'.
        * split; [|apply H_start; auto]. destruct (Hf from (Nat.le_refl _)) as (F1 & F2 & F3).
          constructor; cbn; auto; [lia|]. intros c1 Hc1. apply Hf. lia.
        * intros k i a' b' Hk [Hr Hp]. apply nth_error_seq in Hk as [-> Hk]. cbn [Nat.add] in *.
          replace (nrows * from + S k) with (S (nrows * from + k)) by lia.
          apply col_bar_rel; auto; [|lia]. unfold K.
          assert (nrows * S from <= nrows * ncols) by (apply Nat.mul_le_mono_l; lia). lia.
      + intros a' rc' _ (Q1 & Q2 & Q3 & Q4 & Q5 & Q6).
        replace (from + 1) with (S from) by lia.
        apply IH; auto; [|lia]. intros l Hin. apply Hl. right; auto.
  Qed.
End Run.

Section Simulate.
  Context {T : Type} {N : Num T} {R : RustOps T} {L : RustLaws N R}.

  Lemma no_groups_ones : forall lens, is_grouped lens = false -> (forall n, In n lens -> 0 < n) ->
    forall l, In l lens -> l = 1.
  Proof.
    intros lens H Hp l Hl. specialize (Hp l Hl). unfold is_grouped in H.
    destruct (Nat.ltb 1 l) eqn:E; [|apply Nat.ltb_ge in E; lia].
    assert (existsb (fun n => Nat.ltb 1 n) lens = true) by (apply existsb_exists; eauto). congruence.
  Qed.

  Lemma sum_ones : forall lens, (forall l, In l lens -> l = 1) -> sum_lens lens = List.length lens.
  Proof.
    induction lens as [|l lens IH]; intros H; cbn; auto. rewrite (H l) by (left; auto). cbn. f_equal.
    apply IH. intros; apply H; right; auto.
  Qed.

  Lemma groups_seq : forall draws inp fl sharing nrows lens group from init_cash (st st' : Sim T),
    auto_call_seq fl = false ->
    sim_groups draws inp fl sharing nrows group from lens init_cash st = Ok st' -> sm_seq st' = sm_seq st.
  Proof.
    intros draws inp fl sharing nrows lens. induction lens as [|len lens IH]; intros group from ic st st' Ha H; cbn in H.
    - injection H as <-. auto.
    - destruct (nth_error ic group); [|discriminate]. apply bind_ok in H as (st1 & H1 & H2).
      apply IH in H2; auto. rewrite H2. unfold sim_group in H1.
      apply (foldM_inv _ _ (fun x => sm_seq x = sm_seq st)) in H1; auto.
      intros s i s1 Hs _ Hb. unfold bar_step in Hb.
      apply (foldM_inv _ _ (fun x => sm_seq x = sm_seq st)) in Hb; auto.
      + intros s2 k s3 Hs2 _ Ho. unfold order_step in Ho. apply bind_ok in Ho as (col & _ & Ho).
        apply bind_ok in Ho as ([[r s'] rc'] & _ & Ho). injection Ho as <-. auto.
      + assert (Hp : forall cols x, sm_seq (fold_left (price_step inp fl i) cols x) = sm_seq x)
          by (induction cols as [|c cols IHc]; intros x; cbn [fold_left]; [auto|rewrite IHc; auto]).
        unfold sort_step. rewrite Ha. destruct sharing; cbn [sm_seq]; rewrite Hp; auto.
  Qed.

  Lemma simulate_agrees : forall draws rng nrows ncols lens init_cash (inp : Inputs T) fl max_orders max_logs
      (P PG : Sim T -> Prop),
    let sharing := is_grouped lens in
    (forall c st, PG st -> In c init_cash ->
      P (mkSim c c (sm_value st) (sm_pos st) (sm_debt st) (sm_vp st) (sm_price st) (sm_seq st) (sm_rc st))) ->
    (forall st, P st -> PG st) ->
    (forall st i col, P st -> i < nrows -> col < ncols -> P (price_step inp fl i st col)) ->
    (forall st i from len, P st -> i < nrows -> from + len <= ncols -> P (sort_step inp fl sharing i from len st)) ->
    (forall st i group from len k st', P st -> i < nrows -> from + len <= ncols -> k < len ->
      order_step draws inp fl sharing i group from len st k = Ok st' -> P st') ->
    (forall st i col p, P st -> i < nrows -> col < ncols ->
      order_ok (order_state sharing st col) (make_order inp i col p)) ->
    (forall st i col, P st -> i < nrows -> col < ncols -> auto_call_seq fl = true ->
      in_size_type inp i col <> Percent \/
      isnan (mul (sm_pos st col) (sm_vp st col)) = false /\ isnan (sm_free st) = false) ->
    PG (sim_init inp nrows ncols max_orders max_logs rng) ->
    (forall n, In n lens -> 0 < n) ->
    agrees (simulate_from_orders_nb draws rng nrows ncols lens init_cash inp fl max_orders max_logs)
      (rs_simulate_from_orders draws rng nrows ncols lens init_cash inp (auto_call_seq fl) (ffill_val_price fl)
         (update_value fl) max_orders max_logs).
  Proof.
    intros draws rng nrows ncols lens init_cash inp fl mo ml P PG sharing H1 H2 H3 H4 H5 H6 H7 H8 Hpos.
    unfold simulate_from_orders_nb, rs_simulate_from_orders, raise_if.
    change (existsb (fun g => Nat.ltb 1 g) lens) with (is_grouped lens).
    change (fold_right Nat.add 0 lens) with (sum_lens lens). cbv zeta. fold sharing.
    destruct (negb (Nat.eqb (sum_lens lens) ncols)) eqn:E1; [apply agrees_refl|].
    apply negb_false_iff, Nat.eqb_eq in E1.
    destruct (negb (Nat.eqb (List.length init_cash) _)); [apply agrees_refl|].
    set (M := match mo with Some m => m | None => nrows * ncols end).
    set (st0 := sim_init inp nrows ncols mo ml rng) in *.
    destruct (negb sharing && negb (auto_call_seq fl))%bool eqn:E2.
    - apply andb_true_iff in E2 as [E2 E3]. apply negb_true_iff in E2.
      pose proof (no_groups_ones lens E2 Hpos) as Hone.
      pose proof (sum_ones lens Hone) as Hlen. rewrite E1 in Hlen.
      pose proof (cols_rel draws inp fl sharing nrows ncols init_cash P PG H1 H2 H3 H5 H6 M E2 (in_call_seq inp)
        lens 0 st0 (rs_recs nrows ncols mo ml rng) Hone (eq_sym Hlen) H8 eq_refl eq_refl) as HR.
      rewrite <- Hlen in HR. unfold rs_sim_cols.
      destruct HR as [HR|[(e & HR1 & HR2)|(a & b & HR1 & HR2 & HR3 & HR4)]].
      + cbn. lia.
      + reflexivity.
      + intros c _. repeat split; reflexivity.
      + rewrite HR. left; reflexivity.
      + rewrite HR1, HR2. apply agrees_refl.
      + rewrite HR1, HR2. cbn [bind]. rewrite HR3, HR4. apply agrees_refl.
    - pose proof (groups_rel draws inp fl sharing nrows ncols init_cash P PG H1 H2 H3 H4 H5 H6 H7 M lens 0 0 st0
        (mkSim nan nan nan (fun _ => zero) (fun _ => zero) (fun _ => nan) (fun _ => nan) (in_call_seq inp)
          (rs_recs nrows ncols mo ml rng))) as HR.
      destruct HR as [HR|[(e & HR1 & HR2)|(a & b & HR1 & HR2 & HR3 & HR4)]].
      + constructor; cbn; auto. lia.
      + exact H8.
      + lia.
      + rewrite HR. left; reflexivity.
      + rewrite HR1, HR2. apply agrees_refl.
      + rewrite HR1, HR2. cbn [bind]. rewrite (rl_rc _ _ _ _ _ _ _ HR3), (rl_seq _ _ _ _ _ _ _ HR3). cbn [cap rc_orders rc_logs].
        destruct (auto_call_seq fl) eqn:Ea; [apply agrees_refl|].
        apply groups_seq in HR1; auto. rewrite HR1. apply agrees_refl.
  Qed.
End Simulate.
