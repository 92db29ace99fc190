(** * Order execution over exact arithmetic: what a filled order looks like

    Lemmas used by the property files; they open [buy_nb] and [sell_nb] once. *)
From Coq Require Import ZArith QArith Qabs Qround Qminmax Bool Lia Lqa List.
From Verif Require Import Base Num MathNb TolSpec Order XQFacts.
Import ListNotations.

Definition cash_ok (c : XQ) : Prop := c = PInf \/ exists q, c = Fin q /\ 0 <= q.

Lemma Qmul_pos : forall a b, 0 < a -> 0 < b -> 0 < a * b.
Proof. intros; nra. Qed.
Lemma Qdiv_pos : forall a b, 0 < a -> 0 < b -> 0 < a / b.
Proof. intros a b Ha Hb. unfold Qdiv. apply Qmul_pos; auto. apply Qinv_lt_0_compat; auto. Qed.
Lemma Qdiv_nonneg : forall a b, 0 <= a -> 0 < b -> 0 <= a / b.
Proof.
  intros a b Ha Hb. apply Qle_shift_div_l; auto. lra.
Qed.
Lemma Qdiv_mul : forall a b, ~ b == 0 -> a / b * b == a.
Proof. intros; field; auto. Qed.

Lemma sdiv_fin : forall a b r, sdiv (Fin a) (Fin b) = Ok r ->
  exists q, r = Fin q /\ ~ b == 0 /\ q == a / b.
Proof.
  intros a b r H. unfold sdiv in H. xs. change (inject_Z 0) with 0%Q in *.
  destruct (Qeq_bool b 0) eqn:E; [discriminate|]. qb. inversion H; subst.
  exists (Qred (a / b)). split; auto. split; auto. apply Qred_correct.
Qed.

Lemma granulate_nan : forall s, granulate s NaN = Ok s.
Proof. reflexivity. Qed.

Lemma granulate_fin : forall s g r, 0 < g -> granulate (Fin s) (Fin g) = Ok r ->
  exists q k, r = Fin q /\ q == inject_Z k * g /\ q <= s /\ s < q + g /\ (0 <= s -> 0 <= q).
Proof.
  intros s g r Hg H. unfold granulate, sfdiv in H. xs. change (inject_Z 0) with 0%Q in *.
  destruct (Qeq_bool g 0) eqn:E; [qb; lra|]. simpl in H. 
  inversion H; subst; clear H.
  pose proof (Qfloor_le (s / g)) as H1. pose proof (Qlt_floor (s / g)) as H2.
  assert (Hs : s / g * g == s) by (apply Qdiv_mul; lra).
  set (k := Qfloor (s / g)) in *.
  exists (Qred (inject_Z k * g)), k.
  assert (Hr : Qred (inject_Z k * g) == inject_Z k * g) by apply Qred_correct.
  assert (Hk0 : 0 <= s -> (0 <= k)%Z).
  { intros H0. unfold k. change 0%Z with (Qfloor 0). apply Qfloor_resp_le. apply Qdiv_nonneg; auto. }
  clearbody k. set (x := s / g) in *. clearbody x.
  split; [reflexivity|]. split; [exact Hr|].
  rewrite inject_Z_plus in H2. change (inject_Z 1) with 1%Q in H2.
  assert (Hp1 : 0 < (inject_Z k + 1 - x) * g) by (apply Qmul_pos; lra).
  assert (Hp2 : 0 <= (x - inject_Z k) * g) by (apply Qmult_le_0_compat; lra).
  split; [rewrite Hr; lra|]. split; [rewrite Hr; lra|].
  intros H0. rewrite Hr.
  specialize (Hk0 H0).
  assert (0 <= inject_Z k) by (change 0 with (inject_Z 0); rewrite <- Zle_Qle; exact Hk0). nra.
Qed.

Lemma granulate_inf : forall s g r, xq_isinf s = true -> granulate s (Fin g) = Ok r -> r = NaN.
Proof.
  intros [| | |s] g r Hs H; try discriminate; unfold granulate, sfdiv in H; xs;
  destruct (Qeq_bool g (inject_Z 0)); try discriminate; simpl in H; inversion H; auto.
Qed.

Lemma cash_ok_nn : forall c, cash_ok c -> c <> NaN /\ c <> NInf.
Proof. intros c [->|(q & -> & _)]; split; discriminate. Qed.

(** ** The cash limit never exceeds the cash *)
Lemma min2_le_r : forall a b, a <> NaN -> b <> NaN -> xq_leb (min2 a b) b = true.
Proof.
  intros a b Ha Hb. unfold min2. xn.
  destruct a as [| | |a], b as [| | |b]; try congruence; auto; simpl; try (qbg; lra).
  destruct (qlt_bool b a) eqn:E; simpl; qb; qbg; lra.
Qed.
Lemma min2_le_l : forall a b, a <> NaN -> xq_leb (min2 a b) a = true.
Proof.
  intros a b Ha. unfold min2. xn.
  destruct a as [| | |a], b as [| | |b]; try congruence; auto; simpl; try (qbg; lra).
  destruct (qlt_bool b a) eqn:E; simpl; qb; qbg; lra.
Qed.
Lemma min2_nn : forall a b, a <> NaN -> min2 a b <> NaN.
Proof.
  intros a b Ha. unfold min2. xn.
  destruct (xq_ltb b a) eqn:E; auto. intros ->. simpl in E. discriminate.
Qed.
Lemma xq_leb_trans : forall a b c, xq_leb a b = true -> xq_leb b c = true -> xq_leb a c = true.
Proof.
  intros [| | |a] [| | |b] [| | |c] H1 H2; simpl in *; try discriminate; auto.
  qb. qbg. lra.
Qed.

Lemma isinf_mul : forall x a, xq_isinf x = true -> ~ a == 0 -> xq_isinf (xq_mul x (Fin a)) = true.
Proof.
  intros [| | |x] a Hx Ha; try discriminate; simpl; unfold xq_sgn_inf;
  (destruct (Qeq_bool a 0) eqn:E; [qb; tauto|]); destruct (Bool.eqb _ _); reflexivity.
Qed.
Lemma isinf_add : forall x a, xq_isinf x = true -> xq_isinf (xq_add x (Fin a)) = true.
Proof. intros [| | |x] a Hx; try discriminate; reflexivity. Qed.
Lemma isinf_nn : forall x, xq_isinf x = true -> x <> NaN.
Proof. intros x H ->; discriminate. Qed.

Lemma buy_lock_limit_nn : forall cash p d free ap f ff l,
  cash_ok cash -> free <> NaN -> 0 < ap -> - (1) < f ->
  buy_lock_limit (mkExec cash (Fin p) (Fin d) free) (Fin ap) (Fin f) (Fin ff) = Ok l -> l <> NaN.
Proof.
  intros cash p d free ap f ff l Hc Hf Hap Hfee H.
  destruct (cash_ok_nn _ Hc) as [Hc1 _].
  unfold buy_lock_limit in H.
  destruct (geb (es_position _) zero); [inversion H; subst; auto|].
  cbn [es_position es_debt es_cash es_free_cash] in H.
  cbv zeta in H.
  match type of H with (if ?b then _ else _) = _ => destruct b end.
  { inversion H; subst. destruct free; try congruence; discriminate. }
  match type of H with (if ?b then _ else _) = _ => destruct b end.
  2:{ inversion H; subst; auto. }
  apply bind_ok in H as (avg & Havg & H).
  apply bind_ok in H as (ms & Hms & H).
  inversion H; subst; clear H.
  destruct (xq_abs_fin p) as (rp & Hrp & _). 
  change (abs (Fin p)) with (xq_abs (Fin p)) in Havg. rewrite Hrp in Havg.
  apply sdiv_fin in Havg as (av & -> & _ & _). clear Hrp.
  xs. unfold fin in Hms.
  destruct free as [| | |fr]; try congruence.
  1,2: apply isinf_nn; apply isinf_add; apply isinf_mul;
    [apply isinf_mul; [|lra] | unfold fin; rewrite Qred_correct; change (inject_Z 1) with 1; lra];
    unfold sdiv in Hms; xs; destruct (Qeq_bool _ _) in Hms; [discriminate|];
    injection Hms as <-; destruct (Qle_bool 0 _); reflexivity.
  - apply sdiv_fin in Hms as (q & -> & _ & _). simpl. discriminate.
Qed.

Lemma buy_cash_limit_spec : forall cash p d free ap f ff lock pct cl,
  cash_ok cash -> free <> NaN -> 0 < ap -> - (1) < f ->
  buy_cash_limit (mkExec cash (Fin p) (Fin d) free) (Fin ap) (Fin f) (Fin ff) lock pct = Ok cl ->
  cl <> NaN /\ xq_leb cl cash = true.
Proof.
  intros cash p d free ap f ff lock pct cl Hc Hf Hap Hfee H.
  destruct (cash_ok_nn _ Hc) as [Hc1 _].
  unfold buy_cash_limit in H. apply bind_ok in H as (l0 & Hl0 & H).
  injection H as <-.
  assert (Hn : l0 <> NaN).
  { destruct lock; [exact (buy_lock_limit_nn _ _ _ _ _ _ _ _ Hc Hf Hap Hfee Hl0) | injection Hl0 as <-; exact Hc1]. }
  cbn [es_cash].
  assert (H1 : xq_leb (min2 l0 cash) cash = true) by (apply min2_le_r; auto).
  assert (H2 : min2 l0 cash <> NaN) by (apply min2_nn; auto).
  match goal with |- context [if ?b then _ else _] => destruct b end; [|auto].
  split; [apply min2_nn; auto|].
  eapply xq_leb_trans; [apply min2_le_l; auto|auto].
Qed.

(** ** Amounts of a buy *)
Lemma buy_amounts_spec : forall adj ap f ff cl gran fs fee req,
  0 < ap -> - (1) < f -> cl <> NaN ->
  (adj = NaN \/ adj = PInf \/ exists a, adj = Fin a /\ 0 <= a) ->
  (adj = NaN -> xq_isnan gran = false) ->
  (gran = NaN \/ exists g, gran = Fin g /\ 0 < g) ->
  ~ (adj <> NaN /\ xq_isinf adj = true /\ xq_isinf cl = true) ->
  ~ (adj = NaN /\ xq_isinf cl = true) ->
  buy_amounts adj (Fin ap) (Fin f) (Fin ff) cl gran = Ok (Some (fs, fee, req)) ->
  exists fsq feeq reqq,
    fs = Fin fsq /\ fee = Fin feeq /\ req = Fin reqq /\
    feeq == fsq * ap * f + ff /\ reqq == fsq * ap + feeq /\ 0 <= fsq /\
    (forall a, adj = Fin a -> fsq <= a) /\
    (gran = NaN -> adj <> Fin 0 -> (exists a, adj = Fin a /\ fsq == a) \/ 0 < fsq) /\
    ((exists a, adj = Fin a /\ fs = adj) \/ forall g, gran = Fin g -> exists k, fsq == inject_Z k * g) /\
    (cl = PInf \/ exists l, cl = Fin l /\ (reqq <= l \/ Qabs (reqq - l) <= tolq reqq l)).
Proof.
  intros adj ap f ff cl gran fs fee req Hap Hf Hcl Hadj Hnan Hgran Hinf Hinf2 H.
  unfold buy_amounts in H.
  destruct (is_close_or_less_nb _ cl) eqn:Hsuf.
  - (* sufficient cash *)
    inversion H; subst; clear H. rename fs into adj.
    unfold is_close_or_less_nb in Hsuf.
    destruct Hadj as [->|[->|(a & -> & Ha)]].
    + exfalso. xs. rewrite is_close_nonfin in Hsuf by reflexivity. discriminate.
    + exfalso. xs. unfold xq_sgn_inf in Hsuf.
      destruct (Qeq_bool ap 0) eqn:E; [qb; lra|].
      destruct (qlt_bool 0 ap) eqn:E1; [|qb; lra]. simpl in Hsuf. 
      unfold xq_sgn_inf in Hsuf.
      assert (Hx : forall y, (y = NaN \/ y = PInf \/ y = NInf) -> xq_add PInf (xq_add y (Fin ff)) = NaN \/ xq_add PInf (xq_add y (Fin ff)) = PInf).
      { intros y [->|[->| ->]]; simpl; auto. }
      match type of Hsuf with context [is_close_nb ?x cl] => assert (x = NaN \/ x = PInf) as Hx2 end.
      { apply Hx. destruct (Qeq_bool f 0); auto. destruct (Bool.eqb _ _); auto. }
      destruct Hx2 as [Hx2|Hx2]; rewrite Hx2 in Hsuf;
        rewrite is_close_nonfin in Hsuf by reflexivity; destruct cl; discriminate.
    + exists a.
      xs. unfold fin.
      eexists; eexists. split; [reflexivity|]. split; [reflexivity|]. split; [reflexivity|].
      set (q1 := Qred (a * ap)) in *. assert (Hq1 : q1 == a * ap) by apply Qred_correct. clearbody q1.
      set (q2 := Qred (q1 * f)) in *. assert (Hq2 : q2 == q1 * f) by apply Qred_correct. clearbody q2.
      set (q3 := Qred (q2 + ff)) in *. assert (Hq3 : q3 == q2 + ff) by apply Qred_correct. clearbody q3.
      unfold fin in Hsuf.
      set (q4 := Qred (q1 + q3)) in *. assert (Hq4 : q4 == q1 + q3) by apply Qred_correct. clearbody q4.
      split; [rewrite Hq3, Hq2, Hq1; reflexivity|].
      split; [rewrite Hq4, Hq1; reflexivity|].
      split; [auto|].
      split; [intros a' E; inversion E; subst; lra|].
      split; [intros _ _; left; exists a; split; [auto|reflexivity]|].
      split; [left; eauto|].
      destruct cl as [| | |l]; [congruence|left;auto| |right].
      * rewrite is_close_nonfin in Hsuf by reflexivity. simpl in Hsuf. discriminate.
      * exists l; split; auto. 
        destruct (is_close_nb (Fin q4) (Fin l)) eqn:E.
        -- right. apply is_close_fin; auto.
        -- left. simpl in Hsuf. qb. lra.
  - apply bind_ok in H as (mr & Hmr & H).
    destruct (leb mr zero) eqn:Hle; [discriminate|].
    apply bind_ok in H as (ma & Hma & H).
    (* cl finite *)
    assert (Hl : exists l, cl = Fin l).
    { destruct cl as [| | |l]; [congruence| | |eauto]; exfalso.
      - (* PInf: sufficient unless adj is infinite or NaN *)
        destruct Hadj as [->|[->|(a & -> & Ha)]].
        + apply Hinf2; auto.
        + apply Hinf; repeat split; auto; discriminate.
        + unfold is_close_or_less_nb in Hsuf. xs. rewrite is_close_nonfin in Hsuf by reflexivity.
          simpl in Hsuf. discriminate.
      - (* NInf *)
        rewrite add_nb_nonfin in Hmr by (intros; discriminate). xs.
        unfold sdiv in Hmr. xs. destruct (Qeq_bool _ _); [discriminate|]. inversion Hmr; subst.
        destruct (Qle_bool 0 _) eqn:E; simpl in Hle; [discriminate|].
        qb. qred. change (inject_Z 1) with 1%Q in *. lra. }
    destruct Hl as (l & ->).
    change (neg (Fin ff)) with (Fin (Qred (- ff))) in Hmr.
    destruct (add_nb_fin l (Qred (- ff))) as (r & Hr & Har). rewrite Hr in Hmr.
    change (add one (Fin f)) with (Fin (Qred (inject_Z 1 + f))) in Hmr.
    apply sdiv_fin in Hmr as (mrq & -> & Hnz & Hmrq).
    assert (Hof : Qred (inject_Z 1 + f) == 1 + f) by (rewrite Qred_correct; reflexivity).
    set (o1 := Qred (inject_Z 1 + f)) in *. clearbody o1.
    simpl in Hle. change (inject_Z 0) with 0%Q in Hle. qb.
    assert (Hrl : r == l - ff).
    { destruct Har as [[Hr0 _]|[Hr1 _]].
      - exfalso. rewrite Hr0 in Hmrq. unfold Qdiv in Hmrq. rewrite Qmult_0_l in Hmrq. lra.
      - rewrite Hr1, Qred_correct. ring. }
    assert (Hmo : mrq * (1 + f) == l - ff).
    { rewrite Hmrq, <- Hof, Qdiv_mul by auto. exact Hrl. }
    apply sdiv_fin in Hma as (maq & -> & _ & Hmaq).
    assert (Hma1 : maq * ap == mrq) by (rewrite Hmaq; apply Qdiv_mul; lra).
    assert (Hmap : 0 < maq) by (rewrite Hmaq; apply Qdiv_pos; auto).
    (* total requirement exceeds the limit *)
    assert (Hadj_le : forall a, adj = Fin a -> maq <= a).
    { intros a ->. unfold is_close_or_less_nb in Hsuf. xs. unfold fin in Hsuf.
      destruct (is_close_nb _ _); [discriminate|]. simpl in Hsuf. qb.
      rewrite !Qred_correct in Hsuf.
      assert (Hx : 0 < ap * (1+f)) by (apply Qmul_pos; lra).
      destruct (Qlt_le_dec a maq) as [Hlt|]; auto. exfalso.
      assert (Hp : 0 < (maq - a) * (ap * (1+f))) by (apply Qmul_pos; lra).
      assert (maq * (ap * (1+f)) == l - ff) by (rewrite <- Hmo, <- Hma1; ring). lra. }
    destruct (negb (isnan gran)) eqn:Hg.
    + (* granular *)
      destruct Hgran as [->|(g & -> & Hgpos)]; [discriminate|].
      apply bind_ok in H as (fs' & Hfs & H). inversion H; subst; clear H.
      apply granulate_fin in Hfs as (q & k & -> & Hqk & Hqle & _ & Hq0); auto.
      exists q. xs. unfold fin.
      eexists; eexists. split; [reflexivity|]. split; [reflexivity|]. split; [reflexivity|].
      split; [rewrite !Qred_correct; reflexivity|].
      split; [rewrite !Qred_correct; reflexivity|].
      split; [apply Hq0; lra|].
      split; [intros a E; specialize (Hadj_le a E); lra|].
      split; [discriminate|].
      split; [right; intros g' E; inversion E; subst; eauto|].
      right. exists l. split; auto. left. rewrite !Qred_correct.
      assert (Hx : 0 < ap * (1+f)) by (apply Qmul_pos; lra).
      assert (Hp : 0 <= (maq - q) * (ap * (1+f))) by (apply Qmult_le_0_compat; lra).
      assert (maq * (ap * (1+f)) == l - ff) by (rewrite <- Hmo, <- Hma1; ring). lra.
    + inversion H; subst; clear H.
      exists maq. xs. unfold fin.
      eexists; eexists. split; [reflexivity|]. split; [reflexivity|]. split; [reflexivity|].
      split; [rewrite Qred_correct, Hma1; lra|].
      split; [rewrite Qred_correct, Hma1; ring|].
      split; [lra|].
      split; [auto|].
      split; [auto|].
      split; [right; intros g E; subst; discriminate|].
      right. exists l. split; auto. left. lra.
Qed.

Definition size_ok (s : XQ) : Prop := s = PInf \/ exists q, s = Fin q /\ 0 < q.
Definition gran_ok (g : XQ) : Prop := g = NaN \/ exists q, g = Fin q /\ 0 < q.

(** Facts about the size of a fill shared by both sides *)
Record SizeFacts (fs : Q) (size : XQ) (mn : Q) (mx gran : XQ) (allow : bool) : Prop := {
  sf_max : xq_leb (Fin fs) mx = true;
  sf_gran : forall g, gran = Fin g -> exists k, fs == inject_Z k * g;
  sf_min : is_less_nb (Fin fs) (Fin mn) = false;
  sf_partial : allow = false -> isfinite size = true -> is_less_nb (Fin fs) size = false }.

Record BuyCert (es : ExecState XQ) (size : XQ) (ap : Q) (dir : Direction) (f ff mn : Q)
    (mx gran cl : XQ) (allow : bool) (es' : ExecState XQ) (r : OrderResult XQ) (fs fee req : Q) : Prop := {
  bc_fee : fee == fs * ap * f + ff;
  bc_req : req == fs * ap + fee;
  bc_nonneg : 0 <= fs;
  bc_pos : gran = NaN -> 0 < fs;
  bc_size : xq_leb (Fin fs) size = true;
  bc_facts : SizeFacts fs size mn mx gran allow;
  bc_short : dir = ShortOnly -> forall p, es_position es = Fin p -> fs <= - p;
  bc_cash : cl = PInf \/ exists l, cl = Fin l /\ (req <= l \/ Qabs (req - l) <= tolq req l);
  bc_fill : buy_fill es (Fin fs) (Fin ap) (Fin fee) (Fin req) = Ok (es', r) }.

Definition unfilled (es es' : ExecState XQ) (r : OrderResult XQ) : Prop :=
  es' = es /\ exists st info, st <> Filled /\ r = order_not_filled st info.

Lemma not_filled_unfilled : forall es st info es' r, st <> Filled ->
  not_filled es st info = Ok (es', r) -> unfilled es es' r.
Proof.
  intros es st info es' r Hst H. unfold not_filled in H. injection H as <- <-.
  split; eauto.
Qed.

Ltac nf H := left; eapply not_filled_unfilled; [|exact H]; discriminate.

Lemma granulate_leb : forall s g r, gran_ok g -> (s = PInf \/ exists q, s = Fin q /\ 0 <= q) ->
  granulate s g = Ok r ->
  (r = s /\ g = NaN) \/ (r = NaN /\ s = PInf /\ g <> NaN) \/
  (exists s' q g', s = Fin s' /\ g = Fin g' /\ r = Fin q /\ 0 <= q <= s' /\ exists k, q == inject_Z k * g').
Proof.
  intros s g r [->|(gq & -> & Hg)] Hs H.
  - injection H as <-. left; auto.
  - right. destruct Hs as [->|(q & -> & Hq)].
    + left. apply granulate_inf in H; auto. repeat split; auto. discriminate.
    + right. apply granulate_fin in H as (q' & k & -> & Hk & Hle & _ & Hnn); auto.
      exists q, q', gq. repeat split; auto. exists k; auto.
Qed.

Lemma buy_nb_cert : forall cash p d free size price dir f ff slip mn mx gran lock allow pct es' r,
  cash_ok cash -> free <> NaN -> (dir = ShortOnly -> p <= 0) ->
  size_ok size -> 0 < price -> - (1) < f -> 0 <= slip -> size_ok mx -> gran_ok gran ->
  let es := mkExec cash (Fin p) (Fin d) free in
  let ap := Qred (price * Qred (inject_Z 1 + slip)) in
  buy_nb es size (Fin price) dir (Fin f) (Fin ff) (Fin slip) (Fin mn) mx gran lock allow pct = Ok (es', r) ->
  unfilled es es' r \/
  exists cl fs fee req,
    buy_cash_limit es (Fin ap) (Fin f) (Fin ff) lock pct = Ok cl /\
    BuyCert es size ap dir f ff mn mx gran cl allow es' r fs fee req.
Proof.
  intros cash p d free size price dir f ff slip mn mx gran lock allow pct es' r
    Hc Hfree Hdir Hsize Hprice Hf Hslip Hmx Hgran es ap H.
  unfold buy_nb in H.
  change (mul (Fin price) (add one (Fin slip))) with (Fin ap) in H.
  assert (Hap : 0 < ap).
  { unfold ap. rewrite !Qred_correct. change (inject_Z 1) with 1. apply Qmul_pos; lra. }
  apply bind_ok in H as (cl & Hcl & H).
  pose proof (buy_cash_limit_spec _ _ _ _ _ _ _ _ _ _ Hc Hfree Hap Hf Hcl) as [Hcln Hcle].
  clearbody ap.
  destruct (negb (is_short_only dir) && eqb cl zero)%bool; [nf H|].
  destruct (negb (is_short_only dir) && (isinf size && isinf cl))%bool eqn:Hinf; [discriminate|].
  destruct (is_short_only dir && eqb (es_position es) zero)%bool eqn:Hnop; [nf H|].
  cbv zeta in H.
  set (adj0 := if is_short_only dir then min2 (neg (es_position es)) size else size) in *.
  assert (Hadj0 : (adj0 = PInf \/ exists q, adj0 = Fin q /\ 0 < q) /\
                  xq_leb adj0 size = true /\
                  (adj0 = PInf -> xq_isinf cl = false) /\
                  (dir = ShortOnly -> exists q, adj0 = Fin q /\ q <= - p)).
  { unfold adj0. destruct dir; cbn [is_short_only].
    1,3: (split; [exact Hsize|]; split;
      [destruct Hsize as [->|(q & -> & Hq)]; simpl; [auto|qbg; lra]|];
      split; [intros ->; cbn in Hinf; destruct (xq_isinf cl); [discriminate|auto]|discriminate]).
    cbn in Hnop. change (inject_Z 0) with 0 in Hnop. qb.
    specialize (Hdir eq_refl).
    change (neg (es_position es)) with (Fin (Qred (- p))).
    assert (Hp : Qred (- p) == - p) by apply Qred_correct. set (np := Qred (- p)) in *. clearbody np.
    unfold min2. cbn [ltb XQnum].
    destruct Hsize as [->|(q & -> & Hq)]; cbn [xq_ltb xq_leb].
    - split; [right; exists np; split; auto; lra|]. split; [reflexivity|].
      split; [discriminate|]. intros _. exists np; split; auto; lra.
    - destruct (qlt_bool q np) eqn:E; qb; cbn [xq_leb].
      + split; [right; exists q; split; auto|]. split; [qbg; lra|].
        split; [discriminate|]. intros _. exists q; split; auto; lra.
      + split; [right; exists np; split; auto; lra|]. split; [qbg; lra|].
        split; [discriminate|]. intros _. exists np; split; auto; lra. }
  clearbody adj0. destruct Hadj0 as (Hadj0 & Hadj0s & Hadj0i & Hadj0d).
  destruct (eqb adj0 zero); [nf H|].
  destruct (gtb adj0 mx && negb allow)%bool; [nf H|].
  set (adj1 := if gtb adj0 mx then mx else adj0) in *.
  assert (Hadj1 : (adj1 = PInf \/ exists q, adj1 = Fin q /\ 0 < q) /\ xq_leb adj1 adj0 = true /\
                  xq_leb adj1 mx = true /\ (adj1 = PInf -> xq_isinf cl = false)).
  { unfold adj1. cbn [gtb ltb XQnum]. unfold gtb. cbn [ltb XQnum].
    destruct Hadj0 as [->|(q & -> & Hq)], Hmx as [->|(m & -> & Hm)]; cbn [xq_ltb xq_leb orb xq_eqb].
    - repeat split; auto.
    - repeat split; eauto; try (qbg; lra); discriminate.
    - repeat split; eauto; try (qbg; lra); discriminate.
    - destruct (qlt_bool m q) eqn:E; qb; cbn [xq_leb]; repeat split; eauto; try (qbg; lra); discriminate. }
  clearbody adj1. destruct Hadj1 as (Hadj1 & Hadj1a & Hadj1m & Hadj1i).
  assert (Hadj1s : xq_leb adj1 size = true) by exact (xq_leb_trans _ _ _ Hadj1a Hadj0s).
  apply bind_ok in H as (adj & Hadj & H).
  apply granulate_leb in Hadj; auto.
  2:{ destruct Hadj1 as [->|(q & -> & Hq)]; [auto|right; exists q; split; auto; lra]. }
  unfold buy_sized in H.
  apply bind_ok in H as (am & Ham & H).
  destruct am as [[[fs fee] req]|]; [|nf H].
  apply buy_amounts_spec in Ham; auto.
  2:{ destruct Hadj as [[-> _]|[[-> _]|(s' & q & g' & _ & _ & -> & Hq & _)]]; auto.
      - destruct Hadj1 as [->|(q & -> & Hq)]; auto. right; right; exists q; split; auto; lra.
      - right; right; exists q; split; auto; lra. }
  2:{ intros ->. destruct Hadj as [[E ->]|[[_ [_ Hg]]|(s' & q & g' & _ & _ & E & _)]].
      - subst adj1. destruct Hadj1 as [C|(q & C & _)]; discriminate.
      - destruct gran; auto; congruence.
      - discriminate. }
  2:{ intros (Hn & Hi & Hi2).
      destruct Hadj as [[-> _]|[[-> _]|(s' & q & g' & _ & _ & -> & _)]]; try discriminate; try congruence.
      destruct Hadj1 as [->|(q & -> & _)]; [|discriminate].
      specialize (Hadj1i eq_refl). congruence. }
  2:{ intros (-> & Hi2).
      destruct Hadj as [[E _]|[[_ [E _]]|(s' & q & g' & _ & _ & E & _)]]; try discriminate.
      - subst adj1. destruct Hadj1 as [C|(q & C & _)]; discriminate.
      - specialize (Hadj1i E). congruence. }
  destruct Ham as (fsq & feeq & reqq & -> & -> & -> & Hfee & Hreq & Hnn & Hle & Hpos & Hk & Hcash).
  destruct (is_close_nb adj zero) eqn:Hclose; [nf H|].
  destruct (is_less_nb (Fin fsq) (Fin mn)) eqn:Hmin; [nf H|].
  destruct (isfinite size && is_less_nb (Fin fsq) size && negb allow)%bool eqn:Hpart; [nf H|].
  right. exists cl, fsq, feeq, reqq. split; [exact Hcl|].
  (* size bounds through adj1 *)
  assert (Hfa : xq_leb (Fin fsq) adj1 = true).
  { destruct Hadj as [[-> _]|[[-> [-> _]]|(s' & q & g' & -> & _ & -> & Hq & _)]]; auto.
    - destruct Hadj1 as [->|(q & -> & _)]; auto. cbn [xq_leb]. qbg. auto.
    - cbn [xq_leb]. qbg. specialize (Hle q eq_refl). lra. }
  constructor; auto.
  - intros ->. specialize (Hpos eq_refl).
    destruct Hadj as [[-> _]|[[_ [_ C]]|(s' & q & g' & _ & C & _)]]; [|congruence|discriminate].
    destruct Hadj1 as [->|(q & -> & Hq)].
    + destruct Hpos as [(a & E & _)|]; [discriminate|discriminate|auto].
    + destruct Hpos as [(a & E & Ea)|]; auto.
      * intros E; inversion E; subst. lra.
      * inversion E; subst. lra.
  - exact (xq_leb_trans _ _ _ Hfa Hadj1s).
  - constructor; auto.
    + exact (xq_leb_trans _ _ _ Hfa Hadj1m).
    + intros g ->. destruct Hk as [(a & -> & E)|Hk]; [|auto].
      inversion E; subst. destruct Hadj as [[_ C]|[[C _]|(s' & q & g' & _ & Eg & Eq & _ & k & Hkq)]]; try discriminate.
      inversion Eg; inversion Eq; subst. exists k; auto.
    + intros -> Hfin. rewrite Hfin in Hpart. cbn in Hpart. rewrite andb_true_r in Hpart. exact Hpart.
  - intros E p' Ep. inversion Ep; subst. destruct (Hadj0d eq_refl) as (q & -> & Hq).
    pose proof (xq_leb_trans _ _ _ Hfa Hadj1a) as Hx. cbn [xq_leb] in Hx. qb. lra.
Qed.

(** ** Sells *)
Record SellCert (es : ExecState XQ) (size : XQ) (ap : Q) (dir : Direction) (f ff mn : Q)
    (mx gran pct : XQ) (lock allow : bool) (es' : ExecState XQ) (r : OrderResult XQ) (fs : Q) : Prop := {
  sc_pos : (1 # 1000000000000) < fs;
  sc_size : pct = NaN -> xq_leb (Fin fs) size = true;
  sc_facts : SizeFacts fs size mn mx gran allow;
  sc_long : dir = LongOnly -> forall p, es_position es = Fin p ->
            pct = NaN \/ (exists pc, pct = Fin pc /\ pc <= 1) -> fs <= p;
  sc_lock : dir <> LongOnly -> lock = true ->
            exists lim p', sell_short_limit es size (Fin ap) (Fin f) (Fin ff) lock pct = Ok (inr (lim, p'))
                           /\ xq_leb (Fin fs) lim = true;
  sc_fill : sell_fill es (Fin fs) (Fin ap) (Fin f) (Fin ff) = Ok (es', r) }.

Definition nonneg_x (s : XQ) : Prop := s = PInf \/ exists q, s = Fin q /\ 0 <= q.

Lemma sdiv_inf : forall x b r, xq_isinf x = true -> sdiv x (Fin b) = Ok r -> xq_isinf r = true.
Proof.
  intros x b r Hx H. unfold sdiv in H. xs. destruct (Qeq_bool _ _); [discriminate|].
  injection H as <-. destruct x; try discriminate; simpl; destruct (Qle_bool 0 b); reflexivity.
Qed.

Lemma min2_nonneg : forall a b, nonneg_x a -> nonneg_x b -> nonneg_x (min2 a b).
Proof.
  intros a b Ha Hb. unfold min2. destruct (ltb b a); auto.
Qed.

Lemma mul_nonneg_x : forall pc x, 0 < pc -> nonneg_x x -> nonneg_x (mul (Fin pc) x).
Proof.
  intros pc x Hpc [->|(q & -> & Hq)]; xs.
  - left. unfold xq_sgn_inf. destruct (Qeq_bool pc 0) eqn:E; [qb; lra|].
    destruct (qlt_bool 0 pc) eqn:E1; [reflexivity|qb; lra].
  - right. exists (Qred (pc * q)). split; auto. rewrite Qred_correct.
    apply Qmult_le_0_compat; lra.
Qed.

Lemma sell_short_limit_nonneg : forall cash p d free size ap f ff lock pct lim pct',
  free <> NaN -> nonneg_x size ->
  (pct = NaN \/ exists pc, pct = Fin pc /\ 0 < pc /\ size = PInf) ->
  sell_short_limit (mkExec cash (Fin p) (Fin d) free) size (Fin ap) (Fin f) (Fin ff) lock pct
    = Ok (inr (lim, pct')) ->
  nonneg_x lim /\ (pct' = NaN \/ pct' = pct) /\ (pct = NaN -> xq_leb lim size = true) /\
  (lock = true -> pct' = NaN).
Proof.
  intros cash p d free size ap f ff lock pct lim pct' Hfree Hsize Hpct H.
  unfold sell_short_limit in H.
  destruct (lock || (isinf size && negb (isnan pct)))%bool eqn:Hb.
  2:{ injection H as <- <-. apply orb_false_iff in Hb as [-> Hb].
      repeat split; auto; try discriminate.
      intros ->. destruct Hsize as [->|(q & -> & Hq)]; auto. cbn [xq_leb]. qbg; lra. }
  cbv zeta in H. apply bind_ok in H as (l & Hl & H).
  destruct l as [info|mxl]; [discriminate|].
  assert (Hm : nonneg_x mxl).
  { cbn [es_position es_free_cash] in Hl.
    assert (Hls : exists ls, max2 (Fin p) zero = Fin ls /\ 0 <= ls).
    { unfold max2. xs. change (inject_Z 0) with 0. destruct (qlt_bool p 0) eqn:E; qb.
      - exists 0; split; auto; lra.
      - exists p; split; auto. }
    destruct Hls as (ls & Hls & Hls0). rewrite Hls in Hl.
    destruct (leb _ zero) eqn:Htf in Hl.
    - destruct (leb (Fin p) zero); [discriminate|]. injection Hl as <-. right; eauto.
    - apply bind_ok in Hl as (ms & Hms & Hl).
      destruct (leb (add_nb (Fin ls) ms) zero) eqn:Hle; [discriminate|].
      injection Hl as <-.
      change (mul (Fin ap) (add one (Fin f))) with (Fin (Qred (ap * Qred (inject_Z 1 + f)))) in Hms.
      change (mul (mul (Fin ls) (Fin ap)) (sub one (Fin f)))
        with (Fin (Qred (Qred (ls * ap) * Qred (inject_Z 1 - f)))) in Hms.
      change (neg (Fin ff)) with (Fin (Qred (- ff))) in Hms.
      assert (Hmsx : (exists q, ms = Fin q) \/ xq_isinf ms = true).
      { destruct free as [| | |fr]; [congruence| | |].
        - right. rewrite (add_nb_nonfin PInf) in Hms by (intros; discriminate). cbn [xq_add] in Hms.
          rewrite (add_nb_nonfin PInf) in Hms by (intros; discriminate). cbn [xq_add] in Hms.
          eapply sdiv_inf; [|exact Hms]; reflexivity.
        - right. rewrite (add_nb_nonfin NInf) in Hms by (intros; discriminate). cbn [xq_add] in Hms.
          rewrite (add_nb_nonfin NInf) in Hms by (intros; discriminate). cbn [xq_add] in Hms.
          eapply sdiv_inf; [|exact Hms]; reflexivity.
        - left. destruct (add_nb_fin fr (Qred (Qred (ls * ap) * Qred (inject_Z 1 - f)))) as (r1 & Hr1 & _).
          rewrite Hr1 in Hms. destruct (add_nb_fin r1 (Qred (- ff))) as (r2 & Hr2 & _).
          rewrite Hr2 in Hms. apply sdiv_fin in Hms as (q & -> & _). eauto. }
      destruct Hmsx as [(q & ->)|Hi].
      + destruct (add_nb_fin ls q) as (r & Hr & _). rewrite Hr in *.
        cbn in Hle. change (inject_Z 0) with 0 in Hle. qb. right. exists r; split; auto; lra.
      + destruct ms; try discriminate; rewrite add_nb_nonfin in * by (intros; discriminate); cbn in *.
        * left; auto.
        * discriminate. }
  clear Hl.
  destruct lock.
  - destruct Hpct as [->|(pc & -> & Hpc & ->)].
    + rewrite andb_false_r in H. cbn in H. injection H as <- <-.
      split; [apply min2_nonneg; auto|]. split; [auto|]. split; [|auto].
      intros _. apply min2_le_l. destruct Hsize as [->|(q & -> & _)]; discriminate.
    + cbn [isinf xq_isinf isnan xq_isnan XQnum negb andb] in H. injection H as <- <-.
      split; [apply min2_nonneg; auto; apply mul_nonneg_x; auto|]. split; [auto|].
      split; [discriminate|auto].
  - injection H as <- <-. split; [auto|]. split; [auto|]. split; [|discriminate].
    intros ->. cbn in Hb. rewrite andb_false_r in Hb. discriminate.
Qed.

Lemma sell_fill_filled : forall es q ap f ff es' r,
  sell_fill es q ap f ff = Ok (es', r) -> unfilled es es' r \/ r_status r = Filled.
Proof.
  intros es q ap f ff es' r H. unfold sell_fill in H. cbv zeta in H.
  destruct (ltb _ zero) in H; [nf H|].
  right. destruct (if ltb (add_nb _ _) zero then _ else _) as [nd nfc] in H.
  injection H as _ <-. reflexivity.
Qed.

Lemma sell_nb_cert : forall cash p d free size price dir f ff slip mn mx gran lock allow pct es' r,
  free <> NaN -> (dir = LongOnly -> 0 <= p) ->
  ((dir = LongOnly /\ size = NaN /\ pct <> NaN) \/ nonneg_x size) ->
  (pct = NaN \/ exists pc, pct = Fin pc /\ 0 <= pc /\ (dir <> LongOnly -> 0 < pc /\ size = PInf)) ->
  size_ok mx -> gran_ok gran ->
  let es := mkExec cash (Fin p) (Fin d) free in
  let ap := Qred (price * Qred (inject_Z 1 - slip)) in
  sell_nb es size (Fin price) dir (Fin f) (Fin ff) (Fin slip) (Fin mn) mx gran lock allow pct = Ok (es', r) ->
  unfilled es es' r \/
  exists fs, SellCert es size ap dir f ff mn mx gran pct lock allow es' r fs /\ r_status r = Filled.
Proof.
  intros cash p d free size price dir f ff slip mn mx gran lock allow pct es' r
    Hfree Hdir Hsize Hpct Hmx Hgran es ap H.
  unfold sell_nb in H.
  change (mul (Fin price) (sub one (Fin slip))) with (Fin ap) in H.
  clearbody ap.
  apply bind_ok in H as (lim & Hlim & H).
  destruct lim as [info|[sl pct']]; [nf H|].
  (* the size limit before capping *)
  cbv zeta in H.
  set (sl0 := if negb (isnan pct') then mul pct' sl else sl) in *.
  assert (Hsl0 : nonneg_x sl0 /\
                 (pct = NaN -> xq_leb sl0 size = true \/ size = NaN) /\
                 (dir = LongOnly -> exists q, sl0 = Fin q /\
                    (pct = NaN \/ (exists pc, pct = Fin pc /\ pc <= 1) -> q <= p)) /\
                 (dir <> LongOnly -> lock = true ->
                    sell_short_limit es size (Fin ap) (Fin f) (Fin ff) lock pct = Ok (inr (sl, pct')) /\ sl0 = sl)).
  { unfold sell_limit in Hlim. destruct (is_long_only dir) eqn:Hlo.
    - assert (dir = LongOnly) as -> by (destruct dir; [reflexivity|discriminate|discriminate]).
      specialize (Hdir eq_refl). injection Hlim as <- <-.
      cbn [es_position es] in sl0.
      assert (Hmin : exists m, min2 (Fin p) size = Fin m /\ 0 <= m /\ m <= p /\ (xq_leb (Fin m) size = true \/ size = NaN)).
      { unfold min2. xn. destruct Hsize as [(_ & -> & _)|[->|(q & -> & Hq)]]; cbn [xq_ltb].
        - exists p. repeat split; auto; lra.
        - exists p. repeat split; auto; lra.
        - destruct (qlt_bool q p) eqn:E; qb.
          + exists q. repeat split; auto; try lra. left. cbn [xq_leb]. qbg; lra.
          + exists p. repeat split; auto; try lra. left. cbn [xq_leb]. qbg; lra. }
      destruct Hmin as (m & Hm & Hm0 & Hmp & Hms). unfold sl0. rewrite Hm.
      destruct Hpct as [->|(pc & -> & Hpc & _)].
      + cbn. split; [right; eauto|]. split; [intros _; exact Hms|]. split; [|congruence].
        intros _. exists m; split; auto.
      + xs. unfold fin. split; [right; eexists; split; [reflexivity|rewrite Qred_correct; apply Qmult_le_0_compat; auto]|].
        split; [discriminate|]. split; [|congruence].
        intros _. exists (Qred (pc * m)). split; auto.
        intros [|(pc' & E & Hpc')]; [discriminate|]. inversion E; subst.
        rewrite Qred_correct. assert (0 <= (1 - pc') * m) by (apply Qmult_le_0_compat; lra). lra.
    - assert (Hd : dir <> LongOnly) by (intros ->; discriminate).
      pose proof Hlim as Hlim0.
      apply sell_short_limit_nonneg in Hlim; auto.
      2:{ destruct Hsize as [[E _]|Hs]; [congruence|auto]. }
      2:{ destruct Hpct as [->|(pc & -> & Hpc & Hx)]; auto. destruct (Hx Hd). right; exists pc; auto. }
      destruct Hlim as (Hsl & Hp' & Hpn & Hlk).
      split; [|split; [|split; [congruence|]]].
      + unfold sl0. destruct Hp' as [->| ->]; [exact Hsl|].
        destruct Hpct as [->|(pc & -> & Hpc & Hx)]; [exact Hsl|].
        cbn [isnan xq_isnan XQnum negb]. apply mul_nonneg_x; auto. apply (Hx Hd).
      + intros ->. left. unfold sl0. destruct Hp' as [->| ->]; cbn; auto.
      + intros _ ->. split; [exact Hlim0|]. unfold sl0. rewrite Hlk by auto. reflexivity. }
  clearbody sl0. destruct Hsl0 as (Hn0 & Hs0 & Hl0 & Hk0).
  destruct (gtb sl0 mx && negb allow)%bool; [nf H|].
  set (sl1 := if gtb sl0 mx then mx else sl0) in *.
  assert (Hsl1 : nonneg_x sl1 /\ xq_leb sl1 sl0 = true /\ xq_leb sl1 mx = true).
  { unfold sl1, gtb. cbn [ltb XQnum].
    destruct Hn0 as [->|(q & -> & Hq)], Hmx as [->|(m & -> & Hm)]; cbn [xq_ltb xq_leb orb xq_eqb].
    - repeat split; auto. left; auto.
    - split; [right; exists m; split; auto; lra|]. split; auto. qbg; lra.
    - split; [right; exists q; split; auto; lra|]. split; auto. qbg; lra.
    - destruct (qlt_bool m q) eqn:E; qb; cbn [xq_leb].
      + split; [right; exists m; split; auto; lra|]. split; qbg; lra.
      + split; [right; exists q; split; auto; lra|]. split; qbg; lra. }
  clearbody sl1. destruct Hsl1 as (Hn1 & Hs1 & Hm1).
  unfold sell_sized in H.
  destruct (negb (is_long_only dir) && isinf sl1)%bool eqn:Hinf; [discriminate|].
  destruct (is_long_only dir && eqb (es_position es) zero)%bool; [nf H|].
  assert (Hfin : exists q1, sl1 = Fin q1 /\ 0 <= q1).
  { destruct Hn1 as [->|?]; auto. exfalso.
    destruct dir; cbn in Hinf; try discriminate.
    destruct (Hl0 eq_refl) as (q & -> & _). cbn in Hs1. discriminate. }
  destruct Hfin as (q1 & -> & Hq1).
  apply bind_ok in H as (sz & Hg & H).
  apply granulate_leb in Hg; [|auto|right; eauto].
  assert (Hsz : exists q, sz = Fin q /\ 0 <= q <= q1 /\ forall g, gran = Fin g -> exists k, q == inject_Z k * g).
  { destruct Hg as [[-> ->]|[[_ [C _]]|(s' & q & g' & E & -> & -> & Hq & Hk)]]; [|discriminate|].
    - exists q1. repeat split; auto; try lra. intros g C; discriminate.
    - inversion E; subst. exists q. split; auto. split; auto. intros g E2; inversion E2; subst; auto. }
  destruct Hsz as (q & -> & Hq & Hk). clear Hg.
  destruct (is_close_nb (Fin q) zero) eqn:Hclose; [nf H|].
  destruct (is_less_nb (Fin q) (Fin mn)) eqn:Hmin; [nf H|].
  destruct (isfinite size && is_less_nb (Fin q) size && negb allow)%bool eqn:Hpart; [nf H|].
  destruct (sell_fill_filled _ _ _ _ _ _ _ H) as [Hu|Hfill]; [left; exact Hu|].
  right. exists q. split; [|exact Hfill].
  assert (Hqs : xq_leb (Fin q) sl0 = true).
  { eapply xq_leb_trans; [|exact Hs1]. cbn [xq_leb]. qbg; lra. }
  apply is_close_zero_f in Hclose.
  constructor.
  - qabs_all. lra.
  - intros E. destruct (Hs0 E) as [Hx|Hx].
    + exact (xq_leb_trans _ _ _ Hqs Hx).
    + exfalso. subst size pct. destruct Hsize as [(_ & _ & C)|[C|(? & C & _)]]; congruence.
  - constructor; auto.
    + eapply xq_leb_trans; [|exact Hm1]. cbn [xq_leb]. qbg; lra.
    + intros -> Hf'. rewrite Hf' in Hpart. cbn in Hpart. rewrite andb_true_r in Hpart. exact Hpart.
  - intros E p' Ep Hpc. inversion Ep; subst. destruct (Hl0 eq_refl) as (q0 & -> & Hle).
    specialize (Hle Hpc). cbn [xq_leb] in Hqs. qb. lra.
  - intros Hd ->. destruct (Hk0 Hd eq_refl) as [Hk1 ->]. eauto.
  - exact H.
Qed.
