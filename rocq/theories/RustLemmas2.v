(** * The engines agree on exact numbers *)
From Coq Require Import ZArith QArith Qabs Qround Bool List Lia Lqa.
From Verif Require Import Base Num MathNb Order XQFacts OrdLaws RustOrder RustLemmas RustLawsXQ RustSpec.
Import ListNotations.

Lemma add_nb_fin : forall a b, exists c, add_nb (Fin a) (Fin b) = Fin c.
Proof. intros a b. unfold add_nb. destruct (is_addition_zero_nb _ _); eexists; reflexivity. Qed.

Lemma add_nb_pinf : forall r, add_nb PInf (Fin r) = PInf.
Proof.
  intros r. unfold add_nb, is_addition_zero_nb. destruct (xq_abs_fin r) as (r' & -> & _).
  destruct (neb _ _); reflexivity.
Qed.

Lemma xq_fin_inv : forall x, isfinite x = true -> exists q, x = Fin q.
Proof. intros [| | |q] H; try discriminate; eauto. Qed.

Lemma gran_regular_xq : forall g, 0 < g -> gran_regular (Fin g).
Proof.
  intros g Hg.
  assert (Eg : Qeq_bool g 0 = false) by (qbg; lra).
  assert (Lg : Qle_bool 0 g = true) by (qbg; lra).
  assert (Pg : qlt_bool 0 g = true) by (qbg; lra).
  constructor.
  - intros [| | |a] H; try discriminate; auto. cbn [floor XQrust]. xs. rewrite Eg. cbn [fin xq_floor].
    f_equal. f_equal. apply Qfloor_comp. apply Qred_correct.
  - intros [| | |a] H1 H2; try discriminate. cbn [floor XQrust]. xs. rewrite Lg. cbn [xq_floor xq_mul].
    unfold xq_sgn_inf. rewrite Eg, Pg. cbn [Bool.eqb]. repeat split; auto.
    destruct (xq_fin_inv p H) as (p' & ->). destruct (xq_fin_inv f H0) as (f' & ->).
      destruct (xq_fin_inv ff H3) as (ff' & ->). xs. zz. qb. unfold xq_sgn_inf.
      assert (Ep : Qeq_bool p' 0 = false) by (qbg; lra).
      assert (Pp : qlt_bool 0 p' = true) by (qbg; lra).
      rewrite Ep, Pp. cbn [Bool.eqb xq_mul]. unfold xq_sgn_inf.
      destruct (Qeq_bool f' 0); cbn [xq_add]; [destruct l; try discriminate; reflexivity|].
      destruct (Bool.eqb _ _); cbn [xq_add]; destruct l; try discriminate; reflexivity.
  - intros l f ff p Hl H1 H2 H3 H4 H5.
    destruct (xq_fin_inv p H1) as (p' & ->). destruct (xq_fin_inv f H2) as (f' & ->).
    destruct (xq_fin_inv ff H3) as (ff' & ->).
    destruct l as [| | |l]; try discriminate; auto.
    change (neg (Fin ff')) with (Fin (Qred (- ff'))). destruct (add_nb_fin l (Qred (- ff'))) as (c & ->).
    revert H4 H5. xs. zz. intros H4 H5. rewrite H4. cbn [fin xq_div]. rewrite H5. reflexivity.
  - intros [| | |a] [| | |b] H1 H2; try discriminate; auto.
  - intros a l f ff p Ha H1 H2 H3 Hl Hl0.
    destruct (xq_fin_inv p H1) as (p' & ->). destruct (xq_fin_inv f H2) as (f' & ->).
    destruct (xq_fin_inv ff H3) as (ff' & ->). destruct (xq_fin_inv a Ha) as (a' & ->).
    destruct l as [| | |l]; try discriminate.
    xn. cbn [xq_fdiv]. rewrite Eg. reflexivity.
Qed.

Lemma snap_inf : forall x, isfinite x = false -> snap x = x.
Proof. intros [| | |q] H; try discriminate; reflexivity. Qed.

Lemma snap_ninf : forall x, snap x = NInf -> x = NInf.
Proof.
  intros x. unfold snap. destruct (is_close_nb x zero); auto. discriminate.
Qed.

Lemma snap_pinf : forall x, snap x = PInf -> x = PInf.
Proof.
  intros x. unfold snap. destruct (is_close_nb x zero); auto. discriminate.
Qed.

(** The cash limit is a finite number or plus infinity. *)
Lemma lock_limit_xq : forall es p f ff l,
  state_checked es -> es_free_cash es <> NInf ->
  isfinite p = true -> isfinite f = true -> isfinite ff = true ->
  buy_lock_limit es p f ff = Ok l -> l = PInf \/ exists q, l = Fin q.
Proof.
  intros [c pos d fc] p f ff l [C1 C2 C3 C4 C5] Hfc Hp Hf Hff H. cbn [es_cash es_position es_debt es_free_cash] in *.
  destruct (xq_fin_inv p Hp) as (p' & ->). destruct (xq_fin_inv f Hf) as (f' & ->).
  destruct (xq_fin_inv ff Hff) as (ff' & ->). destruct (xq_fin_inv pos C3) as (q & ->).
  destruct (xq_fin_inv d C4) as (d' & ->).
  unfold buy_lock_limit in H. cbn [es_cash es_position es_debt es_free_cash] in H.
  assert (Hc : c = PInf \/ exists q, c = Fin q) by (destruct c; try discriminate; eauto).
  destruct (geb (Fin q) zero); [injection H as <-; destruct fc; try congruence; eauto; discriminate|].
  destruct (xq_abs_fin q) as (q' & Eq & _). rewrite Eq in H.
  destruct fc as [| | |fc]; try discriminate; try congruence.
  - change (add PInf (mul two (Fin d'))) with PInf in H.
    match type of H with context [add_nb PInf ?r] => set (req := r) in H end.
    assert (Hreq : exists r, req = Fin r) by (eexists; reflexivity).
    destruct Hreq as (r & ->). rewrite add_nb_pinf in H.
    cbn in H. injection H as <-. auto.
  - destruct (gtb _ zero) in H; [injection H as <-; right; eexists; reflexivity|].
    destruct (ltb _ zero) in H.
    + unfold sdiv in H. destruct (eqb (Fin q') zero) eqn:E1 in H; [discriminate|]. cbn [bind] in H.
      assert (E2 : exists a, div (Fin d') (Fin q') = Fin a).
      { revert E1. xs. zz. intros E1. rewrite E1. eexists; reflexivity. }
      destruct E2 as (a & E2). rewrite E2 in H.
      destruct (eqb _ zero) eqn:E3 in H; [discriminate|]. cbn [bind] in H. injection H as <-. right.
      revert E3. xs. zz. intros E3. rewrite E3. eexists; reflexivity.
    + injection H as <-. auto.
Qed.

Lemma order_ok_xq : forall s o, comparable s o -> order_ok s o.
Proof.
  intros s o [H1 H2 H3]. constructor.
  - split.
    + intros Ht. destruct (H1 Ht) as [-> |(q & -> & Hq)]; [auto|]. split; [|auto]. xs. zz. qbg. auto.
    + intros Ht. destruct (H2 Ht) as [H|[(q & -> & Hq)|H]].
      * destruct (snap (ps_value s)) eqn:E; auto. apply snap_pinf in E; congruence.
      * right; right. xs. zz. qbg. auto.
      * right; right. destruct (o_size o); try reflexivity. congruence.
  - right. intros Hg Hi. destruct (o_size_granularity o); try discriminate.
    apply gran_regular_xq. revert Hg. xs. zz. intros Hg. qb. auto.
  - right. intros P1 P2 P3 P4. destruct (xq_fin_inv _ P1) as (p & Ep). destruct (xq_fin_inv _ P3) as (sl & Es).
    rewrite Ep, Es in *. split; [reflexivity|]. revert P2 P4. xs. zz. cbn [fin xq_ltb]. intros P2 P4. qb. qbg.
    rewrite !Qred_correct. nra.
  - intros Hck P1 P2 P3 P4 P5 P6 _ l Hl.
    assert (HL : l = PInf \/ exists q, l = Fin q).
    { refine (lock_limit_xq (snap_state s) _ _ _ l Hck _ _ P5 P6 Hl).
      + cbn [snap_state es_free_cash]. intros C. apply snap_ninf in C. auto.
      + destruct (xq_fin_inv _ P1) as (p & ->). destruct (xq_fin_inv _ P3) as (sl & ->). reflexivity. }
    destruct HL as [-> |(q & ->)]; reflexivity.
  - right. intros Hck P1 P2 P3 P4 P5 P6 percent l Hpi Hpc Hl Hi.
    unfold buy_cash_limit in Hl. apply bind_ok in Hl as (l0 & Hl0 & Hl). injection Hl as <-.
    assert (Hc : es_cash (snap_state s) = PInf \/ exists q, es_cash (snap_state s) = Fin q).
    { destruct Hck as [K1 K2 _ _ _]. destruct (es_cash (snap_state s)); try discriminate; eauto. }
    assert (Hl1 : l0 = PInf \/ exists q, l0 = Fin q).
    { destruct (o_lock_cash o).
      - refine (lock_limit_xq (snap_state s) _ _ _ l0 Hck _ _ P5 P6 Hl0).
        + cbn [snap_state es_free_cash]. intros C. apply snap_ninf in C. auto.
        + destruct (xq_fin_inv _ P1) as (p & ->). destruct (xq_fin_inv _ P3) as (sl & ->). reflexivity.
      - injection Hl0 as <-. exact Hc. }
    assert (Hm : min2 l0 (es_cash (snap_state s)) = PInf \/
                 exists q, min2 l0 (es_cash (snap_state s)) = Fin q).
    { unfold min2. destruct (ltb _ l0); auto. }
    set (m := min2 l0 _) in *. clearbody m.
    destruct percent as [| | |pc]; try discriminate.
    + destruct Hm as [-> |(q & ->)]; [reflexivity|discriminate].
    + destruct Hpc as [?|Hpc]; [discriminate|].
      destruct Hm as [-> |(q & ->)].
      * revert Hpc. xs. zz. unfold xq_sgn_inf. intros Hpc. qb.
        assert (Pp : qlt_bool 0 pc = true) by (qbg; lra). assert (Ep : Qeq_bool pc 0 = false) by (qbg; lra).
        rewrite Ep, Pp. reflexivity.
      * revert Hi. cbn -[min2 mul]. unfold min2.
        change (mul (Fin pc) (Fin q)) with (Fin (Qred (pc * q))). destruct (ltb _ (Fin q)); discriminate.
Qed.
