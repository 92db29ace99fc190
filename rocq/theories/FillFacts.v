(** * State changes of a fill over exact arithmetic *)
From Coq Require Import ZArith QArith Qabs Qround Qminmax Bool Lia Lqa List Setoid Morphisms.
From Verif Require Import Base Num MathNb TolSpec Order XQFacts OrderFacts ExecFacts.
Import ListNotations.

#[global] Instance approx_add_proper : Proper (Qeq ==> Qeq ==> Qeq ==> iff) approx_add.
Proof.
  intros a a' Ha b b' Hb r r' Hr. unfold approx_add.
  rewrite Ha, Hb, Hr. reflexivity.
Qed.

Lemma add_nb_xapprox : forall x b b', b' == b -> xadd_approx x b (add_nb x (Fin b')).
Proof.
  intros x b b' Hb. destruct x as [| | |a]; simpl.
  - rewrite add_nb_nonfin by (intros; discriminate); reflexivity.
  - rewrite add_nb_nonfin by (intros; discriminate); reflexivity.
  - rewrite add_nb_nonfin by (intros; discriminate); reflexivity.
  - destruct (add_nb_fin a b') as (r & -> & Hr). exists r; split; auto. rewrite <- Hb. exact Hr.
Qed.

Lemma add_xexact : forall x b b', b' == b -> xadd_exact x b (add x (Fin b')).
Proof.
  intros x b b' Hb. destruct x as [| | |a]; simpl; auto.
  exists (Qred (a + b')). split; auto. rewrite Qred_correct, Hb. reflexivity.
Qed.

(** ** Buying *)
Record BuyEffect (cash : XQ) (p d : Q) (free : XQ) (fs ap fee req : Q)
    (es' : ExecState XQ) (r : OrderResult XQ) (np nd : Q) : Prop := {
  be_res : r = mkRes (Fin fs) (Fin ap) (Fin fee) (Some Buy) Filled None;
  be_cash : xadd_approx cash (- req) (es_cash es');
  be_pos : es_position es' = Fin np;
  be_np : approx_add p fs np;
  be_debt : es_debt es' = Fin nd;
  be_short : p < 0 -> exists diff fr,
     ((np < 0 /\ diff == fs * (d / - p)) \/ (0 <= np /\ diff == d)) /\
     approx_add d (- diff) nd /\
     xadd_exact free (2 * diff) fr /\
     xadd_approx fr (- req) (es_free_cash es');
  be_long : 0 <= p -> nd = d /\ xadd_approx free (- req) (es_free_cash es') }.

Lemma buy_fill_effect : forall cash p d free fs ap fee req es' r,
  buy_fill (mkExec cash (Fin p) (Fin d) free) (Fin fs) (Fin ap) (Fin fee) (Fin req) = Ok (es', r) ->
  exists np nd, BuyEffect cash p d free fs ap fee req es' r np nd.
Proof.
  intros cash p d free fs ap fee req es' r H. unfold buy_fill in H.
  cbn [es_cash es_position es_debt es_free_cash] in H. cbv zeta in H.
  change (neg (Fin req)) with (Fin (Qred (- req))) in H.
  assert (Hnr : Qred (- req) == - req) by apply Qred_correct.
  set (nr := Qred (- req)) in *. clearbody nr.
  destruct (add_nb_fin p fs) as (np & Hnp & Hanp). rewrite Hnp in H.
  change (ltb (Fin p) zero) with (qlt_bool p 0) in H.
  change (ltb (Fin np) zero) with (qlt_bool np 0) in H.
  destruct (qlt_bool p 0) eqn:Ep; qb.
  - apply bind_ok in H as (df & Hdf & H).
    apply bind_ok in Hdf as (avg & Havg & Hdf).
    change (abs (Fin p)) with (xq_abs (Fin p)) in *.
    destruct (xq_abs_fin p) as (rp & Erp & Hrp). rewrite Erp in *.
    rewrite Qabs_neg in Hrp by lra.
    apply sdiv_fin in Havg as (av & -> & Hnz & Hav).
    set (ss := if qlt_bool np 0 then Fin fs else Fin rp) in *.
    assert (Hss : exists s, ss = Fin s /\ ((np < 0 /\ s == fs) \/ (0 <= np /\ s == - p))).
    { unfold ss. destruct (qlt_bool np 0) eqn:E; qb; eexists; split; try reflexivity; [left|right]; split; auto; lra. }
    destruct Hss as (sq & -> & Hsq).
    cbn [mul XQnum xq_mul fin] in Hdf. unfold fin in Hdf.
    change (neg (Fin (Qred (sq * av)))) with (Fin (Qred (- Qred (sq * av)))) in Hdf.
    assert (Hdd : Qred (sq * av) == sq * av) by apply Qred_correct.
    set (dd := Qred (sq * av)) in *. clearbody dd.
    assert (Hdiff : ((np < 0 /\ dd == fs * (d / - p)) \/ (0 <= np /\ dd == d))).
    { assert (Hx : d / rp == d / - p) by (rewrite Hrp; reflexivity).
      destruct Hsq as [[Hl Hs]|[Hl Hs]].
      - left. split; auto. rewrite Hdd, Hs, Hav, Hx. reflexivity.
      - right. split; auto. rewrite Hdd, Hs, Hav, Hx. field. lra. }
    destruct (add_nb_fin d (Qred (- dd))) as (nd & Hnd & Hand). rewrite Hnd in Hdf.
    assert (Hand' : approx_add d (- dd) nd) by (rewrite <- (Qred_correct (- dd)); exact Hand).
    change (mul two (Fin dd)) with (Fin (Qred (2 * dd))) in Hdf.
    injection Hdf as <-. injection H as <- <-. cbn [fst snd].
    exists np, nd. constructor; cbn [es_cash es_position es_debt es_free_cash]; auto.
    + apply add_nb_xapprox; auto.
    + intros _. exists dd, (add free (Fin (Qred (2 * dd)))).
      split; auto. split; auto. split; [apply add_xexact; apply Qred_correct|].
      apply add_nb_xapprox; auto.
    + intros C; lra.
  - injection H as <- <-. cbn [fst snd].
    exists np, d. constructor; cbn [es_cash es_position es_debt es_free_cash]; auto.
    + apply add_nb_xapprox; auto.
    + intros C; lra.
    + intros _. split; auto. apply add_nb_xapprox; auto.
Qed.

(** ** Selling *)
Record SellEffect (cash : XQ) (p d : Q) (free : XQ) (fs ap f ff : Q)
    (es' : ExecState XQ) (r : OrderResult XQ) (fee net np nd : Q) : Prop := {
  se_res : r = mkRes (Fin fs) (Fin ap) (Fin fee) (Some Sell) Filled None;
  se_fee : fee == fs * ap * f + ff;
  se_net : approx_add (fs * ap) (- fee) net;
  se_net0 : 0 <= net;
  se_cash : xadd_exact cash net (es_cash es');
  se_pos : es_position es' = Fin np;
  se_np : approx_add p (- fs) np;
  se_debt : es_debt es' = Fin nd;
  se_short : np < 0 -> exists sv diff,
     sv == (if Qlt_le_dec p 0 then fs else - np) * ap /\
     nd == d + sv /\ approx_add net (- (2 * sv)) diff /\
     xadd_approx free diff (es_free_cash es');
  se_long : 0 <= np -> nd = d /\ xadd_exact free net (es_free_cash es') }.

Lemma sell_fill_effect : forall cash p d free fs ap f ff es' r,
  sell_fill (mkExec cash (Fin p) (Fin d) free) (Fin fs) (Fin ap) (Fin f) (Fin ff) = Ok (es', r) ->
  r_status r = Filled ->
  exists fee net np nd, SellEffect cash p d free fs ap f ff es' r fee net np nd.
Proof.
  intros cash p d free fs ap f ff es' r H Hfill. unfold sell_fill in H.
  cbn [es_cash es_position es_debt es_free_cash] in H. cbv zeta in H.
  change (mul (Fin fs) (Fin ap)) with (Fin (Qred (fs * ap))) in H.
  assert (Hac : Qred (fs * ap) == fs * ap) by apply Qred_correct.
  set (ac := Qred (fs * ap)) in *. clearbody ac.
  change (add (mul (Fin ac) (Fin f)) (Fin ff)) with (Fin (Qred (Qred (ac * f) + ff))) in H.
  assert (Hfee : Qred (Qred (ac * f) + ff) == fs * ap * f + ff) by (rewrite !Qred_correct, Hac; reflexivity).
  set (fee := Qred (Qred (ac * f) + ff)) in *. clearbody fee.
  change (neg (Fin fee)) with (Fin (Qred (- fee))) in H.
  change (neg (Fin fs)) with (Fin (Qred (- fs))) in H.
  destruct (add_nb_fin ac (Qred (- fee))) as (net & Hnet & Hanet). rewrite Hnet in H.
  assert (Hanet' : approx_add (fs * ap) (- fee) net) by (rewrite <- Hac, <- (Qred_correct (- fee)); exact Hanet).
  change (ltb (Fin net) zero) with (qlt_bool net 0) in H.
  destruct (qlt_bool net 0) eqn:En.
  { unfold not_filled in H. injection H as <- <-. discriminate. }
  qb. destruct (add_nb_fin p (Qred (- fs))) as (np & Hnp & Hanp). rewrite Hnp in H.
  assert (Hanp' : approx_add p (- fs) np) by (rewrite <- (Qred_correct (- fs)); exact Hanp).
  change (ltb (Fin np) zero) with (qlt_bool np 0) in H.
  change (ltb (Fin p) zero) with (qlt_bool p 0) in H.
  destruct (qlt_bool np 0) eqn:Enp; qb.
  - change (abs (Fin np)) with (xq_abs (Fin np)) in H.
    destruct (xq_abs_fin np) as (rn & Ern & Hrn). rewrite Ern in H. rewrite Qabs_neg in Hrn by lra.
    set (ss := if qlt_bool p 0 then Fin fs else Fin rn) in *.
    assert (Hss : exists s, ss = Fin s /\ s == (if Qlt_le_dec p 0 then fs else - np)).
    { unfold ss. destruct (qlt_bool p 0) eqn:E; qb; eexists; (split; [reflexivity|]);
      destruct (Qlt_le_dec p 0); try lra. }
    destruct Hss as (sq & -> & Hsq).
    change (mul (Fin sq) (Fin ap)) with (Fin (Qred (sq * ap))) in H.
    assert (Hsv : Qred (sq * ap) == sq * ap) by apply Qred_correct.
    set (sv := Qred (sq * ap)) in *. clearbody sv.
    change (mul (neg two) (Fin sv)) with (Fin (Qred (Qred (- (2)) * sv))) in H.
    destruct (add_nb_fin net (Qred (Qred (- (2)) * sv))) as (diff & Hdiff & Hadiff). rewrite Hdiff in H.
    change (add (Fin d) (Fin sv)) with (Fin (Qred (d + sv))) in H.
    injection H as <- <-.
    exists fee, net, np, (Qred (d + sv)).
    constructor; cbn [es_cash es_position es_debt es_free_cash]; auto.
    + apply add_xexact; reflexivity.
    + intros _. exists sv, diff. split; [rewrite Hsv, Hsq; reflexivity|].
      split; [apply Qred_correct|]. split; [|apply add_nb_xapprox; reflexivity].
      assert (E : Qred (Qred (- (2)) * sv) == - (2 * sv)) by (rewrite !Qred_correct; ring).
      rewrite <- E. exact Hadiff.
    + intros C; lra.
  - injection H as <- <-. exists fee, net, np, d.
    constructor; cbn [es_cash es_position es_debt es_free_cash]; auto.
    + apply add_xexact; reflexivity.
    + intros C; lra.
    + intros _. split; auto. apply add_xexact; reflexivity.
Qed.
