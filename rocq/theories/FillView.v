(** * One view of a filled order: certificate and state change together *)
From Coq Require Import ZArith QArith Qabs Qround Qminmax Bool Lia Lqa List Setoid Morphisms.
From Verif Require Import Base Num MathNb TolSpec Order Account XQFacts OrderFacts ExecFacts FillFacts OrderLemmas.
Import ListNotations.

Definition buy_price (price slip : Q) : Q := Qred (price * Qred (inject_Z 1 + slip)).
Definition sell_price (price slip : Q) : Q := Qred (price * Qred (inject_Z 1 - slip)).

Lemma buy_price_eq : forall price slip, buy_price price slip == price * (1 + slip).
Proof. intros. unfold buy_price. rewrite !Qred_correct. reflexivity. Qed.
Lemma sell_price_eq : forall price slip, sell_price price slip == price * (1 - slip).
Proof. intros. unfold sell_price. rewrite !Qred_correct. reflexivity. Qed.

(** The order filled as a purchase *)
Definition bought (s : ProcState XQ) (o : Order XQ) (es' : ExecState XQ) (r : OrderResult XQ)
    (cash : XQ) (p d : Q) (free : XQ) (price f ff slip mn : Q) (osz pct : XQ) : Prop :=
  gtb osz zero = true /\
  exists cl fs fee req np nd,
    let ap := buy_price price slip in
    let es := mkExec cash (Fin p) (Fin d) free in
    buy_cash_limit es (Fin ap) (Fin f) (Fin ff) (o_lock_cash o) pct = Ok cl /\
    BuyCert es osz ap (o_direction o) f ff mn (o_max_size o) (o_size_granularity o) cl
       (o_allow_partial o) es' r fs fee req /\
    BuyEffect cash p d free fs ap fee req es' r np nd.

(** The order filled as a sale *)
Definition sold (s : ProcState XQ) (o : Order XQ) (es' : ExecState XQ) (r : OrderResult XQ)
    (cash : XQ) (p d : Q) (free : XQ) (price f ff slip mn : Q) (osz pct : XQ) : Prop :=
  gtb osz zero = false /\
  exists fs fee net np nd,
    let ap := sell_price price slip in
    let es := mkExec cash (Fin p) (Fin d) free in
    SellCert es (neg osz) ap (o_direction o) f ff mn (o_max_size o) (o_size_granularity o) pct
       (o_lock_cash o) (o_allow_partial o) es' r fs /\
    SellEffect cash p d free fs ap f ff es' r fee net np nd.

Lemma filled_view : forall draws k (s : ProcState XQ) (o : Order XQ) es' r k',
  (forall f, o_fees o = Fin f -> - (1) < f) ->
  regular o (snap (ps_value s)) ->
  execute_order_nb draws k s o = Ok (es', r, k') ->
  unfilled (snap_state s) es' r \/
  exists cash p d free price f ff slip mn rp osz pct,
    snap_state s = mkExec cash (Fin p) (Fin d) free /\
    Checked (mkExec cash (Fin p) (Fin d) free) o p d price f ff slip mn rp /\ - (1) < f /\
    converted osz pct /\
    resolve_size o (Fin p) (snap (ps_val_price s)) (snap (ps_value s)) = Ok (inr (osz, pct)) /\
    r_status r = Filled /\
    (bought s o es' r cash p d free price f ff slip mn osz pct \/
     sold s o es' r cash p d free price f ff slip mn osz pct).
Proof.
  intros draws k s o es' r k' Hf Hreg H.
  apply execute_order_cert in H as [Hu|(p & d & price & f & ff & slip & mn & rp & osz & pct & Hck & Hf' & Hcv & Hrs & Hbs)];
    [left; exact Hu| |assumption|assumption].
  right.
  destruct (snap_state s) as [cash pos debt free] eqn:Es.
  assert (pos = Fin p) by (apply (ck_pos _ _ _ _ _ _ _ _ _ _ Hck)).
  assert (debt = Fin d) by (apply (ck_debt _ _ _ _ _ _ _ _ _ _ Hck)).
  subst pos debt. cbn [es_position] in Hrs.
  exists cash, p, d, free, price, f, ff, slip, mn, rp, osz, pct.
  split; [reflexivity|]. split; [exact Hck|]. split; [exact Hf'|]. split; [exact Hcv|]. split; [exact Hrs|].
  destruct Hbs as [(Hgt & cl & fs & fee & req & Hcl & C)|(Hgt & fs & C & Hfl)].
  - pose proof (bc_fill _ _ _ _ _ _ _ _ _ _ _ _ _ _ _ _ C) as Hfill.
    apply buy_fill_effect in Hfill as (np & nd & E).
    split; [rewrite (be_res _ _ _ _ _ _ _ _ _ _ _ _ E); reflexivity|].
    left. split; auto. exists cl, fs, fee, req, np, nd. split; [exact Hcl|]. split; [exact C|exact E].
  - split; [exact Hfl|]. pose proof (sc_fill _ _ _ _ _ _ _ _ _ _ _ _ _ _ _ C) as Hfill.
    apply sell_fill_effect in Hfill as (fee & net & np & nd & E); auto.
    right. split; auto. exists fs, fee, net, np, nd. split; [exact C|exact E].
Qed.

Lemma unfilled_not : forall es es' (r : OrderResult XQ), unfilled es es' r -> r_status r = Filled -> False.
Proof. intros es es' r (_ & st & info & Hst & ->) H. cbn in H. congruence. Qed.
