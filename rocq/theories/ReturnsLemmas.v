(** * Lemmas about returns, compounding and drawdowns *)
From Coq Require Import ZArith QArith Qabs Bool List Arith Lia Lqa.
From Verif Require Import Base Num XQFacts OrdLaws GenericNb GenericSpec GenericLemmas GenericLemmas2 ReturnsNb ReturnsSpec.
Import ListNotations.
Local Open Scope nat_scope.

Lemma no_inf_cons : forall x l, no_infinity (x :: l) -> no_infinity l.
Proof. intros x l H y Hy. apply H. now right. Qed.
Lemma no_inf_firstn : forall l n, no_infinity l -> no_infinity (firstn n l).
Proof. intros l n H x Hx. apply H. rewrite <- (firstn_skipn n l). apply in_or_app. auto. Qed.
Lemma no_inf_skipn : forall l n, no_infinity l -> no_infinity (skipn n l).
Proof. intros l n H x Hx. apply H. rewrite <- (firstn_skipn n l). apply in_or_app. auto. Qed.
Lemma no_inf_hd : forall x l, no_infinity (x :: l) -> x = NaN \/ exists q, x = Fin q.
Proof. intros x l H. destruct (H x (or_introl eq_refl)). destruct x; try congruence; eauto. Qed.

Lemma compounded_app : forall a b, (compounded (a ++ b) == compounded a * compounded b)%Q.
Proof. induction a as [|x a IH]; intros b; cbn [compounded app]; [ring|]. rewrite IH. ring. Qed.

(** ** Products of growth factors *)
Definition factors (rs : list XQ) : list XQ := map (fun r => add r one) rs.

Lemma nanprod_fold : forall rs c, no_infinity rs ->
  exists q, fold_left (fun c v => if isnan v then c else mul c v) (factors rs) (Fin c) = Fin q /\
    (q == c * compounded (vals rs))%Q.
Proof.
  induction rs as [|r rs IH]; intros c H.
  - exists c. split; [reflexivity|]. cbn [vals compounded]. ring.
  - destruct (no_inf_hd _ _ H) as [->|[q ->]]; apply no_inf_cons in H; cbn [factors map fold_left].
    + cbn [add XQnum xq_add one isnan xq_isnan]. destruct (IH c H) as (q & E & Hq). exists q. split; [exact E|]. exact Hq.
    + cbn [add XQnum xq_add one ofZ isnan xq_isnan fin mul xq_mul].
      destruct (IH (Qred (c * Qred (q + inject_Z 1))) H) as (p & E & Hp). exists p. split; [exact E|].
      rewrite Hp. cbn [vals compounded]. rewrite !Qred_correct. unfold inject_Z. ring.
Qed.

Lemma nanprod_run : forall rs, no_infinity rs -> is_number (np_nanprod (factors rs)) (compounded (vals rs)).
Proof.
  intros rs H. destruct (nanprod_fold rs 1 H) as (q & E & Hq). exists q. split; [exact E|]. rewrite Hq. ring.
Qed.

Lemma final_run : forall rs s, no_infinity rs ->
  is_number (cum_returns_final_1d_nb rs (Fin s))
    (if Qeq_bool s 0 then compounded (vals rs) - 1 else compounded (vals rs) * s).
Proof.
  intros rs s H. unfold cum_returns_final_1d_nb. fold (factors rs).
  destruct (nanprod_run rs H) as (q & -> & Hq). cbn [eqb XQnum xq_eqb zero ofZ].
  change (inject_Z 0) with 0%Q. destruct (Qeq_bool s 0).
  - cbn [sub XQnum xq_sub one ofZ]. eexists; split; [reflexivity|]. rewrite Qred_correct, Hq. unfold inject_Z. ring.
  - cbn [mul XQnum xq_mul]. eexists; split; [reflexivity|]. rewrite Qred_correct, Hq. ring.
Qed.

Lemma total_run : forall rs, no_infinity rs -> is_number (total_return_apply_nb rs) (compounded (vals rs) - 1).
Proof.
  intros rs H. unfold total_return_apply_nb. fold (factors rs).
  destruct (nanprod_run rs H) as (q & -> & Hq). cbn [sub XQnum xq_sub one ofZ]. eexists; split; [reflexivity|].
  rewrite Qred_correct, Hq. unfold inject_Z. ring.
Qed.

(** ** Cumulative returns *)
Definition cum_step (_ : nat) (cumprod r : XQ) : XQ * XQ :=
  let cumprod := if isnan r then cumprod else mul cumprod (add r one) in (cumprod, cumprod).

Lemma cum_scan : forall rs i x, no_infinity rs -> nth_error rs i = Some x ->
  exists y, nth_error (scan cum_step 0 one rs) i = Some y /\ is_number y (wealth rs i).
Proof.
  intros rs i x H Hx.
  destruct (scan_spec cum_step (fun k s => is_number s (compounded (vals (firstn k rs)))) rs one) with (k := i) (x := x)
    as (s & Hs & Hn); auto.
  - exists 1%Q. split; reflexivity.
  - intros k s z Hz (c & -> & Hc). cbn [cum_step fst].
    rewrite (firstn_snoc _ _ _ _ Hz), vals_app.
    destruct (tame_at _ _ _ H Hz) as [->|[q ->]]; cbn [isnan XQnum xq_isnan vals].
    + rewrite app_nil_r. exists c. auto.
    + cbn [add xq_add one ofZ XQnum fin mul xq_mul]. eexists; split; [reflexivity|].
      rewrite !Qred_correct, Hc, compounded_app. cbn [compounded]. unfold inject_Z. ring.
  - eexists. split; [exact Hn|]. destruct Hs as (c & -> & Hc). unfold wealth. cbn [cum_step snd].
    rewrite (firstn_snoc _ _ _ _ Hx), vals_app.
    destruct (tame_at _ _ _ H Hx) as [->|[q ->]]; cbn [isnan XQnum xq_isnan vals].
    + rewrite app_nil_r. exists c. auto.
    + cbn [add xq_add one ofZ XQnum fin mul xq_mul]. eexists; split; [reflexivity|].
      rewrite !Qred_correct, Hc, compounded_app. cbn [compounded]. unfold inject_Z. ring.
Qed.

Lemma cum_length : forall {T} {N : Num T} (rs : list T) s, length (cum_returns_1d_nb rs s) = length rs.
Proof. intros. unfold cum_returns_1d_nb. destruct (eqb s zero); rewrite map_length; apply scan_length. Qed.

Lemma cum_run : forall rs s i x, no_infinity rs -> nth_error rs i = Some x ->
  exists y, nth_error (cum_returns_1d_nb rs (Fin s)) i = Some y /\
    is_number y (if Qeq_bool s 0 then wealth rs i - 1 else wealth rs i * s).
Proof.
  intros rs s i x H Hx. destruct (cum_scan rs i x H Hx) as (y & Hy & c & -> & Hc).
  unfold cum_returns_1d_nb. fold cum_step. cbn [eqb XQnum xq_eqb zero ofZ].
  change (inject_Z 0) with 0%Q. destruct (Qeq_bool s 0).
  - exists (sub (Fin c) one). split; [now rewrite nth_error_map, Hy|].
    cbn [sub XQnum xq_sub one ofZ]. eexists; split; [reflexivity|]. rewrite Qred_correct, Hc. unfold inject_Z. ring.
  - exists (mul (Fin c) (Fin s)). split; [now rewrite nth_error_map, Hy|].
    cbn [mul XQnum xq_mul]. eexists; split; [reflexivity|]. rewrite Qred_correct, Hc. ring.
Qed.

(** ** Returns of a value series *)
Lemma get_return_run : forall p v, ~ (p == 0)%Q -> is_number (get_return_nb (Fin p) (Fin v)) ((v - p) / Qabs p).
Proof.
  intros p v Hp. unfold get_return_nb. cbn [eqb XQnum xq_eqb zero ofZ ltb xq_ltb].
  change (inject_Z 0) with 0%Q. replace (Qeq_bool p 0) with false by (symmetry; now apply qeq_f).
  rewrite sub_fin, div_fin by auto. destruct (qlt_bool p 0) eqn:E.
  - apply qlt_t in E. cbn [one ofZ neg XQnum xq_neg fin mul xq_mul]. eexists; split; [reflexivity|].
    rewrite !Qred_correct. rewrite Qabs_neg by lra. unfold inject_Z. field. auto.
  - apply qlt_f in E. eexists; split; [reflexivity|]. rewrite !Qred_correct. rewrite Qabs_pos by lra. reflexivity.
Qed.

Lemma returns_length : forall {T} {N : Num T} (v : list T) s, length (returns_1d_nb v s) = length v.
Proof. intros. apply scan_length. Qed.

Lemma returns_nth : forall {T} {N : Num T} (values : list T) init i v, nth_error values i = Some v ->
  nth_error (returns_1d_nb values init) i = Some (get_return_nb (previous values init i) v).
Proof.
  intros T N values init i v Hv. unfold returns_1d_nb.
  destruct (scan_spec (fun _ (input_value output_value : T) => (output_value, get_return_nb input_value output_value))
    (fun k s => s = previous values init k) values init) with (k := i) (x := v) as (s & Hs & Hn); auto.
  - intros k s z Hz _. cbn [fst previous]. symmetry. now apply nth_error_nth.
  - rewrite Hn. cbn [snd]. now rewrite Hs.
Qed.

Lemma returns_firstn : forall {T} {N : Num T} (values : list T) init n,
  returns_1d_nb (firstn n values) init = firstn n (returns_1d_nb values init).
Proof. intros. apply scan_firstn. Qed.

(** Positive values: compounding the returns gives the last value over the first. *)
Lemma telescope : forall vs init, (0 < init)%Q -> (forall q, In q (removelast vs) -> (0 < q)%Q) ->
  exists rs, returns_1d_nb (map Fin vs) (Fin init) = map Fin rs /\ (compounded rs * init == last vs init)%Q.
Proof.
  intros vs init Hi Hv. unfold returns_1d_nb. generalize 0 at 1 as n. revert init Hi Hv.
  induction vs as [|v vs IH]; intros init Hi Hv n.
  - exists []. split; [reflexivity|]. cbn [compounded last]. ring.
  - assert (Hn : ~ (init == 0)%Q) by lra. destruct (get_return_run init v Hn) as (r & Er & Hr).
    rewrite Qabs_pos in Hr by lra. destruct vs as [|w vs].
    + exists [r]. split; [cbn [map scan]; now rewrite Er|]. cbn [compounded last]. rewrite Hr. field. auto.
    + assert (Hp : (0 < v)%Q) by (apply Hv; now left).
      destruct (IH v Hp) with (n := S n) as (rs & E & Hrs).
      { intros q Hq. apply Hv. cbn [removelast] in *. now right. }
      exists (r :: rs). split.
      { cbn [map scan] in *. rewrite Er. f_equal. exact E. }
      change (last (v :: w :: vs) init) with (last (w :: vs) init).
      assert (El : last (w :: vs) init = last (w :: vs) v).
      { clear. revert w. induction vs as [|u vs IH]; intros w; [reflexivity|]. exact (IH u). }
      rewrite El, <- Hrs. cbn [compounded]. rewrite Hr. field. auto.
Qed.

Lemma vals_map_fin : forall qs, vals (map Fin qs) = qs.
Proof. induction qs as [|q qs IH]; cbn; congruence. Qed.
Lemma no_inf_fin : forall qs, no_infinity (map Fin qs).
Proof. intros qs x Hx. apply in_map_iff in Hx as (q & <- & _). split; discriminate. Qed.
