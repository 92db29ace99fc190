(** * From signals: the steps of the two engines agree *)
From Coq Require Import ZArith Bool List String Arith Lia.
From Verif Require Import Base Num MathNb OrdLaws Order CallSeq Account Simulate FromSignals RustOrder RustSim RustLemmas
  OrderGen RustSimLemmas RustSignals RustSignalsSpec.
Import ListNotations.
Open Scope string_scope.
Open Scope list_scope.
Local Open Scope nat_scope.

(** ** Outcomes *)

(** Numba divides by zero, or both raise, or both go on with related states. *)
Definition out_res {A B} (P : A -> B -> Prop) (x : res A) (y : res B) : Prop :=
  x = Err ZeroDivision \/ (exists e, x = Err e /\ y = Err (rust_error e)) \/
  (exists a b, x = Ok a /\ y = Ok b /\ P a b).

Lemma out_bind : forall A B A' B' (P : A -> B -> Prop) (Q : A' -> B' -> Prop) x y f g,
  out_res P x y -> (forall a b, x = Ok a -> y = Ok b -> P a b -> out_res Q (f a) (g b)) ->
  out_res Q (bind x f) (bind y g).
Proof.
  intros A B A' B' P Q x y f g [->|[(e & -> & ->)|(a & b & -> & -> & H)]] HQ; cbn [bind].
  - left; auto.
  - right; left; eauto.
  - apply HQ; auto.
Qed.

Lemma out_mono : forall A B (P Q : A -> B -> Prop) x y,
  out_res P x y -> (forall a b, x = Ok a -> y = Ok b -> P a b -> Q a b) -> out_res Q x y.
Proof.
  intros A B P Q x y [->|[(e & -> & ->)|(a & b & -> & -> & H)]] HQ; [left|right; left|right; right]; eauto 6.
Qed.

Lemma out_ok : forall A B (P : A -> B -> Prop) a b, P a b -> out_res P (Ok a) (Ok b).
Proof. intros. right; right; eauto. Qed.

Lemma out_err : forall A B (P : A -> B -> Prop) e e', e' = rust_error e -> out_res P (Err e) (Err e').
Proof. intros A B P e e' ->. right; left; eauto. Qed.

Lemma out_fold : forall X A B (P : nat -> A -> B -> Prop) (f : A -> X -> res A) (g : B -> X -> res B) l n a b,
  (forall k x a b, nth_error l k = Some x -> P (n + k) a b -> out_res (P (S (n + k))) (f a x) (g b x)) ->
  P n a b -> out_res (P (n + List.length l)) (foldM f a l) (foldM g b l).
Proof.
  intros X A B P f g; induction l as [|x l IH]; intros n a b Hs H; cbn [foldM List.length].
  - rewrite Nat.add_0_r. apply out_ok; auto.
  - eapply out_bind.
    + pose proof (Hs 0 x a b eq_refl) as H0. rewrite Nat.add_0_r in H0. apply H0; auto.
    + intros a' b' _ _ H'. replace (n + S (List.length l)) with (S n + List.length l) by lia.
      apply IH; auto. intros k y a1 b1 Hk Hp. replace (S n + k) with (n + S k) by lia.
      apply Hs; [exact Hk|]. replace (n + S k) with (S n + k) by lia. auto.
Qed.

(** ** Errors of the order core are raised alike *)
Definition plain {A} (x : res A) : Prop := forall e, x = Err e -> rust_error e = e.

Lemma plain_ok : forall A (a : A), plain (Ok a).
Proof. intros A a e H. discriminate. Qed.
Lemma plain_err : forall A e, rust_error e = e -> plain (Err e : res A).
Proof. intros A e H e' E. injection E as <-. auto. Qed.
Lemma plain_bind : forall A B (x : res A) (f : A -> res B), plain x -> (forall a, plain (f a)) -> plain (bind x f).
Proof.
  intros A B x f Hx Hf e H. destruct x as [a|e']; cbn [bind] in H; [eapply Hf; eauto|].
  injection H as <-. apply Hx. reflexivity.
Qed.
Lemma plain_raise : forall A b e (k : res A), rust_error e = e -> plain k -> plain (raise_if b e k).
Proof. intros A b e k He Hk e' H. unfold raise_if in H. destruct b; [injection H as <-; auto|apply Hk; auto]. Qed.
Lemma plain_if : forall A (b : bool) (x y : res A), plain x -> plain y -> plain (if b then x else y).
Proof. intros A [|]; auto. Qed.

Ltac plain_1 :=
  first
    [ apply plain_ok
    | apply plain_err; reflexivity
    | apply plain_raise; [reflexivity|]
    | apply plain_if
    | apply plain_bind; [|intros]
    | match goal with
      | |- plain (let '(_, _) := ?x in _) => destruct x
      | |- plain (match ?x with _ => _ end) => destruct x
      end ].
Ltac plain := repeat plain_1.

Section Plain.
  Context {T : Type} {N : Num T}.

  Lemma plain_sdiv : forall a b : T, plain (sdiv a b).
  Proof. intros. unfold sdiv. plain. Qed.
  Lemma plain_sfdiv : forall a b : T, plain (sfdiv a b).
  Proof. intros. unfold sfdiv. plain. Qed.

  Hint Resolve plain_sdiv plain_sfdiv : core.

  Lemma plain_granulate : forall a b : T, plain (granulate a b).
  Proof. intros. unfold granulate. plain; auto. Qed.
  Hint Resolve plain_granulate : core.

  Lemma plain_nf : forall (es : ExecState T) st info, plain (not_filled es st info).
  Proof. intros. unfold not_filled. plain. Qed.
  Hint Resolve plain_nf : core.

  Lemma plain_buy : forall (es : ExecState T) sz price dir f ff slip mn mx gran lock allow pct,
    plain (buy_nb es sz price dir f ff slip mn mx gran lock allow pct).
  Proof.
    intros. unfold buy_nb, buy_cash_limit, buy_sized, buy_amounts, buy_fill. cbv zeta. plain; auto.
  Qed.

  Lemma plain_sell : forall (es : ExecState T) sz price dir f ff slip mn mx gran lock allow pct,
    plain (sell_nb es sz price dir f ff slip mn mx gran lock allow pct).
  Proof.
    intros. unfold sell_nb, sell_limit, sell_short_limit, sell_sized, sell_fill. cbv zeta. plain; auto.
  Qed.
  Hint Resolve plain_buy plain_sell : core.

  Lemma plain_execute : forall draws rng (s : ProcState T) o, plain (execute_order_nb draws rng s o).
  Proof.
    intros. unfold execute_order_nb, check_state_order, resolve_size, resolve_value, buy_or_sell.
    cbv zeta. repeat (first [apply plain_buy|apply plain_sell|progress plain_1]); auto.
  Qed.

  Lemma plain_process : forall draws i col group (s : ProcState T) uv o rc,
    plain (process_order_nb draws i col group s uv o rc).
  Proof.
    intros. unfold process_order_nb. cbv zeta. apply plain_bind; [apply plain_execute|]. intros. plain.
  Qed.
End Plain.

(** ** The functions of one bar and column *)
Section Fns.
  Context {T : Type} {N : Num T} {R : RustOps T} {L : RustLaws N R}.
  Local Instance Lordf : OrdLaws N := rl_ord.

  Lemma stop_signal_eq : forall (p : T) m acc, rs_generate_stop_signal p m acc = generate_stop_signal_nb p m acc.
  Proof.
    intros p m acc. unfold rs_generate_stop_signal, generate_stop_signal_nb, no_sig.
    destruct (gtb p zero), (ltb p zero), m; reflexivity.
  Qed.

  Lemma stop_exit_eq : forall (sp p c s : T) m, rs_resolve_stop_price sp p c s m = resolve_stop_price_and_slippage_nb sp p c s m.
  Proof. intros sp p c s m. destruct m; reflexivity. Qed.

  Lemma signal_conflict_eq : forall (p : T) e x d m,
    rs_resolve_signal_conflict p e x d m = resolve_signal_conflict_nb p e x d m.
  Proof. intros p e x d m. destruct e, x, m, d; reflexivity. Qed.

  Lemma dir_conflict_eq : forall (p : T) le se m, rs_resolve_dir_conflict p le se m = resolve_dir_conflict_nb p le se m.
  Proof. intros p le se m. destruct le, se, m; reflexivity. Qed.

  Lemma opposite_eq : forall (p : T) s m acc, rs_resolve_opposite_entry p s m acc = resolve_opposite_entry_nb p s m acc.
  Proof.
    intros p [le lx se sx] m acc. unfold rs_resolve_opposite_entry, resolve_opposite_entry_nb, opposite_of_long, opposite_of_short.
    cbn [g_le g_lx g_se g_sx].
    destruct (gtb p zero), (ltb p zero), le, se, m; reflexivity.
  Qed.

  Lemma read_eq : forall a dir i col,
    rs_read_signals (ar_entries a i col) (ar_exits a i col) (dir i col)
      (ar_long_entries a i col) (ar_long_exits a i col) (ar_short_entries a i col) (ar_short_exits a i col) =
    merge_signals a dir i col.
  Proof.
    intros a dir i col. unfold rs_read_signals, merge_signals. destruct (_ || _), (dir i col); reflexivity.
  Qed.

  Lemma should_update_eq : forall (stop : T) m, rs_should_update_stop stop m = should_update_stop_nb stop m.
  Proof. intros stop m. destruct m; reflexivity. Qed.

  Lemma reverse_out : forall (size : T) st vp op base,
    out_res (fun x y => y = x) (reversal_size size st vp op base) (rs_reverse size st vp op base).
  Proof.
    intros size st vp op base. unfold reversal_size, rs_reverse. destruct (isnan size); cbn [negb]; [apply out_ok; auto|].
    destruct st; first [apply out_ok; reflexivity|apply out_err; reflexivity|idtac].
    unfold sdiv. destruct (eqb vp zero); cbn [bind]; [left; auto|apply out_ok; auto].
  Qed.

  Lemma to_size_out : forall (p : T) s size st acc vp,
    out_res (fun x y => y = x) (signals_to_size_nb p s size st acc vp) (rs_signals_to_size p s size st acc vp).
  Proof.
    intros p s size st acc vp. unfold signals_to_size_nb, rs_signals_to_size, raise_if, signal_size_type, acc_removes, acc_adds.
    cbv zeta. rewrite rs_is_less_eq.
    destruct (negb _); [apply out_err; reflexivity|].
    destruct (is_less_nb size zero); [apply out_err; reflexivity|].
    assert (HB : forall op base d, out_res (fun x y : T * SizeType * Direction => y = x)
       (bind (reversal_size size st vp op base) (fun q => Ok (q, Amount, d)))
       (bind (rs_reverse size st vp op base) (fun q => Ok (q, Amount, d)))).
    { intros op base d. eapply out_bind; [apply reverse_out|]. intros x y _ _ ->. apply out_ok; auto. }
    destruct (gtb p zero), (ltb p zero), (g_le s), (g_lx s), (g_se s), (g_sx s), acc;
      first [apply HB|apply out_ok; reflexivity].
  Qed.

  Lemma stop_price_out : forall (p sp stop o l h : T) below,
    out_res (fun x y => y = x) (get_stop_price_nb p sp stop o l h below) (rs_get_stop_price p sp stop o l h below).
  Proof.
    intros p sp stop o l h below. unfold get_stop_price_nb, rs_get_stop_price, raise_if. cbv zeta.
    destruct (ltb stop zero); [apply out_err; reflexivity|].
    destruct (_ || _); [|destruct (_ || _)];
      repeat (match goal with |- out_res _ (if ?c then _ else _) _ => destruct c end); apply out_ok; reflexivity.
  Qed.

  Lemma bar_range_eq : forall (inp : SigInputs T) i col, rs_bar_range inp i col = resolve_bar inp i col.
  Proof.
    intros inp i col. unfold rs_bar_range, resolve_bar. cbv zeta.
    set (o := if isnan (si_open inp i col) then _ else _).
    set (c := in_close (si_base inp) i col).
    assert (Hb : rs_min o c = min2 o c /\ rs_max o c = max2 o c).
    { destruct (isnan o) eqn:E; [|split; [apply rs_min_eq|apply rs_max_eq]; auto].
      assert (Ec : isnan c = true).
      { unfold o in E. destruct (isnan (si_open inp i col)) eqn:E1; [exact E|congruence]. }
      rewrite (rl_nan _ E), (rl_nan _ Ec). unfold rs_min, rs_max, min2, max2.
      split; destruct (isnan nan); repeat match goal with |- context [if ?b then _ else _] => destruct b end; reflexivity. }
    destruct Hb as [-> ->]. reflexivity.
  Qed.

  (** What Rust keeps of the stops and of a column *)
  Definition cut (s : Stops T) : RsStops T :=
    mkRsStops (sl_curr_i s) (sl_curr_price s) (sl_curr_stop s) (sl_curr_trail s) (tp_init_price s) (tp_curr_stop s).
  Definition cutc (c : Col T) : RsCells T :=
    mkRsCells (c_pos c) (c_debt c) (c_vp c) (c_price c) (c_size c) (c_stype c) (c_slip c) (c_dir c) (cut (c_stops c)).

  Lemma trail_eq : forall i (p l h : T) s, rs_trail i p l h (cut s) = cut (trail_update i p s l h).
  Proof.
    intros i p l h s. unfold rs_trail, trail_update. cbn [cut rt_sl_stop rt_sl_trail rt_sl_price rt_tp_price rt_tp_stop].
    destruct (_ && _); auto. destruct (gtb p zero); [destruct (gtb h _); reflexivity|].
    destruct (ltb p zero); [destruct (ltb l _); reflexivity|reflexivity].
  Qed.

  Section Inp.
    Variables (inp : SigInputs T) (a : SigArrays) (fl : SigFlags).
    Let inp' := with_signals (fun i col _ _ => merge_signals a (in_direction (si_base inp)) i col) inp.

    Lemma adjust_none : forall i col p vp s, adjust_stops inp' i col p vp s = s.
    Proof. intros i col p vp [? ? ? ? ? ? ? ? ?]. reflexivity. Qed.

    Lemma check_stops_out : forall i col c,
      out_res (fun x y => y = (fst x, cut (snd x))) (stop_step inp' fl i col c)
        (rs_check_stops inp (use_stops fl) i col (c_pos c) (cut (c_stops c))).
    Proof.
      intros i col c. unfold stop_step, rs_check_stops. destruct (use_stops fl); [|apply out_ok; reflexivity].
      cbv zeta. rewrite adjust_none. cbn [cut rt_sl_stop rt_tp_stop rt_sl_price rt_tp_price].
      destruct (_ || _); [|apply out_ok; reflexivity].
      rewrite bar_range_eq. change (resolve_bar inp' i col) with (resolve_bar inp i col).
      destruct (resolve_bar inp i col) as [[o l] h]. unfold stop_hit.
      set (x1 := if negb (isnan (sl_curr_stop (c_stops c))) then get_stop_price_nb _ _ _ _ _ _ _ else _).
      set (y1 := if negb (isnan (sl_curr_stop (c_stops c))) then rs_get_stop_price _ _ _ _ _ _ _ else _).
      assert (H1 : out_res (fun x y => y = x) x1 y1)
        by (unfold x1, y1; destruct (negb _); [apply stop_price_out|apply out_ok; auto]).
      clearbody x1 y1.
      set (f := fun sp : T => if isnan sp && negb (isnan (tp_curr_stop (c_stops c)))
          then get_stop_price_nb (c_pos c) (tp_init_price (c_stops c)) (tp_curr_stop (c_stops c)) o l h false else Ok sp).
      change (out_res (fun x y => y = (fst x, cut (snd x)))
        (bind (bind x1 f) (fun sp => Ok (sp, trail_update i (c_pos c) (c_stops c) l h)))
        (bind y1 (fun sl => bind (if isnan sl && negb (isnan (tp_curr_stop (c_stops c)))
           then rs_get_stop_price (c_pos c) (tp_init_price (c_stops c)) (tp_curr_stop (c_stops c)) o l h false else Ok sl)
           (fun sp => Ok (sp, rs_trail i (c_pos c) l h (cut (c_stops c))))))).
      destruct H1 as [->|[(e & -> & ->)|(x & y & -> & -> & ->)]]; [left; auto|right; left; cbn [bind]; eauto|].
      cbn [bind]. eapply (out_bind _ _ _ _ (fun x y => y = x)).
      - unfold f. destruct (_ && _); [apply stop_price_out|apply out_ok; auto].
      - intros sp sp' _ _ ->. apply out_ok. cbn [fst snd]. rewrite trail_eq. reflexivity.
    Qed.

    Lemma pick_eq : forall i col c sp,
      rs_pick_signals inp a (use_stops fl) i col (c_pos c) (c_price c) (in_slippage (si_base inp) i col) sp =
      pick_signals inp' fl i col c sp.
    Proof.
      intros i col c sp. unfold rs_pick_signals, pick_signals. cbv zeta.
      change (si_base inp') with (si_base inp). change (si_accumulate inp') with (si_accumulate inp).
      change (si_stop_exit inp') with (si_stop_exit inp). change (si_exit_price inp') with (si_exit_price inp).
      destruct (_ && _).
      - rewrite stop_signal_eq, stop_exit_eq. reflexivity.
      - rewrite read_eq.
        change (si_signals inp' i col (c_pos c) (c_vp c)) with (merge_signals a (in_direction (si_base inp)) i col).
        change (si_long_conflict inp') with (si_long_conflict inp).
        change (si_short_conflict inp') with (si_short_conflict inp).
        change (si_dir_conflict inp') with (si_dir_conflict inp). change (si_opposite inp') with (si_opposite inp).
        unfold resolve_conflicts. f_equal. destruct (_ || _); auto.
        rewrite signal_conflict_eq. destruct (resolve_signal_conflict_nb _ _ _ LongOnly _) as [le lx].
        rewrite signal_conflict_eq. destruct (resolve_signal_conflict_nb _ _ _ ShortOnly _) as [se sx].
        rewrite dir_conflict_eq. destruct (resolve_dir_conflict_nb _ _ _ _) as [le' se']. apply opposite_eq.
    Qed.

    Lemma sig_price_eq : forall i col, rs_sig_price inp i col = resolve_sig_price inp' i col.
    Proof.
      intros i col. unfold rs_sig_price, resolve_sig_price. cbv zeta.
      change (si_base inp') with (si_base inp). change (si_open inp') with (si_open inp).
      destruct (isinf _); auto. destruct (gtb _ _); auto. destruct (negb _); auto.
      destruct i; cbn [Nat.ltb Nat.leb]; auto. rewrite Nat.sub_succ, Nat.sub_0_r. auto.
    Qed.

    Lemma sig_order_eq : forall i col c,
      rs_sig_order inp i col (c_size c) (c_price c) (c_slip c) (c_stype c) (c_dir c) = make_sig_order inp' i col c.
    Proof.
      intros i col c. unfold rs_sig_order, make_sig_order. cbv zeta. change (si_base inp') with (si_base inp).
      destruct (gtb _ _), (c_dir c); reflexivity.
    Qed.

    Lemma signum_eq : forall x : T, eqb x zero = false -> rs_signum x = sign x.
    Proof.
      intros x H. destruct (isnan x) eqn:E; [unfold rs_signum, sign; rewrite E; auto|apply rs_signum_eq; auto].
    Qed.

    Lemma update_stops_eq : forall i col o r (p p' vp : T) s,
      rs_update_stops inp (use_stops fl) i col o r p p' vp (cut s) =
      cut (if use_stops fl then update_stops inp' i col o r p p' vp s else s).
    Proof.
      intros i col o r p p' vp s. unfold rs_update_stops, update_stops. destruct (use_stops fl); auto.
      cbn [andb]. destruct (is_filled r); auto. destruct (eqb p' zero) eqn:E'; auto. cbv zeta.
      change (si_sl_stop inp') with (si_sl_stop inp). change (si_tp_stop inp') with (si_tp_stop inp).
      change (si_stop_update inp') with (si_stop_update inp). change (si_sl_trail inp') with (si_sl_trail inp).
      set (q := match si_entry_price inp i col with EValPrice => _ | _ => _ end).
      assert (Hq : entry_stop_price inp' i col o r vp = q) by reflexivity. rewrite Hq.
      assert (Hs : (eqb p zero || neb (rs_signum p') (rs_signum p))%bool = (eqb p zero || neb (sign p') (sign p))%bool).
      { destruct (eqb p zero) eqn:E; auto. cbn [orb]. rewrite !signum_eq; auto. }
      rewrite Hs. clear Hs. destruct (_ || _); [reflexivity|]. destruct (gtb _ _); [|reflexivity].
      rewrite (should_update_eq (si_sl_stop inp i col)), (should_update_eq (si_tp_stop inp i col)).
      destruct (should_update_stop_nb (si_sl_stop inp i col) _), (should_update_stop_nb (si_tp_stop inp i col) _); reflexivity.
    Qed.

    (** The decision of one column: what it will order and its stops *)
    Definition decide (i col : nat) (c : Col T) : res (Stops T * (T * T) * (T * SizeType * Direction)) :=
      let! (sp, stops) := stop_step inp' fl i col c in
      let '((s, acc), (price, slip)) := pick_signals inp' fl i col c sp in
      let! x := signals_to_size_nb (c_pos c) s (in_size (si_base inp) i col) (in_size_type (si_base inp) i col) acc (c_vp c) in
      Ok (stops, (price, slip), x).
    Definition rs_decide (i col : nat) (c : RsCells T) : res (RsStops T * (T * T) * (T * SizeType * Direction)) :=
      let! (s, acc, (price, slip), stops) :=
        rs_process_signals_at inp a (use_stops fl) i col (rc_pos c) (rc_price c) (in_slippage (si_base inp) i col) (rc_stops c) in
      let! x := rs_signals_to_size (rc_pos c) s (in_size (si_base inp) i col) (in_size_type (si_base inp) i col) acc (rc_vp c) in
      Ok (stops, (price, slip), x).

    Lemma decide_out : forall i col c,
      out_res (fun x y => y = (cut (fst (fst x)), snd (fst x), snd x)) (decide i col c) (rs_decide i col (cutc c)).
    Proof.
      intros i col c. unfold decide, rs_decide, rs_process_signals_at.
      cbn [cutc rc_pos rc_price rc_stops rc_vp].
      pose proof (check_stops_out i col c) as H.
      destruct H as [->|[(e & -> & ->)|([sp st] & y & -> & -> & ->)]]; [left; auto|right; left; cbn [bind]; eauto|].
      cbn [bind fst snd]. rewrite pick_eq. destruct (pick_signals inp' fl i col c sp) as [[s acc] [price slip]].
      eapply out_bind; [apply to_size_out|]. intros x y _ _ ->. apply out_ok. reflexivity.
    Qed.
  End Inp.
End Fns.
