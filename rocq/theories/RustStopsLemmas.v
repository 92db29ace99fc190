(** * Rust stop signal generators: lemmas *)
From Coq Require Import String ZArith Bool List Arith Lia.
From Verif Require Import Base Num OrdLaws SignalsNb StopSignals RustOrder RustStops.
Import ListNotations.
Local Open Scope list_scope.
Local Open Scope nat_scope.

Lemma init_i_eq : forall from wait, rs_init_i from wait = from - wait.
Proof. intros f w. unfold rs_init_i. destruct (Z.ltb_spec (Z.of_nat f - Z.of_nat w) 0); lia. Qed.

Lemma mark_set_all : forall hits a, rs_mark a hits = set_all a (map Z.of_nat hits).
Proof.
  unfold rs_mark, set_all. induction hits as [|h hits IH]; intros a; [reflexivity|]. cbn [map fold_left]. rewrite Nat2Z.id. apply IH.
Qed.
Lemma last_map : forall l, last (map Z.of_nat l) 0%Z = Z.of_nat (last l 0).
Proof. induction l as [|x [|y l] IH]; [reflexivity|reflexivity|]. cbn [map last] in *. exact IH. Qed.
Lemma last_in : forall (l : list nat) d, l <> [] -> In (last l d) l.
Proof. induction l as [|x [|y l] IH]; intros d H; [congruence|left; reflexivity|]. right. apply IH. discriminate. Qed.

(** ** Entries in order *)
Definition idxs_from (entries : list bool) (s : nat) : list nat := true_idxs s (skipn s entries).

Lemma idxs_step : forall entries s,
  rs_next_true entries s = hd_error (idxs_from entries s) /\
  (idxs_from entries s = [] \/ exists e, idxs_from entries s = e :: idxs_from entries (S e) /\ s <= e < List.length entries).
Proof.
  intros entries. assert (H : forall m s, List.length entries - s <= m ->
    rs_next_true entries s = hd_error (idxs_from entries s) /\
    (idxs_from entries s = [] \/ exists e, idxs_from entries s = e :: idxs_from entries (S e) /\ s <= e < List.length entries)).
  { induction m as [|m IH]; intros s Hm.
    - unfold rs_next_true, idxs_from. rewrite skipn_all2 by lia. replace (List.length entries - s) with 0 by lia. cbn. auto.
    - destruct (Nat.ltb_spec s (List.length entries)) as [Hs|Hs].
      + assert (E : skipn s entries = nth s entries false :: skipn (S s) entries).
        { clear -Hs. revert s Hs. induction entries as [|x r IH]; intros s H; cbn in H; [lia|]. destruct s; [reflexivity|]. cbn [skipn nth]. rewrite IH by lia. reflexivity. }
        destruct (IH (S s) ltac:(lia)) as [I1 I2]. unfold rs_next_true, idxs_from in *. rewrite E. cbn [true_idxs].
        replace (List.length entries - s) with (S (List.length entries - S s)) by lia. cbn [seq find].
        destruct (nth s entries false) eqn:En.
        * split; [reflexivity|]. right. exists s. split; [reflexivity|lia].
        * split; [exact I1|]. destruct I2 as [I2|[e [I2 I3]]]; [left; exact I2|]. right. exists e. split; [exact I2|lia].
      + unfold rs_next_true, idxs_from. rewrite skipn_all2 by lia. replace (List.length entries - s) with 0 by lia. cbn. auto. }
  intros s. apply (H (List.length entries - s)). lia.
Qed.
Lemma idxs_zero : forall entries, idxs_from entries 0 = flatnonzero entries.
Proof. reflexivity. Qed.

(** ** One entry, for any function that finds bars in the range *)
Definition gen_step (n wait : nat) (until_next skip pick_first : bool) (h : nat -> nat -> list nat) (entry : nat) (next : option nat) (st : list bool * Z) : list bool * Z :=
  let '(exits, last_exit) := st in
  if negb (skip && (Z.of_nat entry <=? last_exit)%Z) then
    let from := entry + wait in
    let to := if until_next then match next with Some e => e | None => n end else n in
    if Nat.ltb from to then
      match h from to with
      | [] => (exits, last_exit)
      | i :: l => if pick_first then (upd exits i true, Z.of_nat i) else (rs_mark exits (i :: l), Z.of_nat (last (i :: l) 0))
      end
    else (exits, last_exit)
  else (exits, last_exit).

Definition in_range (h : nat -> nat -> list nat) : Prop := forall from to i, In i (h from to) -> from <= i < to.

Lemma ex_step_gen : forall n wait un skip pf h k entry next st, in_range h ->
  ex_step n (Z.of_nat wait) un skip pf (on_bars h) k entry next st = Ok (gen_step n wait un skip pf h entry next st).
Proof.
  intros n wait un skip pf h k entry next [exits last_exit] H. unfold ex_step, gen_step.
  destruct (skip && (Z.of_nat entry <=? last_exit)%Z); [reflexivity|]. cbn [negb].
  assert (Et : match next with Some e => if un then Z.of_nat e else Z.of_nat n | None => Z.of_nat n end
             = Z.of_nat (if un then match next with Some e => e | None => n end else n)) by (destruct next, un; reflexivity).
  rewrite Et. clear Et. set (to := if un then match next with Some e => e | None => n end else n).
  replace (Z.of_nat entry + Z.of_nat wait)%Z with (Z.of_nat (entry + wait)) by lia.
  replace (Z.of_nat (entry + wait) <? Z.of_nat to)%Z with (Nat.ltb (entry + wait) to)
    by (destruct (Nat.ltb_spec (entry + wait) to); symmetry; [apply Z.ltb_lt|apply Z.ltb_ge]; lia).
  destruct (Nat.ltb (entry + wait) to); [|reflexivity]. unfold on_bars. rewrite !Nat2Z.id.
  pose proof (H (entry + wait) to) as Hr. destruct (h (entry + wait) to) as [|i l] eqn:Eh; [reflexivity|]. cbn [map].
  assert (Hout : forall j, In j (i :: l) -> out_of (Z.of_nat (entry + wait)) (Z.of_nat to) (Z.of_nat j) = false).
  { intros j Hj. specialize (Hr j Hj). unfold out_of. rewrite (proj2 (Z.ltb_ge _ _)), (proj2 (Z.leb_gt _ _)) by lia. reflexivity. }
  destruct pf.
  - rewrite Hout by (left; reflexivity). cbn [raise_if]. rewrite Nat2Z.id. reflexivity.
  - change (Z.of_nat i :: map Z.of_nat l) with (map Z.of_nat (i :: l)).
    replace (existsb _ (map Z.of_nat (i :: l))) with false.
    + cbn [raise_if]. rewrite mark_set_all, last_map. reflexivity.
    + symmetry. apply not_true_iff_false. intros He. apply existsb_exists in He as [z [Hz Ho]]. apply in_map_iff in Hz as [j [<- Hj]]. rewrite Hout in Ho by exact Hj. discriminate.
Qed.

Section Stops.
  Context {T : Type} {N : Num T}.

  (** ** Close stops *)
  Lemma first_loop_eq : forall (ts : nat -> T) its ist tr bars lo hi,
    stop_loop ts its ist tr true lo hi bars = match rs_stop_first_loop ts its ist tr lo hi bars with Some i => [i] | None => [] end.
  Proof.
    intros ts its ist tr. induction bars as [|i bars IH]; intros lo hi; [reflexivity|]. cbn [stop_loop rs_stop_first_loop].
    assert (E : rs_stop_exit ist (rs_stop_price its ist tr lo hi) (ts i) = negb (isnan ist) && stop_hit ist (stop_level tr its ist lo hi) (ts i)).
    { unfold rs_stop_exit, rs_stop_price, stop_hit, stop_level. destruct (isnan ist); reflexivity. }
    rewrite E. destruct (negb (isnan ist) && stop_hit ist (stop_level tr its ist lo hi) (ts i)); [reflexivity|]. cbn [andb]. unfold rs_stop_track.
    destruct tr; [|apply IH]. destruct (ltb (ts i) lo); [apply IH|]. destruct (gtb (ts i) hi); apply IH.
  Qed.
  Lemma all_loop_eq : forall (ts : nat -> T) its ist tr bars lo hi out,
    snd (fold_left (rs_stop_all_step ts its ist tr) bars (lo, hi, out)) = out ++ stop_loop ts its ist tr false lo hi bars.
  Proof.
    intros ts its ist tr. induction bars as [|i bars IH]; intros lo hi out; cbn [fold_left stop_loop]; [cbn; now rewrite app_nil_r|].
    unfold rs_stop_all_step at 2.
    assert (E : rs_stop_exit ist (rs_stop_price its ist tr lo hi) (ts i) = negb (isnan ist) && stop_hit ist (stop_level tr its ist lo hi) (ts i)).
    { unfold rs_stop_exit, rs_stop_price, stop_hit, stop_level. destruct (isnan ist); reflexivity. }
    rewrite E, andb_false_r. unfold rs_stop_track.
    destruct (negb (isnan ist) && stop_hit ist (stop_level tr its ist lo hi) (ts i));
      (destruct tr; [destruct (ltb (ts i) lo); [|destruct (gtb (ts i) hi)]|]); rewrite IH; rewrite <- ?app_assoc; reflexivity.
  Qed.
  Lemma pick_head : forall (ts : nat -> T) its ist tr bars lo hi,
    rs_stop_first_loop ts its ist tr lo hi bars = hd_error (stop_loop ts its ist tr false lo hi bars).
  Proof.
    intros ts its ist tr. induction bars as [|i bars IH]; intros lo hi; [reflexivity|]. cbn [stop_loop rs_stop_first_loop].
    assert (E : rs_stop_exit ist (rs_stop_price its ist tr lo hi) (ts i) = negb (isnan ist) && stop_hit ist (stop_level tr its ist lo hi) (ts i)).
    { unfold rs_stop_exit, rs_stop_price, stop_hit, stop_level. destruct (isnan ist); reflexivity. }
    rewrite E, andb_false_r. unfold rs_stop_track.
    destruct (negb (isnan ist) && stop_hit ist (stop_level tr its ist lo hi) (ts i)).
    - destruct tr; [destruct (ltb (ts i) lo); [|destruct (gtb (ts i) hi)]|]; reflexivity.
    - destruct tr; [destruct (ltb (ts i) lo); [|destruct (gtb (ts i) hi)]|]; apply IH.
  Qed.
  Lemma stop_first_eq : forall from to (ts stop : nat -> T) tr wait,
    stop_choice_nb ts stop tr wait true from to = match rs_stop_choice_first from to ts stop tr wait with Some i => [i] | None => [] end.
  Proof. intros. unfold stop_choice_nb, rs_stop_choice_first. rewrite init_i_eq. apply first_loop_eq. Qed.
  Lemma stop_all_eq : forall from to (ts stop : nat -> T) tr wait,
    rs_stop_choice_all from to ts stop tr wait = stop_choice_nb ts stop tr wait false from to.
  Proof. intros. unfold stop_choice_nb, rs_stop_choice_all. rewrite init_i_eq, all_loop_eq. reflexivity. Qed.
  Lemma stop_first_head : forall from to (ts stop : nat -> T) tr wait,
    rs_stop_choice_first from to ts stop tr wait = hd_error (stop_choice_nb ts stop tr wait false from to).
  Proof. intros. unfold stop_choice_nb, rs_stop_choice_first. rewrite init_i_eq. apply pick_head. Qed.

  Lemma stop_in_range : forall (ts stop : nat -> T) tr wait pf, in_range (stop_choice_nb ts stop tr wait pf).
  Proof.
    intros ts stop tr wait pf from to i. unfold stop_choice_nb.
    assert (G : forall bars its ist tr lo hi, In i (stop_loop ts its ist tr pf lo hi bars) -> In i bars).
    { induction bars as [|b bars IH]; intros its ist tr' lo hi H; [destruct H|]. cbn [stop_loop] in H.
      destruct (if tr' then if ltb (ts b) lo then (ts b, hi) else if gtb (ts b) hi then (lo, ts b) else (lo, hi) else (lo, hi)) as [lo' hi'].
      destruct (negb (isnan ist) && stop_hit ist (stop_level tr' its ist lo hi) (ts b)); cbn [andb] in H.
      - destruct pf; cbn in H; destruct H as [H|H]; [left; exact H|destruct H|left; exact H|right; eapply IH; exact H].
      - right. eapply IH; exact H. }
    intros H. apply G, in_seq in H. lia.
  Qed.

  Lemma stop_ex_loop_eq : forall entries (ts stop : nat -> T) tr wait un skip pf fuel s st k,
    List.length entries < fuel + s ->
    ex_loop (List.length entries) (Z.of_nat wait) un skip pf (on_bars (stop_choice_nb ts stop tr wait pf)) k (idxs_from entries s) st
    = Ok (rs_stop_ex_loop fuel entries ts stop tr wait un skip pf (rs_next_true entries s) st).
  Proof.
    intros entries ts stop tr wait un skip pf. induction fuel as [|fuel IH]; intros s st k Hf.
    - unfold idxs_from. rewrite skipn_all2 by lia. reflexivity.
    - destruct (idxs_step entries s) as [E [E2|[e [E2 Hs]]]]; rewrite E, E2; cbn [hd_error ex_loop rs_stop_ex_loop]; [reflexivity|].
      rewrite ex_step_gen by apply stop_in_range. cbn [bind]. destruct st as [exits last_exit].
      rewrite (IH (S e)) by lia. replace (e + 1) with (S e) by lia. rewrite (proj1 (idxs_step entries (S e))). do 2 f_equal.
      unfold gen_step. destruct (negb (skip && (Z.of_nat e <=? last_exit)%Z)); [|reflexivity].
      destruct (Nat.ltb _ _); [|reflexivity]. destruct pf.
      + rewrite stop_first_eq. destruct (rs_stop_choice_first _ _ _ _ _ _); reflexivity.
      + rewrite stop_all_eq. destruct (stop_choice_nb _ _ _ _ _ _ _); reflexivity.
  Qed.
  Lemma stop_ex_ok : forall entries (ts stop : nat -> T) tr wait un skip pf,
    generate_stop_ex_nb entries ts stop tr wait un skip pf = Ok (rs_generate_stop_ex entries ts stop tr wait un skip pf).
  Proof.
    intros. unfold generate_stop_ex_nb, generate_ex_nb, rs_generate_stop_ex. rewrite <- idxs_zero.
    rewrite (stop_ex_loop_eq entries ts stop tr wait un skip pf (S (List.length entries)) 0) by lia. cbn [bind].
    destruct (rs_stop_ex_loop _ _ _ _ _ _ _ _ _ _ _). reflexivity.
  Qed.

  Lemma even_mod : forall i, Nat.eqb (Nat.modulo i 2) 0 = Nat.even i.
  Proof.
    intros i. destruct (Nat.even i) eqn:E.
    - apply Nat.even_spec in E as [k ->]. rewrite Nat.mul_comm, Nat.mod_mul by lia. reflexivity.
    - assert (O : Nat.odd i = true) by (unfold Nat.odd; now rewrite E). apply Nat.odd_spec in O as [k ->].
      rewrite Nat.add_comm, Nat.mul_comm, Nat.mod_add by lia. reflexivity.
  Qed.

  Lemma stop_enex_loop_eq : forall entries (ts stop : nat -> T) tr ew xw pf fuel i st,
    enex_loop fuel (List.length entries) (Z.of_nat ew) (Z.of_nat xw) true pf
      (on_bars (fun from to => first_choice_nb from to (fun i => nth i entries false)))
      (on_bars (stop_choice_nb ts stop tr xw pf)) i st
    = rs_stop_enex_loop fuel entries ts stop tr ew xw pf i st.
  Proof.
    intros entries ts stop tr ew xw pf. induction fuel as [|fuel IH]; intros i st; [reflexivity|]. cbn [enex_loop rs_stop_enex_loop].
    rewrite even_mod. set (n := List.length entries) in *.
    set (from := if Nat.even i then if Nat.eqb i 0 then 0%Z else (ee_prev st + Z.of_nat ew)%Z else (ee_prev st + Z.of_nat xw)%Z).
    destruct (Z.leb_spec (Z.of_nat n) from) as [Hf|Hf]; [reflexivity|].
    replace (Z.to_nat (Z.max from 0)) with (Z.to_nat from) by lia. replace (i + 1) with (S i) by lia.
    assert (Hg : forall f, (Z.to_nat from <= f < n)%nat -> (Z.of_nat f <? from)%Z = false /\ (Z.of_nat n <=? Z.of_nat f)%Z = false /\ Nat.leb n f = false)
      by (intros f Hff; rewrite (proj2 (Z.ltb_ge _ _)), (proj2 (Z.leb_gt _ _)), (proj2 (Nat.leb_gt _ _)) by lia; auto).
    unfold on_bars at 1 2. rewrite Nat2Z.id. destruct (Nat.even i) eqn:Ei.
    - unfold first_choice_nb at 1. destruct (find _ (seq (Z.to_nat from) (n - Z.to_nat from))) as [f|] eqn:Ef; [|reflexivity]. cbn [map].
      apply find_some in Ef as [Hin _]. apply in_seq in Hin. destruct (Hg f ltac:(lia)) as [G1 [G2 G3]].
      destruct ((Z.of_nat f =? ee_prev st)%Z && (ee_prev st =? ee_prev_prev st)%Z); [reflexivity|]. rewrite G1, G2, G3, Nat2Z.id. apply IH.
    - pose proof (stop_in_range ts stop tr xw pf (Z.to_nat from) n) as Hr. destruct pf.
      + rewrite stop_first_eq in *. destruct (rs_stop_choice_first _ _ _ _ _ _) as [f|]; [|reflexivity]. cbn [map].
        destruct (Hg f (Hr f (or_introl eq_refl))) as [G1 [G2 G3]].
        destruct ((Z.of_nat f =? ee_prev st)%Z && (ee_prev st =? ee_prev_prev st)%Z); [reflexivity|]. rewrite G1, G2, G3, Nat2Z.id. apply IH.
      + rewrite stop_first_head, stop_all_eq. destruct (stop_choice_nb ts stop tr xw false (Z.to_nat from) n) as [|f l] eqn:Es; [reflexivity|].
        cbn [hd_error]. change (map Z.of_nat (f :: l)) with (Z.of_nat f :: map Z.of_nat l). cbv iota.
        destruct (Hg f (Hr f (or_introl eq_refl))) as [G1 [G2 G3]].
        destruct ((Z.of_nat f =? ee_prev st)%Z && (ee_prev st =? ee_prev_prev st)%Z); [reflexivity|]. rewrite G1.
        replace (on_bars (stop_choice_nb ts stop tr xw false) i from (Z.of_nat n)) with (map Z.of_nat (f :: l)) by (unfold on_bars; rewrite Nat2Z.id, Es; reflexivity).
        rewrite last_map.
        destruct (Hg (last (f :: l) 0) (Hr _ (last_in (f :: l) 0 ltac:(discriminate)))) as [_ [G5 G6]]. rewrite G5, G6, <- mark_set_all. apply IH.
  Qed.
  Lemma stop_enex_ok : forall fuel entries (ts stop : nat -> T) tr ew xw pf,
    rs_generate_stop_enex fuel entries ts stop tr ew xw pf = generate_stop_enex_fuel fuel entries ts stop tr ew xw pf.
  Proof.
    intros. unfold rs_generate_stop_enex, generate_stop_enex_fuel, generate_enex_fuel. rewrite stop_enex_loop_eq.
    replace (Z.of_nat ew =? 0)%Z with (Nat.eqb ew 0) by (destruct ew; reflexivity). replace (Z.of_nat xw =? 0)%Z with (Nat.eqb xw 0) by (destruct xw; reflexivity).
    reflexivity.
  Qed.

  (** ** OHLC stops *)
  Context {L : OrdLaws N}.

  Lemma fill_min : forall o c : T, (if isnan o then rs_min c c else rs_min o c) = (if isnan o then min2 c c else min2 o c).
  Proof.
    intros o c. destruct (isnan o) eqn:E.
    - unfold rs_min, min2. rewrite ltb_irrefl. destruct (isnan c); reflexivity.
    - unfold rs_min, min2. rewrite E. destruct (isnan c) eqn:Ec; [|reflexivity]. now rewrite ol_nan_l.
  Qed.
  Lemma fill_max : forall o c : T, (if isnan o then rs_max c c else rs_max o c) = (if isnan o then max2 c c else max2 o c).
  Proof.
    intros o c. destruct (isnan o) eqn:E.
    - unfold rs_max, max2. rewrite ltb_irrefl. destruct (isnan c); reflexivity.
    - unfold rs_max, max2. rewrite E. destruct (isnan c) eqn:Ec; [|reflexivity]. now rewrite ol_nan_r.
  Qed.

  Lemma ohlc_returned : forall (bar : nat -> Bar T) a ii io os pf bars lo hi out,
    fold_left (rs_ohlc_step bar a ii io os pf) bars (lo, hi, out, true) = (lo, hi, out, true).
  Proof. induction bars as [|i bars IH]; intros; [reflexivity|]. cbn [fold_left]. apply IH. Qed.

  Lemma ohlc_step_eq : forall (bar : nat -> Bar T) a ii io os pf lo hi out i,
    rs_ohlc_step bar a ii io os pf (lo, hi, out, false) i =
    let b := complete_bar (bar i) in
    let '(ch, cl) := if Nat.ltb ii i || os then (b_high b, b_low b) else (b_close b, b_close b) in
    let lo' := if oa_trail a && ltb cl lo then cl else lo in
    let hi' := if oa_trail a && gtb ch hi then ch else hi in
    match ohlc_hit a io lo hi ch cl with
    | Some (p, ty) => if pf then (lo, hi, out ++ [(i, p, ty)], true) else (lo', hi', out ++ [(i, p, ty)], false)
    | None => (lo', hi', out, false)
    end.
  Proof.
    intros bar a ii io os pf lo hi out i. unfold rs_ohlc_step. cbv zeta.
    assert (Eb : complete_bar (bar i) = mkBar (if isnan (b_open (bar i)) then b_close (bar i) else b_open (bar i))
      (if isnan (b_high (bar i)) then rs_max (if isnan (b_open (bar i)) then b_close (bar i) else b_open (bar i)) (b_close (bar i)) else b_high (bar i))
      (if isnan (b_low (bar i)) then rs_min (if isnan (b_open (bar i)) then b_close (bar i) else b_open (bar i)) (b_close (bar i)) else b_low (bar i))
      (b_close (bar i))).
    { unfold complete_bar. pose proof (fill_min (b_open (bar i)) (b_close (bar i))) as F1. pose proof (fill_max (b_open (bar i)) (b_close (bar i))) as F2.
      destruct (isnan (b_open (bar i))); rewrite F1, F2; reflexivity. }
    rewrite Eb. cbn [b_high b_low b_close].
    set (h := if isnan (b_high (bar i)) then _ else _). set (l := if isnan (b_low (bar i)) then _ else _).
    destruct (if Nat.ltb ii i || os then (h, l) else (b_close (bar i), b_close (bar i))) as [ch cl]. clear Eb h l.
    unfold ohlc_hit, sl_level, tp_level.
    destruct (isnan (oa_sl a)), (isnan (oa_tp a)), (oa_reverse a), (oa_trail a); cbn [negb andb orb];
      rewrite ?orb_false_r; repeat match goal with |- context [if ?b then Some _ else _] => destruct b end; destruct pf; reflexivity.
  Qed.

  Lemma ohlc_loop_eq : forall (bar : nat -> Bar T) a ii io os pf bars lo hi out,
    (let '(_, _, o, _) := fold_left (rs_ohlc_step bar a ii io os pf) bars (lo, hi, out, false) in o) = out ++ ohlc_loop bar a ii io os pf lo hi bars.
  Proof.
    intros bar a ii io os pf. induction bars as [|i bars IH]; intros lo hi out; cbn [fold_left ohlc_loop]; [now rewrite app_nil_r|].
    rewrite ohlc_step_eq. cbv zeta. destruct (if Nat.ltb ii i || os then _ else _) as [ch cl].
    destruct (ohlc_hit a io lo hi ch cl) as [[p ty]|]; [|apply IH]. destruct pf.
    - rewrite ohlc_returned. reflexivity.
    - rewrite IH, <- app_assoc. reflexivity.
  Qed.

  Lemma ohlc_choice_eq : forall from to (bar : nat -> Bar T) args os wait pf,
    rs_ohlc_stop_choice from to bar args os wait pf = ohlc_stop_choice_nb bar args os wait pf from to.
  Proof.
    intros from to bar args os wait pf. unfold rs_ohlc_stop_choice, ohlc_stop_choice_nb. rewrite init_i_eq.
    assert (E : forall x : T, negb (isnan x) && ltb x zero = ltb x zero) by (intros x; destruct (isnan x) eqn:Ex; [rewrite ol_nan_l by exact Ex|]; reflexivity).
    rewrite !E. do 2 (destruct (ltb _ _); [reflexivity|]; cbn [raise_if]). 
    pose proof (ohlc_loop_eq bar (args (from - wait)) (from - wait) (b_open (bar (from - wait))) os pf (seq from (to - from)) (b_open (bar (from - wait))) (b_open (bar (from - wait))) []) as H.
    destruct (fold_left _ _ _) as [[[x1 x2] x3] x4]. rewrite H. reflexivity.
  Qed.

  Lemma ohlc_in_range : forall (bar : nat -> Bar T) args os wait pf, in_range (ohlc_bars bar args os wait pf).
  Proof.
    intros bar args os wait pf from to i. unfold ohlc_bars, ohlc_stop_choice_nb.
    destruct (ltb (oa_sl _) zero); [intros []|]. destruct (ltb (oa_tp _) zero); [intros []|]. cbn [raise_if].
    intros H. apply in_map_iff in H as [w [<- H]].
    assert (G : forall bars a ii io lo hi, In w (ohlc_loop bar a ii io os pf lo hi bars) -> In (fst (fst w)) bars).
    { induction bars as [|b bars IH]; intros a ii io lo hi H1; [destruct H1|]. cbn [ohlc_loop] in H1.
      destruct (if Nat.ltb ii b || os then _ else _) as [ch cl]. destruct (ohlc_hit a io lo hi ch cl) as [[p ty]|].
      - destruct pf; cbn in H1; destruct H1 as [<-|H1]; [left; reflexivity|destruct H1|left; reflexivity|right; eapply IH; exact H1].
      - right. eapply IH; exact H1. }
    apply G, in_seq in H. lia.
  Qed.

  Definition no_negative_stop (args : nat -> OhlcArgs T) : Prop := forall i, ltb (oa_sl (args i)) zero = false /\ ltb (oa_tp (args i)) zero = false.

  Lemma ohlc_ex_loop_eq : forall entries (bar : nat -> Bar T) args os wait un skip pf, no_negative_stop args -> forall fuel s st k,
    List.length entries < fuel + s ->
    ex_loop (List.length entries) (Z.of_nat wait) un skip pf (on_bars (ohlc_bars bar args os wait pf)) k (idxs_from entries s) st
    = rs_ohlc_ex_loop fuel entries bar args os wait un skip pf (rs_next_true entries s) st.
  Proof.
    intros entries bar args os wait un skip pf Hn. induction fuel as [|fuel IH]; intros s st k Hf.
    - unfold idxs_from. rewrite skipn_all2 by lia. reflexivity.
    - destruct (idxs_step entries s) as [E [E2|[e [E2 Hs]]]]; rewrite E, E2; cbn [hd_error ex_loop rs_ohlc_ex_loop]; [reflexivity|].
      rewrite ex_step_gen by apply ohlc_in_range. cbn [bind]. destruct st as [exits last_exit].
      rewrite (IH (S e)) by lia. replace (e + 1) with (S e) by lia. rewrite (proj1 (idxs_step entries (S e))).
      unfold gen_step. destruct (negb (skip && (Z.of_nat e <=? last_exit)%Z)); [|reflexivity].
      destruct (Nat.ltb _ _); [|reflexivity]. rewrite ohlc_choice_eq. unfold ohlc_bars, ohlc_stop_choice_nb.
      destruct (Hn (e + wait - wait)) as [-> ->]. cbn [raise_if bind]. destruct (map _ _) as [|h0 hs]; [reflexivity|]. destruct pf; reflexivity.
  Qed.
  Lemma ohlc_ex_ok : forall entries (bar : nat -> Bar T) args os wait un skip pf, no_negative_stop args ->
    rs_generate_ohlc_stop_ex entries bar args os wait un skip pf = generate_ohlc_stop_ex_nb entries bar args os wait un skip pf.
  Proof.
    intros. unfold generate_ohlc_stop_ex_nb, generate_ex_nb, rs_generate_ohlc_stop_ex. rewrite <- idxs_zero.
    rewrite (ohlc_ex_loop_eq entries bar args os wait un skip pf H (S (List.length entries)) 0) by lia. reflexivity.
  Qed.

  Lemma ohlc_enex_loop_eq : forall entries (bar : nat -> Bar T) args os ew xw pf, no_negative_stop args -> forall fuel i st,
    enex_loop fuel (List.length entries) (Z.of_nat ew) (Z.of_nat xw) true pf
      (on_bars (fun from to => first_choice_nb from to (fun i => nth i entries false)))
      (on_bars (ohlc_bars bar args os xw pf)) i st
    = rs_ohlc_enex_loop fuel entries bar args os ew xw pf i st.
  Proof.
    intros entries bar args os ew xw pf Hn. induction fuel as [|fuel IH]; intros i st; [reflexivity|]. cbn [enex_loop rs_ohlc_enex_loop].
    rewrite even_mod. set (n := List.length entries) in *.
    set (from := if Nat.even i then if Nat.eqb i 0 then 0%Z else (ee_prev st + Z.of_nat ew)%Z else (ee_prev st + Z.of_nat xw)%Z).
    destruct (Z.leb_spec (Z.of_nat n) from) as [Hf|Hf]; [reflexivity|].
    replace (Z.to_nat (Z.max from 0)) with (Z.to_nat from) by lia. replace (i + 1) with (S i) by lia.
    assert (Hg : forall f, (Z.to_nat from <= f < n)%nat -> (Z.of_nat f <? from)%Z = false /\ (Z.of_nat n <=? Z.of_nat f)%Z = false /\ Nat.leb n f = false)
      by (intros f Hff; rewrite (proj2 (Z.ltb_ge _ _)), (proj2 (Z.leb_gt _ _)), (proj2 (Nat.leb_gt _ _)) by lia; auto).
    unfold on_bars at 1 2. rewrite Nat2Z.id. destruct (Nat.even i) eqn:Ei.
    - unfold first_choice_nb at 1. destruct (find _ (seq (Z.to_nat from) (n - Z.to_nat from))) as [f|] eqn:Ef; [|reflexivity]. cbn [map].
      apply find_some in Ef as [Hin _]. apply in_seq in Hin. destruct (Hg f ltac:(lia)) as [G1 [G2 G3]].
      destruct ((Z.of_nat f =? ee_prev st)%Z && (ee_prev st =? ee_prev_prev st)%Z); [reflexivity|]. rewrite G1, G2, G3, Nat2Z.id. apply IH.
    - pose proof (ohlc_in_range bar args os xw pf (Z.to_nat from) n) as Hr.
      assert (Ew : exists w, rs_ohlc_stop_choice (Z.to_nat from) n bar args os xw pf = Ok w /\ ohlc_bars bar args os xw pf (Z.to_nat from) n = map (fun h => fst (fst h)) w).
      { rewrite ohlc_choice_eq. unfold ohlc_bars, ohlc_stop_choice_nb. destruct (Hn (Z.to_nat from - xw)) as [-> ->]. cbn [raise_if]. eexists. split; reflexivity. }
      destruct Ew as [w [-> Ew]]. rewrite Ew in *. destruct (map (fun h => fst (fst h)) w) as [|f l] eqn:Es; [reflexivity|].
      change (map Z.of_nat (f :: l)) with (Z.of_nat f :: map Z.of_nat l). cbv iota.
      destruct (Hg f (Hr f (or_introl eq_refl))) as [G1 [G2 G3]].
      destruct ((Z.of_nat f =? ee_prev st)%Z && (ee_prev st =? ee_prev_prev st)%Z); [reflexivity|]. rewrite G1. destruct pf.
      + rewrite G2, G3, Nat2Z.id. apply IH.
      + replace (on_bars (ohlc_bars bar args os xw false) i from (Z.of_nat n)) with (map Z.of_nat (f :: l)) by (unfold on_bars; rewrite Nat2Z.id, Ew; reflexivity).
        rewrite last_map. destruct (Hg (last (f :: l) 0) (Hr _ (last_in (f :: l) 0 ltac:(discriminate)))) as [_ [G5 G6]]. rewrite G5, G6, <- mark_set_all. apply IH.
  Qed.
  Lemma ohlc_enex_ok : forall fuel entries (bar : nat -> Bar T) args os ew xw pf, no_negative_stop args ->
    rs_generate_ohlc_stop_enex fuel entries bar args os ew xw pf = generate_ohlc_stop_enex_fuel fuel entries bar args os ew xw pf.
  Proof.
    intros. unfold rs_generate_ohlc_stop_enex, generate_ohlc_stop_enex_fuel, generate_enex_fuel. rewrite ohlc_enex_loop_eq by assumption.
    replace (Z.of_nat ew =? 0)%Z with (Nat.eqb ew 0) by (destruct ew; reflexivity). replace (Z.of_nat xw =? 0)%Z with (Nat.eqb xw 0) by (destruct xw; reflexivity).
    reflexivity.
  Qed.
End Stops.
