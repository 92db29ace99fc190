(** * Rust random signal generators: lemmas *)
From Coq Require Import String ZArith Bool List Arith Lia Permutation.
From Verif Require Import Base Num SignalsNb RandSignals StopSignals RustStops RustStopsLemmas RustRand.
Import ListNotations.
Local Open Scope list_scope.
Local Open Scope nat_scope.

Lemma in_bounds : forall l from to, (forall i, In i l -> from <= i < to) -> existsb (out_of (Z.of_nat from) (Z.of_nat to)) (map Z.of_nat l) = false.
Proof.
  intros l from to H. apply not_true_iff_false. intros He. apply existsb_exists in He as [z [Hz Ho]]. apply in_map_iff in Hz as [j [<- Hj]].
  specialize (H j Hj). unfold out_of in Ho. rewrite (proj2 (Z.ltb_ge _ _)), (proj2 (Z.leb_gt _ _)) in Ho by lia. discriminate.
Qed.

(** ** By number *)
Lemma rand_ok : forall rg pos rows n, (forall k l, Permutation (rg_perm rg k l) l) ->
  generate_rand_nb rg pos rows n = Ok (rs_generate_rand (rg_perm rg pos) rows n).
Proof.
  intros rg pos rows n Hp. unfold generate_rand_nb, generate_nb, rs_generate_rand, rand_choice_nb. rewrite !Nat2Z.id. change (Z.to_nat 0) with 0. rewrite Nat.sub_0_r.
  rewrite map_ext with (g := fun x => x) by reflexivity. rewrite map_id. rewrite (Nat.min_comm n rows).
  set (l := firstn (Nat.min rows n) (rg_perm rg pos (seq 0 rows))).
  assert (Hl : forall i, In i l -> 0 <= i < rows).
  { intros i Hi. assert (In i (rg_perm rg pos (seq 0 rows))) by (unfold l in Hi; rewrite <- (firstn_skipn (Nat.min rows n)); apply in_or_app; auto).
    apply (Permutation_in _ (Hp _ _)), in_seq in H. lia. }
  destruct (Nat.eqb_spec (Nat.min rows n) 0) as [E|E].
  - unfold l. rewrite E. reflexivity.
  - destruct l as [|x l'] eqn:El; [reflexivity|]. rewrite <- El in *. change (Z.of_nat x :: map Z.of_nat l') with (map Z.of_nat (x :: l')).
    destruct (map Z.of_nat l) as [|z zs] eqn:Em; [subst l; rewrite El in Em; discriminate|]. rewrite <- Em. change 0%Z with (Z.of_nat 0).
    rewrite (in_bounds l 0 rows Hl). cbn [raise_if]. rewrite mark_set_all. reflexivity.
Qed.

(** ** Any choice per call *)
Lemma ex_step_call : forall n wait un skip pf (h : nat -> nat -> nat -> list nat) k entry next st, in_range (h k) ->
  ex_step n (Z.of_nat wait) un skip pf (fun call from to => map Z.of_nat (h call (Z.to_nat from) (Z.to_nat to))) k entry next st
  = Ok (gen_step n wait un skip pf (h k) entry next st).
Proof. intros n wait un skip pf h k entry next st H. exact (ex_step_gen n wait un skip pf (h k) k entry next st H). Qed.

Lemma rand_ex_loop_eq : forall perm entries wait un skip, (forall k l, Permutation (perm k l) l) -> forall fuel s st k,
  List.length entries < fuel + s ->
  ex_loop (List.length entries) (Z.of_nat wait) un skip true (fun call from to => map Z.of_nat (rand_choice_nb (perm call) (Z.to_nat from) (Z.to_nat to) 1)) k (idxs_from entries s) st
  = Ok (rs_rand_ex_loop fuel (fun call m => hd 0 (perm call (seq 0 m))) entries wait un skip k (rs_next_true entries s) st).
Proof.
  intros perm entries wait un skip Hp.
  assert (Hc : forall k from to, from < to -> rand_choice_nb (perm k) from to 1 = [from + hd 0 (perm k (seq 0 (to - from)))] /\ hd 0 (perm k (seq 0 (to - from))) < to - from).
  { intros k from to Hlt. unfold rand_choice_nb. replace (Nat.min (to - from) 1) with 1 by lia. pose proof (Hp k (seq 0 (to - from))) as P.
    destruct (perm k (seq 0 (to - from))) as [|x l] eqn:E.
    - apply Permutation_length in P. rewrite seq_length in P. cbn in P. lia.
    - split; [reflexivity|]. cbn [hd]. assert (In x (seq 0 (to - from))) by (eapply Permutation_in; [exact P|left; reflexivity]). apply in_seq in H. lia. }
  assert (Hr : forall k, in_range (fun from to => rand_choice_nb (perm k) from to 1)).
  { intros k from to i Hi. destruct (Nat.ltb_spec from to) as [Hlt|Hge].
    - destruct (Hc k from to Hlt) as [E B]. rewrite E in Hi. destruct Hi as [<-|[]]. lia.
    - unfold rand_choice_nb in Hi. replace (Nat.min (to - from) 1) with 0 in Hi by lia. destruct Hi. }
  induction fuel as [|fuel IH]; intros s st k Hf.
  - unfold idxs_from. rewrite skipn_all2 by lia. reflexivity.
  - destruct (idxs_step entries s) as [E [E2|[e [E2 Hs]]]]; rewrite E, E2; cbn [hd_error ex_loop rs_rand_ex_loop]; [reflexivity|].
    rewrite (ex_step_call (List.length entries) wait un skip true (fun k from to => rand_choice_nb (perm k) from to 1)) by apply Hr. cbn [bind]. destruct st as [exits last_exit].
    rewrite (IH (S e)) by lia. replace (e + 1) with (S e) by lia. rewrite (proj1 (idxs_step entries (S e))). do 2 f_equal.
    unfold gen_step. destruct (negb (skip && (Z.of_nat e <=? last_exit)%Z)); [|reflexivity].
    destruct (Nat.ltb_spec (e + wait) (if un then match hd_error (idxs_from entries (S e)) with Some e0 => e0 | None => List.length entries end else List.length entries)) as [Hlt|]; [|reflexivity].
    rewrite (proj1 (Hc k _ _ Hlt)). reflexivity.
Qed.
Lemma rand_ex_ok : forall perm entries wait un skip, (forall k l, Permutation (perm k l) l) ->
  generate_rand_ex_nb perm entries wait un skip = Ok (rs_generate_rand_ex (fun call m => hd 0 (perm call (seq 0 m))) entries wait un skip).
Proof.
  intros perm entries wait un skip Hp. unfold generate_rand_ex_nb, generate_ex_nb, rs_generate_rand_ex. rewrite <- idxs_zero.
  rewrite (rand_ex_loop_eq perm entries wait un skip Hp (S (List.length entries)) 0) by lia. cbn [bind]. destruct (rs_rand_ex_loop _ _ _ _ _ _ _ _ _). reflexivity.
Qed.

Section ByProb.
  Context {T : Type} {N : Num T}.

  Lemma prob_in_range : forall (u prob : nat -> T) pf, in_range (rand_by_prob_choice_nb u prob pf).
  Proof.
    intros u prob pf from to i. unfold rand_by_prob_choice_nb.
    assert (G : forall bars k, In i (rand_by_prob_loop u prob pf k bars) -> In i bars).
    { induction bars as [|b bars IH]; intros k H; [destruct H|]. cbn [rand_by_prob_loop] in H.
      destruct (ltb (u k) (prob b)); [destruct pf|]; cbn in *; intuition eauto. }
    intros H. apply G, in_seq in H. lia.
  Qed.

  Lemma prob_gone : forall (u prob : nat -> T) pf rows k out,
    fold_left (fun (st : nat * list bool * bool) row => let '(k, out, gone) := st in
        if gone then st else if ltb (u k) (prob row) then (S k, upd out row true, pf) else (S k, out, false)) rows (k, out, true) = (k, out, true).
  Proof. induction rows as [|r rows IH]; intros k out; [reflexivity|]. cbn [fold_left]. apply IH. Qed.
  Lemma prob_fold : forall (u prob : nat -> T) pf rows k out,
    (let '(_, o, _) := fold_left (fun (st : nat * list bool * bool) row => let '(k, out, gone) := st in
        if gone then st else if ltb (u k) (prob row) then (S k, upd out row true, pf) else (S k, out, false)) rows (k, out, false) in o)
    = rs_mark out (rand_by_prob_loop u prob pf k rows).
  Proof.
    intros u prob pf. induction rows as [|r rows IH]; intros k out; [reflexivity|]. cbn [fold_left rand_by_prob_loop].
    destruct (ltb (u k) (prob r)); [|apply IH]. destruct pf; [|apply IH]. rewrite prob_gone. reflexivity.
  Qed.
  Lemma loop_pick : forall (u prob : nat -> T) rows k,
    rand_by_prob_loop u prob true k rows = match rs_first_by_prob u prob k rows with Some i => [i] | None => [] end.
  Proof. intros u prob. induction rows as [|r rows IH]; intros k; [reflexivity|]. cbn [rand_by_prob_loop rs_first_by_prob]. destruct (ltb (u k) (prob r)); [reflexivity|apply IH]. Qed.

  Lemma by_prob_ok : forall (u prob : nat -> T) pf nrows, generate_rand_by_prob_nb u prob pf nrows = Ok (rs_generate_rand_by_prob u prob pf nrows).
  Proof.
    intros u prob pf nrows. unfold generate_rand_by_prob_nb, generate_nb, rs_generate_rand_by_prob. rewrite Nat2Z.id. change (Z.to_nat 0) with 0.
    pose proof (prob_fold u prob pf (seq 0 nrows) 0 (repeat false nrows)) as H. destruct (fold_left _ _ _) as [[k o] g]. rewrite H. clear H.
    pose proof (prob_in_range u prob pf 0 nrows) as Hr. unfold rand_by_prob_choice_nb in *. rewrite Nat.sub_0_r in *.
    destruct (rand_by_prob_loop u prob pf 0 (seq 0 nrows)) as [|x l] eqn:E; [reflexivity|]. change 0%Z with (Z.of_nat 0). 
    pose proof (in_bounds (x :: l) 0 nrows Hr) as Hb. pose proof Hb as Hb'. cbn [map existsb] in Hb'. apply orb_false_iff in Hb' as [Hx _].
    cbn [map]. destruct pf.
    - rewrite Hx. cbn [raise_if]. rewrite Nat2Z.id. rewrite loop_pick in E. destruct (rs_first_by_prob _ _ _ _); inversion E; subst. reflexivity.
    - change (Z.of_nat x :: map Z.of_nat l) with (map Z.of_nat (x :: l)). rewrite Hb. cbn [raise_if]. rewrite mark_set_all. reflexivity.
  Qed.

  Lemma ex_prob_loop_eq : forall (u : nat -> nat -> T) entries prob wait un skip fuel s st k,
    List.length entries < fuel + s ->
    ex_loop (List.length entries) (Z.of_nat wait) un skip true (fun call from to => map Z.of_nat (rand_by_prob_choice_nb (u call) prob true (Z.to_nat from) (Z.to_nat to))) k (idxs_from entries s) st
    = Ok (rs_rand_ex_prob_loop fuel u entries prob wait un skip k (rs_next_true entries s) st).
  Proof.
    intros u entries prob wait un skip. induction fuel as [|fuel IH]; intros s st k Hf.
    - unfold idxs_from. rewrite skipn_all2 by lia. reflexivity.
    - destruct (idxs_step entries s) as [E [E2|[e [E2 Hs]]]]; rewrite E, E2; cbn [hd_error ex_loop rs_rand_ex_prob_loop]; [reflexivity|].
      rewrite (ex_step_call (List.length entries) wait un skip true (fun k => rand_by_prob_choice_nb (u k) prob true)) by apply prob_in_range. cbn [bind]. destruct st as [exits last_exit].
      rewrite (IH (S e)) by lia. replace (e + 1) with (S e) by lia. rewrite (proj1 (idxs_step entries (S e))). do 2 f_equal.
      unfold gen_step. destruct (negb (skip && (Z.of_nat e <=? last_exit)%Z)); [|reflexivity].
      destruct (Nat.ltb _ _); [|reflexivity]. unfold rand_by_prob_choice_nb. rewrite loop_pick. destruct (rs_first_by_prob _ _ _ _); reflexivity.
  Qed.
  Lemma ex_by_prob_ok : forall (u : nat -> nat -> T) entries prob wait un skip,
    generate_rand_ex_by_prob_nb u entries prob wait un skip = Ok (rs_generate_rand_ex_by_prob u entries prob wait un skip).
  Proof.
    intros. unfold generate_rand_ex_by_prob_nb, generate_ex_nb, rs_generate_rand_ex_by_prob. rewrite <- idxs_zero.
    rewrite (ex_prob_loop_eq u entries prob wait un skip (S (List.length entries)) 0) by lia. cbn [bind]. destruct (rs_rand_ex_prob_loop _ _ _ _ _ _ _ _ _ _). reflexivity.
  Qed.

  Lemma scan_all : forall (u prob : nat -> T) rows k f l hits,
    rs_prob_scan u prob false k rows f l hits =
    let L := rand_by_prob_loop u prob false k rows in
    (match f with None => hd_error L | Some x => Some x end, match L with [] => l | _ => Some (last L 0) end, hits ++ L).
  Proof.
    intros u prob. induction rows as [|r rows IH]; intros k f l hits; cbn [rs_prob_scan rand_by_prob_loop].
    - cbn. rewrite app_nil_r. destruct f; reflexivity.
    - destruct (ltb (u k) (prob r)); [|apply IH]. cbn [negb]. rewrite IH. cbv zeta. set (L := rand_by_prob_loop u prob false (S k) rows).
      rewrite <- app_assoc. cbn [app hd_error]. f_equal. f_equal; [destruct f; reflexivity|]. destruct L; reflexivity.
  Qed.
  Lemma scan_pick : forall (u prob : nat -> T) rows k l hits,
    rs_prob_scan u prob true k rows None l hits =
    match rand_by_prob_loop u prob true k rows with i :: _ => (Some i, Some i, hits) | [] => (None, l, hits) end.
  Proof.
    intros u prob. induction rows as [|r rows IH]; intros k l hits; cbn [rs_prob_scan rand_by_prob_loop]; [reflexivity|].
    destruct (ltb (u k) (prob r)); [reflexivity|apply IH].
  Qed.

  Lemma enex_prob_loop_eq : forall (u : nat -> nat -> T) n ep xp ew xw epf xpf fuel i st,
    enex_loop fuel n (Z.of_nat ew) (Z.of_nat xw) epf xpf
      (fun call from to => map Z.of_nat (rand_by_prob_choice_nb (u call) ep epf (Z.to_nat from) (Z.to_nat to)))
      (fun call from to => map Z.of_nat (rand_by_prob_choice_nb (u call) xp xpf (Z.to_nat from) (Z.to_nat to))) i st
    = rs_rand_enex_prob_loop fuel u n ep xp ew xw epf xpf i st.
  Proof.
    intros u n ep xp ew xw epf xpf. induction fuel as [|fuel IH]; intros i st; [reflexivity|]. cbn [enex_loop rs_rand_enex_prob_loop].
    rewrite even_mod.
    set (from := if Nat.even i then if Nat.eqb i 0 then 0%Z else (ee_prev st + Z.of_nat ew)%Z else (ee_prev st + Z.of_nat xw)%Z).
    destruct (Z.leb_spec (Z.of_nat n) from) as [Hf|Hf]; [reflexivity|]. replace (i + 1) with (S i) by lia. rewrite Nat2Z.id.
    assert (Hg : forall f, (Z.to_nat from <= f < n)%nat -> (Z.of_nat f <? from)%Z = false /\ (Z.of_nat n <=? Z.of_nat f)%Z = false)
      by (intros f Hff; rewrite (proj2 (Z.ltb_ge _ _)), (proj2 (Z.leb_gt _ _)) by lia; auto).
    destruct (Nat.even i) eqn:Ei.
    - pose proof (prob_in_range (u i) ep epf (Z.to_nat from) n) as Hr.
      change (rand_by_prob_choice_nb (u i) ep epf (Z.to_nat from) n) with (rand_by_prob_loop (u i) ep epf 0 (seq (Z.to_nat from) (n - Z.to_nat from))) in *. destruct epf.
      + rewrite scan_pick. destruct (rand_by_prob_loop (u i) ep true 0 _) as [|f l]; [reflexivity|]. cbn [map].
        destruct (Hg f (Hr f (or_introl eq_refl))) as [G1 G2].
        destruct ((Z.of_nat f =? ee_prev st)%Z && (ee_prev st =? ee_prev_prev st)%Z); [reflexivity|]. rewrite G1, G2, Nat2Z.id. apply IH.
      + rewrite scan_all. cbv zeta. destruct (rand_by_prob_loop (u i) ep false 0 _) as [|f l] eqn:El; [reflexivity|]. cbn [hd_error app].
        change (map Z.of_nat (f :: l)) with (Z.of_nat f :: map Z.of_nat l). cbv iota.
        destruct (Hg f (Hr f (or_introl eq_refl))) as [G1 G2].
        destruct ((Z.of_nat f =? ee_prev st)%Z && (ee_prev st =? ee_prev_prev st)%Z); [reflexivity|]. rewrite G1.
        change (Z.of_nat f :: map Z.of_nat l) with (map Z.of_nat (f :: l)). rewrite last_map.
        destruct (Hg (last (f :: l) 0) (Hr _ (last_in (f :: l) 0 ltac:(discriminate)))) as [_ G5]. rewrite G5, <- mark_set_all. apply IH.
    - pose proof (prob_in_range (u i) xp xpf (Z.to_nat from) n) as Hr.
      change (rand_by_prob_choice_nb (u i) xp xpf (Z.to_nat from) n) with (rand_by_prob_loop (u i) xp xpf 0 (seq (Z.to_nat from) (n - Z.to_nat from))) in *. destruct xpf.
      + rewrite scan_pick. destruct (rand_by_prob_loop (u i) xp true 0 _) as [|f l]; [reflexivity|]. cbn [map].
        destruct (Hg f (Hr f (or_introl eq_refl))) as [G1 G2].
        destruct ((Z.of_nat f =? ee_prev st)%Z && (ee_prev st =? ee_prev_prev st)%Z); [reflexivity|]. rewrite G1, G2, Nat2Z.id. apply IH.
      + rewrite scan_all. cbv zeta. destruct (rand_by_prob_loop (u i) xp false 0 _) as [|f l] eqn:El; [reflexivity|]. cbn [hd_error app].
        change (map Z.of_nat (f :: l)) with (Z.of_nat f :: map Z.of_nat l). cbv iota.
        destruct (Hg f (Hr f (or_introl eq_refl))) as [G1 G2].
        destruct ((Z.of_nat f =? ee_prev st)%Z && (ee_prev st =? ee_prev_prev st)%Z); [reflexivity|]. rewrite G1.
        change (Z.of_nat f :: map Z.of_nat l) with (map Z.of_nat (f :: l)). rewrite last_map.
        destruct (Hg (last (f :: l) 0) (Hr _ (last_in (f :: l) 0 ltac:(discriminate)))) as [_ G5]. rewrite G5, <- mark_set_all. apply IH.
  Qed.
  Lemma enex_by_prob_ok : forall fuel (u : nat -> nat -> T) n ep xp ew xw epf xpf,
    rs_generate_rand_enex_by_prob fuel u n ep xp ew xw epf xpf = generate_rand_enex_by_prob_fuel fuel u n ep xp ew xw epf xpf.
  Proof.
    intros. unfold rs_generate_rand_enex_by_prob, generate_rand_enex_by_prob_fuel, generate_enex_fuel. rewrite enex_prob_loop_eq.
    replace (Z.of_nat ew =? 0)%Z with (Nat.eqb ew 0) by (destruct ew; reflexivity). replace (Z.of_nat xw =? 0)%Z with (Nat.eqb xw 0) by (destruct xw; reflexivity).
    reflexivity.
  Qed.
End ByProb.

Lemma rand_ex_loop_ext : forall f g entries wait un skip, (forall call m, f call m = g call m) -> forall fuel k o st,
  rs_rand_ex_loop fuel f entries wait un skip k o st = rs_rand_ex_loop fuel g entries wait un skip k o st.
Proof.
  intros f g entries wait un skip H. induction fuel as [|fuel IH]; intros k o st; [reflexivity|]. cbn [rs_rand_ex_loop].
  destruct o as [e|]; [|reflexivity]. destruct st as [exits last_exit]. cbv zeta. rewrite H. apply IH.
Qed.
Lemma rand_ex_same : forall perm offset entries wait un skip, (forall call l, Permutation (perm call l) l) ->
  (forall call m, offset call m = hd 0 (perm call (seq 0 m))) ->
  generate_rand_ex_nb perm entries wait un skip = Ok (rs_generate_rand_ex offset entries wait un skip).
Proof.
  intros perm offset entries wait un skip Hp Ho. rewrite rand_ex_ok by exact Hp. unfold rs_generate_rand_ex.
  rewrite (rand_ex_loop_ext offset (fun call m => hd 0 (perm call (seq 0 m))) entries wait un skip Ho). reflexivity.
Qed.
