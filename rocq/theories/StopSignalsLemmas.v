(** * Lemmas on stop signals *)
From Coq Require Import String ZArith Bool List Arith Sorting Lia.
From Verif Require Import Base Num OrdLaws SignalsNb SignalsSpec SignalsLemmas SignalsLemmas2 SignalsLemmas3 SignalsLemmas4 StopSignals StopSignalsSpec.
Import ListNotations.
Local Open Scope list_scope.
Local Open Scope nat_scope.

Section OneAfterAnother.
  Context (entries : list bool) (xw : nat) (pf : bool) (c : nat -> nat -> list nat).
  Context (Hin : forall from to i, In i (c from to) -> from <= i < to).
  Context (Hsorted : forall from to, StronglySorted lt (c from to)).
  Let n := List.length entries.
  Let ec : Choice := on_bars (fun from to => first_choice_nb from to (fun i => nth i entries false)).
  Let xc : Choice := on_bars c.

  Lemma sorted_last : forall l d i, StronglySorted lt l -> In i l -> i <= last l d.
  Proof.
    induction l as [|a l IH]; intros d i S Hi; [contradiction|]. apply StronglySorted_inv in S as [S F].
    destruct l as [|b l]; [destruct Hi as [<-|[]]; reflexivity|]. change (last (a :: b :: l) d) with (last (b :: l) d).
    destruct Hi as [<-|Hi]; [|apply IH; auto]. rewrite Forall_forall in F. specialize (F b (or_introl eq_refl)).
    specialize (IH d b S (or_introl eq_refl)). lia.
  Qed.
  Lemma last_map : forall (l : list nat) (a : nat), last (map Z.of_nat (a :: l)) 0%Z = Z.of_nat (last (a :: l) 0).
  Proof.
    induction l as [|b l IH]; intros a; [reflexivity|].
    change (last (map Z.of_nat (a :: b :: l)) 0%Z) with (last (map Z.of_nat (b :: l)) 0%Z). rewrite IH. reflexivity.
  Qed.
  Lemma last_In : forall (l : list nat) a, In (last (a :: l) 0) (a :: l).
  Proof. induction l as [|b l IH]; intros a; [left; reflexivity|]. right. apply IH. Qed.

  (** What one entry does *)
  Definition marked (exits : list bool) (g : list nat) : list bool :=
    if pf then match g with a :: _ => upd exits a true | [] => exits end else set_all exits (map Z.of_nat g).
  Definition chosen (g : list nat) : nat := if pf then hd 0 g else last g 0.

  Lemma in_bounds : forall from to, (0 <= from)%Z -> existsb (out_of from to) (map Z.of_nat (c (Z.to_nat from) (Z.to_nat to))) = false.
  Proof.
    intros from to H. destruct (existsb _ _) eqn:E; [|reflexivity]. apply existsb_exists in E as (z & Hz & Ho).
    apply in_map_iff in Hz as (i & <- & Hi). apply Hin in Hi.
    assert (out_of from to (Z.of_nat i) = false) by (apply out_of_false; lia). congruence.
  Qed.

  Lemma step_cases : forall k e next exits p,
    ex_step n (Z.of_nat xw) false true pf xc k e next (exits, p) =
    Ok (if (Z.of_nat e <=? p)%Z then (exits, p)
        else if e + xw <? n then match c (e + xw) n with [] => (exits, p) | g => (marked exits g, Z.of_nat (chosen g)) end
        else (exits, p)).
  Proof.
    intros k e next exits p. unfold ex_step. cbn [andb]. destruct (Z.of_nat e <=? p)%Z; [reflexivity|].
    replace (match next with Some e0 => Z.of_nat n | None => Z.of_nat n end) with (Z.of_nat n) by (destruct next; reflexivity).
    replace (Z.of_nat e + Z.of_nat xw)%Z with (Z.of_nat (e + xw)) by lia.
    destruct (Nat.ltb_spec (e + xw) n) as [H|H]; [|replace (Z.of_nat (e + xw) <? Z.of_nat n)%Z with false by (symmetry; apply Z.ltb_ge; lia); reflexivity].
    replace (Z.of_nat (e + xw) <? Z.of_nat n)%Z with true by (symmetry; apply Z.ltb_lt; lia).
    pose proof (in_bounds (Z.of_nat (e + xw)) (Z.of_nat n) ltac:(lia)) as Hb. unfold xc, on_bars. rewrite !Nat2Z.id in *.
    destruct (c (e + xw) n) as [|a g] eqn:Ec; [reflexivity|]. cbn [map].
    unfold marked, chosen. destruct pf.
    - cbn [map existsb] in Hb. apply orb_false_iff in Hb as [Hb _]. rewrite Hb. cbn [raise_if hd]. rewrite Nat2Z.id. reflexivity.
    - cbn [map] in Hb. rewrite Hb. cbn [raise_if]. change (Z.of_nat a :: map Z.of_nat g) with (map Z.of_nat (a :: g)). rewrite last_map. reflexivity.
  Qed.

  Lemma marked_tr : forall exits g i, List.length exits = n -> g <> [] -> (forall j, In j g -> j < n) ->
    tr (marked exits g) i <-> tr exits i \/ (if pf then i = hd 0 g else In i g).
  Proof.
    intros exits g i L Hg Hb. unfold marked. destruct pf.
    - destruct g as [|a g]; [congruence|]. rewrite tr_upd. cbn [hd]. specialize (Hb a (or_introl eq_refl)). intuition lia.
    - rewrite tr_set_all. split; (intros [H|H]; [left; exact H|right]).
      + destruct H as (_ & z & Hz & ->). apply in_map_iff in Hz as (j & <- & Hj). rewrite Nat2Z.id. exact Hj.
      + split; [specialize (Hb _ H); lia|]. exists (Z.of_nat i). rewrite Nat2Z.id. split; [apply in_map; exact H|reflexivity].
  Qed.
  Lemma marked_length : forall exits g, List.length (marked exits g) = List.length exits.
  Proof. intros exits g. unfold marked. destruct pf; [destruct g; [reflexivity|apply upd_length]|apply set_all_length]. Qed.

  Lemma chosen_in : forall from g, c from n = g -> g <> [] -> In (chosen g) g /\ forall i, (if pf then i = hd 0 g else In i g) -> i <= chosen g.
  Proof.
    intros from g E Hg. unfold chosen. destruct g as [|a g]; [congruence|]. destruct pf.
    - cbn [hd]. split; [left; reflexivity|]. intros i ->. reflexivity.
    - split; [apply last_In|]. intros i Hi. apply sorted_last; [rewrite <- E; apply Hsorted|exact Hi].
  Qed.

  (** The exits only grow *)
  Lemma loop_grows : forall es k exits p, List.length exits = n ->
    exists exits' p', ex_loop n (Z.of_nat xw) false true pf xc k es (exits, p) = Ok (exits', p') /\ (forall i, tr exits i -> tr exits' i).
  Proof.
    induction es as [|e es IH]; intros k exits p L; cbn [ex_loop]; [do 2 eexists; split; [reflexivity|auto]|].
    rewrite step_cases. cbn [bind].
    destruct (Z.of_nat e <=? p)%Z; [apply IH; exact L|]. destruct (e + xw <? n); [|apply IH; exact L].
    destruct (c (e + xw) n) as [|a g] eqn:E; [apply IH; exact L|].
    destruct (IH (S k) (marked exits (a :: g)) (Z.of_nat (chosen (a :: g)))) as (x' & p' & -> & Hg); [rewrite marked_length; exact L|].
    exists x', p'. split; [reflexivity|]. intros i Hi. apply Hg. apply marked_tr; auto; [discriminate|].
    intros j Hj. rewrite <- E in Hj. apply Hin in Hj. lia.
  Qed.
  Lemma loop_late : forall es k exits p, Forall (fun e => n <= e + xw) es -> ex_loop n (Z.of_nat xw) false true pf xc k es (exits, p) = Ok (exits, p).
  Proof.
    induction es as [|e es IH]; intros k exits p F; [reflexivity|]. apply Forall_cons_iff in F as [F1 F]. cbn [ex_loop]. rewrite step_cases.
    destruct (Z.of_nat e <=? p)%Z; cbn [bind]; [apply IH; exact F|].
    replace (e + xw <? n) with false by (symmetry; apply Nat.ltb_ge; exact F1). apply IH; exact F.
  Qed.

  Lemma find_first : forall (a : nat -> bool) m from e, from <= e < from + m -> a e = true -> (forall j, from <= j < e -> a j = false) ->
    find a (seq from m) = Some e.
  Proof.
    induction m as [|m IH]; intros from e He Ha Hb; [lia|]. cbn [seq find]. destruct (Nat.eq_dec from e) as [->|]; [rewrite Ha; reflexivity|].
    rewrite (Hb from) by lia. apply IH; [lia|exact Ha|]. intros j Hj. apply Hb. lia.
  Qed.
  Lemma find_none_all : forall (a : nat -> bool) m from, (forall j, from <= j < from + m -> a j = false) -> find a (seq from m) = None.
  Proof.
    induction m as [|m IH]; intros from H; [reflexivity|]. cbn [seq find]. rewrite (H from) by lia. apply IH. intros j Hj. apply H. lia.
  Qed.

  Lemma enex_main : forall es k i st,
    StronglySorted lt es -> Forall (tr entries) es -> Nat.even i = true -> (i = 0 -> ee_prev st = (-1)%Z) -> (-1 <= ee_prev st)%Z ->
    (forall b, tr entries b -> (ee_prev st < Z.of_nat b)%Z -> In b es) ->
    List.length (ee_entries st) = n -> List.length (ee_exits st) = n ->
    (forall e, tr (ee_entries st) e -> (Z.of_nat e <= ee_prev st)%Z) -> (forall x, tr (ee_exits st) x -> (Z.of_nat x <= ee_prev st)%Z) ->
    exists r exits' p',
      (forall fuel, 2 * List.length es + 1 <= fuel -> enex_loop fuel n 1 (Z.of_nat xw) true pf ec xc i st = Some (Ok r)) /\
      ex_loop n (Z.of_nat xw) false true pf xc k es (ee_exits st, ee_prev st) = Ok (exits', p') /\
      List.length (ee_entries r) = n /\
      (forall e, tr (ee_entries r) e <-> tr (ee_entries st) e \/ ((ee_prev st < Z.of_nat e)%Z /\ tr entries e /\ tr (ee_entries r) e)) /\
      (forall x, tr (ee_exits r) x <-> tr (ee_exits st) x \/ ((ee_prev st < Z.of_nat x)%Z /\ tr (ee_exits r) x)) /\
      (forall x, tr (ee_exits r) x -> tr exits' x) /\
      ((forall e, tr (ee_entries r) e -> (ee_prev st < Z.of_nat e)%Z -> e + xw < n -> exited (ee_exits r) e) -> ee_exits r = exits') /\
      ((forall e, tr (ee_entries r) e -> (ee_prev st < Z.of_nat e)%Z -> exited (ee_exits r) e) ->
       forall e, In e es -> (ee_prev st < Z.of_nat e)%Z -> ~ tr (ee_entries r) e ->
         exists e0 x, (ee_prev st < Z.of_nat e0)%Z /\ tr (ee_entries r) e0 /\ tr (ee_exits r) x /\ e0 < e <= x /\
           forall e1, tr (ee_entries r) e1 -> ~ (e0 < e1 <= x)).
  Proof.
    induction es as [|e es IH]; intros k i st S F Ev Hi Hp Hall Le Lx Be Bx.
    - exists st, (ee_exits st), (ee_prev st). split; [|].
      + intros [|fuel] Hf; [cbn in Hf; lia|]. cbn [enex_loop]. rewrite Ev.
        assert (Ef : (if Nat.eqb i 0 then 0 else ee_prev st + 1)%Z = (ee_prev st + 1)%Z) by (destruct (Nat.eqb_spec i 0) as [E|E]; [rewrite (Hi E); reflexivity|reflexivity]).
        rewrite Ef. destruct (Z.of_nat n <=? ee_prev st + 1)%Z; [reflexivity|]. unfold ec, on_bars, first_choice_nb. rewrite Nat2Z.id, find_none_all; [reflexivity|].
        intros j Hj. destruct (nth j entries false) eqn:En; [|reflexivity]. exfalso. apply (Hall j); [exact En|lia].
      + split; [reflexivity|]. split; [exact Le|]. split; [|split; [|split; [auto|split; [auto|contradiction]]]].
        * intros e. split; [left; exact H|intros [H|(A & B & C)]; auto].
        * intros e. split; [left; exact H|intros [H|(A & C)]; auto].
    - apply StronglySorted_inv in S as [S Fe]. apply Forall_cons_iff in F as [He F]. rewrite Forall_forall in Fe.
      destruct (Z.leb_spec (Z.of_nat e) (ee_prev st)) as [Hs|Hs].
      + (* skipped *)
        destruct (IH (Datatypes.S k) i st S F Ev Hi Hp) as (r & x' & p' & H1 & H2 & H3 & H4 & H5 & H6 & H7 & H8); auto.
        { intros b Hb Hlt. destruct (Hall b Hb Hlt) as [->|H]; [lia|exact H]. }
        exists r, x', p'. split; [intros fuel Hf; apply H1; cbn [List.length] in Hf; lia|]. split.
        { cbn [ex_loop]. rewrite step_cases. replace (Z.of_nat e <=? ee_prev st)%Z with true by (symmetry; apply Z.leb_le; exact Hs). exact H2. }
        do 5 (split; [assumption|]). intros Hx e' [<-|He'] Hlt Hn; [lia|]. apply H8; auto.
      + assert (Hen : e < n) by (apply tr_lt in He; exact He).
        set (st1 := mkEnEx (upd (ee_entries st) e true) (ee_exits st) (ee_prev st) (Z.of_nat e)).
        assert (R1 : forall fuel, enex_loop (Datatypes.S fuel) n 1 (Z.of_nat xw) true pf ec xc i st = enex_loop fuel n 1 (Z.of_nat xw) true pf ec xc (Datatypes.S i) st1).
        { intros fuel. cbn [enex_loop]. rewrite Ev.
          assert (Ef : (if Nat.eqb i 0 then 0 else ee_prev st + 1)%Z = (ee_prev st + 1)%Z) by (destruct (Nat.eqb_spec i 0) as [E|E]; [rewrite (Hi E); reflexivity|reflexivity]).
          rewrite Ef. replace (Z.of_nat n <=? ee_prev st + 1)%Z with false by (symmetry; apply Z.leb_gt; lia).
          unfold ec at 1, on_bars, first_choice_nb. rewrite Nat2Z.id, (find_first _ _ _ e); [|lia|exact He|].
          2:{ intros j Hj. destruct (nth j entries false) eqn:En; [|reflexivity]. exfalso. destruct (Hall j En) as [<-|Hj']; [lia|lia|]. specialize (Fe j Hj'). lia. }
          cbn [map]. replace (Z.of_nat e =? ee_prev st)%Z with false by (symmetry; apply Z.eqb_neq; lia). cbn [andb].
          replace (Z.of_nat e <? ee_prev st + 1)%Z with false by (symmetry; apply Z.ltb_ge; lia).
          replace (Z.of_nat n <=? Z.of_nat e)%Z with false by (symmetry; apply Z.leb_gt; lia). rewrite Nat2Z.id. reflexivity. }
        assert (Od : Nat.even (Datatypes.S i) = false) by (rewrite Nat.even_succ, <- Nat.negb_even, Ev; reflexivity).
        assert (T1 : forall b, tr (ee_entries st1) b <-> tr (ee_entries st) b \/ b = e) by (intros b; cbn [ee_entries st1]; rewrite tr_upd, Le; intuition).
        assert (Bent : forall b, tr (ee_entries st1) b <-> tr (ee_entries st) b \/ ((ee_prev st < Z.of_nat b)%Z /\ tr entries b /\ tr (ee_entries st1) b)).
        { intros b. rewrite T1. split; [intros [H| ->]; [left; exact H|right; repeat split; [exact Hs|exact He|right; reflexivity]]|intros [H|(_ & _ & H)]; auto]. }
        assert (Bext : forall b, tr (ee_exits st) b <-> tr (ee_exits st) b \/ ((ee_prev st < Z.of_nat b)%Z /\ tr (ee_exits st) b)) by (intros b; split; [auto|intros [H|[_ H]]; auto]).
        assert (Hnoexit : ~ exited (ee_exits st) e) by (intros (x & Hx & Hle); specialize (Bx x Hx); lia).
        destruct (Nat.ltb_spec (e + xw) n) as [Hw|Hw].
        2:{ (* no bar to exit at *)
          exists st1, (ee_exits st), (ee_prev st). split.
          { intros [|[|fuel]] Hf; try (cbn [List.length] in Hf; lia). rewrite R1. cbn [enex_loop]. rewrite Od. cbn [ee_prev st1].
            replace (Z.of_nat n <=? Z.of_nat e + Z.of_nat xw)%Z with true by (symmetry; apply Z.leb_le; lia). reflexivity. }
          split. { apply loop_late. constructor; [exact Hw|]. apply Forall_forall. intros b Hb. specialize (Fe b Hb). lia. }
          cbn [ee_entries ee_exits st1]. split; [rewrite upd_length; exact Le|]. split; [exact Bent|]. split; [exact Bext|]. split; [auto|]. split; [auto|].
          intros Hx. exfalso. apply Hnoexit. apply Hx; [apply T1; right; reflexivity|exact Hs]. }
        destruct (c (e + xw) n) as [|a g] eqn:Ec.
        { (* no exit found *)
          destruct (loop_grows es (Datatypes.S k) (ee_exits st) (ee_prev st) Lx) as (x' & p' & E' & Hg).
          exists st1, x', p'. split.
          { intros [|[|fuel]] Hf; try (cbn [List.length] in Hf; lia). rewrite R1. cbn [enex_loop]. rewrite Od. cbn [ee_prev st1].
            replace (Z.of_nat n <=? Z.of_nat e + Z.of_nat xw)%Z with false by (symmetry; apply Z.leb_gt; lia).
            unfold xc, on_bars. replace (Z.to_nat (Z.of_nat e + Z.of_nat xw)) with (e + xw) by lia. rewrite Nat2Z.id, Ec. reflexivity. }
          split. { cbn [ex_loop]. rewrite step_cases. replace (Z.of_nat e <=? ee_prev st)%Z with false by (symmetry; apply Z.leb_gt; exact Hs).
                   destruct (Nat.ltb_spec (e + xw) n); [|lia]. rewrite Ec. exact E'. }
          cbn [ee_entries ee_exits st1]. split; [rewrite upd_length; exact Le|]. split; [exact Bent|]. split; [exact Bext|]. split; [exact Hg|]. split.
          - intros Hx. exfalso. apply Hnoexit. apply Hx; [apply T1; right; reflexivity|exact Hs|exact Hw].
          - intros Hx. exfalso. apply Hnoexit. apply Hx; [apply T1; right; reflexivity|exact Hs]. }
        set (G := a :: g) in *.
        assert (HG : G <> []) by discriminate.
        assert (Gb : forall j, In j G -> e + xw <= j < n) by (intros j Hj; rewrite <- Ec in Hj; apply Hin in Hj; lia).
        destruct (chosen_in _ _ Ec HG) as [C1 C2]. pose proof (Gb _ C1) as C3.
        set (st2 := mkEnEx (upd (ee_entries st) e true) (marked (ee_exits st) G) (Z.of_nat e) (Z.of_nat (chosen G))).
        assert (R2 : forall fuel, enex_loop (Datatypes.S (Datatypes.S fuel)) n 1 (Z.of_nat xw) true pf ec xc i st = enex_loop fuel n 1 (Z.of_nat xw) true pf ec xc (Datatypes.S (Datatypes.S i)) st2).
        { intros fuel. rewrite R1. cbn [enex_loop]. rewrite Od. cbn [ee_prev ee_prev_prev ee_entries ee_exits st1].
          replace (Z.of_nat n <=? Z.of_nat e + Z.of_nat xw)%Z with false by (symmetry; apply Z.leb_gt; lia).
          assert (Ex : xc (Datatypes.S i) (Z.of_nat e + Z.of_nat xw)%Z (Z.of_nat n) = map Z.of_nat G)
            by (unfold xc, on_bars; replace (Z.to_nat (Z.of_nat e + Z.of_nat xw)) with (e + xw) by lia; rewrite Nat2Z.id, Ec; reflexivity).
          rewrite Ex. unfold G at 1. cbn [map].
          replace (Z.of_nat e =? ee_prev st)%Z with false by (symmetry; apply Z.eqb_neq; lia). rewrite andb_false_r.
          pose proof (Gb a (or_introl eq_refl)) as Ga.
          replace (Z.of_nat a <? Z.of_nat e + Z.of_nat xw)%Z with false by (symmetry; apply Z.ltb_ge; lia).
          unfold G at 1 3. rewrite last_map. fold G.
          replace (if pf then Z.of_nat a else Z.of_nat (last G 0)) with (Z.of_nat (chosen G)) by (unfold chosen; destruct pf; reflexivity).
          replace (Z.of_nat n <=? Z.of_nat (chosen G))%Z with false by (symmetry; apply Z.leb_gt; lia).
          unfold st2, marked. rewrite Nat2Z.id. destruct pf; reflexivity. }
        assert (Gt : forall x, tr (marked (ee_exits st) G) x <-> tr (ee_exits st) x \/ (if pf then x = hd 0 G else In x G)) by (intros x; apply marked_tr; auto; intros j Hj; apply Gb; exact Hj).
        assert (Gch : tr (marked (ee_exits st) G) (chosen G)).
        { apply Gt. right. unfold chosen. destruct pf; [reflexivity|]. apply last_In. }
        assert (Gin : forall x, (if pf then x = hd 0 G else In x G) -> e + xw <= x <= chosen G).
        { intros x Hx. pose proof (C2 x Hx). split; [|assumption]. apply Gb. destruct pf; [subst x; left; reflexivity|exact Hx]. }
        destruct (IH (Datatypes.S k) (Datatypes.S (Datatypes.S i)) st2) as (r & x' & p' & H1 & H2 & H3 & H4 & H5 & H6 & H7 & H8); auto;
          cbn [ee_prev ee_entries ee_exits st2] in *.
        { discriminate. }
        { lia. }
        { intros b Hb Hlt. destruct (Hall b Hb) as [->|H]; [lia|lia|exact H]. }
        { rewrite upd_length. exact Le. }
        { rewrite marked_length. exact Lx. }
        { intros b Hb. apply T1 in Hb as [Hb| ->]; [specialize (Be b Hb)|]; lia. }
        { intros b Hb. apply Gt in Hb as [Hb|Hb]; [specialize (Bx b Hb); lia|]. specialize (Gin b Hb). lia. }
        exists r, x', p'. split.
        { intros [|[|fuel]] Hf; try (cbn [List.length] in Hf; lia). rewrite R2. apply H1. cbn [List.length] in Hf. lia. }
        split. { cbn [ex_loop]. rewrite step_cases. replace (Z.of_nat e <=? ee_prev st)%Z with false by (symmetry; apply Z.leb_gt; exact Hs).
                 destruct (Nat.ltb_spec (e + xw) n); [|lia]. rewrite Ec. exact H2. }
        split; [exact H3|].
        assert (Hre : tr (ee_entries r) e) by (apply H4; left; apply T1; right; reflexivity).
        split.
        { intros b. split; [|intros [H|(_ & _ & H)]; [apply H4; left; apply T1; left; exact H|exact H]].
          intros H. pose proof H as H0. apply H4 in H as [H|(A & B & C)]; [apply T1 in H as [H| ->]; [left; exact H|right; auto]|].
          right. split; [lia|]. auto. }
        split.
        { intros b. split; [|intros [H|(_ & H)]; [apply H5; left; apply Gt; left; exact H|exact H]].
          intros H. pose proof H as H0. apply H5 in H as [H|(A & C)]; [apply Gt in H as [H|H]; [left; exact H|right]|].
          - specialize (Gin b H). split; [lia|exact H0].
          - right. split; [lia|exact C]. }
        split; [exact H6|]. split.
        { intros Hx. apply H7. intros b Hb Hlt. apply Hx; [exact Hb|lia]. }
        intros Hx b [<-|Hb] Hlt Hn; [contradiction|].
        destruct (Nat.le_gt_cases b (chosen G)) as [Hbc|Hbc].
        * exists e, (chosen G). split; [exact Hs|]. split; [exact Hre|]. split; [apply H5; left; exact Gch|]. split; [specialize (Fe b Hb); lia|].
          intros e1 H. apply H4 in H as [H|(A & _)]; [apply T1 in H as [H| ->]; [specialize (Be e1 H)|]|]; lia.
        * destruct (H8) with (e := b) as (e0 & x & A & B); auto; [intros e1 H Hl; apply Hx; [exact H|lia]|lia|].
          exists e0, x. split; [lia|exact B].
  Qed.

  Theorem one_after_another_ok :
    exists new_entries new_exits exits,
      (forall fuel, 2 * List.length entries + 1 <= fuel ->
         generate_enex_fuel fuel n 1 (Z.of_nat xw) true pf ec xc = Some (Ok (new_entries, new_exits))) /\
      generate_ex_nb entries (Z.of_nat xw) false true pf xc = Ok exits /\
      one_after_another entries exits new_entries new_exits xw.
  Proof.
    destruct (enex_main (flatnonzero entries) 0 0 (mkEnEx (repeat false n) (repeat false n) (-2) (-1))) as (r & x' & p' & H1 & H2 & H3 & H4 & H5 & H6 & H7 & H8);
      cbn [ee_prev ee_entries ee_exits] in *; auto.
    { apply flatnonzero_sorted. }
    { apply Forall_forall. intros e. apply flatnonzero_in. }
    { lia. }
    { intros b Hb _. apply flatnonzero_in. exact Hb. }
    { apply repeat_length. }
    { apply repeat_length. }
    { intros e H. apply tr_repeat in H. contradiction. }
    { intros e H. apply tr_repeat in H. contradiction. }
    exists (ee_entries r), (ee_exits r), x'. split.
    - intros fuel Hf. unfold generate_enex_fuel. cbn [Z.eqb andb].
      rewrite H1; [reflexivity|]. assert (Hl : List.length (flatnonzero entries) <= n).
      { replace n with (List.length (seq 0 n)) by apply seq_length. apply NoDup_incl_length.
        - pose proof (flatnonzero_sorted entries) as S. clear -S. induction S as [|a l S IH F]; constructor; [|exact IH].
          intros H. rewrite Forall_forall in F. specialize (F _ H). lia.
        - intros b Hb. apply flatnonzero_in, tr_lt in Hb. apply in_seq. fold n in Hb. lia. }
      unfold n in Hl. lia.
    - split. { unfold generate_ex_nb. fold n. rewrite H2. reflexivity. }
      unfold one_after_another. fold n. split; [exact H3|]. split.
      { intros e He. apply H4 in He as [He|(_ & He & _)]; [apply tr_repeat in He; contradiction|exact He]. }
      split; [exact H6|]. split; [intros Hx; apply H7; intros e He _; apply Hx; exact He|].
      intros Hx e He Hn. destruct (H8 (fun e' A _ => Hx e' A) e) as (e0 & x & _ & H); [apply flatnonzero_in; exact He|lia|exact Hn|]. eauto.
  Qed.
End OneAfterAnother.

Lemma filter_sorted : forall (f : nat -> bool) l, StronglySorted lt l -> StronglySorted lt (filter f l).
Proof.
  induction l as [|a l IH]; intros S; [constructor|]. apply StronglySorted_inv in S as [S F]. cbn [filter]. destruct (f a); [|auto].
  constructor; [auto|]. apply Forall_forall. intros b Hb. apply filter_In in Hb as [Hb _]. rewrite Forall_forall in F. auto.
Qed.
Lemma seq_sorted : forall m from, StronglySorted lt (seq from m).
Proof.
  induction m as [|m IH]; intros from; [constructor|]. cbn [seq]. constructor; [apply IH|]. apply Forall_forall. intros b Hb. apply in_seq in Hb. lia.
Qed.
Lemma first_sorted : forall (l : list nat), StronglySorted lt l -> StronglySorted lt (firstn 1 l).
Proof. intros [|a l] S; [constructor|]. cbn. constructor; constructor. Qed.
Lemma in_first : forall {A} (l : list A) i, In i (firstn 1 l) -> In i l.
Proof. intros A [|a l] i H; [contradiction|]. destruct H as [<-|[]]. left. reflexivity. Qed.

Section Instances.
  Context {T : Type} {N : Num T} {L : OrdLaws N}.

  Theorem stop_one_after_another : forall entries (ts stop : nat -> T) trailing xw pf,
    exists new_entries new_exits exits,
      (forall fuel, 2 * List.length entries + 1 <= fuel ->
         generate_stop_enex_fuel fuel entries ts stop trailing 1 xw pf = Some (Ok (new_entries, new_exits))) /\
      generate_stop_ex_nb entries ts stop trailing xw false true pf = Ok exits /\
      one_after_another entries exits new_entries new_exits xw.
  Proof.
    intros entries ts stop trailing xw pf.
    apply (one_after_another_ok entries xw pf (stop_choice_nb ts stop trailing xw pf)).
    - intros from to i. apply stop_choice_in.
    - intros from to. destruct (stop_choice_spec ts stop trailing xw from to) as [E1 E2].
      destruct pf; [rewrite E2; apply first_sorted|rewrite E1]; apply filter_sorted, seq_sorted.
  Qed.

  Lemma ohlc_bars_sub : forall bar args os wait pf from to, exists f : nat -> bool,
    (pf = false -> ohlc_bars (T:=T) bar args os wait pf from to = filter f (seq from (to - from))) /\
    (pf = true -> ohlc_bars bar args os wait pf from to = firstn 1 (filter f (seq from (to - from)))).
  Proof.
    intros bar args os wait pf from to. unfold ohlc_bars.
    destruct (ltb (oa_sl (args (from - wait))) zero) eqn:E1; [|destruct (ltb (oa_tp (args (from - wait))) zero) eqn:E2].
    1,2: exists (fun _ => false); assert (Ef : forall l : list nat, filter (fun _ => false) l = []) by (induction l; auto); rewrite !Ef; unfold ohlc_stop_choice_nb; rewrite E1; try rewrite E2; cbn [raise_if]; split; reflexivity.
    destruct (ohlc_choice_spec bar args os wait from to E1 E2) as [H1 H2].
    set (h := exit_at bar (args (from - wait)) os (from - wait) from) in *.
    exists (fun i => match h i with [] => false | _ => true end).
    assert (G : forall l, map (fun x => fst (fst x)) (flat_map h l) = filter (fun i => match h i with [] => false | _ => true end) l).
    { induction l as [|a l IH]; [reflexivity|]. cbn [flat_map filter]. rewrite map_app, IH. unfold h, exit_at.
      destruct (sl_reached _ _ _ _ _ a); [reflexivity|]. destruct (tp_reached _ _ _ _ a); reflexivity. }
    split; intros ->; [rewrite H1|rewrite H2]; [apply G|]. rewrite <- G. destruct (flat_map h _); reflexivity.
  Qed.

  Theorem ohlc_one_after_another : forall entries (bar : nat -> Bar T) args os xw pf,
    exists new_entries new_exits exits,
      (forall fuel, 2 * List.length entries + 1 <= fuel ->
         generate_ohlc_stop_enex_fuel fuel entries bar args os 1 xw pf = Some (Ok (new_entries, new_exits))) /\
      generate_ohlc_stop_ex_nb entries bar args os xw false true pf = Ok exits /\
      one_after_another entries exits new_entries new_exits xw.
  Proof.
    intros entries bar args os xw pf.
    apply (one_after_another_ok entries xw pf (ohlc_bars bar args os xw pf)).
    - intros from to i H. destruct (ohlc_bars_sub bar args os xw pf from to) as (f & E1 & E2).
      assert (H' : In i (filter f (seq from (to - from)))) by (destruct pf; [rewrite E2 in H by reflexivity; apply in_first; exact H|rewrite E1 in H by reflexivity; exact H]).
      apply filter_In in H' as [H' _]. apply in_seq in H'. lia.
    - intros from to. destruct (ohlc_bars_sub bar args os xw pf from to) as (f & E1 & E2).
      destruct pf; [rewrite E2 by reflexivity; apply first_sorted|rewrite E1 by reflexivity]; apply filter_sorted, seq_sorted.
  Qed.
End Instances.
