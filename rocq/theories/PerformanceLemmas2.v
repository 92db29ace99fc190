(** * Lemmas about values and returns in the order of the simulation, continued *)
From Coq Require Import ZArith QArith Qabs Bool List Arith Lia Lqa Permutation.
From Verif Require Import Base Num XQFacts MathNb GenericNb GenericSpec GenericLemmas GenericLemmas2 GenericLemmas4 ReturnsNb ReturnsSpec
  ReturnsLemmas Simulate Performance PerformanceSpec PerformanceLemmas.
Import ListNotations.
Local Open Scope nat_scope.

(** ** Values *)
Section Value.
  Variables (cash av : nat -> nat -> XQ) (cs : nat -> nat -> nat) (from len nrows : nat).
  Hypothesis Hlen : 0 < len.
  Let callv (t : nat) : XQ := av (call_bar len t) (call_col cs from len t).

  Definition vstep (s : XQ * nat) (j : nat) : XQ * nat :=
    let '(now, since) := s in
    let now := if Nat.leb len j then
                 if isnan (callv (j - len)) then now else sub now (callv (j - len))
               else now in
    let since := if isnan (callv j) then 0 else since in
    (if isnan (callv j) then now else add now (callv j), S since).
  Definition vval (s : XQ * nat) (j : nat) : XQ :=
    let '(now, since) := vstep s j in
    if Nat.ltb (since - 1) len then nan else add (cash (call_bar len j) (call_col cs from len j)) now.

  Lemma value_iso_wstep : forall s j,
    value_iso_step cash av cs from len s j = wstep vstep vval (call_bar len) (call_col cs from len) s j.
  Proof.
    intros [[now since] out] j. unfold value_iso_step, wstep, vval, vstep, callv. cbn [fst snd].
    cbn [Nat.sub]. rewrite Nat.sub_0_r. reflexivity.
  Qed.

  Definition win (n : nat) : list XQ := map callv (seq (n - len) (Nat.min n len)).

  Definition vinv (n : nat) (s : XQ * nat) : Prop :=
    (exists p, fst s = Fin p /\ (p == sum (vals (win n)))%Q) /\
    forall m, m <= len -> (snd s < m <-> exists t, t < n /\ callv t = NaN /\ n - t < m).

  Hypothesis Htame : forall t, t < nrows * len -> callv t = NaN \/ exists q, callv t = Fin q.

  Lemma win_low : forall n, n < len -> win (S n) = win n ++ [callv n].
  Proof.
    intros n Hn. unfold win. rewrite !Nat.min_l by lia.
    replace (S n - len) with 0 by lia. replace (n - len) with 0 by lia. now rewrite seq_S, map_app.
  Qed.
  Lemma win_high : forall n, len <= n -> exists l, win n = callv (n - len) :: l /\ win (S n) = l ++ [callv n].
  Proof.
    intros n Hn. exists (map callv (seq (S (n - len)) (len - 1))). unfold win. rewrite !Nat.min_r by lia.
    replace (S n - len) with (S (n - len)) by lia. destruct len as [|l]; [lia|].
    replace (S l - 1) with l by lia. split; [reflexivity|].
    rewrite seq_S, map_app. cbn [map]. do 3 f_equal. lia.
  Qed.

  Lemma sum_vals_snoc : forall l x, x = NaN \/ (exists q, x = Fin q) ->
    (sum (vals (l ++ [x])) == sum (vals l) + match x with Fin q => q | _ => 0 end)%Q.
  Proof. intros l x [->|[q ->]]; rewrite vals_app, sum_app; cbn [vals sum]; lra. Qed.

  Lemma vstep_sum : forall n s, n < nrows * len -> vinv n s -> exists p, fst (vstep s n) = Fin p /\ (p == sum (vals (win (S n))))%Q.
  Proof.
    intros n [now since] Hn [(p & E & Hp) _]. cbn [fst] in E. subst now. unfold vstep. cbn [fst].
    pose proof (Htame n Hn) as Tn.
    assert (H1 : exists p1 l, (if Nat.leb len n then if isnan (callv (n - len)) then Fin p else sub (Fin p) (callv (n - len))
        else Fin p) = Fin p1 /\ (p1 == sum (vals l))%Q /\ win (S n) = l ++ [callv n]).
    { destruct (Nat.leb_spec len n) as [L|L].
      - destruct (win_high n L) as (l & E1 & E2). rewrite E1 in Hp.
        destruct (Htame (n - len)) as [E|[q E]]; [lia| |]; rewrite E in *; cbn [isnan XQnum xq_isnan vals sum] in *.
        + exists p, l. auto.
        + rewrite sub_fin. eexists _, l. split; [reflexivity|]. split; auto. rewrite Qred_correct, Hp. ring.
      - exists p, (win n). split; auto. split; auto. now apply win_low. }
    destruct H1 as (p1 & l & -> & H1 & ->). pose proof (sum_vals_snoc l _ Tn) as HS.
    destruct Tn as [E|[q E]]; rewrite E in *; cbn [isnan XQnum xq_isnan] in *.
    - exists p1. split; auto. rewrite HS, H1. ring.
    - rewrite add_fin. eexists. split; [reflexivity|]. rewrite Qred_correct, HS, H1. ring.
  Qed.

  Lemma isnan_callv : forall n, n < nrows * len -> isnan (callv n) = true <-> callv n = NaN.
  Proof.
    intros n Hn. destruct (Htame n Hn) as [->|[q ->]]; cbn [isnan XQnum xq_isnan]; split; congruence.
  Qed.

  Lemma vstep_inv : forall n s, n < nrows * len -> vinv n s -> vinv (S n) (vstep s n).
  Proof.
    intros n s Hn HI. split; [now apply vstep_sum|]. destruct s as [now since]. destruct HI as [_ HI].
    unfold vstep. cbn [snd] in *. intros m Hm. pose proof (isnan_callv n Hn) as HN.
    destruct (isnan (callv n)) eqn:E.
    - split.
      + intros H. exists n. split; [lia|]. split; [now apply HN|lia].
      + intros (t & Ht & _ & H). lia.
    - destruct m as [|m]; [split; [lia|intros (t & ? & ? & ?); lia]|].
      rewrite <- Nat.succ_lt_mono, (HI m) by lia. split; intros (t & Ht & EN & H).
      + exists t. split; [lia|]. split; auto. lia.
      + assert (t <> n) by (intros ->; apply HN in EN; discriminate).
        exists t. split; [lia|]. split; auto. lia.
  Qed.

  Lemma vstate_inv : forall n, n <= nrows * len -> vinv n (fold_left vstep (seq 0 n) (zero, len)).
  Proof.
    induction n as [|n IH]; intros Hn.
    - cbn [seq fold_left]. split.
      + exists 0%Q. split; [reflexivity|]. unfold win. cbn [Nat.min seq map vals sum]. reflexivity.
      + cbn [snd]. intros m Hm. split; [lia|intros (t & H & _); lia].
    - rewrite seq_S, fold_left_app. cbn [fold_left Nat.add]. apply vstep_inv; [lia|]. apply IH. lia.
  Qed.

  Lemma win_nan : forall n, In NaN (win n) <-> exists t, t < n /\ callv t = NaN /\ n - t <= len.
  Proof.
    intros n. unfold win. rewrite in_map_iff. split.
    - intros (t & E & Ht). apply in_seq in Ht. exists t. split; [lia|]. split; auto. lia.
    - intros (t & Ht & E & H). exists t. split; auto. apply in_seq. lia.
  Qed.

  Lemma vval_worth : forall j q, j < nrows * len -> cash (call_bar len j) (call_col cs from len j) = Fin q ->
    worth q (win (S j)) (vval (fold_left vstep (seq 0 j) (zero, len)) j).
  Proof.
    intros j q Hj Hq. pose proof (vstate_inv j (Nat.lt_le_incl _ _ Hj)) as HI.
    set (s := fold_left vstep (seq 0 j) (zero, len)) in *.
    pose proof (vstep_sum j s Hj HI) as (p & Ep & Hp). pose proof (vstep_inv j s Hj HI) as [_ HS].
    unfold vval. destruct (vstep s j) as [now since] eqn:Es. cbn [fst snd] in *. subst now.
    assert (Hs : 1 <= since). { unfold vstep in Es. destruct s. injection Es as _ <-. lia. }
    assert (Hlt : since - 1 < len <-> In NaN (win (S j))).
    { rewrite win_nan. destruct s as [nw sc]. destruct HI as [_ HI]. cbn [snd] in HI. unfold vstep in Es. injection Es as _ Es.
      change xq_isnan with (@isnan XQ XQnum) in Es.
      pose proof (isnan_callv j Hj) as HN. destruct (isnan (callv j)) eqn:E.
      - split; [intros _|intros _; subst since; lia]. exists j. split; [lia|]. split; [now apply HN|lia].
      - subst since. replace (S sc - 1) with sc by lia. rewrite (HI len) by lia. split; intros (t & Ht & EN & H).
        + exists t. split; [lia|]. split; auto. lia.
        + assert (t <> j) by (intros ->; apply HN in EN; discriminate). exists t. split; [lia|]. split; auto. lia. }
    unfold worth. destruct (Nat.ltb_spec (since - 1) len) as [L|L].
    - split; auto. intros H. exfalso. apply H. now apply Hlt.
    - split; [intros H; apply Hlt in H; lia|]. intros _. rewrite Hq, add_fin. eexists. split; [reflexivity|].
      rewrite Qred_correct, Hp. reflexivity.
  Qed.
End Value.

(** The order, split at a column *)
Lemma up_to_nth : forall l k c, NoDup l -> nth_error l k = Some c -> up_to c l = firstn (S k) l /\ after c l = skipn (S k) l.
Proof.
  induction l as [|x l IH]; intros k c ND Hk; [destruct k; discriminate|]. inversion ND as [|? ? Hx ND']; subst.
  cbn [up_to after]. destruct k as [|k].
  - injection Hk as ->. rewrite Nat.eqb_refl. now split.
  - cbn [nth_error] in Hk. assert (x <> c) by (intros ->; apply Hx; eapply nth_error_In; eauto).
    rewrite (proj2 (Nat.eqb_neq x c)) by auto. destruct (IH k c ND' Hk) as [E1 E2]. rewrite E1, E2. now split.
Qed.

Lemma map_seq_shift : forall {A} (f : nat -> A) m n, map f (seq m n) = map (fun k => f (m + k)) (seq 0 n).
Proof.
  intros A f m n. induction n as [|n IH]; [reflexivity|]. rewrite !seq_S, !map_app, IH. reflexivity.
Qed.
Lemma firstn_map_seq : forall {A} (f : nat -> A) k n, k <= n -> firstn k (map f (seq 0 n)) = map f (seq 0 k).
Proof.
  intros A f k n H. rewrite firstn_map. f_equal. replace n with (k + (n - k)) by lia. rewrite seq_app, firstn_app, seq_length.
  replace (k - k) with 0 by lia. rewrite firstn_O, app_nil_r. rewrite <- (seq_length k 0) at 1. apply firstn_all.
Qed.
Lemma skipn_map_seq : forall {A} (f : nat -> A) k n, k <= n -> skipn k (map f (seq 0 n)) = map f (seq k (n - k)).
Proof.
  intros A f k n H. rewrite skipn_map. f_equal. replace n with (k + (n - k)) at 1 by lia. rewrite seq_app, skipn_app, seq_length.
  replace (k - k) with 0 by lia. rewrite <- (seq_length k 0) at 1. rewrite skipn_all. reflexivity.
Qed.

Lemma worth_swap : forall q l1 l2 y, worth q (l1 ++ l2) y -> worth q (l2 ++ l1) y.
Proof.
  intros q l1 l2 y [H1 H2]. split; intros H.
  - apply H1. rewrite in_app_iff in *. tauto.
  - destruct H2 as (p & E & Hp); [rewrite in_app_iff in *; tauto|]. exists p. split; auto.
    rewrite Hp, !vals_app, !sum_app. ring.
Qed.

Lemma win_latest : forall av cs from len nrows i k c q y, 0 < len ->
  (forall i, i < nrows -> Permutation (order_at cs from len i) (seq from len)) ->
  i < nrows -> k < len -> nth_error (order_at cs from len i) k = Some c ->
  (i = 0 \/ order_at cs from len i = order_at cs from len (i - 1) \/ k = len - 1) ->
  worth q (win av cs from len (S (i * len + k))) y ->
  worth q (latest av (order_at cs from len i) i c) y.
Proof.
  intros av cs from len nrows i k c q y Hlen Hp Hi Hk Hc Hor.
  destruct (up_to_nth _ _ _ (order_NoDup cs from len nrows Hp i Hi) Hc) as [Eu Ea].
  unfold latest. rewrite Eu, Ea. unfold win.
  set (cv := fun t => av (call_bar len t) (call_col cs from len t)).
  assert (HU : map cv (seq (i * len) (S k)) = map (av i) (firstn (S k) (order_at cs from len i))).
  { unfold order_at. rewrite firstn_map_seq by lia. rewrite map_seq_shift, map_map. apply map_ext_in.
    intros t Ht. apply in_seq in Ht. unfold cv. destruct (call_at cs from len Hlen i t) as [-> ->]; auto. lia. }
  destruct i as [|p].
  - cbn [Nat.mul Nat.add] in *. rewrite app_nil_r, <- HU. replace (S k - len) with 0 by lia. now rewrite Nat.min_l by lia.
  - assert (HA : map cv (seq (p * len + S k) (len - S k)) = map (av p) (skipn (S k) (order_at cs from len p))).
    { unfold order_at. rewrite skipn_map_seq by lia. rewrite map_map, map_seq_shift.
      rewrite (map_seq_shift _ (S k)). apply map_ext_in. intros t Ht. apply in_seq in Ht. unfold cv.
      replace (p * len + S k + t) with (p * len + (S k + t)) by lia.
      destruct (call_at cs from len Hlen p (S k + t)) as [-> ->]; auto. lia. }
    assert (EW : map cv (seq (S (S p * len + k) - len) (Nat.min (S (S p * len + k)) len)) =
      map (av p) (skipn (S k) (order_at cs from len p)) ++ map (av (S p)) (firstn (S k) (order_at cs from len (S p)))).
    { rewrite <- HU, <- HA, <- map_app. f_equal. rewrite Nat.min_r by lia.
      replace (S (S p * len + k) - len) with (p * len + S k) by lia.
      replace (S p * len) with (p * len + S k + (len - S k)) by lia. rewrite <- seq_app. f_equal. lia. }
    rewrite EW. destruct Hor as [|[E| ->]]; [lia| |].
    + replace (S p - 1) with p in E by lia. rewrite <- E. apply worth_swap.
    + assert (Ek : S (len - 1) = len) by lia. rewrite Ek.
      rewrite !skipn_all2 by (unfold order_at; rewrite map_length, seq_length; lia). cbn [map app]. now rewrite app_nil_r.
Qed.

Lemma fold_left_ext_all : forall {A B} (f g : A -> B -> A) l a, (forall a b, f a b = g a b) -> fold_left f l a = fold_left g l a.
Proof. intros A B f g l. induction l as [|b l IH]; intros a H; [reflexivity|]. cbn [fold_left]. now rewrite H, IH. Qed.

Lemma group_pos : forall (lens : list nat) g len c, nth_error lens g = Some len -> first_col lens g <= c < first_col lens g + len -> 0 < len.
Proof. intros. lia. Qed.

Lemma body_untouched : forall {St T} (f : St -> nat -> St) (val : St -> nat -> T) cs from len nrows s0 o i c,
  (forall i, i < nrows -> Permutation (order_at cs from len i) (seq from len)) ->
  ~ (from <= c < from + len) ->
  snd (fold_left (wstep f val (call_bar len) (call_col cs from len)) (seq 0 (nrows * len)) (s0, o)) i c = o i c.
Proof.
  intros St T f val cs from len nrows s0 o i c Hp Hc. apply w_untouched. intros j Hj [_ ->]. apply Hc.
  apply (call_col_range cs from len nrows); auto. destruct len; lia.
Qed.

Lemma value_written : forall nrows ncols cash av lens cs empty out g len i k c q,
  value_in_sim_order_nb nrows ncols cash av lens cs empty = Ok out ->
  each_called_once cs lens nrows -> nth_error lens g = Some len -> i < nrows ->
  nth_error (order_at cs (first_col lens g) len i) k = Some c ->
  (forall i c, i < nrows -> first_col lens g <= c < first_col lens g + len -> av i c = NaN \/ exists v, av i c = Fin v) ->
  cash i c = Fin q ->
  worth q (win av cs (first_col lens g) len (S (i * len + k))) (out i c).
Proof.
  intros nrows ncols cash av lens cs empty out g len i k c q HO Hcs Hg Hi Hk Htame Hq.
  unfold value_in_sim_order_nb, with_group_lens in HO. apply raise_if_ok in HO. destruct HO as [_ HO].
  injection HO as <-.
  assert (Hkl : k < len).
  { apply nth_error_Some_lt in Hk || (assert (k < length (order_at cs (first_col lens g) len i)) by (apply nth_error_Some; congruence));
    unfold order_at in *; rewrite ?map_length, ?seq_length in *; lia. }
  assert (Hp : forall i, i < nrows -> Permutation (order_at cs (first_col lens g) len i) (seq (first_col lens g) len)) by (intros; now apply Hcs).
  assert (Hc : first_col lens g <= c < first_col lens g + len).
  { apply (order_in cs (first_col lens g) len nrows ltac:(lia) Hp i); auto. eapply nth_error_In; eauto. }
  set (body := fun (_ from_col l : nat) (o : nat -> nat -> XQ) => snd (fold_left (value_iso_step cash av cs from_col l) (seq 0 (nrows * l)) (zero, l, o))).
  destruct (over_groups_in body lens 0 0 empty g len i c) as (a' & E); auto.
  { intros g' l a i' c' Hg' Hc'. cbn [Nat.add] in *. unfold body. rewrite (fold_left_ext_all _ _ _ _ (value_iso_wstep cash av cs _ _)).
    apply body_untouched; auto. }
  cbn [Nat.add] in E.
  match goal with |- worth _ _ ?x => change x with (over_groups body 0 0 lens empty i c) end.
  rewrite E. unfold body.
  rewrite (fold_left_ext_all _ _ _ _ (value_iso_wstep cash av cs _ _)).
  assert (Hlen : 0 < len) by lia.
  assert (HJ : i * len + k < nrows * len) by nia.
  destruct (call_at cs (first_col lens g) len Hlen i k Hkl) as [Eb Ec].
  rewrite order_nth in Hk by auto. injection Hk as Hk. rewrite Hk in Ec.
  pose proof (w_written (vstep av cs (first_col lens g) len) (vval cash av cs (first_col lens g) len)
    (call_bar len) (call_col cs (first_col lens g) len) (nrows * len) (zero, len) a' (i * len + k) HJ) as HW.
  rewrite Eb, Ec in HW. rewrite HW.
  - apply vval_worth with (nrows := nrows); auto.
    + intros t Ht. apply Htame; [apply (call_bar_lt len nrows); auto|]. apply (call_col_range cs _ len nrows); auto.
    + now rewrite Eb, Ec.
  - intros j' Hj' [E1 E2]. rewrite <- Eb in E1. rewrite <- Ec in E2.
    pose proof (call_inj cs _ len nrows Hlen Hp (i * len + k) j' HJ ltac:(lia) E1 E2). lia.
Qed.

Lemma value_while_simulating : forall nrows ncols cash av lens cs empty out g len i c q,
  value_in_sim_order_nb nrows ncols cash av lens cs empty = Ok out ->
  each_called_once cs lens nrows -> nth_error lens g = Some len -> i < nrows ->
  first_col lens g <= c < first_col lens g + len ->
  (forall i c, i < nrows -> first_col lens g <= c < first_col lens g + len -> av i c = NaN \/ exists v, av i c = Fin v) ->
  cash i c = Fin q ->
  let order := order_at cs (first_col lens g) len in
  i = 0 \/ order i = order (i - 1) \/ last (order i) 0 = c ->
  worth q (latest av (order i) i c) (out i c).
Proof.
  intros nrows ncols cash av lens cs empty out g len i c q HO Hcs Hg Hi Hc Htame Hq order Hor.
  assert (Hp : forall i, i < nrows -> Permutation (order_at cs (first_col lens g) len i) (seq (first_col lens g) len)) by (intros; now apply Hcs).
  pose proof (proj2 (order_in cs (first_col lens g) len nrows ltac:(lia) Hp i c Hi) Hc) as Hin.
  apply In_nth_error in Hin. destruct Hin as [k Hk].
  assert (Hkl : k < len).
  { assert (k < length (order_at cs (first_col lens g) len i)) by (apply nth_error_Some; congruence).
    unfold order_at in *; rewrite ?map_length, ?seq_length in *; lia. }
  eapply win_latest with (k := k); eauto; [lia| |eapply value_written; eauto].
  destruct Hor as [|[|HL]]; auto. right; right.
  pose proof (order_NoDup cs _ len nrows Hp i Hi) as ND. rewrite NoDup_nth_error in ND. apply ND.
  - unfold order_at. rewrite map_length, seq_length. exact Hkl.
  - rewrite Hk. unfold order in HL. rewrite <- HL. symmetry.
    assert (L : length (order_at cs (first_col lens g) len i) = len) by (unfold order_at; now rewrite map_length, seq_length).
    destruct (order_at cs (first_col lens g) len i) as [|x l] using rev_ind; [cbn in L; lia|].
    rewrite app_length in L. cbn [length] in L. rewrite last_last, nth_error_app2 by lia.
    replace (len - 1 - length l) with 0 by lia. reflexivity.
Qed.

(** ** Returns *)
Lemma returns_iso_wstep : forall {T} {N : Num T} (v : nat -> nat -> T) cs from len s j,
  returns_iso_step v cs from len s j =
  wstep (fun _ j => v (call_bar len j) (call_col cs from len j))
    (fun s j => get_return_nb s (v (call_bar len j) (call_col cs from len j)))
    (call_bar len) (call_col cs from len) s j.
Proof. intros T N v cs from len [x o] j. reflexivity. Qed.

Lemma returns_while_simulating : forall {T} {N : Num T} nrows ncols (v : nat -> nat -> T) lens init cs empty out g len,
  returns_in_sim_order_nb nrows ncols v lens init cs empty = Ok out ->
  each_called_once cs lens nrows -> nth_error lens g = Some len ->
  let in_order a := map (fun b => a (fst b) (snd b)) (calls cs (first_col lens g) len nrows) in
  in_order out = returns_1d_nb (in_order v) (init g).
Proof.
  intros T N nrows ncols v lens init cs empty out g len HO Hcs Hg in_order.
  unfold returns_in_sim_order_nb, with_group_lens in HO. apply raise_if_ok in HO. destruct HO as [_ HO]. injection HO as <-.
  assert (Hp : forall i, i < nrows -> Permutation (order_at cs (first_col lens g) len i) (seq (first_col lens g) len)) by (intros; now apply Hcs).
  unfold in_order. destruct (Nat.eq_dec len 0) as [Z|Hlen].
  { subst len. assert (E : calls cs (first_col lens g) 0 nrows = []).
    { unfold calls. induction (seq 0 nrows) as [|x l IH]; [reflexivity|]. exact IH. }
    rewrite E. reflexivity. }
  rewrite (calls_enumerated cs (first_col lens g) len) by lia. rewrite !map_map. cbn [fst snd].
  set (f := first_col lens g) in *. set (cv := fun j => v (call_bar len j) (call_col cs f len j)).
  apply nth_error_ext'. intros j.
  destruct (Nat.lt_ge_cases j (nrows * len)) as [L|L].
  2:{ rewrite !(proj2 (nth_error_None _ _)); auto; rewrite ?returns_length, ?map_length, ?seq_length; auto. }
  assert (Hv : nth_error (map cv (seq 0 (nrows * len))) j = Some (cv j)).
  { rewrite nth_error_map, (nth_error_nth' _ 0) by (rewrite seq_length; lia). rewrite seq_nth by lia. reflexivity. }
  rewrite (returns_nth _ (init g) j _ Hv).
  rewrite nth_error_map, (nth_error_nth' _ 0) by (rewrite seq_length; lia). rewrite seq_nth by lia.
  cbn [option_map Nat.add]. f_equal.
  set (body := fun (group from_col l : nat) (o : nat -> nat -> T) => snd (fold_left (returns_iso_step v cs from_col l) (seq 0 (nrows * l)) (init group, o))).
  destruct (over_groups_in body lens 0 0 empty g len (call_bar len j) (call_col cs f len j)) as (a' & E); auto.
  { intros g' l a i' c' Hg' Hc'. cbn [Nat.add] in *. unfold body. rewrite (fold_left_ext_all _ _ _ _ (returns_iso_wstep v cs _ _)).
    apply body_untouched; auto. }
  { cbn [Nat.add]. apply (call_col_range cs f len nrows); auto. lia. }
  cbn [Nat.add] in E. etransitivity; [exact E|]. unfold body. rewrite (fold_left_ext_all _ _ _ _ (returns_iso_wstep v cs _ _)).
  fold f. rewrite w_written; auto.
  - f_equal. unfold previous. destruct j as [|j]; [reflexivity|].
    rewrite seq_S, fold_left_app. cbn [fold_left Nat.add].
    rewrite (nth_indep _ _ (cv 0)) by (rewrite map_length, seq_length; lia).
    rewrite map_nth, seq_nth by lia. reflexivity.
  - intros j' Hj' [E1 E2]. pose proof (call_inj cs f len nrows ltac:(lia) Hp j j' ltac:(lia) ltac:(lia) E1 E2). lia.
Qed.
