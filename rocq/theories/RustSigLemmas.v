(** * Rust signal analysis: lemmas *)
From Coq Require Import ZArith Bool List Arith String Lia.
From Verif Require Import Base Num SignalsNb RustSigOps RustSigSpec.
Import ListNotations.
Open Scope list_scope.
Open Scope Z_scope.

Lemma rows_from_app : forall A (l1 l2 : list A) i, rows_from i (l1 ++ l2) = rows_from i l1 ++ rows_from (i + Z.of_nat (List.length l1)) l2.
Proof.
  induction l1 as [|x l1 IH]; intros l2 i; cbn [rows_from app List.length].
  - now rewrite Z.add_0_r.
  - rewrite IH. do 3 f_equal. lia.
Qed.

(** ** Records *)
Definition recs (c k : Z) (rs : list Range) : list RangeRecord :=
  map (fun ir => mkRR (fst ir) c (Z.of_nat (rg_start (snd ir))) (Z.of_nat (rg_end (snd ir))) (rg_closed (snd ir))) (rows_from k rs).
Definition grow (st : Z * list RangeRecord) (c : Z) (rs : list Range) : Z * list RangeRecord :=
  (fst st + Z.of_nat (List.length rs), snd st ++ recs c (fst st) rs).

Lemma grow_nil : forall st c, grow st c [] = st.
Proof. intros [k o] c. unfold grow. cbn. rewrite app_nil_r. f_equal. lia. Qed.
Lemma grow_app : forall st c r1 r2, grow (grow st c r1) c r2 = grow st c (r1 ++ r2).
Proof.
  intros [k o] c r1 r2. unfold grow, recs. cbn [fst snd]. rewrite app_length, rows_from_app, map_app, app_assoc. f_equal. lia.
Qed.
Lemma push_grow : forall st c s e b, rs_push st c (Z.of_nat s) (Z.of_nat e) b = grow st c [mkRange s e b].
Proof. intros [k o] c s e b. reflexivity. Qed.

(** the columns from [c] on *)
Fixpoint from_columns {A} (f : A -> list Range) (c : nat) (cols : list A) : list (nat * Range) :=
  match cols with [] => [] | a :: cols => map (pair c) (f a) ++ from_columns f (S c) cols end.

Lemma ranges_of_columns_from : forall A (f : A -> list Range) cols, ranges_of_columns f cols = from_columns f 0 cols.
Proof.
  intros A f cols. unfold ranges_of_columns.
  assert (H : forall post pre, flat_map (fun c => match nth_error (pre ++ post) c with Some a => map (pair c) (f a) | None => [] end) (seq (List.length pre) (List.length post)) = from_columns f (List.length pre) post).
  { induction post as [|a post IH]; intros pre; [reflexivity|]. cbn [List.length seq flat_map from_columns].
    rewrite nth_error_app2, Nat.sub_diag by lia. cbn [nth_error]. f_equal.
    specialize (IH (pre ++ [a])). rewrite <- app_assoc in IH. cbn [app] in IH. rewrite app_length in IH. cbn [List.length] in IH.
    replace (S (List.length pre)) with (List.length pre + 1)%nat by lia. exact IH. }
  exact (H cols []).
Qed.

Definition rec_of (k : Z) (cr : nat * Range) : RangeRecord :=
  mkRR k (Z.of_nat (fst cr)) (Z.of_nat (rg_start (snd cr))) (Z.of_nat (rg_end (snd cr))) (rg_closed (snd cr)).

Lemma recs_pair : forall rs c k, recs (Z.of_nat c) k rs = map (fun ix => rec_of (fst ix) (snd ix)) (rows_from k (map (pair c) rs)).
Proof.
  induction rs as [|r rs IH]; intros c k; [reflexivity|]. unfold recs in *. cbn [rows_from map]. rewrite IH. reflexivity.
Qed.

Lemma over_columns_fold : forall A (body : Z -> A -> Z * list RangeRecord -> Z * list RangeRecord) (f : A -> list Range),
  (forall c a st, body c a st = grow st c (f a)) ->
  forall cols c k out,
    fold_left (fun st c => body (fst c) (snd c) st) (rows_from (Z.of_nat c) cols) (k, out)
    = (k + Z.of_nat (List.length (from_columns f c cols)), out ++ map (fun ix => rec_of (fst ix) (snd ix)) (rows_from k (from_columns f c cols))).
Proof.
  intros A body f H. induction cols as [|a cols IH]; intros c k out; cbn [rows_from fold_left from_columns].
  - cbn. rewrite app_nil_r. f_equal. lia.
  - cbn [fst snd]. rewrite H. unfold grow. cbn [fst snd]. replace (Z.of_nat c + 1) with (Z.of_nat (S c)) by lia. rewrite IH.
    rewrite recs_pair, rows_from_app, map_app, app_length, map_length, <- app_assoc. f_equal. lia.
Qed.

Lemma nth_error_rows : forall A (l : list A) i k, nth_error (rows_from i l) k = option_map (fun x => (i + Z.of_nat k, x)) (nth_error l k).
Proof.
  induction l as [|x l IH]; intros i k; destruct k as [|k]; cbn [rows_from nth_error option_map]; try reflexivity.
  - now rewrite Z.add_0_r.
  - rewrite IH. destruct (nth_error l k); cbn [option_map]; [do 2 f_equal; lia|reflexivity].
Qed.
Lemma rows_from_length : forall A (l : list A) i, List.length (rows_from i l) = List.length l.
Proof. induction l as [|x l IH]; intros i; cbn; [reflexivity|now rewrite IH]. Qed.

Lemma over_columns : forall A (body : Z -> A -> Z * list RangeRecord -> Z * list RangeRecord) (f : A -> list Range),
  (forall c a st, body c a st = grow st c (f a)) -> forall cols, carries (rs_over_columns body cols) (ranges_of_columns f cols).
Proof.
  intros A body f H cols. unfold rs_over_columns, rows_of. change (rows_from 0 cols) with (rows_from (Z.of_nat 0) cols). rewrite (over_columns_fold _ body f H cols 0%nat 0 []).
  cbn [snd app]. rewrite ranges_of_columns_from. split.
  - rewrite map_length, rows_from_length. reflexivity.
  - intros k c r E. rewrite nth_error_map, nth_error_rows, E. reflexivity.
Qed.

(** ** One column *)
Lemma between_body : forall a i c st,
  (snd (fold_left (fun (ps : Z * (Z * list RangeRecord)) (x : Z * bool) =>
      let '(prev_idx, st) := ps in let '(row, v) := x in
      if v then (row, if 0 <=? prev_idx then rs_push st c prev_idx row true else st) else (prev_idx, st))
      (rows_from (Z.of_nat i) a) (-1, st)) = grow st c (pair_up (true_idxs i a))) /\
  forall p, snd (fold_left (fun (ps : Z * (Z * list RangeRecord)) (x : Z * bool) =>
      let '(prev_idx, st) := ps in let '(row, v) := x in
      if v then (row, if 0 <=? prev_idx then rs_push st c prev_idx row true else st) else (prev_idx, st))
      (rows_from (Z.of_nat i) a) (Z.of_nat p, st)) = grow st c (pair_up (p :: true_idxs i a)).
Proof.
  induction a as [|v a IH]; intros i c st; cbn [rows_from fold_left true_idxs].
  - split; intros; cbn; now rewrite grow_nil.
  - replace (Z.of_nat i + 1) with (Z.of_nat (S i)) by lia. split.
    + destruct v; [|apply IH]. cbn [Z.leb Z.compare]. apply IH.
    + intros p. destruct v; [|apply IH]. replace (0 <=? Z.of_nat p) with true by (symmetry; apply Z.leb_le; lia).
      rewrite push_grow. rewrite (proj2 (IH (S i) c _) i). rewrite grow_app. reflexivity.
Qed.

Lemma idxs_true : forall a i acc,
  fold_left (fun (idxs : list Z) (x : Z * bool) => let '(row, v) := x in if v then idxs ++ [row] else idxs) (rows_from (Z.of_nat i) a) acc
  = acc ++ map Z.of_nat (true_idxs i a).
Proof.
  induction a as [|v a IH]; intros i acc; cbn [rows_from fold_left true_idxs map].
  - now rewrite app_nil_r.
  - replace (Z.of_nat i + 1) with (Z.of_nat (S i)) by lia. destruct v; rewrite IH; [|reflexivity]. rewrite <- app_assoc. reflexivity.
Qed.
Lemma idxs_eq : forall a, rs_idxs a = map Z.of_nat (flatnonzero a).
Proof. intros a. exact (idxs_true a 0%nat []). Qed.

Lemma skipn_nth : forall (l : list nat) p, (p < List.length l)%nat -> skipn p l = nth p l 0%nat :: skipn (S p) l.
Proof.
  induction l as [|x l IH]; intros p H; cbn in H; [lia|]. destruct p as [|p]; [reflexivity|]. cbn [skipn nth]. rewrite IH by lia. reflexivity.
Qed.
Lemma nth_Z : forall (l : list nat) p, nth p (map Z.of_nat l) 0 = Z.of_nat (nth p l 0%nat).
Proof. intros l p. change 0 with (Z.of_nat 0). apply map_nth. Qed.

Lemma advance_two : forall x y a l, advance x (y :: a :: l) = if Nat.leb a x then advance x (a :: l) else y :: a :: l.
Proof. reflexivity. Qed.
Lemma advance_pos : forall fuel (l : list nat) x p, (p < List.length l)%nat -> (List.length l <= fuel + p)%nat ->
  let q := rs_advance fuel (map Z.of_nat l) (Z.of_nat x) p in
  (q < List.length l)%nat /\ skipn q l = advance x (skipn p l).
Proof.
  induction fuel as [|fuel IH]; intros l x p Hp Hf; [lia|]. cbn [rs_advance]. rewrite map_length, nth_Z.
  rewrite (skipn_nth l p Hp).
  destruct (Nat.ltb (p + 1) (List.length l)) eqn:E.
  - apply Nat.ltb_lt in E. rewrite (skipn_nth l (S p)) by lia. rewrite advance_two.
    replace (p + 1)%nat with (S p) by lia.
    destruct (Nat.leb (nth (S p) l 0%nat) x) eqn:E2.
    + apply Nat.leb_le in E2. replace (Z.of_nat (nth (S p) l 0%nat) <=? Z.of_nat x) with true by (symmetry; apply Z.leb_le; lia).
      cbn [andb]. rewrite <- (skipn_nth l (S p)) by lia. apply IH; lia.
    + apply Nat.leb_gt in E2. replace (Z.of_nat (nth (S p) l 0%nat) <=? Z.of_nat x) with false by (symmetry; apply Z.leb_gt; lia).
      cbn [andb]. split; [lia|]. rewrite <- (skipn_nth l (S p)) by lia. apply skipn_nth; lia.
  - apply Nat.ltb_ge in E. cbn [andb]. split; [lia|]. rewrite (skipn_all2 l (n:=S p)) by lia. cbn [advance].
    rewrite (skipn_nth l p Hp), (skipn_all2 l (n:=S p)) by lia. reflexivity.
Qed.

Lemma skip_pos : forall fuel (l : list nat) x p, (p <= List.length l)%nat -> (List.length l <= fuel + p)%nat ->
  let q := rs_skip fuel (map Z.of_nat l) (Z.of_nat x) p in
  (q <= List.length l)%nat /\ skipn q l = drop_below x (skipn p l).
Proof.
  induction fuel as [|fuel IH]; intros l x p Hp Hf; cbn [rs_skip].
  - split; [lia|]. rewrite skipn_all2 by lia. reflexivity.
  - rewrite map_length, nth_Z. destruct (Nat.ltb p (List.length l)) eqn:E.
    + apply Nat.ltb_lt in E. rewrite (skipn_nth l p E). cbn [drop_below].
      destruct (Nat.ltb (nth p l 0%nat) x) eqn:E2.
      * apply Nat.ltb_lt in E2. replace (Z.of_nat (nth p l 0%nat) <? Z.of_nat x) with true by (symmetry; apply Z.ltb_lt; lia).
        cbn [andb]. replace (p + 1)%nat with (S p) by lia. apply IH; lia.
      * apply Nat.ltb_ge in E2. replace (Z.of_nat (nth p l 0%nat) <? Z.of_nat x) with false by (symmetry; apply Z.ltb_ge; lia).
        cbn [andb]. split; [lia|]. apply skipn_nth; lia.
    + apply Nat.ltb_ge in E. cbn [andb]. split; [lia|]. rewrite skipn_all2 by lia. reflexivity.
Qed.

Lemma from_prev_body : forall (A B : list nat) c p st, (p < List.length A)%nat ->
  snd (fold_left (fun (ps : nat * (Z * list RangeRecord)) (to_i : Z) =>
          let '(a_pos, st) := ps in
          let a_pos := rs_advance (List.length (map Z.of_nat A)) (map Z.of_nat A) to_i a_pos in
          (a_pos, if nth a_pos (map Z.of_nat A) 0 <=? to_i then rs_push st c (nth a_pos (map Z.of_nat A) 0) to_i true else st)) (map Z.of_nat B) (p, st))
  = grow st c (from_prev (skipn p A) B).
Proof.
  intros A. induction B as [|b B IH]; intros c p st Hp; cbn [map fold_left from_prev].
  - cbn. now rewrite grow_nil.
  - destruct (advance_pos (List.length A) A b p Hp ltac:(lia)) as [Hq Eq]. rewrite <- Eq.
    rewrite map_length at 1. rewrite !(map_length Z.of_nat A) at 1. rewrite IH by exact Hq. rewrite (skipn_nth _ _ Hq). rewrite nth_Z.
    set (q := rs_advance (List.length A) (map Z.of_nat A) (Z.of_nat b) p) in *.
    destruct (Nat.leb (nth q A 0%nat) b) eqn:E.
    + apply Nat.leb_le in E. replace (Z.of_nat (nth q A 0%nat) <=? Z.of_nat b) with true by (symmetry; apply Z.leb_le; lia).
      rewrite push_grow, grow_app. reflexivity.
    + apply Nat.leb_gt in E. replace (Z.of_nat (nth q A 0%nat) <=? Z.of_nat b) with false by (symmetry; apply Z.leb_gt; lia). reflexivity.
Qed.

Lemma to_next_body : forall (B A : list nat) c p st, (p <= List.length B)%nat ->
  snd (fold_left (fun (ps : nat * (Z * list RangeRecord)) (from_i : Z) =>
          let '(b_pos, st) := ps in
          let b_pos := rs_skip (List.length (map Z.of_nat B)) (map Z.of_nat B) from_i b_pos in
          (b_pos, if Nat.ltb b_pos (List.length (map Z.of_nat B)) then rs_push st c from_i (nth b_pos (map Z.of_nat B) 0) true else st)) (map Z.of_nat A) (p, st))
  = grow st c (to_next A (skipn p B)).
Proof.
  intros B. induction A as [|a A IH]; intros c p st Hp; cbn [map fold_left to_next].
  - cbn. now rewrite grow_nil.
  - destruct (skip_pos (List.length B) B a p Hp ltac:(lia)) as [Hq Eq]. rewrite <- Eq.
    rewrite !(map_length Z.of_nat B). rewrite !(map_length Z.of_nat B) in IH. rewrite IH by exact Hq. rewrite nth_Z.
    set (q := rs_skip (List.length B) (map Z.of_nat B) (Z.of_nat a) p) in *.
    destruct (Nat.ltb q (List.length B)) eqn:E.
    + apply Nat.ltb_lt in E. rewrite (skipn_nth _ _ E). rewrite push_grow, grow_app. reflexivity.
    + apply Nat.ltb_ge in E. rewrite skipn_all2 by lia. reflexivity.
Qed.

Lemma partition_body : forall n c a i, n = Z.of_nat i + Z.of_nat (List.length a) -> forall start from st,
  match start with Some s => from = Z.of_nat s | None => True end ->
  snd (fold_left (fun (ps : bool * Z * (Z * list RangeRecord)) (x : Z * bool) =>
      let '(is_partition, from_i, st) := ps in
      let '(row, v) := x in
      let '(is_partition, from_i, st) :=
        if v then (true, if negb is_partition then row else from_i, st)
        else if is_partition then (false, from_i, rs_push st c from_i row true)
        else (is_partition, from_i, st) in
      (is_partition, from_i, if (row =? n - 1) && is_partition then rs_push st c from_i (n - 1) false else st))
      (rows_from (Z.of_nat i) a) (match start with Some _ => true | None => false end, from, st))
  = grow st c (partition_loop i start a).
Proof.
  intros n c. induction a as [|v a IH]; intros i Hn start from st Hs; cbn [rows_from fold_left partition_loop].
  - cbn. now rewrite grow_nil.
  - cbn [List.length] in Hn. replace (Z.of_nat i + 1) with (Z.of_nat (S i)) by lia.
    assert (Hlast : (Z.of_nat i =? n - 1) = match a with [] => true | _ => false end).
    { destruct a; cbn [List.length] in Hn; [apply Z.eqb_eq; lia|apply Z.eqb_neq; lia]. }
    assert (Hn1 : a = [] -> n - 1 = Z.of_nat i) by (intros ->; cbn in Hn; lia).
    specialize (IH (S i) ltac:(lia)). rewrite Hlast.
    destruct v; [|destruct start as [s|]]; cbv beta iota.
    + destruct start as [s|]; cbn [negb].
      * subst from. destruct a as [|y a].
        -- rewrite (Hn1 eq_refl), push_grow. cbn. reflexivity.
        -- cbn [andb]. rewrite (IH (Some s) (Z.of_nat s) st eq_refl). reflexivity.
      * destruct a as [|y a].
        -- rewrite (Hn1 eq_refl), push_grow. cbn. reflexivity.
        -- cbn [andb]. rewrite (IH (Some i) (Z.of_nat i) st eq_refl). reflexivity.
    + subst from. rewrite andb_false_r, push_grow. rewrite (IH None (Z.of_nat s) _ Logic.I), grow_app. cbn [app].
      destruct a; reflexivity.
    + rewrite andb_false_r. rewrite (IH None from _ Logic.I). destruct a; reflexivity.
Qed.

Lemma between_partition_body : forall c a i inp last_ st,
  snd (fold_left (fun (ps : bool * Z * (Z * list RangeRecord)) (x : Z * bool) =>
      let '(is_partition, from_i, st) := ps in
      let '(row, v) := x in
      if v then (true, row, if negb is_partition && negb (from_i =? -1) then rs_push st c from_i row true else st)
      else (false, from_i, st))
      (rows_from (Z.of_nat i) a) (inp, match last_ with Some s => Z.of_nat s | None => -1 end, st))
  = grow st c (between_partition_loop i inp last_ a).
Proof.
  intros c. induction a as [|v a IH]; intros i inp last_ st; cbn [rows_from fold_left between_partition_loop].
  - cbn. now rewrite grow_nil.
  - replace (Z.of_nat i + 1) with (Z.of_nat (S i)) by lia. destruct v; [|apply IH].
    rewrite (IH (S i) true (Some i)). rewrite <- grow_app. f_equal.
    destruct inp; cbn [negb andb]; [now rewrite grow_nil|]. destruct last_ as [s|].
    + replace (Z.of_nat s =? -1) with false by (symmetry; apply Z.eqb_neq; lia). apply push_grow.
    + cbn. now rewrite grow_nil.
Qed.

(** ** Cleaning *)
Definition phase_code (p : Phase) : Z := match p with NoSignal => -1 | LastExit => 0 | LastEntry => 1 end.
Lemma clean_body : forall ef l ph en ex,
  exists p', fold_left (rs_clean_step ef) l (phase_code ph, en, ex)
  = (p', en ++ map fst (clean_loop ef ph l), ex ++ map snd (clean_loop ef ph l)).
Proof.
  intros ef. induction l as [|[e x] l IH]; intros ph en ex; cbn [fold_left clean_loop].
  - exists (phase_code ph). cbn. now rewrite !app_nil_r.
  - assert (H : forall ph' b1 b2, exists p', fold_left (rs_clean_step ef) l (phase_code ph', en ++ [b1], ex ++ [b2])
       = (p', en ++ b1 :: map fst (clean_loop ef ph' l), ex ++ b2 :: map snd (clean_loop ef ph' l))).
    { intros ph' b1 b2. destruct (IH ph' (en ++ [b1]) (ex ++ [b2])) as [p' E]. exists p'. rewrite E, <- !app_assoc. reflexivity. }
    unfold rs_clean_step at 2.
    destruct e, x, ph, ef; cbn [andb orb negb phase_code Z.eqb Z.opp Pos.eqb map fst snd];
      first [apply (H NoSignal) | apply (H LastExit) | apply (H LastEntry)].
Qed.
Lemma clean_eq : forall en ex ef, rs_clean_enex en ex ef = clean_enex_1d_nb en ex ef.
Proof.
  intros en ex ef. unfold rs_clean_enex, clean_enex_1d_nb.
  destruct (clean_body ef (combine en ex) NoSignal [] []) as [p' E]. change (phase_code NoSignal) with (-1) in E. rewrite E. reflexivity.
Qed.

(** ** Ranks *)
Lemma rank_eq_some : forall rank rf, (forall s i r p q, rf s i r p q = (rank s r p q i, rank s r p q i)) ->
  forall after_false reset a i s out, List.length reset = (i + List.length a)%nat ->
  snd (fold_left (rs_rank_step rank after_false (Some reset)) (rows_from (Z.of_nat i) a) (s, out))
  = out ++ rank_loop rf (Z.of_nat i) (k_reset s) (k_prev_end s) (k_start s) (k_in s) after_false (k_false s) (k_pos s) (combine a (skipn i reset)).
Proof.
  intros rank rf H af reset. induction a as [|v a IH]; intros i s out Hl; cbn [rows_from fold_left].
  - cbn. now rewrite app_nil_r.
  - cbn [List.length] in Hl.
    assert (E : skipn i reset = nth i reset false :: skipn (S i) reset).
    { clear -Hl. assert (i < List.length reset)%nat by lia. clear Hl. revert i H. induction reset as [|x r IH]; intros i H; cbn in H; [lia|]. destruct i; [reflexivity|]. cbn [skipn nth]. rewrite IH by lia. reflexivity. }
    rewrite E. cbn [combine rank_loop]. unfold rs_rank_step at 2. rewrite Nat2Z.id.
    replace (Z.of_nat i + 1) with (Z.of_nat (S i)) by lia.
    rewrite (negb_involutive_reverse (negb af || k_false s)). rewrite negb_orb, negb_involutive.
    destruct (v && negb (af && negb (k_false s))) eqn:Ev.
    + rewrite IH by lia. cbn [k_pos k_reset k_prev_end k_start k_in k_false]. rewrite H, <- app_assoc. cbn [app].
      destruct (k_in s); reflexivity.
    + destruct (negb v); rewrite IH by lia; cbn [k_pos k_reset k_prev_end k_start k_in k_false]; rewrite <- app_assoc; reflexivity.
Qed.

Lemma rank_none : forall rank after_false a i st, 
  fold_left (rs_rank_step rank after_false None) (rows_from (Z.of_nat i) a) st
  = fold_left (rs_rank_step rank after_false (Some (repeat false (i + List.length a)))) (rows_from (Z.of_nat i) a) st.
Proof.
  intros rank af a i st. generalize (i + List.length a)%nat. intros n. revert i st.
  induction a as [|v a IH]; intros i st; cbn [rows_from fold_left]; [reflexivity|].
  replace (Z.of_nat i + 1) with (Z.of_nat (S i)) by lia. rewrite IH. f_equal. destruct st as [s out]. unfold rs_rank_step.
  assert (E : forall k, nth k (repeat false n) false = false).
  { clear. intros k. revert n. induction k; intros [|n]; cbn; auto. }
  rewrite E. reflexivity.
Qed.

(** ** Positions *)
Lemma nth_step_done : forall d n l f r, fold_left (rs_nth_step d n) l (f, Some r) = (f, Some r).
Proof. induction l; intros; [reflexivity|]. cbn. apply IHl. Qed.
Lemma nth_fwd_eq : forall n a i f,
  (let '(_, r) := fold_left (rs_nth_step 1 n) (rows_from i a) (f, None) in match r with Some j => j | None => -1 end) = nth_fwd i f n a.
Proof.
  intros n. induction a as [|v a IH]; intros i f; [reflexivity|]. cbn [rows_from fold_left nth_fwd]. unfold rs_nth_step at 2.
  destruct v; [|apply IH]. destruct (f + 1 =? n); [now rewrite nth_step_done|apply IH].
Qed.
Lemma rows_rev : forall A (a : list A) i, rev (rows_from i a) = map (fun jx => (i + Z.of_nat (List.length a) - 1 - fst jx, snd jx)) (rows_from 0 (rev a)).
Proof.
  induction a as [|x a IH]; intros i; [reflexivity|]. cbn [rows_from rev List.length]. rewrite IH.
  rewrite rows_from_app, map_app. cbn [rows_from map fst snd]. f_equal.
  - apply map_ext. intros [j y]. cbn. f_equal. lia.
  - rewrite rev_length. do 2 f_equal. lia.
Qed.
Lemma nth_bwd_eq : forall n a m j f,
  (let '(_, r) := fold_left (rs_nth_step (-1) n) (map (fun jx => (m - fst jx, snd jx)) (rows_from j a)) (f, None) in match r with Some j => j | None => -1 end) = nth_bwd (m - j) f n a.
Proof.
  intros n. induction a as [|v a IH]; intros m j f; [reflexivity|]. cbn [rows_from map fold_left nth_bwd fst snd]. unfold rs_nth_step at 2.
  replace (m - j - 1) with (m - (j + 1)) by lia. change (f + -1) with (f - 1).
  destruct v; [|apply IH]. destruct (f - 1 =? n); [now rewrite nth_step_done|apply IH].
Qed.
Lemma nth_index_eq : forall a n, rs_nth_index a n = nth_index_1d_nb a n.
Proof.
  intros a n. unfold rs_nth_index, nth_index_1d_nb, rows_of. destruct (0 <=? n); [apply nth_fwd_eq|].
  rewrite rows_rev. rewrite (nth_bwd_eq n (rev a) (0 + Z.of_nat (List.length a) - 1) 0 0). f_equal. lia.
Qed.
