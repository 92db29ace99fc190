(** * Proof lemmas: indexing wrapped arrays *)
From Coq Require Import String ZArith Bool List Arith Lia.
From Verif Require Import Base Grouper Reduce BaseFnsSpec BaseFnsLemmas BaseFnsLemmas2 Wrapper WrapperSpec.
Import ListNotations.
Local Open Scope nat_scope.

Lemma rinv : forall {A} b e (k : res A) r, raise_if b e k = Ok r -> b = false /\ k = Ok r.
Proof. intros A [] e k r H; [discriminate H|auto]. Qed.
Lemma binv : forall {A B} (x : res A) (f : A -> res B) r, bind x f = Ok r -> exists y, x = Ok y /\ f y = Ok r.
Proof. intros A B [y|e] f r H; [eauto|discriminate H]. Qed.

(** ** Ranges *)
Fixpoint starts_from (acc : nat) (l : list nat) : list nat := match l with [] => [] | x :: l' => acc :: starts_from (acc + x) l' end.
Lemma cumsum_starts : forall l x acc, removelast (cumsum acc (x :: l)) = starts_from (acc + x) l.
Proof.
  induction l as [|y l IH]; intros x acc; [reflexivity|]. specialize (IH y (acc + x)). cbn [cumsum] in *.
  change (removelast (acc + x :: acc + x + y :: cumsum (acc + x + y) l)) with (acc + x :: removelast (acc + x + y :: cumsum (acc + x + y) l)).
  rewrite IH. reflexivity.
Qed.
Lemma cumsum_last : forall l x acc, last (cumsum acc (x :: l)) 0 = acc + x + total l.
Proof.
  induction l as [|y l IH]; intros x acc; [cbn; lia|]. specialize (IH y (acc + x)).
  change (last (cumsum acc (x :: y :: l)) 0) with (last (cumsum (acc + x) (y :: l)) 0). rewrite IH. cbn. lia.
Qed.
Lemma upd_at : forall {A} (pre : list A) x l v, upd (pre ++ x :: l) (length pre) v = pre ++ v :: l.
Proof. induction pre as [|y pre IH]; intros x l v; cbn; [reflexivity|]. f_equal. apply IH. Qed.
Lemma write_blocks : forall {A} (one : A) counts steps pre, Forall (fun k => 1 <= k) counts -> length steps = length counts ->
  fold_left (fun a p => upd a (fst p) (snd p)) (combine (starts_from (length pre) counts) steps) (pre ++ repeat one (total counts)) =
  pre ++ concat (map (fun p => fst p :: repeat one (snd p - 1)) (combine steps counts)).
Proof.
  intros A one. induction counts as [|c counts IH]; intros [|s steps] pre Hc Hl; try discriminate Hl; [reflexivity|].
  inversion Hc as [|? ? Hc1 Hc2]; subst. cbn [starts_from combine fold_left fst snd total map concat]. rewrite repeat_app.
  destruct c as [|c]; [lia|]. cbn [repeat app]. rewrite upd_at. replace (S c - 1) with c by lia.
  specialize (IH steps (pre ++ s :: repeat one c) Hc2). rewrite app_length in IH. cbn [length] in IH. rewrite repeat_length in IH.
  rewrite <- !app_assoc in IH. cbn [app] in IH. rewrite IH by (cbn in Hl; lia). reflexivity.
Qed.

Lemma zcumsum_app : forall a b acc, zcumsum acc (a ++ b) = zcumsum acc a ++ zcumsum (acc + fold_right Z.add 0 a)%Z b.
Proof.
  induction a as [|x a IH]; intros b acc; cbn [zcumsum app fold_right]; [rewrite Z.add_0_r; reflexivity|]. rewrite IH, Z.add_assoc. reflexivity.
Qed.
Lemma zcumsum_ones : forall n acc, map Z.to_nat (zcumsum (Z.of_nat acc) (repeat 1%Z n)) = seq (S acc) n.
Proof.
  induction n as [|n IH]; intros acc; [reflexivity|]. cbn [repeat zcumsum map seq].
  replace (Z.of_nat acc + 1)%Z with (Z.of_nat (S acc)) by lia. rewrite Nat2Z.id, IH. reflexivity.
Qed.
Lemma sum_ones : forall n, fold_right Z.add 0%Z (repeat 1%Z n) = Z.of_nat n.
Proof. induction n as [|n IH]; [reflexivity|]. cbn [repeat fold_right]. rewrite IH. lia. Qed.

Definition jump (prev_end s : nat) : Z := (Z.of_nat s - Z.of_nat prev_end + 1)%Z.
Fixpoint jumps (prev : nat) (rs : list (nat * nat)) : list Z := match rs with [] => [] | (s, n) :: rs' => jump prev s :: jumps (s + n) rs' end.
Lemma zcumsum_blocks : forall rs prev, Forall (fun p => 1 <= snd p) rs ->
  map Z.to_nat (zcumsum (Z.of_nat prev - 1) (concat (map (fun p => fst p :: repeat 1%Z (snd p - 1)) (combine (jumps prev rs) (map snd rs))))) =
  concat (map (fun p => seq (fst p) (snd p)) rs).
Proof.
  induction rs as [|[s n] rs IH]; intros prev H; [reflexivity|]. inversion H as [|? ? H1 H2]; subst. cbn [snd] in H1.
  cbn [jumps map combine concat fst snd]. cbn [app zcumsum map]. unfold jump at 1 2.
  replace (Z.of_nat prev - 1 + (Z.of_nat s - Z.of_nat prev + 1))%Z with (Z.of_nat s) by lia.
  rewrite zcumsum_app, map_app, zcumsum_ones, sum_ones. replace (Z.of_nat s + Z.of_nat (n - 1))%Z with (Z.of_nat (s + n) - 1)%Z by lia.
  rewrite IH by assumption. rewrite Nat2Z.id. destruct n; [lia|]. cbn [seq app]. replace (S n - 1) with n by lia. reflexivity.
Qed.

Lemma starts_from_length : forall l acc, length (starts_from acc l) = length l.
Proof. induction l; intros; cbn; auto. Qed.
Lemma starts_from_below : forall l acc k, In k (starts_from acc l) -> Forall (fun k => 1 <= k) l -> acc <= k < acc + total l.
Proof.
  induction l as [|x l IH]; intros acc k H Hl; [destruct H|]. inversion Hl; subst. cbn in *. destruct H as [<-|H]; [lia|].
  apply IH in H; auto. lia.
Qed.
Lemma minus_each_ranges : forall rs, minus_each (map (fun p => fst p + snd p) rs) (map fst rs) = map snd rs.
Proof. induction rs as [|[s n] rs IH]; [reflexivity|]. unfold minus_each in *. cbn. rewrite IH. f_equal. lia. Qed.
Lemma jumps_steps : forall rs s n, jumps (s + n) rs =
  map (fun p => (Z.of_nat (fst p) - Z.of_nat (snd p) + 1)%Z) (combine (map fst rs) (removelast (map (fun p => fst p + snd p) ((s, n) :: rs)))).
Proof.
  induction rs as [|[s' n'] rs IH]; intros s n; [reflexivity|]. cbn [jumps]. rewrite (IH s' n').
  cbn [map fst snd]. change (removelast (s + n :: s' + n' :: map (fun p => fst p + snd p) rs)) with (s + n :: removelast (s' + n' :: map (fun p => fst p + snd p) rs)).
  cbn [combine map fst snd]. reflexivity.
Qed.
Lemma jumps_length : forall rs prev, length (jumps prev rs) = length rs.
Proof. induction rs as [|[s n] rs IH]; intros; cbn; auto. Qed.

Lemma ranges_ok : forall rs, rs <> [] -> Forall (fun p => 1 <= snd p) rs ->
  get_ranges_arr (map fst rs) (map (fun p => fst p + snd p) rs) = Ok (concat (map (fun p => seq (fst p) (snd p)) rs)).
Proof.
  intros rs Hne H. unfold get_ranges_arr. rewrite minus_each_ranges. destruct rs as [|[s n] rs]; [congruence|]. clear Hne.
  inversion H as [|? ? H1 H2]; subst. cbn [snd] in H1.
  assert (Hlens : Forall (fun k => 1 <= k) (map snd rs)).
  { apply Forall_forall. intros k Hk. apply in_map_iff in Hk as (p & <- & Hp). rewrite Forall_forall in H2. auto. }
  cbv zeta. change (map snd ((s, n) :: rs)) with (n :: map snd rs). rewrite cumsum_last, cumsum_starts, Nat.add_0_l.
  rewrite cumsum_length. cbn [length]. rewrite (proj2 (Nat.eqb_neq _ 0)) by lia. cbn [raise_if].
  rewrite (proj2 (Nat.eqb_neq _ 0)) by lia. cbn [raise_if].
  match goal with |- raise_if ?b _ _ = _ => assert (Eb : b = false) end.
  { apply not_true_iff_false. intros E. apply existsb_exists in E as (k & Hk & E). apply Nat.leb_le in E. apply starts_from_below in Hk; auto. lia. }
  rewrite Eb.
  cbn [raise_if]. f_equal. cbn [map fst snd hd tl].
  etransitivity; [|exact (zcumsum_blocks ((s, n) :: rs) 1 H)]. f_equal. change (Z.of_nat 1 - 1)%Z with 0%Z. f_equal.
  cbn [jumps combine map fst snd concat]. rewrite jumps_steps. cbn [map fst snd].
  rewrite repeat_app. destruct n as [|n]; [lia|]. cbn [repeat app upd]. replace (S n - 1) with n by lia.
  assert (L : length (Z.of_nat s :: repeat 1%Z n) = S n) by (cbn; rewrite repeat_length; reflexivity).
  pose proof (write_blocks 1%Z (map snd rs) (map (fun p => (Z.of_nat (fst p) - Z.of_nat (snd p) + 1)%Z) (combine (map fst rs) (removelast (s + S n :: map (fun p => fst p + snd p) rs))))
    (Z.of_nat s :: repeat 1%Z n) Hlens) as W. rewrite L in W. cbn [app] in W. rewrite W.
  - f_equal. unfold jump. lia.
  - change (s + S n :: map (fun p => fst p + snd p) rs) with (map (fun p => fst p + snd p) ((s, S n) :: rs)). rewrite <- jumps_steps, jumps_length, map_length. reflexivity.
Qed.

(** ** Choosing cells *)
Lemma all_same_spec : forall l, all_same l = true <-> (forall x, In x l -> x = hd 0 l).
Proof.
  intros l. unfold all_same. rewrite forallb_forall. split; intros H x Hx; specialize (H x Hx); [apply Nat.eqb_eq in H|apply Nat.eqb_eq]; auto.
Qed.
Lemma two_different : forall l, all_same l = false -> l <> [] -> exists x y, In x l /\ In y l /\ x <> y.
Proof.
  intros [|h l] H Hne; [congruence|]. unfold all_same in H. cbn [hd] in H.
  assert (E : existsb (fun x => negb (Nat.eqb x h)) (h :: l) = true).
  { clear Hne. revert H. generalize (h :: l) as k. induction k as [|y k IH]; intros H; [discriminate|]. cbn in *. destruct (Nat.eqb y h); auto. }
  apply existsb_exists in E as (y & Hy & E). apply negb_true_iff, Nat.eqb_neq in E. exists y, h. repeat split; auto. left. reflexivity.
Qed.
Lemma hd_in : forall (l : list nat), l <> [] -> In (hd 0 l) l.
Proof. intros [|x l] H; [congruence|left; reflexivity]. Qed.

Lemma picked_rows : forall (rs cs : list nat), cs <> [] -> map (fun r => nth 0 r 0) (map (fun r : nat => map (fun _ : nat => r) cs) rs) = rs.
Proof.
  intros rs cs H. destruct cs as [|c cs]; [congruence|]. induction rs as [|r rs IH]; [reflexivity|]. cbn [map nth] in *. rewrite IH. reflexivity.
Qed.
Lemma picked_cols : forall (rs cs : list nat), rs <> [] -> nth 0 (map (fun _ : nat => map (fun c => c) cs) rs) [] = cs.
Proof. intros [|r rs] cs H; [congruence|]. cbn [map nth]. apply map_id. Qed.
Lemma concat_singles : forall {A B} (f : A -> B) l, concat (map (fun x => [f x]) l) = map f l.
Proof. intros A B f. induction l as [|x l IH]; [reflexivity|]. cbn. rewrite IH. reflexivity. Qed.

(** The outcome of [select_both] *)
Lemma both_shape : forall index columns ndim f p m, (ndim = 1 \/ ndim = 2) -> (ndim = 1 -> length columns = 1) ->
  f index columns ndim = Ok p -> fits (length index) (length columns) p -> select_both index columns ndim f = Ok m ->
  match p with
  | PFrame rs cs ni nc => ndim = 2 /\ rs <> [] /\ cs <> [] /\ m = mkMeta ni nc 2 (Many rs) (Many cs)
  | PSeries cells ni =>
      (exists c, (forall q, In q cells -> snd q = c) /\ (cells <> [] \/ ndim = 1) /\ c < length columns /\ (ndim = 2 -> all_same (map fst cells) = false) /\
                 m = mkMeta ni [label_at columns c] 1 (Many (map fst cells)) (One c)) \/
      (ndim = 2 /\ exists r, (forall q, In q cells -> fst q = r) /\ cells <> [] /\ all_same (map snd cells) = false /\
                 m = mkMeta ni [label_at index r] 1 (One r) (Many (map snd cells)))
  | PScalar _ _ => False
  end.
Proof.
  intros index columns ndim f p m Hd H1 Hf Hfit H. unfold select_both in H. rewrite Hf in H. cbn [bind] in H. destruct Hd as [ -> | -> ]; cbn [Nat.eqb] in H.
  - specialize (H1 eq_refl). destruct p as [rs cs ni nc|cells ni|r c]; cbn [taken] in H; try discriminate. injection H as <-. left. exists 0.
    cbn [fits] in Hfit. destruct Hfit as [_ Hc]. rewrite Forall_forall in Hc.
    split; [|split; [|split; [lia|split; [discriminate|reflexivity]]]]; auto. intros q Hq. apply Hc in Hq. lia.
  - clear H1. destruct p as [rs cs ni nc|cells ni|r c]; cbn [taken] in H; try discriminate.
    + cbn [ncols nrows rows] in H. destruct cs as [|c cs]; [discriminate H|]. destruct rs as [|r rs]; [discriminate H|].
      apply rinv in H as [_ H]. apply rinv in H as [_ H]. injection H as <-. split; [reflexivity|]. split; [discriminate|]. split; [discriminate|].
      apply (f_equal2 (mkMeta ni nc 2)); apply (f_equal Many).
      * apply (picked_rows (r :: rs) (c :: cs)). discriminate.
      * exact (picked_cols (r :: rs) (c :: cs) ltac:(discriminate)).
    + apply rinv in H as [Hlen H]. rewrite map_length in Hlen. assert (Hne : cells <> []) by (intros ->; discriminate Hlen).
      cbn [fits] in Hfit. destruct Hfit as [_ Hc]. rewrite Forall_forall in Hc.
      destruct (all_same (map snd cells)) eqn:E1, (all_same (map fst cells)) eqn:E2; cbn [andb] in H; try discriminate; injection H as <-; [left|right].
      * exists (hd 0 (map snd cells)).
        assert (Hin : In (hd 0 (map snd cells)) (map snd cells)) by (apply hd_in; destruct cells; [congruence|discriminate]).
        apply in_map_iff in Hin as (q & Hq1 & Hq2). split; [|split; [auto|split; [apply Hc in Hq2; lia|auto]]].
        intros q' Hq'. apply (proj1 (all_same_spec _) E1). apply in_map. exact Hq'.
      * split; [reflexivity|]. exists (hd 0 (map fst cells)). split; [|auto]. intros q' Hq'. apply (proj1 (all_same_spec _) E2). apply in_map. exact Hq'.
Qed.

Lemma both_accepts : forall index columns ndim f p, (ndim = 1 \/ ndim = 2) -> f index columns ndim = Ok p -> 
  ((exists m, select_both index columns ndim f = Ok m) <-> allowed ndim p).
Proof.
  intros index columns ndim f p Hd Hf. unfold select_both, allowed. rewrite Hf. cbn [bind]. destruct Hd as [ -> | -> ]; cbn [Nat.eqb].
  - destruct p; cbn [taken]; split; intros H; try (destruct H; discriminate); try contradiction; eauto.
  - destruct p as [rs cs ni nc|cells ni|r c]; cbn [taken ncols nrows rows].
    + destruct cs as [|c cs]; [split; [intros [m H]; discriminate H|intros [_ H]; congruence]|].
      destruct rs as [|r rs]; [split; [intros [m H]; discriminate H|intros [H _]; congruence]|].
      split; [intros _; split; discriminate|]. intros _. eexists. reflexivity.
    + rewrite map_length. destruct cells as [|q0 cells0]; [split; [intros [m H]; discriminate H|intros (r & c & [] & _)]|].
      set (cells := q0 :: cells0) in *. assert (Hne : cells <> []) by discriminate. clearbody cells. cbn [raise_if].
      assert (HL : Nat.eqb (length cells) 0 = false) by (destruct cells; [congruence|reflexivity]). rewrite HL. cbn [raise_if].
      change (map (fun q : nat * nat => snd q) cells) with (map snd cells). change (map (fun q : nat * nat => fst q) cells) with (map fst cells).
      split.
      * intros [m H]. destruct (all_same (map snd cells)) eqn:E1, (all_same (map fst cells)) eqn:E2; cbn [andb] in H; try discriminate.
        -- destruct (two_different _ E2) as (x & y & Hx & Hy & Hxy); [destruct cells; [congruence|discriminate]|].
           apply in_map_iff in Hx as ([r c] & <- & Hx). apply in_map_iff in Hy as ([r' c'] & <- & Hy). cbn [fst] in Hxy.
           assert (Hsame : forall q, In q cells -> snd q = c).
           { intros q Hq. rewrite all_same_spec in E1. pose proof (E1 (snd q) (in_map snd _ _ Hq)). pose proof (E1 c (in_map snd _ _ Hx)). congruence. }
           exists r, c. split; [exact Hx|]. left. split; [apply Forall_forall; exact Hsame|]. exists r'. split; [|congruence].
           pose proof (Hsame _ Hy) as Hc'. cbn in Hc'. subst. exact Hy.
        -- destruct (two_different _ E1) as (x & y & Hx & Hy & Hxy); [destruct cells; [congruence|discriminate]|].
           apply in_map_iff in Hx as ([r c] & <- & Hx). apply in_map_iff in Hy as ([r' c'] & <- & Hy). cbn [snd] in Hxy.
           assert (Hsame : forall q, In q cells -> fst q = r).
           { intros q Hq. rewrite all_same_spec in E2. pose proof (E2 (fst q) (in_map fst _ _ Hq)). pose proof (E2 r (in_map fst _ _ Hx)). congruence. }
           exists r, c. split; [exact Hx|]. right. split; [apply Forall_forall; exact Hsame|]. exists c'. split; [|congruence].
           pose proof (Hsame _ Hy) as Hc'. cbn in Hc'. subst. exact Hy.
      * intros (r & c & Hin & [[Hs (r' & Hin' & Hn)]|[Hs (c' & Hin' & Hn)]]); rewrite Forall_forall in Hs.
        -- assert (E1 : all_same (map snd cells) = true).
           { apply all_same_spec. assert (E : forall x, In x (map snd cells) -> x = c) by (intros x Hx; apply in_map_iff in Hx as (q & <- & Hq); auto).
             intros x Hx. rewrite (E x Hx). symmetry. apply E. apply hd_in. destruct cells; [congruence|discriminate]. }
           assert (E2 : all_same (map fst cells) = false).
           { apply not_true_iff_false. rewrite all_same_spec. intros E. apply Hn. pose proof (E r (in_map fst _ _ Hin)). pose proof (E r' (in_map fst _ _ Hin')). congruence. }
           rewrite E1, E2. cbn [andb]. eauto.
        -- assert (E1 : all_same (map fst cells) = true).
           { apply all_same_spec. assert (E : forall x, In x (map fst cells) -> x = r) by (intros x Hx; apply in_map_iff in Hx as (q & <- & Hq); auto).
             intros x Hx. rewrite (E x Hx). symmetry. apply E. apply hd_in. destruct cells; [congruence|discriminate]. }
           assert (E2 : all_same (map snd cells) = false).
           { apply not_true_iff_false. rewrite all_same_spec. intros E. apply Hn. pose proof (E c (in_map snd _ _ Hin)). pose proof (E c' (in_map snd _ _ Hin')). congruence. }
           rewrite E1, E2. cbn [andb]. eauto.
    + split; [intros [m H]; discriminate H|intros []].
Qed.

(** ** Wrapping the cells chosen *)
Lemma wrap_both : forall {V} (a : nat -> nat -> V) index columns ndim f p m w', (ndim = 1 \/ ndim = 2) -> (ndim = 1 -> length columns = 1) ->
  f index columns ndim = Ok p -> fits (length index) (length columns) p -> select_both index columns ndim f = Ok m ->
  w_index w' = m_index m -> w_columns w' = m_columns m -> w_ndim w' = m_ndim m ->
  wrap w' (sub_array a (m_rows m) (m_cols m)) = Ok (taken a p).
Proof.
  intros V a index columns ndim f p m w' Hd H1 Hf Hfit Hs Hi Hc Hn.
  pose proof (both_shape _ _ _ _ _ _ Hd H1 Hf Hfit Hs) as H. unfold wrap. rewrite Hi, Hc, Hn. destruct p as [rs cs ni nc|cells ni|r c]; [| |destruct H].
  - destruct H as (_ & Hr & Hcs & ->). cbn [m_rows m_cols m_index m_columns m_ndim sub_array to_1d]. cbn [fits] in Hfit.
    unfold nrows, ncols. cbn [rows]. rewrite map_length. destruct Hfit as (Hl1 & Hl2 & _). rewrite Hl1, Hl2, !Nat.eqb_refl. cbn [negb raise_if].
    rewrite andb_false_r. reflexivity.
  - cbn [fits] in Hfit. destruct Hfit as [Hl _]. destruct H as [(c & Hc' & _ & _ & _ & ->)|(_ & r & Hr & _ & _ & ->)]; cbn [m_rows m_cols m_index m_columns m_ndim sub_array to_1d].
    + unfold nrows, ncols. cbn [rows length]. rewrite !map_length, Hl, Nat.eqb_refl. cbn [Nat.eqb negb raise_if andb map]. cbn [taken]. do 2 f_equal.
      rewrite map_map. rewrite (concat_singles (fun q : nat * nat => a (fst q) c)). apply map_ext_in. intros q Hq. rewrite (Hc' q Hq). reflexivity.
    + unfold nrows, ncols. cbn [rows length]. rewrite !map_length, Hl, Nat.eqb_refl. cbn [Nat.eqb negb raise_if andb map]. cbn [taken]. do 2 f_equal.
      rewrite map_map. rewrite (concat_singles (fun q : nat * nat => a r (snd q))). apply map_ext_in. intros q Hq. rewrite (Hr q Hq). reflexivity.
Qed.
