(** * Proof lemmas: mapped arrays *)
From Coq Require Import String ZArith Bool List Arith Lia Permutation Sorting.
From Verif Require Import Base Num Grouper Reduce RecordsNb RecordsSpec RecordsLemmas RecordsLemmas2 RecordsLemmas3 RecordsLemmas4
  BaseFnsSpec BaseFnsLemmas BaseFnsLemmas2 Wrapper WrapperSpec WrapperLemmas WrapperLemmas2 Mapped MappedSpec.
Import ListNotations.
Local Open Scope nat_scope.

Lemma nth_take : forall {A} (d : A) l inds k, k < length inds -> nth k (take d l inds) d = nth (nth k inds 0) l d.
Proof.
  intros A d l inds k Hk. unfold take. rewrite (nth_indep _ d (nth 0 l d)) by (rewrite map_length; exact Hk). apply (map_nth (fun i => nth i l d)).
Qed.
Lemma map_over_nth : forall {A B} (F : A -> B) l d, map (fun k => F (nth k l d)) (seq 0 (length l)) = map F l.
Proof.
  intros A B F l d. induction l as [|x l IH]; [reflexivity|]. cbn [length seq map nth]. f_equal. rewrite <- IH, <- seq_shift, map_map. reflexivity.
Qed.
Lemma filter_map : forall {A B} (p : B -> bool) (f : A -> B) l, filter p (map f l) = map f (filter (fun x => p (f x)) l).
Proof. intros A B p f. induction l as [|x l IH]; [reflexivity|]. cbn. destruct (p (f x)); cbn; rewrite IH; reflexivity. Qed.

Section Picks.
  Context {V : Type} (d : V).

  Lemma entries_picked : forall (a : Mapped V) w inds cols, length cols = length inds ->
    entries d (mkMapped w (take d (ma_values a) inds) cols (take 0 (ma_ids a) inds) (option_map (fun l => take 0 l inds) (ma_idx a))) =
    map (fun ic => set_col (snd ic) (entry_at d a (fst ic))) (combine inds cols).
  Proof.
    intros a w inds cols Hl. unfold entries. cbn [ma_values].
    assert (El : length (take d (ma_values a) inds) = length inds) by apply map_length. rewrite El.
    rewrite <- (map_over_nth (fun ic => set_col (snd ic) (entry_at d a (fst ic))) (combine inds cols) (0, 0)).
    rewrite combine_length, Hl, Nat.min_id. apply map_ext_in. intros k Hk. apply in_seq in Hk. rewrite combine_nth by auto. cbn [fst snd].
    unfold entry_at, set_col. cbn [ma_values ma_cols ma_ids ma_idx e_value e_id e_row]. rewrite !nth_take by lia. f_equal.
    destruct (ma_idx a) as [l|]; [|reflexivity]. cbn. rewrite nth_take by lia. reflexivity.
  Qed.

  Lemma entries_kept_cols : forall (a : Mapped V) w inds,
    entries d (mkMapped w (take d (ma_values a) inds) (take 0 (ma_cols a) inds) (take 0 (ma_ids a) inds) (option_map (fun l => take 0 l inds) (ma_idx a))) =
    map (entry_at d a) inds.
  Proof.
    intros a w inds. rewrite entries_picked by apply map_length. unfold take. induction inds as [|i inds IH]; [reflexivity|].
    cbn [map combine fst snd]. rewrite IH. reflexivity.
  Qed.

  Lemma column_entries : forall (a : Mapped V) c, length (ma_cols a) = length (ma_values a) ->
    filter (fun e => Nat.eqb (e_col e) c) (entries d a) = map (entry_at d a) (rows_of c (ma_cols a)).
  Proof. intros a c H. unfold entries, rows_of. rewrite filter_map, H. reflexivity. Qed.

  Lemma combine_blocks : forall (f : nat -> list nat) (l : list (nat * nat)),
    combine (concat (map (fun ic => f (snd ic)) l)) (concat (map (fun ic => repeat (fst ic) (length (f (snd ic)))) l)) =
    concat (map (fun ic => map (fun r => (r, fst ic)) (f (snd ic))) l).
  Proof.
    intros f. assert (A : forall (x : list nat) (k : nat) rest rest', combine (x ++ rest) (repeat k (length x) ++ rest') = map (fun r => (r, k)) x ++ combine rest rest').
    { induction x as [|y x IH]; intros; cbn; [reflexivity|]. rewrite IH. reflexivity. }
    induction l as [|[k c] l IH]; [reflexivity|]. cbn [map concat fst snd]. rewrite A, IH. reflexivity.
  Qed.
  Lemma numbered_snd : forall {B} (f : nat -> B) cs, map (fun ic => f (snd ic)) (numbered_cols cs) = map f cs.
  Proof.
    intros B f cs. unfold numbered_cols. generalize 0 as s. induction cs as [|c cs IH]; intros s; [reflexivity|]. cbn. rewrite IH. reflexivity.
  Qed.

  Lemma pick_ok : forall (a : Mapped V) w cols inds, Forall (fun i => i < length (ma_values a)) inds ->
    pick_all d a w cols inds = Ok (mkMapped w (take d (ma_values a) inds) cols (take 0 (ma_ids a) inds) (option_map (fun l => take 0 l inds) (ma_idx a))).
  Proof.
    intros a w cols inds H. unfold pick_all.
    assert (E : existsb (fun i => Nat.leb (length (ma_values a)) i) inds = false).
    { apply not_true_iff_false. intros E. apply existsb_exists in E as (i & Hi & E). apply Nat.leb_le in E. rewrite Forall_forall in H. apply H in Hi. lia. }
    rewrite E. reflexivity.
  Qed.

  Lemma rows_below : forall c l, Forall (fun i => i < length l) (rows_of c l).
  Proof. intros c l. apply Forall_forall. intros i Hi. apply filter_In in Hi as [Hi _]. apply in_seq in Hi. lia. Qed.

  Lemma select_ok : forall mem (a : Mapped V) gsel f w' rs gs cs, well_made a ->
    indexing_func_meta (ma_wrapper a) gsel (OnColumns f) = Ok (w', rs, gs, cs) -> cols_below (length (w_columns (ma_wrapper a))) (to_1d cs) ->
    exists b, indexing d mem a gsel f = Ok b /\ ma_wrapper b = w' /\ entries d b = of_columns (entries d a) (to_1d cs).
  Proof.
    intros mem a gsel f w' rs gs cs (Hpr & Hc & Hi & Hx & Hb) Hm Hcs. unfold indexing. rewrite Hm. cbn [bind].
    set (n := length (w_columns (ma_wrapper a))) in *.
    assert (E : _col_idxs_meta mem (ma_cols a) n (to_1d cs) =
      Ok (concat (map (fun c => rows_of c (ma_cols a)) (to_1d cs)),
          concat (map (fun ic => repeat (fst ic) (length (rows_of (snd ic) (ma_cols a)))) (numbered_cols (to_1d cs))))).
    { unfold _col_idxs_meta. destruct (is_col_sorted_nb (ma_cols a)) eqn:Es.
      - apply sorted_iff in Es. destruct (col_range_ok n (ma_cols a) Hb Es) as (rg & Er & Hl & Hsay). rewrite Er. cbn [bind]. f_equal.
        apply (range_select_spec mem (ma_cols a) n rg); auto.
      - f_equal. apply map_select_spec; auto. }
    rewrite E. cbn [bind fst snd]. rewrite pick_ok.
    - eexists. split; [reflexivity|]. split; [reflexivity|]. rewrite entries_picked.
      + rewrite <- (numbered_snd (fun c => rows_of c (ma_cols a))). rewrite (combine_blocks (fun c => rows_of c (ma_cols a))), concat_map, map_map. unfold of_columns. f_equal.
        apply map_ext. intros [k c]. cbn [fst snd]. rewrite column_entries by exact Hc. rewrite !map_map. reflexivity.
      + rewrite <- (numbered_snd (fun c => rows_of c (ma_cols a))). generalize (numbered_cols (to_1d cs)) as l.
        induction l as [|[k c] l IH]; [reflexivity|]. cbn. rewrite !app_length, repeat_length, IH. reflexivity.
    - apply Forall_forall. intros i Hin. apply in_concat in Hin as (l & Hl & Hin). apply in_map_iff in Hl as (c & <- & _).
      pose proof (rows_below c (ma_cols a)) as R. rewrite Forall_forall in R. rewrite <- Hc. auto.
  Qed.
End Picks.

(** ** Sorting *)
Lemma insert_filter : forall before P i l, (forall j, P i = true -> before j i = true -> P j = false) ->
  filter P (insert_pos before i l) = if P i then i :: filter P l else filter P l.
Proof.
  intros before P i l H. induction l as [|j l IH]; [cbn; destruct (P i); reflexivity|]. cbn [insert_pos]. destruct (before j i) eqn:E.
  - cbn [filter]. rewrite IH. destruct (P i) eqn:Ei; [rewrite (H j eq_refl E); reflexivity|reflexivity].
  - cbn [filter]. destruct (P i); reflexivity.
Qed.
Lemma argsort_filter : forall before P n, (forall i j, P i = true -> before j i = true -> P j = false) ->
  filter P (argsort before n) = filter P (seq 0 n).
Proof.
  intros before P n H. unfold argsort. generalize 0 as s. induction n as [|n IH]; intros s; [reflexivity|]. cbn [seq fold_right].
  rewrite insert_filter by (intros j; apply H). rewrite IH. cbn [filter]. destruct (P s); reflexivity.
Qed.
Lemma insert_in : forall before i l x, In x (insert_pos before i l) <-> i = x \/ In x l.
Proof.
  intros before i l x. induction l as [|j l IH]; cbn; [tauto|]. destruct (before j i); cbn; rewrite ?IH; tauto.
Qed.
Lemma argsort_in : forall before n x, In x (argsort before n) <-> x < n.
Proof.
  intros before n x. unfold argsort. assert (G : forall s, In x (fold_right (insert_pos before) [] (seq s n)) <-> s <= x < s + n).
  { induction n as [|n IH]; intros s; cbn [seq fold_right]; [cbn; lia|]. rewrite insert_in, IH. lia. }
  rewrite G. lia.
Qed.
Lemma argsort_sorted : forall before n, (forall i j, before j i = true -> before i j = false) ->
  (forall i j k, before j i = false -> before k j = false -> before k i = false) ->
  StronglySorted (fun x y => before y x = false) (argsort before n).
Proof.
  intros before n Ha Ht. unfold argsort. assert (I : forall i l, StronglySorted (fun x y => before y x = false) l -> StronglySorted (fun x y => before y x = false) (insert_pos before i l)).
  { intros i l H. induction H as [|j l Hs IH Hf]; [repeat constructor|]. cbn [insert_pos]. destruct (before j i) eqn:E.
    - constructor; [exact IH|]. apply Forall_forall. intros x Hx. apply insert_in in Hx as [<-|Hx]; [auto|]. rewrite Forall_forall in Hf. auto.
    - constructor; [constructor; auto|]. constructor; [exact E|]. rewrite Forall_forall in *. intros x Hx. eauto. }
  induction (seq 0 n) as [|i l IH]; cbn [fold_right]; [constructor|auto].
Qed.
Lemma sorted_map : forall {A B} (R : A -> A -> Prop) (S : B -> B -> Prop) (f : A -> B) l, (forall x y, R x y -> S (f x) (f y)) ->
  StronglySorted R l -> StronglySorted S (map f l).
Proof.
  intros A B R S f l H Hs. induction Hs as [|x l Hs IH Hf]; [constructor|]. cbn. constructor; [exact IH|]. rewrite Forall_map.
  rewrite Forall_forall in *. auto.
Qed.
Lemma sorted_seq : forall {A} (R : A -> A -> Prop) (f : nat -> A) n s, (forall i j, s <= i -> i < j < s + n -> R (f i) (f j)) -> StronglySorted R (map f (seq s n)).
Proof.
  intros A R f n. induction n as [|n IH]; intros s H; [constructor|]. cbn. constructor.
  - apply IH. intros i j Hi Hj. apply H; lia.
  - rewrite Forall_map, Forall_forall. intros j Hj. apply in_seq in Hj. apply H; lia.
Qed.

Section Sorts.
  Context {V : Type} (d : V).

  Lemma sort_ok : forall (a : Mapped V) incl g w, well_made a -> regroup (ma_wrapper a) g = Ok w ->
    exists b, sort d a incl g = Ok b /\ ma_wrapper b = w /\ StronglySorted (not_after incl) (entries d b) /\
      forall c i, filter (same_key incl c i) (entries d b) = filter (same_key incl c i) (entries d a).
  Proof.
    intros a incl g w (Hpr & Hc & Hi & Hx & Hb) Hw. unfold sort. rewrite Hw. cbn [bind]. destruct (is_sorted a incl) eqn:Es.
    - eexists. split; [reflexivity|]. split; [reflexivity|]. split; [|intros; reflexivity]. unfold entries. cbn [ma_values]. apply sorted_seq. intros i j _ Hij.
      unfold entry_at, not_after. cbn [e_col e_id ma_cols ma_ids]. unfold is_sorted in Es. destruct incl.
      + apply lex_sorted_iff in Es. specialize (Es i j). rewrite combine_length, Hc, Hi, Nat.min_id in Es. specialize (Es ltac:(lia)).
        rewrite !combine_nth in Es by lia. cbn in Es. destruct Es as [|[]]; auto.
      + apply sorted_iff in Es. specialize (Es i j ltac:(lia)). destruct (Nat.eq_dec (nth i (ma_cols a) 0) (nth j (ma_cols a) 0)); [right|left]; [split; [auto|discriminate]|lia].
    - set (n := length (ma_values a)). set (col := fun i => nth i (ma_cols a) 0). set (id := fun i => nth i (ma_ids a) 0).
      set (before := fun j i => if incl then Nat.ltb (col j) (col i) || (Nat.eqb (col j) (col i) && Nat.ltb (id j) (id i)) else Nat.ltb (col j) (col i)).
      cbv zeta. match goal with |- context [if incl then ?x else ?y] => replace (if incl then x else y) with (argsort before n) by (unfold before; destruct incl; reflexivity) end.
      assert (Hb1 : forall i j, before j i = true <-> col j < col i \/ (incl = true /\ col j = col i /\ id j < id i)).
      { intros i j. unfold before. destruct incl; [rewrite orb_true_iff, andb_true_iff, Nat.eqb_eq, !Nat.ltb_lt; intuition|rewrite Nat.ltb_lt; intuition discriminate]. }
      assert (Hb0 : forall i j, before j i = false <-> ~ (col j < col i \/ (incl = true /\ col j = col i /\ id j < id i))).
      { intros i j. rewrite <- Hb1. destruct (before j i); split; congruence. }
      rewrite pick_ok.
      + eexists. split; [reflexivity|]. split; [reflexivity|]. rewrite entries_kept_cols. split.
        * apply (sorted_map (fun x y => before y x = false)).
          -- intros x y H. apply Hb0 in H. unfold not_after, entry_at. cbn [e_col e_id]. fold (col x) (col y) (id x) (id y). destruct (Nat.eq_dec (col x) (col y)); [right|left; lia].
             split; [auto|]. intros Ht. destruct (Nat.le_gt_cases (id x) (id y)); [auto|]. exfalso. apply H. right. auto.
          -- apply argsort_sorted.
             ++ intros i j H. apply Hb1 in H. apply Hb0. destruct H as [H|(H1 & H2 & H3)]; intros [K|(K1 & K2 & K3)]; lia.
             ++ intros i j k H1 H2. apply Hb0 in H1. apply Hb0 in H2. apply Hb0. intros [K|(K1 & K2 & K3)].
                ** destruct (Nat.lt_trichotomy (col j) (col i)) as [Q|[Q|Q]]; [apply H1; auto|apply H2; left; lia|apply H2; left; lia].
                ** destruct (Nat.lt_trichotomy (col j) (col i)) as [Q|[Q|Q]]; [apply H1; auto| |apply H2; left; lia].
                   destruct (Nat.lt_trichotomy (id j) (id i)) as [P|[P|P]]; [apply H1; auto|apply H2; right; repeat split; auto; lia|apply H2; right; repeat split; auto; lia].
        * intros c i. rewrite !filter_map. unfold entries. rewrite filter_map. f_equal. apply argsort_filter. intros p q Hp Hq. apply Hb1 in Hq.
          unfold same_key, entry_at in *. cbn [e_col e_id] in *. fold (col p) (id p) in Hp. fold (col q) (id q).
          apply andb_true_iff in Hp as [Hp1 Hp2]. apply Nat.eqb_eq in Hp1. apply not_true_iff_false. intros E. apply andb_true_iff in E as [E1 E2]. apply Nat.eqb_eq in E1.
          destruct Hq as [Hq|(Hq1 & Hq2 & Hq3)]; [lia|]. rewrite Hq1 in *. cbn in *. apply Nat.eqb_eq in Hp2. apply Nat.eqb_eq in E2. lia.
      + apply Forall_forall. intros x Hx'. apply argsort_in in Hx'. exact Hx'.
  Qed.

  Lemma kept_seq : forall {A} (f : nat -> A) mask s, kept mask (map f (seq s (length mask))) = map f (filter (fun i => nth (i - s) mask false) (seq s (length mask))).
  Proof.
    intros A f. induction mask as [|b mask IH]; intros s; [reflexivity|]. unfold kept in *. cbn [length seq map combine filter fst].
    assert (E : filter (fun i => nth (i - s) (b :: mask) false) (seq (S s) (length mask)) = filter (fun i => nth (i - S s) mask false) (seq (S s) (length mask))).
    { apply filter_ext_in. intros i Hi. apply in_seq in Hi. replace (i - s) with (S (i - S s)) by lia. reflexivity. }
    rewrite E. replace (s - s) with 0 by lia. destruct b; cbn [map snd nth]; rewrite IH; reflexivity.
  Qed.

  Lemma mask_ok : forall (a : Mapped V) mask g w, length mask = length (ma_values a) -> regroup (ma_wrapper a) g = Ok w ->
    exists b, apply_mask d a mask g = Ok b /\ ma_wrapper b = w /\ entries d b = kept mask (entries d a).
  Proof.
    intros a mask g w Hl Hw. unfold apply_mask. rewrite Hw. cbn [bind]. rewrite pick_ok.
    - eexists. split; [reflexivity|]. split; [reflexivity|]. rewrite entries_kept_cols. unfold entries, flatnonzero. rewrite <- Hl, kept_seq.
      f_equal. apply filter_ext_in. intros i _. rewrite Nat.sub_0_r. reflexivity.
    - apply Forall_forall. intros i Hi. apply filter_In in Hi as [Hi _]. apply in_seq in Hi. lia.
  Qed.
End Sorts.
