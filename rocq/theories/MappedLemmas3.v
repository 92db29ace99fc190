(** * Proof lemmas: mapped arrays to pandas and back *)
From Coq Require Import String ZArith Bool List Arith Lia Permutation.
From Verif Require Import Base Num OrdLaws Grouper Reduce RecordsNb RecordsSpec RecordsLemmas RecordsLemmas2 RecordsLemmas3 RecordsLemmas4
  BaseFnsSpec BaseFnsLemmas BaseFnsLemmas2 Wrapper WrapperSpec WrapperLemmas WrapperLemmas2 Mapped MappedSpec MappedLemmas MappedLemmas2.
Import ListNotations.
Local Open Scope nat_scope.

Lemma nth_error_entries : forall {V} (d : V) a i, i < length (ma_values a) -> nth_error (entries d a) i = Some (entry_at d a i).
Proof.
  intros V d a i H. unfold entries. rewrite nth_error_map, (nth_error_nth' _ 0) by (rewrite seq_length; exact H). rewrite seq_nth by exact H. reflexivity.
Qed.
Lemma same_nth_errors : forall A (l l' : list A), (forall i, nth_error l i = nth_error l' i) -> l = l'.
Proof.
  induction l as [|x l IH]; intros [|y l'] H; [reflexivity|specialize (H 0); discriminate H|specialize (H 0); discriminate H|].
  f_equal; [specialize (H 0); injection H; auto|apply IH; intros i; apply (H (S i))].
Qed.
Lemma entries_length : forall {V} (d : V) a, length (entries d a) = length (ma_values a).
Proof. intros. unfold entries. rewrite map_length. apply seq_length. Qed.

Lemma nodup_dec_clash : forall (cells : list (nat * nat)), NoDup cells \/ exists i j, i < j < length cells /\ nth i cells (0, 0) = nth j cells (0, 0).
Proof.
  induction cells as [|x l IH]; [left; constructor|]. destruct IH as [H|(i & j & Hij & E)]; [|right; exists (S i), (S j); split; [cbn [length]; lia|exact E]].
  assert (dec : forall p q : nat * nat, {p = q} + {p <> q}) by (repeat decide equality). destruct (in_dec dec x l) as [Hin|Hin]; [|left; constructor; assumption].
  right. destruct (In_nth _ _ (0, 0) Hin) as (k & Hk & E). exists 0, (S k). split; [cbn [length]; lia|]. symmetry. exact E.
Qed.

Section ToPd.
  Context {V : Type} (d0 : V).

  Lemma to_pd_ok : forall fill (a : Mapped V) labels nos d idx, well_made a -> ma_idx a = Some idx -> places (ma_wrapper a) labels nos -> shown (ma_wrapper a) d ->
    (d = 1 \/ d = 2) -> (d = 1 -> length labels = 1) -> Forall (fun r => r < length (w_index (ma_wrapper a))) idx ->
    ((clash d0 a nos -> exists s, to_pd fill a GNone = Err (ValueError s)) /\
     (~ clash d0 a nos -> exists m, to_pd fill a GNone = Ok (framed d (w_index (ma_wrapper a)) labels m) /\
        shaped (length (w_index (ma_wrapper a))) (length labels) m /\
        (forall e r, In e (entries d0 a) -> e_row e = Some r -> cell d0 m r (place_of nos (e_col e)) = e_value e) /\
        (forall r p, r < length (w_index (ma_wrapper a)) -> p < length labels ->
           (forall e, In e (entries d0 a) -> ~ (e_row e = Some r /\ place_of nos (e_col e) = p)) -> cell d0 m r p = fill))).
  Proof.
    intros fill a labels nos d idx Hw Hidx Hpl Hs Hd H1 Hrow. unfold to_pd. rewrite Hidx, (own_col_arr a labels nos Hw Hpl). cbn [bind].
    pose proof Hw as (Hpr & Hc & _ & Hx & _). specialize (Hx _ Hidx). destruct (own_resolve _ _ _ _ Hpr Hpl Hs) as (w' & Hr & Hcols & Hn & Hi). rewrite Hr. cbn [bind].
    rewrite Hi, Hcols, Hn.
    assert (En : (if Nat.eqb d 1 then 1 else length labels) = length labels) by (destruct Hd as [ -> | -> ]; cbn [Nat.eqb]; [symmetry; auto|reflexivity]).
    rewrite En. set (nr := length (w_index (ma_wrapper a))) in *. set (cells := combine idx (map (place_of nos) (ma_cols a))).
    assert (Hlc : length cells = length (ma_values a)) by (unfold cells; rewrite combine_length, map_length; lia).
    assert (Hcell : forall k, k < length (ma_values a) -> nth k cells (0, 0) = (nth k idx 0, place_of nos (nth k (ma_cols a) 0))).
    { intros k Hk. unfold cells. rewrite (nth_indep _ (0, 0) (0, place_of nos 0)) by (fold cells; lia). rewrite combine_nth by (rewrite map_length; lia). rewrite map_nth. reflexivity. }
    assert (Hin : cells_in nr (length labels) cells).
    { unfold cells_in. apply Forall_forall. intros q Hq. destruct (In_nth _ _ (0, 0) Hq) as (k & Hk & <-). rewrite Hcell by lia. cbn [fst snd]. rewrite Forall_forall in Hrow.
      split; [apply Hrow, nth_In; lia|]. pose proof (places_cols_below a labels nos Hw Hpl) as B. unfold cells_in, cols_below in B. rewrite Forall_forall in B. apply B, in_map, nth_In. lia. }
    assert (Hcl : clash d0 a nos <-> ~ NoDup cells).
    { split.
      - intros (i & j & Hij & E) ND. rewrite entries_length in Hij. destruct (E (entry_at d0 a i) (entry_at d0 a j)) as [E1 E2]; [apply nth_error_entries; lia ..|].
        cbn [e_row e_col entry_at] in E1, E2. rewrite Hidx in E1. injection E1 as E1. rewrite (NoDup_nth cells (0, 0)) in ND.
        assert (i = j) by (apply ND; [lia|lia|rewrite !Hcell by lia; rewrite E1, E2; reflexivity]). lia.
      - intros ND. destruct (nodup_dec_clash cells) as [H|(i & j & Hij & E)]; [contradiction|]. exists i, j. rewrite entries_length. split; [lia|].
        intros e e' He He'. rewrite nth_error_entries in He, He' by lia. injection He as <-. injection He' as <-. rewrite !Hcell in E by lia. injection E as E1 E2.
        cbn [e_row e_col entry_at]. rewrite Hidx. cbn [option_map]. rewrite E1, E2. auto. }
    split.
    - intros C. apply Hcl in C. destruct (is_mapped_expandable_nb cells nr (length labels)) eqn:Ee; [apply expandable_iff in Ee; auto; contradiction|]. cbn [negb raise_if]. eauto.
    - intros C. assert (ND : NoDup cells) by (destruct (nodup_dec_clash cells) as [H|(i & j & Hij & E)]; [exact H|]; exfalso; apply C, Hcl; intros H; rewrite (NoDup_nth cells (0, 0)) in H; assert (i = j) by (apply H; auto; lia); lia).
      pose proof (proj2 (expandable_iff _ _ _ Hin) ND) as Ee. rewrite Ee. cbn [negb raise_if].
      destruct (expand_run V nr (length labels) (ma_values a) cells (mfull nr (length labels) fill) d0 (eq_sym Hlc) Hin (mfull_shaped _ _ _ _)) as (S1 & S2 & S3).
      change (fold_left _ _ _) with (expand_mapped_nb (ma_values a) cells nr (length labels) fill) in *. set (m := expand_mapped_nb (ma_values a) cells nr (length labels) fill) in *.
      exists m. split; [|split; [exact S1|split]].
      + unfold wrap, as_mat, nrows. cbn [rows ncols]. rewrite (proj1 S1), Hi, Hcols, Hn. fold nr. rewrite !Nat.eqb_refl. cbn [negb raise_if]. unfold framed.
        destruct Hd as [ -> | -> ]; cbn [Nat.eqb]; [rewrite (H1 eq_refl); reflexivity|rewrite andb_false_r; reflexivity].
      + intros e r He Er. unfold entries in He. apply in_map_iff in He as (k & <- & Hk). apply in_seq in Hk. cbn [e_row e_col e_value entry_at] in *. rewrite Hidx in Er. injection Er as <-.
        assert (Q : forall k', k < k' < length cells -> nth k' cells (0, 0) <> nth k cells (0, 0)) by (intros k' Hk' E; rewrite (NoDup_nth cells (0, 0)) in ND; assert (k' = k) by (apply ND; auto; lia); lia).
        specialize (S3 k ltac:(lia) Q). rewrite Hcell in S3 by lia. exact S3.
      + intros r p Hr' Hp' Hno. transitivity (mget d0 (mfull nr (length labels) fill) r p); [|apply mfull_get; assumption]. apply S2. intros Hq.
        destruct (In_nth _ _ (0, 0) Hq) as (k & Hk & E). rewrite Hcell in E by lia. injection E as E1 E2. apply (Hno (entry_at d0 a k)).
        * unfold entries. apply in_map, in_seq. lia.
        * cbn [e_row e_col entry_at]. rewrite Hidx. cbn [option_map]. rewrite E1, E2. auto.
  Qed.
End ToPd.

Section ToMapped.
  Context {T : Type} {N : Num T}.

  Lemma concat_repeat_seq : forall {A} (l : list A) n s, concat (repeat l n) = concat (map (fun _ : nat => l) (seq s n)).
  Proof. induction n as [|n IH]; intros s; [reflexivity|]. cbn [repeat seq map concat]. f_equal. apply IH. Qed.
  Lemma by_column_fst : forall nr nc, concat (repeat (seq 0 nr) nc) = map fst (by_column nr nc).
  Proof.
    intros nr nc. rewrite (concat_repeat_seq _ nc 0). unfold by_column. rewrite concat_map, map_map. f_equal. apply map_ext. intros c. rewrite map_map. cbn [fst]. symmetry. apply map_id.
  Qed.
  Lemma by_column_snd : forall nr nc, concat (map (fun c => repeat c nr) (seq 0 nc)) = map snd (by_column nr nc).
  Proof.
    intros nr nc. unfold by_column. rewrite concat_map, map_map. f_equal. apply map_ext. intros c. rewrite map_map. cbn [snd].
    generalize 0. induction nr as [|nr IH]; intros s; [reflexivity|]. cbn [repeat seq map]. f_equal. apply IH.
  Qed.
  Lemma by_column_values : forall (a : mat T), concat (map (fun c => map (fun r => nth c r nan) (rows a)) (seq 0 (ncols a))) = map (fun q => cell nan (rows a) (fst q) (snd q)) (by_column (nrows a) (ncols a)).
  Proof.
    intros a. unfold by_column, nrows. rewrite concat_map, map_map. f_equal. apply map_ext. intros c. rewrite map_map. cbn [fst snd]. unfold cell.
    induction (rows a) as [|r l IH]; [reflexivity|]. cbn [map length]. cbn [seq map nth]. f_equal. rewrite IH, <- seq_shift, map_map. reflexivity.
  Qed.
  Lemma by_column_in : forall nr nc r c, In (r, c) (by_column nr nc) <-> r < nr /\ c < nc.
  Proof.
    intros nr nc r c. unfold by_column. rewrite in_concat. split.
    - intros (l & Hl & Hin). apply in_map_iff in Hl as (c' & <- & Hc). apply in_map_iff in Hin as (r' & E & Hr). injection E as -> ->. apply in_seq in Hc. apply in_seq in Hr. lia.
    - intros [Hr Hc]. exists (map (fun r => (r, c)) (seq 0 nr)). split; [apply in_map_iff; exists c; split; [reflexivity|apply in_seq; lia]|apply in_map_iff; exists r; split; [reflexivity|apply in_seq; lia]].
  Qed.
  Lemma NoDup_app2 : forall {A} (l l' : list A), NoDup l -> NoDup l' -> (forall x, In x l -> ~ In x l') -> NoDup (l ++ l').
  Proof.
    induction l as [|x l IH]; intros l' H H' D; [exact H'|]. inversion H; subst. cbn [app]. constructor.
    - intros Hin. apply in_app_or in Hin as [Hin|Hin]; [contradiction|]. apply (D x); [left; reflexivity|exact Hin].
    - apply IH; auto. intros y Hy. apply D. right. exact Hy.
  Qed.
  Lemma by_column_nodup : forall nr nc, NoDup (by_column nr nc).
  Proof.
    intros nr nc. induction nc as [|nc IH]; [constructor|]. unfold by_column. rewrite seq_S, map_app, concat_app. cbn [map concat Nat.add]. rewrite app_nil_r. fold (by_column nr nc).
    apply NoDup_app2; [exact IH|apply FinFun.Injective_map_NoDup; [intros x y E; injection E; auto|apply seq_NoDup]|].
    intros [r c] Hin Hin'. apply by_column_in in Hin. apply in_map_iff in Hin' as (r' & E & _). injection E as _ E. lia.
  Qed.
  Lemma take_kept : forall {A B C} (v : A -> B) (f : A -> C) (P : B -> bool) l e d,
    take d (map f l) (filter (fun i => P (nth i (map v l) e)) (seq 0 (length (map v l)))) = map f (filter (fun x => P (v x)) l).
  Proof.
    intros A B C v f P l e d. unfold take. rewrite map_length.
    induction l as [|x l IH]; [reflexivity|]. cbn [length seq filter map nth]. rewrite <- seq_shift, filter_map.
    destruct (P (v x)); cbn [map nth]; [f_equal|]; rewrite map_map; exact IH.
  Qed.

  Lemma to_mapped_ok : forall w (a : mat T) dropna, nrows a = length (w_index w) -> ncols a = length (w_columns w) -> proper w ->
    exists b, to_mapped w a dropna GNone = Ok b /\ ma_wrapper b = w /\ well_made b /\
      let cells := filter (fun q => negb (dropna && isnan (cell nan (rows a) (fst q) (snd q)))) (by_column (length (w_index w)) (length (w_columns w))) in
      ma_idx b = Some (map fst cells) /\
      map (fun e => (e_value e, e_row e, e_col e, e_id e)) (entries nan b) =
        map (fun iq => let '(i, (r, c)) := iq in (cell nan (rows a) r c, Some r, c, i)) (combine (seq 0 (length cells)) cells).
  Proof.
    intros w a dropna Hr Hc Hpr. unfold to_mapped. rewrite by_column_values, by_column_snd, by_column_fst, regroup_none. cbn [bind]. rewrite <- Hr, <- Hc.
    set (L := by_column (nrows a) (ncols a)). set (v := fun q : nat * nat => cell nan (rows a) (fst q) (snd q)).
    assert (G : forall cells, (forall q, In q cells -> In q L) ->
      exists b, make_mapped w (map v cells) (map snd cells) None (Some (map fst cells)) = Ok b /\ ma_wrapper b = w /\ well_made b /\ ma_idx b = Some (map fst cells) /\
        map (fun e => (e_value e, e_row e, e_col e, e_id e)) (entries nan b) =
        map (fun iq => let '(i, (r, c)) := iq in (cell nan (rows a) r c, Some r, c, i)) (combine (seq 0 (length cells)) cells)).
    { intros cells Hsub. unfold make_mapped. rewrite !map_length, !Nat.eqb_refl. cbn [negb raise_if].
      eexists. split; [reflexivity|]. split; [reflexivity|]. cbn [ma_wrapper ma_values ma_cols ma_ids ma_idx]. split; [|split; [reflexivity|]].
      - unfold well_made. cbn [ma_wrapper ma_values ma_cols ma_ids ma_idx]. rewrite !map_length, seq_length. split; [exact Hpr|]. split; [reflexivity|]. split; [reflexivity|]. split.
        + intros l E. injection E as <-. rewrite map_length. reflexivity.
        + unfold cols_below. rewrite Forall_map. apply Forall_forall. intros [r c] Hq. apply Hsub, by_column_in in Hq. cbn [snd]. lia.
      - unfold entries. cbn [ma_values]. rewrite map_map, map_length. apply same_nth_errors. intros k. rewrite !nth_error_map. destruct (Nat.lt_ge_cases k (length cells)) as [Hk|Hk].
        + rewrite (nth_error_nth' (seq 0 _) 0) by (rewrite seq_length; exact Hk). rewrite (nth_error_nth' (combine _ _) (0, (0, 0))) by (rewrite combine_length, seq_length; lia).
          rewrite combine_nth by apply seq_length. rewrite !seq_nth by exact Hk. cbn [option_map Nat.add]. unfold entry_at. cbn [e_value e_row e_col e_id ma_values ma_cols ma_ids ma_idx option_map].
          rewrite (nth_of_map v _ _ nan (0, 0)), (nth_of_map fst _ _ 0 (0, 0)), (nth_of_map snd _ _ 0 (0, 0)) by exact Hk. rewrite seq_nth by exact Hk.
          destruct (nth k cells (0, 0)) as [r c]. reflexivity.
        + rewrite !(proj2 (nth_error_None _ _)); [reflexivity|rewrite combine_length, seq_length; lia|rewrite seq_length; lia]. }
    cbv zeta. destruct dropna; cbn [andb].
    - destruct (existsb isnan (map v L)) eqn:En.
      + pose proof (fun C (f : nat * nat -> C) d => take_kept v f (fun x => negb (isnan x)) L nan d) as K. cbv beta in K. rewrite !K. apply (G (filter (fun x => negb (isnan (v x))) L)). intros q Hq. apply filter_In in Hq. tauto.
      + replace (filter (fun q : nat * nat => negb (isnan (cell nan (rows a) (fst q) (snd q)))) L) with L; [apply G; auto|].
        symmetry. assert (Q : forall q, In q L -> isnan (v q) = false).
        { intros q Hq. destruct (isnan (v q)) eqn:E; [|reflexivity]. rewrite <- En. symmetry. apply existsb_exists. exists (v q). split; [apply in_map; exact Hq|exact E]. }
        clear - Q. clearbody L. induction L as [|q l IH]; [reflexivity|]. cbn [filter]. fold (v q). rewrite (Q q) by (left; reflexivity). cbn [negb]. f_equal. apply IH. intros; apply Q; right; assumption.
    - replace (filter _ L) with L; [apply G; auto|]. symmetry. clear. induction L as [|q l IH]; [reflexivity|]. cbn [filter negb]. f_equal. exact IH.
  Qed.
End ToMapped.

Section RoundTrip.
  Context {T : Type} {N : Num T}.

  Lemma round_trip : forall w (a : mat T) dropna, nrows a = length (w_index w) -> ncols a = length (w_columns w) -> proper w -> ungrouped w ->
    exists b m, to_mapped w a dropna GNone = Ok b /\ to_pd nan b GNone = Ok (framed (w_ndim w) (w_index w) (w_columns w) m) /\
      shaped (nrows a) (ncols a) m /\
      forall r c, r < nrows a -> c < ncols a ->
        cell nan m r c = cell nan (rows a) r c \/ (dropna = true /\ isnan (cell nan (rows a) r c) = true /\ cell nan m r c = nan).
  Proof.
    intros w a dropna Hr Hc Hpr Hu. destruct (to_mapped_ok w a dropna Hr Hc Hpr) as (b & Hb & Hw & Hwm & Hi & He). cbv zeta in Hi, He.
    set (cells := filter _ _) in *. subst w. set (w := ma_wrapper b) in *.
    assert (Hpl : places w (w_columns w) (seq 0 (length (w_columns w)))) by (left; auto).
    assert (Hs : shown w (w_ndim w)) by (left; auto).
    assert (Hrow : Forall (fun r => r < length (w_index w)) (map fst cells)).
    { rewrite Forall_map. apply Forall_forall. intros [r c] Hq. apply filter_In in Hq as [Hq _]. apply by_column_in in Hq. cbn [fst]. lia. }
    assert (HcN : NoDup cells) by (apply NoDup_filter, by_column_nodup).
    pose proof Hpr as (_ & Hd & H1).
    assert (Hat : forall k e, nth_error (entries nan b) k = Some e -> k < length cells /\ e_value e = cell nan (rows a) (fst (nth k cells (0, 0))) (snd (nth k cells (0, 0))) /\
       e_row e = Some (fst (nth k cells (0, 0))) /\ e_col e = snd (nth k cells (0, 0))).
    { intros k e Hk. pose proof (f_equal (fun l => nth_error l k) He) as Q. cbv beta in Q. rewrite !nth_error_map, Hk in Q. cbn [option_map] in Q.
      destruct (nth_error (combine (seq 0 (length cells)) cells) k) as [[i [r c]]|] eqn:Ek; [|discriminate Q]. cbn [option_map] in Q. injection Q as Q1 Q2 Q3 Q4.
      assert (Hl : k < length cells) by (assert (Z : nth_error (combine (seq 0 (length cells)) cells) k <> None) by (rewrite Ek; discriminate); apply nth_error_Some in Z; rewrite combine_length, seq_length in Z; lia).
      rewrite (nth_error_nth' _ (0, (0, 0))) in Ek by (rewrite combine_length, seq_length; lia). rewrite combine_nth in Ek by apply seq_length. injection Ek as _ Ek. rewrite Ek. cbn [fst snd]. auto. }
    assert (Hlen : length (entries nan b) = length cells) by (apply (f_equal (@length _)) in He; rewrite !map_length, combine_length, seq_length in He; lia).
    destruct (to_pd_ok nan nan b (w_columns w) (seq 0 (length (w_columns w))) (w_ndim w) (map fst cells) Hwm Hi Hpl Hs Hd H1 Hrow) as (_ & Hok).
    assert (Hpo : forall c, c < length (w_columns w) -> place_of (seq 0 (length (w_columns w))) c = c) by (intros c Hc'; unfold place_of; apply seq_nth; exact Hc').
    assert (Hcol : forall k, k < length cells -> snd (nth k cells (0, 0)) < length (w_columns w)).
    { intros k Hk. pose proof (nth_In _ (0, 0) Hk) as Q. apply filter_In in Q as [Q _]. destruct (nth k cells (0, 0)) as [r c]. apply by_column_in in Q. cbn [snd]. lia. }
    fold w in Hok. destruct Hok as (m & Em & Sm & M1 & M2).
    { intros (i & j & Hij & E). destruct (nth_error (entries nan b) i) as [e|] eqn:Ei; [|apply nth_error_None in Ei; lia]. destruct (nth_error (entries nan b) j) as [e'|] eqn:Ej; [|apply nth_error_None in Ej; lia].
      destruct (E e e' eq_refl eq_refl) as [E1 E2]. destruct (Hat _ _ Ei) as (Li & _ & Ri & Ci). destruct (Hat _ _ Ej) as (Lj & _ & Rj & Cj).
      rewrite Ri, Rj in E1. injection E1 as E1. rewrite Ci, Cj, !Hpo in E2 by (apply Hcol; assumption). rewrite (NoDup_nth cells (0, 0)) in HcN.
      assert (i = j) by (apply HcN; auto; rewrite (surjective_pairing (nth i cells (0, 0))), (surjective_pairing (nth j cells (0, 0))), E1, E2; reflexivity). lia. }
    exists b, m. split; [exact Hb|]. split; [exact Em|]. split; [rewrite Hr, Hc; exact Sm|]. intros r c Hr' Hc'.
    destruct (dropna && isnan (cell nan (rows a) r c)) eqn:Ed.
    - right. apply andb_prop in Ed as [-> Ed]. split; [reflexivity|]. split; [exact Ed|]. apply M2; [lia|lia|]. intros e Hin [E1 E2].
      apply In_nth_error in Hin as (k & Hk). destruct (Hat _ _ Hk) as (Lk & _ & Rk & Ck). rewrite Rk in E1. injection E1 as E1. rewrite Ck, Hpo in E2 by (apply Hcol; exact Lk).
      pose proof (nth_In _ (0, 0) Lk) as Q. apply filter_In in Q as [_ Q]. rewrite E1, E2, Ed in Q. discriminate Q.
    - left. assert (Hin : In (r, c) cells) by (apply filter_In; cbn [fst snd]; rewrite Ed; split; [apply by_column_in; lia|reflexivity]).
      destruct (In_nth _ _ (0, 0) Hin) as (k & Lk & Ek). destruct (nth_error (entries nan b) k) as [e|] eqn:En; [|apply nth_error_None in En; lia].
      destruct (Hat _ _ En) as (_ & Vk & Rk & Ck). rewrite Ek in Vk, Rk, Ck. cbn [fst snd] in Vk, Rk, Ck. rewrite <- Vk, <- (M1 e r (nth_error_In _ _ En) Rk), Ck, Hpo by lia. reflexivity.
  Qed.
End RoundTrip.

Lemma construct_ok : forall V w (values : list V) cols ids idx,
  (length cols = length values /\ (forall l, idx = Some l -> length l = length values) ->
     exists a, make_mapped w values cols ids idx = Ok a /\ ma_wrapper a = w /\ ma_values a = values /\ ma_cols a = cols /\ ma_idx a = idx /\
       (forall l, ids = Some l -> ma_ids a = l) /\ (ids = None -> ma_ids a = seq 0 (length values))) /\
  (length cols <> length values \/ (exists l, idx = Some l /\ length l <> length values) ->
     exists s, make_mapped w values cols ids idx = Err (AssertionError s)).
Proof.
  intros V w values cols ids idx. unfold make_mapped. split.
  - intros [H1 H2]. rewrite H1, Nat.eqb_refl. cbn [negb raise_if].
    assert (E : match idx with Some l => negb (Nat.eqb (length values) (length l)) | None => false end = false).
    { destruct idx as [l|]; auto. rewrite (H2 l eq_refl), Nat.eqb_refl. auto. }
    rewrite E. cbn [raise_if]. eexists. split; [reflexivity|]. repeat split; auto; intros; subst; auto.
  - intros H. destruct (Nat.eqb_spec (length values) (length cols)) as [E|E]; cbn [negb raise_if]; [|eauto].
    destruct H as [H|(l & -> & H)]; [lia|]. destruct (Nat.eqb_spec (length values) (length l)); [lia|]. cbn [negb raise_if]. eauto.
Qed.
