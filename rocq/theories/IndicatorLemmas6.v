(** * Indicators over parameters: repeated combinations and raw results of earlier runs *)
From Coq Require Import String ZArith Bool List Arith Lia.
From Verif Require Import Base Grouper IndexFns BaseFnsLemmas4 BroadcastSpec BroadcastLemmas2 Indicator IndicatorSpec
  IndicatorLemmas IndicatorLemmas2 IndicatorLemmas3 IndicatorLemmas4 IndicatorLemmas5.
Import ListNotations.
Local Open Scope nat_scope.

Section Pipeline.
Context {V P : Type}.
Variable peq : P -> P -> bool.
Variable hashable : P -> bool.
Variable label_of : P -> Label.

Lemma tuple_eqb_alike : forall t u, tuple_eqb peq t u = true <-> alike peq t u.
Proof.
  induction t as [|x t IH]; intros [|y u]; cbn [tuple_eqb]; split; intros H; try discriminate; try constructor; try (inversion H; fail).
  - apply andb_true_iff in H. apply H.
  - apply IH. apply andb_true_iff in H. apply H.
  - inversion H; subst. apply andb_true_iff. split; [assumption|]. apply IH. assumption.
Qed.

Lemma tuple_index_ok : forall t ts i, tuple_index peq t ts = Ok i -> i < length ts /\ tuple_eqb peq (nth i ts []) t = true.
Proof.
  induction ts as [|u ts IH]; intros i H; cbn [tuple_index] in H; [discriminate|]. destruct (tuple_eqb peq u t) eqn:E.
  - injection H as <-. split; [cbn; lia|exact E].
  - destruct (tuple_index peq t ts) as [k|] eqn:F; cbn [bind] in H; [|discriminate]. injection H as <-. destruct (IH k eq_refl). split; [cbn; lia|assumption].
Qed.
Lemma tuple_index_total : forall t ts, existsb (fun u => tuple_eqb peq u t) ts = true -> exists i, tuple_index peq t ts = Ok i.
Proof.
  induction ts as [|u ts IH]; cbn [existsb tuple_index]; intros H; [discriminate|]. destruct (tuple_eqb peq u t); [eauto|].
  cbn [orb] in H. destruct (IH H) as [i ->]. cbn [bind]. eauto.
Qed.

(** unique combinations *)
Lemma dedupe_incl : forall ts seen t, In t (dedupe peq seen ts) -> In t ts.
Proof.
  induction ts as [|u ts IH]; intros seen t H; cbn [dedupe] in H; [contradiction|]. destruct (existsb _ seen); [right; eauto|].
  destruct H as [<-|H]; [now left|right; eauto].
Qed.
Lemma dedupe_complete : (forall x, peq x x = true) -> (forall x y, peq x y = true -> peq y x = true) -> forall ts seen t, In t ts ->
  existsb (fun u => tuple_eqb peq u t) (seen ++ dedupe peq seen ts) = true.
Proof.
  intros R S. assert (TR : forall t, tuple_eqb peq t t = true) by (induction t as [|x t IHt]; cbn [tuple_eqb]; [reflexivity|rewrite R; exact IHt]).
  assert (TS : forall t u, tuple_eqb peq t u = true -> tuple_eqb peq u t = true).
  { induction t as [|x t IHt]; intros [|y u] H; try discriminate; [reflexivity|]. cbn [tuple_eqb] in *. apply andb_true_iff in H. rewrite S, IHt by apply H. reflexivity. }
  induction ts as [|u ts IH]; intros seen t Hin; [contradiction|]. cbn [dedupe]. destruct (existsb (tuple_eqb peq u) seen) eqn:E.
  - destruct Hin as [<-|Hin]; [|apply IH; exact Hin]. rewrite existsb_app. apply orb_true_iff. left. apply existsb_exists in E. destruct E as (v & Hv & E).
    apply existsb_exists. exists v. split; [exact Hv|apply TS; exact E].
  - destruct Hin as [<-|Hin].
    + rewrite existsb_app. apply orb_true_iff. right. cbn [existsb]. rewrite TR. reflexivity.
    + specialize (IH (seen ++ [u]) t Hin). rewrite <- app_assoc in IH. exact IH.
Qed.

Lemma zip_zip : forall {A} (ts : list (list A)) w, ts <> [] -> 0 < w -> (forall t, In t ts -> length t = w) ->
  rect (zip_star ts) /\ n_values (zip_star ts) = length ts /\ zip_star (zip_star ts) = ts /\ length (zip_star ts) = w.
Proof.
  intros A ts w Hne Hw H. assert (Hd : exists d : A, True) by (destruct ts as [|[|d t] ts]; [congruence|specialize (H [] (or_introl eq_refl)); cbn in H; lia|eauto]).
  destruct Hd as [d _]. rewrite (zip_star_spec d ts w Hne H).
  assert (N : n_values (map (fun j => map (fun r => nth j r d) ts) (seq 0 w)) = length ts) by (destruct w; [lia|]; cbn [seq map n_values]; apply map_length).
  split; [|split; [exact N|split]].
  - intros l Hl. rewrite N. apply in_map_iff in Hl. destruct Hl as (j & <- & _). apply map_length.
  - assert (Hne' : map (fun j => map (fun r => nth j r d) ts) (seq 0 w) <> []) by (destruct w; [lia|discriminate]).
    rewrite (zip_star_spec d _ (length ts) Hne').
    + assert (Hrow : forall k, k < length ts -> map (fun c => nth k c d) (map (fun j => map (fun r => nth j r d) ts) (seq 0 w)) = nth k ts []).
      { intros k Hk. rewrite map_map.
        transitivity (map (fun j => nth j (nth k ts []) d) (seq 0 w)).
        - apply map_ext. intros j. rewrite (nth_indep _ d (nth j [] d)) by (rewrite map_length; exact Hk). apply (map_nth (fun r => nth j r d)).
        - rewrite <- (H (nth k ts [])) by (apply nth_In; exact Hk). generalize (nth k ts []). clear. intros l.
          induction l as [|x l IH]; [reflexivity|]. cbn [length seq map nth]. f_equal. rewrite <- seq_shift, map_map. exact IH. }
      transitivity (map (fun k => nth k ts []) (seq 0 (length ts))).
      * apply map_ext_in. intros k Hk. apply in_seq in Hk. apply Hrow. lia.
      * clear. induction ts as [|x l IH]; [reflexivity|]. cbn [length seq map nth]. f_equal. rewrite <- seq_shift, map_map. exact IH.
    + intros l Hl. apply in_map_iff in Hl. destruct Hl as (j & <- & _). apply map_length.
  - rewrite map_length. apply seq_length.
Qed.
Lemma zip_in_len : forall (params : list (list P)) t, rect params -> In t (zip_star params) -> length t = length params /\ params <> [].
Proof.
  intros params t Hr Ht. destruct params as [|l params]; [contradiction|]. split; [|discriminate]. set (ps := l :: params) in *.
  destruct (In_nth _ _ [] Ht) as (p & Hp & <-). assert (Hne : ps <> []) by discriminate.
  rewrite (zip_star_len ps (n_values ps) Hne Hr) in Hp. rewrite (zip_row ps (n_values ps) p Hr Hp).
  assert (l <> []) by (intros ->; cbn in Hp; lia). destruct l as [|d l]; [congruence|].
  rewrite (row_map ps (n_values ps) p d Hr Hp). apply map_length.
Qed.
Lemma unique_rect : forall u params up used, rect params -> unique_params peq hashable u params = (up, used) ->
  rect up /\ (used = false -> up = params) /\ (forall t, In t (zip_star up) -> In t (zip_star params)) /\
  (used = true -> u = true /\ zip_star up = dedupe peq [] (zip_star params) /\ up <> [] /\ params <> []).
Proof.
  intros u params up used Hr H. unfold unique_params in H. cbv zeta in H.
  destruct (u && _ && _) eqn:E; injection H as <- <-; [|split; [exact Hr|split; [auto|split; [auto|discriminate]]]].
  apply andb_true_iff in E. destruct E as [E El]. apply andb_true_iff in E. destruct E as [E _].
  apply Nat.ltb_lt in El. set (ts := zip_star params) in *. assert (Hts : ts <> []) by (intros Hc; rewrite Hc in El; cbn in El; lia).
  assert (Hw : forall t, In t ts -> length t = length params /\ params <> []) by (intros t Ht; apply zip_in_len; assumption).
  destruct ts as [|t0 ts0] eqn:Ets; [congruence|]. assert (Hp : params <> []) by (apply (Hw t0); now left).
  assert (Hd : dedupe peq [] (t0 :: ts0) <> []) by (cbn [dedupe existsb]; discriminate).
  assert (Hl : forall t, In t (dedupe peq [] (t0 :: ts0)) -> length t = length params) by (intros t Ht; apply Hw; eapply dedupe_incl; eauto).
  assert (Hpos : 0 < length params) by (destruct params; [congruence|cbn; lia]).
  destruct (zip_zip _ (length params) Hd Hpos Hl) as (Z1 & Z2 & Z3 & Z4).
  split; [exact Z1|]. split; [discriminate|]. split.
  - intros t Ht. rewrite Z3 in Ht. eapply dedupe_incl; eauto.
  - intros _. split; [exact E|]. split; [exact Z3|]. split; [|exact Hp]. intros Hc. rewrite Hc in Z4. cbn in Z4. lia.
Qed.

(** Using raw results: the result of an equal combination for every combination *)
Lemma chunk_block : forall rows cols q (g : list (Frame V) * list (Frame V) -> list (Frame V)) results k i,
  Forall (fun r => length (g r) = q /\ Forall (has_shape rows cols) (g r)) results -> k < q -> i < length results ->
  chunk (blocks g results k) cols i = nth k (g (nth i results ([], []))) [].
Proof.
  intros rows cols q g results k i H Hk Hi. unfold chunk, blocks. rewrite concat_chunk.
  - rewrite (nth_indep _ [] (nth k (g ([], [])) [])) by (rewrite map_length; exact Hi). rewrite (map_nth (fun r => nth k (g r) [])). reflexivity.
  - pose proof (blocks_parts rows cols q g results k H Hk) as A. eapply Forall_impl; [|exact A]. intros f [L _]. exact L.
  - rewrite map_length. exact Hi.
Qed.
Lemma use_raw_ok : forall rows cols q m (results : list (list (Frame V) * list (Frame V))) up params, Forall (shaped rows cols q m) results -> rect up -> length results = n_values up -> up <> [] ->
  forall outs, _use_raw peq params (mkRaw (map (blocks fst results) (seq 0 q) ++ map (blocks snd results) (seq 0 m)) (zip_star up) cols) = Ok outs ->
  exists picked, length picked = length (zip_star params) /\
    (forall p, p < length (zip_star params) -> exists i, i < n_values up /\ alike peq (row up i) (nth p (zip_star params) []) /\
        tuple_index peq (nth p (zip_star params) []) (zip_star up) = Ok i /\ nth p picked ([], []) = nth i results ([], [])) /\
    outs = map (blocks fst picked) (seq 0 q) ++ map (blocks snd picked) (seq 0 m).
Proof.
  intros rows cols q m results up params Hs Hr L Hup outs H. unfold _use_raw in H. cbn [raw_params raw_outputs raw_cols] in H.
  destruct (mapM (fun t => tuple_index peq t (zip_star up)) (zip_star params)) as [idxs|] eqn:E; cbn [bind] in H; [|discriminate].
  apply mapM_ok in E. assert (Lz : length (zip_star up) = n_values up) by (apply zip_star_len; [exact Hup|exact Hr]).
  assert (Hb : Forall (fun i => i < length results) idxs).
  { clear - E Lz L. induction E as [|t i ts idxs Ht E IH]; constructor; [|exact IH]. apply tuple_index_ok in Ht. lia. }
  exists (map (fun i => nth i results ([], [])) idxs). rewrite map_length, <- (F2_len _ _ _ E). split; [reflexivity|]. split.
  - intros p Hp. exists (nth p idxs 0). pose proof (F2_nth _ _ _ p [] 0 E Hp) as Hi. cbv beta in Hi. pose proof (tuple_index_ok _ _ _ Hi) as [A B].
    rewrite Lz in A. rewrite (zip_row up (n_values up) _ Hr A) in B. apply tuple_eqb_alike in B.
    split; [exact A|]. split; [exact B|]. split; [exact Hi|].
    rewrite (nth_indep _ ([], []) (nth 0 results ([], []))) by (rewrite map_length, <- (F2_len _ _ _ E); exact Hp).
    apply (map_nth (fun i => nth i results ([], []))).
  - assert (Hg : forall (g : list (Frame V) * list (Frame V) -> list (Frame V)) q' k, Forall (fun r => length (g r) = q' /\ Forall (has_shape rows cols) (g r)) results -> k < q' ->
      List.concat (map (chunk (blocks g results k) cols) idxs) = blocks g (map (fun i => nth i results ([], [])) idxs) k).
    { intros g q' k Hq Hk. unfold blocks at 2. rewrite map_map. f_equal. apply map_ext_in. intros i Hi.
      apply (chunk_block rows cols q'); [exact Hq|exact Hk|]. eapply Forall_forall in Hb; eauto. }
    apply mapM_ok in H. apply Forall2_app_inv_l in H. destruct H as (o1 & o2 & H1 & H2 & ->). f_equal.
    + clear H2 o2. revert o1 H1. assert (B : forall k, In k (seq 0 q) -> k < q) by (intros k Hk; apply in_seq in Hk; lia). revert B. generalize (seq 0 q). intros ks.
      induction ks as [|k ks IH]; intros B o1 H1; cbn [map] in H1; inversion H1 as [|? ? ? os A F]; subst; [reflexivity|]. cbn [map]. f_equal.
      * apply hstack_ok in A. destruct A as [-> _]. apply (Hg fst q); [eapply shaped_l; eauto|apply B; now left].
      * apply IH; [intros k' Hk'; apply B; now right|exact F].
    + clear H1 o1. revert o2 H2. assert (B : forall k, In k (seq 0 m) -> k < m) by (intros k Hk; apply in_seq in Hk; lia). revert B. generalize (seq 0 m). intros ks.
      induction ks as [|k ks IH]; intros B o2 H2; cbn [map] in H2; inversion H2 as [|? ? ? os A F]; subst; [reflexivity|]. cbn [map]. f_equal.
      * apply hstack_ok in A. destruct A as [-> _]. apply (Hg snd m); [eapply shaped_r; eauto|apply B; now left].
      * apply IH; [intros k' Hk'; apply B; now right|exact F].
Qed.
Lemma use_raw_total : forall rows cols q m (results : list (list (Frame V) * list (Frame V))) up params, Forall (shaped rows cols q m) results -> rect up -> length results = n_values up -> up <> [] ->
  zip_star params <> [] -> (forall t, In t (zip_star params) -> existsb (fun u => tuple_eqb peq u t) (zip_star up) = true) ->
  exists outs, _use_raw peq params (mkRaw (map (blocks fst results) (seq 0 q) ++ map (blocks snd results) (seq 0 m)) (zip_star up) cols) = Ok outs.
Proof.
  intros rows cols q m results up params Hs Hr L Hup Hne H. unfold _use_raw. cbn [raw_params raw_outputs raw_cols].
  assert (E : exists idxs, mapM (fun t => tuple_index peq t (zip_star up)) (zip_star params) = Ok idxs).
  { clear Hne. induction (zip_star params) as [|t ts IH]; [exists []; reflexivity|]. cbn [mapM]. destruct (tuple_index_total t (zip_star up)) as [i ->]; [apply H; now left|].
    cbn [bind]. destruct IH as [is ->]; [intros u Hu; apply H; now right|]. cbn [bind]. eauto. }
  destruct E as [idxs E]. rewrite E. cbn [bind]. eexists. apply mapM_total. intros o Ho. instantiate (1 := fun o => List.concat (map (chunk o cols) idxs)). cbv beta.
  assert (Hi : idxs <> []).
  { apply mapM_ok, F2_len in E. intros ->. destruct (zip_star params); [congruence|discriminate]. }
  destruct (map (chunk o cols) idxs) eqn:Em; [apply map_eq_nil in Em; congruence|]. rewrite <- Em. unfold hstack. rewrite Em, <- Em.
  pose proof (all_blocks rows cols q m results Hs) as Hall. eapply Forall_forall in Hall; [|exact Ho].
  replace (same_length _) with true; [reflexivity|]. symmetry.
  assert (A : forall c, In c (List.concat (map (chunk o cols) idxs)) -> length c = rows).
  { intros c Hc. apply in_concat in Hc. destruct Hc as (f & Hf & Hc). apply in_map_iff in Hf. destruct Hf as (i & <- & _).
    apply (proj2 Hall). unfold chunk in Hc. rewrite <- (firstn_skipn (i * cols) o). apply in_or_app. right.
    rewrite <- (firstn_skipn cols (skipn (i * cols) o)). apply in_or_app. left. exact Hc. }
  unfold same_length. destruct (List.concat _) as [|c rest]; [reflexivity|]. apply forallb_forall. intros d Hd. apply Nat.eqb_eq.
  rewrite (A d), (A c); [reflexivity|now left|now right].
Qed.
End Pipeline.
