(** * Indicators over parameters: raw results and repeated combinations *)
From Coq Require Import String ZArith Bool List Arith Lia.
From Verif Require Import Base Grouper IndexFns BaseFnsLemmas4 BroadcastLemmas2 Indicator IndicatorSpec IndicatorLemmas IndicatorLemmas2.
Import ListNotations.
Local Open Scope nat_scope.

Section Pipeline.
Context {V P : Type}.
Variable peq : P -> P -> bool.
Variable hashable : P -> bool.

Lemma rows_of_shape : forall rows cols (f : Frame V), has_shape rows cols f -> rows_of_frame f = match cols with 0 => 0 | _ => rows end.
Proof.
  intros rows cols f [L H]. destruct f as [|c f]; cbn [length] in L; subst cols; [reflexivity|]. cbn [rows_of_frame]. apply H. now left.
Qed.
Lemma shape_eqb_shape : forall rows cols (f g : Frame V), has_shape rows cols f -> has_shape rows cols g -> shape_eqb f (rows_of_frame g) (length g) = true.
Proof.
  intros rows cols f g Hf Hg. unfold shape_eqb. rewrite (rows_of_shape _ _ _ Hf), (rows_of_shape _ _ _ Hg). destruct Hf as [-> _], Hg as [-> _].
  rewrite !Nat.eqb_refl. reflexivity.
Qed.
Lemma concat_shape : forall rows cols (fs : list (Frame V)), Forall (has_shape rows cols) fs -> has_shape rows (length fs * cols) (List.concat fs).
Proof.
  intros rows cols fs H. split.
  - apply concat_len. eapply Forall_impl; [|exact H]. intros f [L _]. exact L.
  - intros c Hc. apply in_concat in Hc. destruct Hc as (f & Hf & Hc). eapply Forall_forall in H; [|exact Hf]. apply H. exact Hc.
Qed.

(** Results of all combinations, in the right shapes *)
Definition shaped (rows cols q m : nat) (r : list (Frame V) * list (Frame V)) : Prop :=
  length (fst r) = q /\ length (snd r) = m /\ Forall (has_shape rows cols) (fst r) /\ Forall (has_shape rows cols) (snd r).
Lemma blocks_parts : forall rows cols q (g : list (Frame V) * list (Frame V) -> list (Frame V)) results k,
  Forall (fun r => length (g r) = q /\ Forall (has_shape rows cols) (g r)) results -> k < q ->
  Forall (has_shape rows cols) (map (fun r => nth k (g r) []) results).
Proof.
  intros rows cols q g results k H Hk. apply Forall_forall. intros f Hf. apply in_map_iff in Hf. destruct Hf as (r & <- & Hr).
  eapply Forall_forall in H; [|exact Hr]. destruct H as [L H]. eapply Forall_forall in H; [exact H|]. apply nth_In. lia.
Qed.
Lemma shaped_l : forall rows cols q m results, Forall (shaped rows cols q m) results ->
  Forall (fun r => length (fst r) = q /\ Forall (has_shape rows cols) (fst r)) results.
Proof. intros rows cols q m results H. eapply Forall_impl; [|exact H]. intros r (A & B & C & D). auto. Qed.
Lemma shaped_r : forall rows cols q m results, Forall (shaped rows cols q m) results ->
  Forall (fun r => length (snd r) = m /\ Forall (has_shape rows cols) (snd r)) results.
Proof. intros rows cols q m results H. eapply Forall_impl; [|exact H]. intros r (A & B & C & D). auto. Qed.
Lemma all_blocks : forall rows cols q m results, Forall (shaped rows cols q m) results ->
  Forall (has_shape rows (length results * cols)) (map (blocks fst results) (seq 0 q) ++ map (blocks snd results) (seq 0 m)).
Proof.
  intros rows cols q m results H. apply Forall_app. split; apply Forall_forall; intros f Hf; apply in_map_iff in Hf; destruct Hf as (k & <- & Hk); apply in_seq in Hk; unfold blocks.
  - replace (length results) with (length (map (fun r : list (Frame V) * list (Frame V) => nth k (fst r) []) results)) by apply map_length.
    apply concat_shape. apply (blocks_parts rows cols q fst); [eapply shaped_l; eauto|lia].
  - replace (length results) with (length (map (fun r : list (Frame V) * list (Frame V) => nth k (snd r) []) results)) by apply map_length.
    apply concat_shape. apply (blocks_parts rows cols m snd); [eapply shaped_r; eauto|lia].
Qed.


Lemma in_combine_snd : forall {A B} (a : list A) (b : list B) p, In p (combine a b) -> In (snd p) b.
Proof. intros A B a b [x y] H. apply in_combine_r in H. exact H. Qed.
Lemma ready_row : forall new (a : @Args V P) n cols rows p, given_shapes rows cols a -> p < n ->
  row (map (fun f => map (chunk f cols) (seq 0 n)) (map (wide_of new false n cols) (combine (seq 0 (length (a_in_outputs a))) (a_in_outputs a)))) p
  = before new a n cols p.
Proof.
  intros new a n cols rows p Hg Hp. rewrite (row_map _ n p []); [|intros l Hl; apply in_map_iff in Hl; destruct Hl as (f & <- & _); rewrite map_length; apply seq_length|exact Hp].
  rewrite !map_map. unfold before. apply map_ext_in. intros [i x] Hin. cbn [snd fst]. pose proof (in_combine_snd _ _ _ Hin) as Hx. cbn [snd] in Hx.
  rewrite (nth_indep _ [] (chunk (wide_of new false n cols (i, x)) cols 0)) by (rewrite map_length, seq_length; lia).
  rewrite map_nth, seq_nth by lia. cbn [Nat.add]. unfold wide_of. cbn [snd fst]. destruct x as [f|]; [|reflexivity].
  unfold chunk. rewrite concat_chunk; [apply nth_repeat_lt; exact Hp| |rewrite repeat_length; exact Hp].
  apply Forall_forall. intros g Hr. apply repeat_spec in Hr. subst. apply Hg. exact Hx.
Qed.

Lemma chunk_shape : forall (f : Frame V) rows cols n p, has_shape rows (cols * n) f -> p < n -> has_shape rows cols (chunk f cols p).
Proof.
  intros f rows cols n p [L H] Hp. unfold chunk. split.
  - rewrite firstn_length, skipn_length, L. nia.
  - intros c Hc. apply H. rewrite <- (firstn_skipn (p * cols) f). apply in_or_app. right. rewrite <- (firstn_skipn cols (skipn (p * cols) f)). apply in_or_app. left. exact Hc.
Qed.
Lemma before_shape : forall new (a : @Args V P) n cols rows p, given_shapes rows cols a -> new_shapes rows new -> p < n ->
  Forall (has_shape rows cols) (before new a n cols p).
Proof.
  intros new a n cols rows p Hg Hn Hp. unfold before. apply Forall_forall. intros f Hf. apply in_map_iff in Hf. destruct Hf as ([i x] & <- & Hin). cbn [fst snd].
  destruct x as [f|]; [apply Hg; exact (in_combine_snd _ _ _ Hin)|]. apply (chunk_shape _ _ _ n); [apply Hn|exact Hp].
Qed.

Lemma run_raw_spec : forall m apply new (a : @Args V P) params rows cols up used raw n_in used',
  a_per_column a = false -> a_shape a = Some (rows, cols) -> new_shapes rows new -> given_shapes rows cols a -> all_given a \/ none_given a ->
  keeps_shape m apply (a_inputs a) rows cols -> unique_params peq hashable (a_unique a) params = (up, used) -> rect up ->
  (run_raw peq hashable m (from_apply_func m apply) new a params = Ok (raw, n_in, used') <->
   used' = used /\ n_in = length (a_in_outputs a) /\ 0 < n_values up /\ 0 < length (a_in_outputs a) + m /\
   exists results, length results = n_values up /\
     (forall p, p < n_values up -> apply (a_inputs a) (before new a (n_values up) cols p) (row up p) = Ok (nth p results ([], []))) /\
     raw = mkRaw (map (blocks fst results) (seq 0 (length (a_in_outputs a))) ++ map (blocks snd results) (seq 0 m)) (zip_star up) cols).
Proof.
  intros m apply new a params rows cols up used raw n_in used' Hpc Hsh Hnew Hgs Hg Hk Hu Hr. unfold run_raw. rewrite Hpc, Hsh. cbn [negb]. rewrite andb_true_r, Hu.
  cbv zeta. rewrite (in_count _ Hg), (wide_spec new false _ _ _ Hg). rewrite andb_false_r. cbn [raise_if bind]. unfold raise_if at 1.
  set (n := n_values up) in *. set (q := length (a_in_outputs a)) in *.
  set (ready := map (fun f => map (chunk f cols) (seq 0 n)) _).
  assert (Hready : forall l, In l ready -> length l = n) by (intros l Hl; apply in_map_iff in Hl; destruct Hl as (f & <- & _); rewrite map_length; apply seq_length).
  assert (Lready : length ready = q) by (unfold ready; rewrite !map_length, combine_length, seq_length; fold q; lia).
  assert (Hrow : forall p, p < n -> row ready p = before new a n cols p) by (intros p Hp; apply (ready_row new a n cols rows p Hgs Hp)).
  assert (Hrs : forall p, p < n -> Forall (has_shape rows cols) (row ready p)) by (intros p Hp; rewrite Hrow by exact Hp; apply before_shape; assumption).
  assert (Hres : forall results, length results = n -> (forall p, p < n -> apply (a_inputs a) (before new a n cols p) (row up p) = Ok (nth p results ([], []))) ->
    Forall (shaped rows cols q m) results).
  { intros results L Ha. apply Forall_forall. intros r Hin. destruct (In_nth _ _ ([], []) Hin) as (p & Hlt & <-). rewrite L in Hlt.
    specialize (Ha p Hlt). destruct (nth p results ([], [])) as [io os]. apply Hk in Ha; [|apply before_shape; assumption]. destruct Ha as (A & B & C & D). unfold shaped. cbn [fst snd].
    rewrite A. unfold before. rewrite map_length, combine_length, seq_length. fold q. repeat split; auto. lia. }
  assert (Hfin : forall results, length results = n -> Forall (shaped rows cols q m) results -> 0 < n ->
    let outputs := map (blocks fst results) (seq 0 q) ++ map (blocks snd results) (seq 0 m) in
    0 < q + m ->
    match outputs with
    | [] => Err (IndexError "list index out of range")
    | o :: _ =>
      raise_if (negb (forallb (fun x => shape_eqb x (rows_of_frame o) (length o)) outputs)) (ValueError "All outputs must have the same shape") (
      raise_if (true && Nat.eqb n 0) ZeroDivision (
      raise_if (negb (Nat.eqb (length o / n) cols)) (ValueError "All outputs must have the number of columns = #input columns x #parameters")
       (Ok (mkRaw outputs (zip_star up) (length o / n), q, used))))
    end = Ok (mkRaw outputs (zip_star up) cols, q, used)).
  { intros results L Hs Hn outputs Hqm. pose proof (all_blocks rows cols q m results Hs) as Hall. fold outputs in Hall.
    assert (Lo : length outputs = q + m) by (unfold outputs; rewrite app_length, !map_length, !seq_length; reflexivity).
    destruct outputs as [|o rest]; [cbn in Lo; lia|]. assert (Ho : has_shape rows (length results * cols) o) by (inversion Hall; assumption).
    replace (forallb _ (o :: rest)) with true.
    - cbn [negb raise_if]. destruct (Nat.eqb_spec n 0); [lia|]. destruct Ho as [Lo' _]. rewrite Lo', L, (Nat.mul_comm n), Nat.div_mul by lia.
      cbn [andb raise_if]. rewrite Nat.eqb_refl. reflexivity.
    - symmetry. apply forallb_forall. intros x Hx. eapply shape_eqb_shape; [|exact Ho]. eapply Forall_forall in Hall; [exact Hall|exact Hx]. }
  split.
  - intros H. destruct (from_apply_func m apply (a_inputs a) ready up) as [[ios outs]|] eqn:E; cbn [bind] in H; [|discriminate].
    destruct (Nat.eq_dec n 0) as [Hz|Hz].
    { exfalso. unfold from_apply_func in E. cbv zeta in E. fold n in E. rewrite Hz in E. cbn [seq mapM bind map zip_star] in E.
      assert (outs = [] /\ ios = []) as [-> ->].
      { destruct m; cbn [mapM bind] in E; injection E as <- <-; destruct ready; auto. }
      unfold _split_output in H. cbn [snd fst] in H. destruct m as [|m]; cbn in H; discriminate. }
    destruct (from_apply_ok m apply (a_inputs a) ready up ios outs rows cols n Hk eq_refl Hr Hready Hrs E) as (results & L & Ha & -> & ->); [lia|].
    rewrite Lready in H. assert (Ha' : forall p, p < n -> apply (a_inputs a) (before new a n cols p) (row up p) = Ok (nth p results ([], []))).
    { intros p Hp. rewrite <- Hrow by exact Hp. apply Ha. exact Hp. }
    pose proof (Hres results L Ha') as Hs. cbn [fst snd] in H. unfold _split_output in H.
    rewrite firstn_all2 in H by (rewrite map_length, seq_length; lia). rewrite map_length, seq_length, Nat.eqb_refl in H. cbn [negb raise_if bind] in H.
    cbn [fst snd] in H. rewrite map_map in H. change (fun x => List.concat (map (fun r => nth x (fst r) []) results)) with (blocks (@fst (list (Frame V)) (list (Frame V))) results) in H.
    destruct (Nat.eq_dec (q + m) 0) as [Hqm|Hqm].
    { exfalso. assert (q = 0) as Eq by lia. assert (m = 0) as Em by lia. rewrite Eq in H. subst m. cbn in H. discriminate. }
    assert (K : Ok (mkRaw (map (blocks fst results) (seq 0 q) ++ map (blocks snd results) (seq 0 m)) (zip_star up) cols, q, used) = Ok (raw, n_in, used')).
    { rewrite <- H. symmetry. apply (Hfin results L Hs); lia. }
    injection K as <- <- <-. repeat split; try lia. exists results. auto.
  - intros (-> & -> & Hn & Hqm & results & L & Ha & ->).
    pose proof (Hres results L Ha) as Hs.
    rewrite (from_apply_total m apply (a_inputs a) ready up rows cols n results Hk eq_refl Hr Hready Hrs Hn L).
    2: { intros p Hp. rewrite Hrow by exact Hp. apply Ha. exact Hp. }
    rewrite Lready. cbn [bind fst snd]. unfold _split_output.
    rewrite firstn_all2 by (rewrite map_length, seq_length; lia). rewrite map_length, seq_length, Nat.eqb_refl. cbn [negb raise_if bind fst snd].
    rewrite map_map. change (fun x => List.concat (map (fun r => nth x (fst r) []) results)) with (blocks (@fst (list (Frame V)) (list (Frame V))) results).
    apply (Hfin results L Hs Hn Hqm).
Qed.
End Pipeline.
