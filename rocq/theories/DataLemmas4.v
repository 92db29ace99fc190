From Coq Require Import String ZArith Bool List Arith Lia.
From Verif Require Import Base Num Dicts Data DataSpec DataLemmas DataLemmas2 DataLemmas3.
Import ListNotations.

Section Lemmas.
  Context {T : Type} {N : Num T}.
  Local Notation obj := (@obj T). Local Notation raw := (@raw T). Local Notation data := (@data T).

  Lemma nth_combine {A B} (r : A) (v : B) : forall i vs, (exists k, nth_error i k = Some r /\ nth_error vs k = Some v) <-> In (r, v) (combine i vs).
  Proof.
    induction i as [|a i IH]; intros [|w vs]; cbn.
    - split; [intros ([|k] & H & _); discriminate|easy].
    - split; [intros ([|k] & H & _); discriminate|easy].
    - split; [intros ([|k] & _ & H); discriminate|easy].
    - rewrite <- IH. split.
      + intros ([|k] & H & H'); cbn in *; [left; congruence|right; now exists k].
      + intros [H|(k & H)]; [exists 0; cbn; injection H as -> ->; auto|now exists (S k)].
  Qed.
  Lemma keep_combine {A B} : forall fl (i : list A) (vs : list B), combine (keep fl i) (keep fl vs) = keep fl (combine i vs) \/ List.length i <> List.length vs.
  Proof.
    induction fl as [|b fl IH]; intros [|a i] [|w vs]; cbn; auto; try (destruct b; cbn; auto; right; discriminate).
    destruct (IH i vs) as [H|H]; [left; destruct b; cbn; congruence|right; lia].
  Qed.
  Lemma keep_app {A} : forall fl gl (l m : list A), List.length fl = List.length l -> keep (fl ++ gl) (l ++ m) = keep fl l ++ keep gl m.
  Proof.
    induction fl as [|b fl IH]; intros gl [|a l] m H; cbn in *; try discriminate; [reflexivity|].
    destruct b; rewrite IH by lia; reflexivity.
  Qed.
  Lemma keep_map {A B} (f : A -> bool) : forall (i : list A) (l : list B), List.length i = List.length l -> keep (map f i) l = map snd (filter (fun p => f (fst p)) (combine i l)).
  Proof.
    induction i as [|a i IH]; intros [|b l] H; cbn in *; try discriminate; [reflexivity|]. destruct (f a); cbn; rewrite IH by lia; reflexivity.
  Qed.
  Lemma keep_map_self {A} (f : A -> bool) : forall i : list A, keep (map f i) i = filter f i.
  Proof. induction i as [|a i IH]; cbn; [reflexivity|]. destruct (f a); now rewrite IH. Qed.
  Lemma keep_map_in {A B} (f : A -> bool) r (v : B) : forall i vs, In (r, v) (combine (keep (map f i) i) (keep (map f i) vs)) <-> f r = true /\ In (r, v) (combine i vs).
  Proof.
    induction i as [|a i IH]; intros [|w vs]; cbn.
    - tauto.
    - tauto.
    - destruct (f a); cbn; [tauto|]. specialize (IH []). destruct (map f i) as [|[] ?]; cbn in *; rewrite ?combine_nil in *; cbn in *; tauto.
    - destruct (f a) eqn:E; cbn; rewrite IH; [|split; [tauto|]]; [split|].
      + intros [H|H]; [injection H as -> ->; auto|tauto].
      + tauto.
      + intros [H1 [H|H]]; [congruence|auto].
  Qed.
  Lemma keep_length {A B} : forall fl (l : list A) (m : list B), List.length l = List.length m -> List.length (keep fl l) = List.length (keep fl m).
  Proof.
    induction fl as [|b fl IH]; intros l m H; [reflexivity|]. destruct l as [|a l], m as [|c m]; try discriminate; [now destruct b|].
    cbn in H. injection H as H. destruct b; cbn; [f_equal|]; now apply IH.
  Qed.
  Lemma keep_true {A} : forall l : list A, keep (repeat true (List.length l)) l = l.
  Proof. induction l; cbn; congruence. Qed.
  Lemma last_flags_nodup l : NoDup l -> last_flags l = repeat true (List.length l).
  Proof. induction 1 as [|a l Hn H IH]; cbn; [reflexivity|]. apply mem_false in Hn. now rewrite Hn, IH. Qed.
  Lemma last_flags_app i : forall j, NoDup i -> NoDup j -> last_flags (i ++ j) = map (fun a => negb (mem a j)) i ++ repeat true (List.length j).
  Proof.
    induction i as [|a i IH]; intros j Hi Hj; cbn; [now apply last_flags_nodup|]. inversion Hi; subst. rewrite IH by assumption. f_equal. f_equal.
    destruct (mem a j) eqn:E.
    - apply mem_In. apply in_or_app. right. now apply mem_In.
    - apply mem_false. rewrite in_app_iff. intros [H|H]; [contradiction|]. apply mem_In in H. congruence.
  Qed.
  Definition fresh (j i : list label) : list label := filter (fun a => negb (mem a j)) i.
  Lemma in_fresh a j i : In a (fresh j i) <-> In a i /\ ~ In a j.
  Proof. unfold fresh. rewrite filter_In, negb_true_iff, mem_false. reflexivity. Qed.
  Lemma kept_rows i j : NoDup i -> NoDup j -> keep (last_flags (i ++ j)) (i ++ j) = fresh j i ++ j.
  Proof.
    intros Hi Hj. rewrite last_flags_app, keep_app, keep_map_self, keep_true by (auto; apply map_length). reflexivity.
  Qed.
  Lemma kept_values i j (vs ws : list T) : NoDup i -> NoDup j -> List.length vs = List.length i -> List.length ws = List.length j ->
    keep (last_flags (i ++ j)) (vs ++ ws) = keep (map (fun a => negb (mem a j)) i) vs ++ ws.
  Proof.
    intros Hi Hj Hv Hw. rewrite last_flags_app, keep_app, <- Hw, keep_true by (auto; rewrite map_length; congruence). reflexivity.
  Qed.
  Lemma combine_app {A B} (l1 l2 : list A) (m1 m2 : list B) : List.length l1 = List.length m1 -> combine (l1 ++ l2) (m1 ++ m2) = combine l1 m1 ++ combine l2 m2.
  Proof. revert m1. induction l1 as [|a l1 IH]; intros [|b m1] H; cbn in *; try discriminate; [reflexivity|]. now rewrite IH by lia. Qed.
  Lemma kept_cells i j (vs ws : list T) r v : NoDup i -> NoDup j -> List.length vs = List.length i -> List.length ws = List.length j ->
    (In (r, v) (combine (fresh j i ++ j) (keep (map (fun a => negb (mem a j)) i) vs ++ ws)) <->
     (~ In r j /\ In (r, v) (combine i vs)) \/ In (r, v) (combine j ws)).
  Proof.
    intros Hi Hj Hv Hw. unfold fresh. rewrite <- keep_map_self. rewrite combine_app by (apply keep_length; congruence).
    rewrite in_app_iff, keep_map_in, negb_true_iff, mem_false. reflexivity.
  Qed.
  Lemma nodup_app (l1 l2 : list label) : NoDup l1 -> NoDup l2 -> (forall z, In z l1 -> ~ In z l2) -> NoDup (l1 ++ l2).
  Proof.
    induction l1 as [|z l1 IH]; intros H1 H2 H; cbn; [exact H2|]. inversion H1; subst. constructor.
    - rewrite in_app_iff. intros [Hz|Hz]; [contradiction|]. now apply (H z (or_introl eq_refl)).
    - apply IH; auto. intros; apply H; now right.
  Qed.
  Lemma fresh_nodup i j : NoDup i -> NoDup j -> NoDup (fresh j i ++ j).
  Proof. intros Hi Hj. apply nodup_app; [now apply NoDup_filter|exact Hj|]. intros z Hz. now apply in_fresh in Hz. Qed.

  (** the frame after appending *)
  Definition appended (i j : list label) (cols : list (label * list T)) (new : label -> list T) : list (label * list T) :=
    map (fun c => (fst c, keep (map (fun a => negb (mem a j)) i) (snd c) ++ new (fst c))) cols.
  Lemma pick_columns_ok (cols' : list (label * list T)) : forall cs picked, pick_columns cs cols' = Ok picked ->
    Forall2 (fun c p => fst p = c /\ find_column c cols' = Some (snd p)) cs picked.
  Proof.
    induction cs as [|c cs IH]; intros picked H; cbn in H; [injection H as <-; constructor|].
    destruct (find_column c cols') as [v|] eqn:E; [|discriminate]. destruct (pick_columns cs cols') as [r|]; [|discriminate]. cbn in H.
    injection H as <-. constructor; [auto|now apply IH].
  Qed.
  Lemma pick_columns_total (cols' : list (label * list T)) : forall cs, (forall c, In c cs -> In c (map fst cols')) -> exists picked, pick_columns cs cols' = Ok picked.
  Proof.
    induction cs as [|c cs IH]; intro H; cbn; [now exists []|]. destruct (find_column c cols') as [v|] eqn:E.
    - destruct IH as (r & ->); [intros; apply H; now right|]. eexists; reflexivity.
    - apply find_column_none in E. exfalso. apply E, H. now left.
  Qed.

  Definition appends (old new p : obj) : Prop :=
    proper p /\ rows p = fresh (rows new) (rows old) ++ rows new /\ columns p = columns old /\ (series p <-> series old) /\
    forall c r v, In c (columns old) -> (entry p c r v <-> (~ In r (rows new) /\ entry old c r v) \/ entry new c r v).

  Definition new_col (q : obj) (c : label) : list T := match find_column c (to_frame q) with Some ws => ws | None => [] end.
  Lemma appends_frame (old q p : obj) : proper old -> proper q -> (forall c, In c (columns old) -> In c (columns q)) ->
    rows p = fresh (rows q) (rows old) ++ rows q -> to_frame p = appended (rows old) (rows q) (to_frame old) (new_col q) ->
    (series p <-> series old) -> appends old q p.
  Proof.
    intros Po Pq Hi Hr Hf Hs. apply proper_frame_of in Po, Pq. destruct Po as (A1 & A2 & A3), Pq as (B1 & B2 & B3).
    assert (Hc : columns p = columns old).
    { rewrite !columns_frame, Hf. unfold appended. rewrite map_map. reflexivity. }
    assert (Hlen : forall c ws, In (c, ws) (to_frame q) -> List.length ws = List.length (rows q)) by exact B3.
    assert (Hnew : forall c, In c (columns old) -> In (c, new_col q c) (to_frame q)).
    { intros c Hc'. apply Hi in Hc'. rewrite columns_frame in Hc'. unfold new_col. destruct (find_column c (to_frame q)) as [ws|] eqn:E.
      - now apply find_column_some in E.
      - apply find_column_none in E. contradiction. }
    split; [|split; [exact Hr|split; [exact Hc|split; [exact Hs|]]]].
    - apply proper_frame_of. rewrite Hr. split; [now apply fresh_nodup|]. split.
      + rewrite <- columns_frame, Hc, columns_frame. exact A2.
      + intros c vs Hin. rewrite Hf in Hin. apply in_map_iff in Hin. destruct Hin as ([d us] & E & Hd). cbn in E. injection E as -> <-.
        rewrite !app_length. assert (In c (columns old)) by (rewrite columns_frame; change c with (fst (c, us)); now apply in_map).
        rewrite (Hlen c _ (Hnew c H)). f_equal. unfold fresh. rewrite <- keep_map_self. apply keep_length. now apply (A3 c).
    - intros c r v Hco. rewrite !entry_frame. pose proof (Hnew c Hco) as Hq. pose proof (Hlen c _ Hq) as Lq.
      rewrite columns_frame in Hco. apply in_map_iff in Hco. destruct Hco as ([d us] & E & Hd). cbn in E. subst d. pose proof (A3 c us Hd) as Lo.
      assert (Uq : forall ws, In (c, ws) (to_frame q) -> ws = new_col q c).
      { intros ws Hw. apply (find_column_some c) in Hw; auto. apply (find_column_some c) in Hq; auto. congruence. }
      assert (Uo : forall ws, In (c, ws) (to_frame old) -> ws = us).
      { intros ws Hw. apply (find_column_some c) in Hw; auto. apply (find_column_some c) in Hd; auto. congruence. }
      assert (E1 : (exists vs k, In (c, vs) (to_frame p) /\ nth_error (rows p) k = Some r /\ nth_error vs k = Some v) <->
                   In (r, v) (combine (fresh (rows q) (rows old) ++ rows q) (keep (map (fun a => negb (mem a (rows q))) (rows old)) us ++ new_col q c))).
      { rewrite <- nth_combine, Hr. split.
        - intros (vs & k & Hin & H1 & H2). rewrite Hf in Hin. apply in_map_iff in Hin. destruct Hin as ([d ws] & E & Hw). cbn in E. injection E as -> <-.
          exists k. rewrite <- (Uo ws Hw). auto.
        - intros (k & H1 & H2). eexists _, k. split; [|split; eassumption]. rewrite Hf. apply in_map_iff. exists (c, us). auto. }
      rewrite E1, kept_cells by assumption.
      assert (E2 : In (r, v) (combine (rows old) us) <-> exists vs k, In (c, vs) (to_frame old) /\ nth_error (rows old) k = Some r /\ nth_error vs k = Some v).
      { rewrite <- nth_combine. split; [intros (k & H); exists us, k; tauto|]. intros (vs & k & Hin & H). rewrite (Uo vs Hin) in H. now exists k. }
      assert (E3 : In (r, v) (combine (rows q) (new_col q c)) <-> exists vs k, In (c, vs) (to_frame q) /\ nth_error (rows q) k = Some r /\ nth_error vs k = Some v).
      { rewrite <- nth_combine. split; [intros (k & H); exists (new_col q c), k; tauto|]. intros (vs & k & Hin & H). rewrite (Uq vs Hin) in H. now exists k. }
      rewrite E2, E3. reflexivity.
  Qed.

  Lemma append_ok (old q p : obj) : proper old -> proper q -> (series old -> series q -> columns old = columns q) ->
    append old q = Ok p -> (forall c, In c (columns old) -> In c (columns q)) /\ appends old q p.
  Proof.
    intros Po Pq Hsame H. pose proof (proj1 (proper_frame_of old) Po) as (A1 & A2 & A3). pose proof (proj1 (proper_frame_of q) Pq) as (B1 & B2 & B3).
    destruct old as [n i vs|i cols]; cbn [append] in H.
    - destruct q as [m j ws|j cols'].
      + injection H as <-. specialize (Hsame I I). assert (Hi : forall c, In c (columns (Series n i vs)) -> In c (columns (Series m j ws))) by (rewrite Hsame; auto).
        split; [exact Hi|]. cbn [to_frame] in A3, B3. pose proof (A3 _ _ (or_introl eq_refl)) as Lo. pose proof (B3 _ _ (or_introl eq_refl)) as Lq. cbn in A1, B1, Lo, Lq.
        apply appends_frame; auto.
        * cbn. now apply kept_rows.
        * unfold drop_dups. cbn [index_of to_frame rows]. unfold appended. cbn [map fst snd]. f_equal.
          rewrite kept_values by assumption. f_equal.
          -- destruct n as [n|], m as [m|]; cbn in *; try (injection Hsame as ->); rewrite ?label_eqb_refl; auto; try congruence.
          -- unfold new_col. cbn [to_frame find_column].
             assert (E : label_eqb match n with Some a => a | None => Number 0 end match m with Some a => a | None => Number 0 end = true).
             { apply label_eqb_eq. destruct n, m; cbn in Hsame; congruence. }
             rewrite E. reflexivity.
        * reflexivity.
      + destruct n as [a|]; [|discriminate]. destruct (find_column a cols') as [ws|] eqn:E; [|discriminate]. injection H as <-.
        assert (Hin : In (a, ws) cols') by (now apply find_column_some in E). assert (Hi : forall c, In c (columns (Series (Some a) i vs)) -> In c (columns (DataFrame j cols'))).
        { intros c [<-|[]]. cbn. change a with (fst (a, ws)). now apply in_map. }
        split; [exact Hi|]. cbn in A1, B1. pose proof (A3 _ _ (or_introl eq_refl)) as Lo. pose proof (B3 _ _ Hin) as Lq. cbn in Lo, Lq.
        apply appends_frame; auto.
        * cbn. now apply kept_rows.
        * unfold drop_dups. cbn [index_of to_frame rows]. unfold appended. cbn [map fst snd]. rewrite kept_values by assumption.
          unfold new_col. cbn [to_frame]. rewrite E. reflexivity.
        * reflexivity.
    - destruct q as [m j ws|j cols']; [discriminate|]. destruct (pick_columns (map fst cols) cols') as [picked|] eqn:E; [|discriminate]. cbn [bind] in H.
      injection H as <-. apply pick_columns_ok in E. cbn in A1, A2, B1, B2.
      assert (Hi : forall c, In c (columns (DataFrame i cols)) -> In c (columns (DataFrame j cols'))).
      { intros c Hc. cbn in *. destruct (Forall2_in_l _ _ _ _ E Hc) as (p & _ & _ & Hf). destruct (in_dec label_dec c (map fst cols')) as [Hd|Hd]; [exact Hd|].
        apply find_column_none in Hd. congruence. }
      split; [exact Hi|]. apply appends_frame; auto; [cbn; now apply kept_rows| |reflexivity].
      unfold drop_dups. cbn [index_of to_frame rows]. unfold appended. rewrite map_map. cbn [fst snd].
      unfold new_col. cbn [to_frame].
      assert (G : forall cols0 picked0, (forall c vs, In (c, vs) cols0 -> List.length vs = List.length i) ->
                 Forall2 (fun c p => fst p = c /\ find_column c cols' = Some (snd p)) (map fst cols0) picked0 ->
                 map (fun x => (fst (fst x), keep (last_flags (i ++ j)) (snd (fst x) ++ snd (snd x)))) (combine cols0 picked0) =
                 map (fun c => (fst c, keep (map (fun a => negb (mem a j)) i) (snd c) ++ match find_column (fst c) cols' with Some ws => ws | None => [] end)) cols0).
      { induction cols0 as [|[c vs] cols0 IH]; intros picked0 HL HF; inversion HF as [|? [d ws] ? ? [E1 E2] HF']; subst; cbn; [reflexivity|].
        cbn [fst snd] in *. rewrite IH by (auto; intros; eapply HL; right; eassumption). rewrite E2. f_equal. f_equal.
        apply kept_values; auto; [apply (HL d); now left|]. apply find_column_some in E2; auto. now apply (B3 d). }
      apply G; [exact A3|exact E].
  Qed.
End Lemmas.
