From Coq Require Import String ZArith Bool List Arith Lia.
From Verif Require Import Base Num Dicts Data DataSpec DataLemmas DataLemmas2 DataLemmas3 DataLemmas4.
Import ListNotations.

Section Lemmas.
  Context {T : Type} {N : Num T}.
  Local Notation obj := (@obj T). Local Notation raw := (@raw T). Local Notation data := (@data T).

  Lemma dict_get_in {V} (d : list (string * V)) k v : NoDup (map fst d) -> (dict_get d k = Some v <-> In (k, v) d).
  Proof.
    induction d as [|[k' v'] d IH]; cbn; intro Hn; [split; [discriminate|easy]|]. inversion Hn; subst. destruct (String.eqb k k') eqn:E.
    - apply String.eqb_eq in E. subst k'. split; [intro H; left; congruence|]. intros [H|H]; [congruence|]. exfalso. apply H1.
      change k with (fst (k, v)). now apply in_map.
    - rewrite IH by assumption. split; [tauto|]. intros [H|H]; [|exact H]. injection H as -> ->. now rewrite String.eqb_refl in E.
  Qed.
  Lemma same_key {V} (d : list (string * V)) k v w : NoDup (map fst d) -> In (k, v) d -> In (k, w) d -> v = w.
  Proof. intros Hn H1 H2. apply (dict_get_in d k) in H1, H2; auto. congruence. Qed.

  Lemma new_rows_ok loc conv (old : obj) r o n : new_rows old r = Ok o -> to_zone loc conv o = Ok n -> received loc conv old r n.
  Proof.
    intros H Hz. exists o. split; [|now apply to_zone_ok].
    assert (Hlast : forall z l, rev (index_of old) = Number z :: l -> nth_error (rows old) (List.length (rows old) - 1) = Some (Number z)).
    { intros z l E. rewrite <- (rows_index old) in E. rewrite <- (rev_involutive (rows old)), E. cbn. rewrite app_length, rev_length. cbn.
      rewrite nth_error_app2 by (rewrite rev_length; lia). rewrite rev_length. replace (List.length l + 1 - 1 - List.length l) with 0 by lia. reflexivity. }
    destruct r as [vs|k cs|p]; cbn [new_rows] in H; [| |now injection H].
    - destruct (rev (index_of old)) as [|[z|s|t|t] l] eqn:E; try discriminate. injection H as <-. exists z.
      split; [now apply (Hlast z l)|]. apply (to_pandas_numbered z (Array1 vs)).
    - destruct (rev (index_of old)) as [|[z|s|t|t] l] eqn:E; try discriminate. injection H as <-. exists z.
      split; [now apply (Hlast z l)|]. apply (to_pandas_numbered z (Array2 k cs)).
  Qed.
  Lemma update_each_ok {V} us (kw : list (string * kwarg V)) loc conv : forall (olds news : list (string * obj)),
    update_each us kw loc conv olds = Ok news ->
    Forall2 (fun o n => fst n = fst o /\ exists r, us (fst o) (select_symbol_kwargs (fst o) kw) = Ok r /\ received loc conv (snd o) r (snd n)) olds news.
  Proof.
    induction olds as [|[k v] olds IH]; intros news H; cbn in H; [injection H as <-; constructor|].
    destruct (us k (select_symbol_kwargs k kw)) as [r|] eqn:E1; [|discriminate]. cbn [bind] in H.
    destruct (new_rows v r) as [o|] eqn:E2; [|discriminate]. cbn [bind] in H.
    destruct (to_zone loc conv o) as [n|] eqn:E3; [|discriminate]. cbn [bind] in H.
    destruct (update_each us kw loc conv olds) as [rest|] eqn:E4; [|discriminate]. cbn [bind] in H. injection H as <-.
    constructor; [|now apply IH]. cbn. split; [reflexivity|]. exists r. split; [exact E1|]. now apply (new_rows_ok _ _ _ _ o).
  Qed.
  Lemma append_each_ok (olds : list (string * obj)) : forall news res_, append_each olds news = Ok res_ ->
    Forall2 (fun n p => fst p = fst n /\ exists old, dict_get olds (fst n) = Some old /\ append old (snd n) = Ok (snd p)) news res_.
  Proof.
    induction news as [|[k v] news IH]; intros r H; cbn in H; [injection H as <-; constructor|].
    destruct (dict_get olds k) as [old|] eqn:E1; [|discriminate]. destruct (append old v) as [w|] eqn:E2; [|discriminate]. cbn [bind] in H.
    destruct (append_each olds news) as [rest|]; [|discriminate]. cbn [bind] in H. injection H as <-. constructor; [|now apply IH].
    cbn. split; [reflexivity|]. exists old. auto.
  Qed.

  Lemma joined_has missing ls l c : joined missing ls l -> ls <> [] -> (forall x, In x ls -> In c x) -> In c l.
  Proof.
    intros [_ H] Hne Hc. destruct ls as [|f ls]; [easy|]. pose proof (Hc f (or_introl eq_refl)) as Hf. destruct missing.
    - apply (proj1 H). exists f. split; [now left|exact Hf].
    - destruct H as (kp & -> & Hk). apply filter_In. split; [exact Hf|]. now apply Hk.
    - destruct H as [_ ->]. exact Hf.
    - destruct H as [_ ->]. exact Hf.
  Qed.

  Lemma update_ok {V} (d d' : data) us (kw : list (string * kwarg V)) : consistent d -> update d us kw = Ok d' ->
    exists news, map fst news = map fst (d_data d) /\
      (forall s o n, In (s, o) (d_data d) -> In (s, n) news ->
         exists r, us s (select_symbol_kwargs s kw) = Ok r /\ received (d_localize d) (d_convert d) o r n) /\
      (all_proper news -> lossless (d_missing_columns d) (map snd news) ->
       (forall s o n, In (s, o) (d_data d) -> In (s, n) news -> series o -> incl (columns o) (columns n)) ->
       exists rs, joined (d_missing_index d) (map obj_rows news) rs /\ consistent d' /\
         map fst (d_data d') = map fst (d_data d) /\
         forall s o n p, In (s, o) (d_data d) -> In (s, n) news -> In (s, p) (d_data d') -> after_update o n rs p).
  Proof.
    intros Hcons H. pose proof Hcons as (Hne & Hnd & Hrow & Huni). unfold update in H.
    destruct (update_each us kw (d_localize d) (d_convert d) (d_data d)) as [news|] eqn:E1; [|discriminate]. cbn [bind] in H.
    destruct (align_index news (d_missing_index d)) as [a|] eqn:E2; [|discriminate]. cbn [bind] in H.
    destruct (align_columns a (d_missing_columns d)) as [b|] eqn:E3; [|discriminate]. cbn [bind] in H.
    destruct (append_each (d_data d) b) as [c|] eqn:E4; [|discriminate]. cbn [bind] in H.
    apply update_each_ok in E1. exists news.
    assert (Kn : map fst news = map fst (d_data d)) by (eapply Forall2_keys; [|exact E1]; now intros ? ? [? _]).
    split; [exact Kn|]. split.
    { intros s o n Ho Hn. destruct (Forall2_in_r _ _ _ _ E1 Hn) as ([s' o'] & Ho' & E & Hr). cbn in E. subst s'.
      rewrite (same_key _ _ _ _ Hnd Ho Ho'). exact Hr. }
    intros Hp Hl Hal.
    assert (Hnn : news <> []) by (intros ->; destruct (d_data d); [easy|discriminate]).
    destruct (aligned_ok news _ _ a b Hnn Hp Hl E2 E3) as (rs & cs & Hj & Hjc & HF & Hu).
    pose proof (joined_nodup _ _ _ Hj) as Nrs.
    assert (Kb : map fst b = map fst (d_data d)) by (rewrite (Forall2_keys (sees rs cs) news b); [exact Kn|now intros ? ? [? _]|exact HF]).
    apply append_each_ok in E4.
    assert (Kc : map fst c = map fst (d_data d)) by (rewrite <- Kb; eapply Forall2_keys; [|exact E4]; now intros ? ? [? _]).
    assert (Ndn : NoDup (map fst news)) by (now rewrite Kn). assert (Ndb : NoDup (map fst b)) by (now rewrite Kb).
    assert (Hcol : forall s o, In (s, o) (d_data d) -> series o -> forall x, In x (columns o) -> In x cs).
    { intros s o Ho So x Hx. apply (joined_has _ _ _ x Hjc); [now destruct news|]. intros y Hy. apply in_map_iff in Hy. destruct Hy as ([t n] & <- & Hn). cbn.
      destruct (Forall2_in_r _ _ _ _ E1 Hn) as ([t' o'] & Ho' & E & _). cbn in E. subst t'.
      destruct (Huni s o t o' Ho Ho') as [Ec Es]. apply (Hal t o' n Ho' Hn); [tauto|]. now rewrite <- Ec. }
    assert (Happ : forall s o n p, In (s, o) (d_data d) -> In (s, n) news -> In (s, p) c -> after_update o n rs p /\ proper p /\ rows p = fresh rs (rows o) ++ rs).
    { intros s o n p Ho Hn Hp'. destruct (Forall2_in_r _ _ _ _ E4 Hp') as ([s' q] & Hq & E & old & Eo & Ea). cbn [fst snd] in *. subst s'.
      apply dict_get_in in Eo; auto. rewrite (same_key _ _ _ _ Hnd Eo Ho) in *. clear Eo old.
      destruct (Forall2_in_r _ _ _ _ HF Hq) as ([s' n'] & Hn' & E & Pq & Rq & Cq & Vq). cbn [fst snd] in *. subst s'.
      rewrite (same_key _ _ _ _ Ndn Hn' Hn) in *. clear Hn' n'.
      destruct (Hrow s o Ho) as [Po _].
      assert (Hss : series o -> series q -> columns o = columns q).
      { intros So Sq. destruct (series_columns o So) as (x & Ex). destruct (series_columns q Sq) as (y & Ey). rewrite Ex, Ey. f_equal.
        assert (Hx : In x cs) by (apply (Hcol s o Ho So); rewrite Ex; now left). rewrite <- Cq, Ey in Hx. destruct Hx as [Hx|[]]. now symmetry. }
      destruct (append_ok o q p Po Pq Hss Ea) as [Hincl (P1 & P2 & P3 & P4 & P5)]. rewrite Rq in *.
      split; [|auto]. split; [|split; [exact P3|split; [exact P4|]]].
      - exists (fun r => negb (mem r rs)). split; [exact P2|]. intro r. now rewrite negb_true_iff, mem_false.
      - intros x r v Hx. assert (Hxc : In x cs) by (rewrite <- Cq; now apply Hincl). rewrite P5 by exact Hx. split.
        + intro Hr. split; [|tauto]. intros [[_ He]|He]; [exact He|]. exfalso. apply Hr. rewrite <- Rq. apply entry_frame in He.
          destruct He as (ws & k & _ & Hk & _). exact (nth_error_In _ _ Hk).
        + intro Hr. rewrite Vq by assumption. tauto. }
    assert (Hcor : forall s p, In (s, p) c -> exists o n, In (s, o) (d_data d) /\ In (s, n) news).
    { intros s p Hi. assert (Hs : In s (map fst c)) by (change s with (fst (s, p)); now apply in_map). pose proof Hs as Hs'. rewrite Kc in Hs.
      rewrite Kc, <- Kn in Hs'. apply in_map_iff in Hs, Hs'. destruct Hs as ([s1 o] & E & Ho), Hs' as ([s2 n] & E' & Hn'). cbn in *. subst. now exists o, n. }
    destruct c as [|[s0 p0] c']; [destruct (d_data d); [easy|discriminate]|].
    assert (Hc' : consistent (mkData ((s0, p0) :: c') (index_of p0) (d_localize d) (d_convert d) (d_missing_index d) (d_missing_columns d))).
    { split; [discriminate|]. cbn [d_data d_index]. split; [rewrite Kc; exact Hnd|].
      assert (Hrows : forall s p, In (s, p) ((s0, p0) :: c') -> rows p = fresh rs (d_index d) ++ rs).
      { intros s p Hi. destruct (Hcor s p Hi) as (o & n & Ho & Hn). destruct (Happ s o n p Ho Hn Hi) as (_ & _ & ->). now rewrite (proj2 (Hrow s o Ho)). }
      split.
      - intros s p Hi. destruct (Hcor s p Hi) as (o & n & Ho & Hn). destruct (Happ s o n p Ho Hn Hi) as (_ & Pp & _). split; [exact Pp|].
        rewrite (Hrows s p Hi). rewrite <- (rows_index p0). symmetry. apply (Hrows s0). now left.
      - intros s p t q Hi Hi'. destruct (Hcor s p Hi) as (o & n & Ho & Hn). destruct (Hcor t q Hi') as (o' & n' & Ho' & Hn').
        destruct (Happ s o n p Ho Hn Hi) as ((_ & C1 & S1 & _) & _). destruct (Happ t o' n' q Ho' Hn' Hi') as ((_ & C2 & S2 & _) & _).
        destruct (Huni s o t o' Ho Ho') as [C3 S3]. split; [congruence|]. rewrite S1, S2. exact S3. }
    rewrite (new_data_ok _ Hc') in H. injection H as <-. exists rs. split; [exact Hj|]. split; [exact Hc'|]. split; [exact Kc|].
    cbn [d_data]. intros s o n p Ho Hn Hi. now apply (Happ s o n p).
  Qed.

  (** no old value is lost, if rows missing from some symbols are not filled *)
  Lemma no_value_lost missing (o n p : obj) rs ls : joined missing ls rs -> In (rows n) ls -> (missing <> MNan \/ ls = [rows n]) ->
    incl (columns o) (columns n) -> after_update o n rs p -> proper n ->
    forall c r v, entry o c r v -> entry p c r v \/ exists w, entry n c r w /\ entry p c r w.
  Proof.
    intros Hj Hin Hm Hc (_ & _ & _ & Hv) Pn c r v He.
    assert (Hco : In c (columns o)).
    { apply entry_frame in He. destruct He as (vs & k & Hi & _). rewrite columns_frame. change c with (fst (c, vs)). now apply in_map. }
    destruct (Hv c r v Hco) as [H1 H2]. destruct (in_dec label_dec r rs) as [Hr|Hr]; [|left; now apply H1].
    right.
    assert (Hrn : In r (rows n)).
    { destruct Hj as [_ Hj]. destruct Hm as [Hm| ->].
      - destruct missing; [easy| | |].
        + destruct ls as [|f ls]; [easy|]. destruct Hj as (kp & -> & Hk). apply filter_In in Hr. destruct Hr as [Hf Hr]. now apply (proj1 (Hk r Hf) Hr).
        + destruct ls as [|f ls]; [easy|]. destruct Hj as [Hs ->]. apply (Hs f (rows n)); auto. now left.
        + destruct ls as [|f ls]; [easy|]. destruct Hj as [Hs ->]. apply (Hs f (rows n)); auto. now left.
      - destruct missing.
        + destruct Hj as [Hj _]. apply Hj in Hr. destruct Hr as (x & [<-|[]] & Hr). exact Hr.
        + destruct Hj as (kp & -> & Hk). apply filter_In in Hr. tauto.
        + destruct Hj as [_ ->]. exact Hr.
        + destruct Hj as [_ ->]. exact Hr. }
    apply proper_frame_of in Pn. destruct Pn as (P1 & P2 & P3). apply Hc in Hco as Hcn. rewrite columns_frame in Hcn.
    apply in_map_iff in Hcn. destruct Hcn as ([d ws] & E & Hd). cbn in E. subst d. apply In_nth_error in Hrn. destruct Hrn as (k & Hk).
    assert (Hlt : k < List.length ws). { rewrite (P3 c ws Hd). apply nth_error_Some. congruence. }
    destruct (nth_error ws k) as [w|] eqn:Ew; [|apply nth_error_None in Ew; lia].
    assert (En : entry n c r w) by (apply entry_frame; exists ws, k; auto). exists w. split; [exact En|].
    destruct (Hv c r w Hco) as [_ H3]. apply H3; auto.
  Qed.

  (** ** concat and get *)
  Definition names_of (o : obj) : list (option label) := first_columns o.
  Lemma column_of_ok (o : obj) c : In c (columns o) -> proper o ->
    exists vs, column_of o c = Ok (rows o, vs) /\ List.length vs = List.length (rows o) /\
      forall r v, entry o c r v <-> In (r, v) (combine (rows o) vs).
  Proof.
    intros Hc Hp. apply proper_frame_of in Hp. destruct Hp as (P1 & P2 & P3). destruct o as [n i vs|i cols].
    - exists vs. split; [reflexivity|]. split; [eapply P3; now left|]. intros r v. rewrite <- nth_combine. cbn.
      assert (E : c = match n with Some a => a | None => Number 0 end) by (destruct n; cbn in Hc; destruct Hc as [Hc|[]]; now symmetry). tauto.
    - cbn in *. destruct (find_column c cols) as [vs|] eqn:E; [|apply find_column_none in E; contradiction].
      apply find_column_some in E; auto. exists vs. split; [reflexivity|]. split; [now apply (P3 c)|]. intros r v. rewrite <- nth_combine. split.
      + intros (ws & k & Hi & H). apply (find_column_some c) in E; auto. apply (find_column_some c) in Hi; auto. assert (ws = vs) by congruence. subst. now exists k.
      + intros (k & H). exists vs, k. tauto.
  Qed.
End Lemmas.
