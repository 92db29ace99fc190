From Coq Require Import String ZArith Bool List Arith Lia.
From Verif Require Import Base Num Dicts Data DataSpec DataLemmas DataLemmas2.
Import ListNotations.

Section Lemmas.
  Context {T : Type} {N : Num T}.
  Local Notation obj := (@obj T). Local Notation raw := (@raw T). Local Notation data := (@data T).

  Definition new_cols_of (cs : list label) (a b : string * obj) : Prop :=
    fst b = fst a /\ proper (snd b) /\ rows (snd b) = rows (snd a) /\ columns (snd b) = cs /\
    forall c r v, In c cs -> In r (rows (snd a)) ->
      (entry (snd b) c r v <-> (entry (snd a) c r v \/ (~ In c (columns (snd a)) /\ v = nan))).
  Definition uniform (ds : list (string * obj)) : Prop :=
    forall s o t p, In (s, o) ds -> In (t, p) ds -> (series o <-> series p).

  Lemma series_columns (o : obj) : series o -> exists c, columns o = [c].
  Proof. destruct o as [[n|] i vs|i cols]; cbn; [now exists n|now exists (Number 0)|easy]. Qed.
  Lemma is_frame_series (o : obj) : is_frame o = true <-> ~ series o.
  Proof. destruct o; cbn; split; try easy. Qed.
  Lemma same_singletons (a b : label) : same_set [a] [b] -> a = b.
  Proof. intro H. destruct (proj1 (H a) (or_introl eq_refl)) as [<-|[]]. reflexivity. Qed.
  Lemma columns_map (ds : list (string * obj)) :
    map (fun kv => map fst (to_frame (snd kv))) ds = map (fun kv => columns (snd kv)) ds.
  Proof. apply map_ext. intro kv. now rewrite columns_frame. Qed.

  (** all are Series, and the columns they get are not none: they have all the same column *)
  Lemma series_same_column mc (ds : list (string * obj)) cs :
    ds <> [] -> (forall s o, In (s, o) ds -> series o) -> joined mc (map (fun kv => columns (snd kv)) ds) cs -> cs <> [] ->
    lossless mc (map snd ds) -> forall s o, In (s, o) ds -> columns o = cs.
  Proof.
    intros Hne Hs [Hn Hj] Hc Hl.
    assert (Hin : forall s o, In (s, o) ds -> In (columns o) (map (fun kv => columns (snd kv)) ds)).
    { intros s o Hi. apply in_map_iff. exists (s, o). auto. }
    assert (Hpw : pairwise_same (map (fun kv => columns (snd kv)) ds) -> match map (fun kv => columns (snd kv)) ds with f :: _ => cs = f | [] => True end ->
              forall s o, In (s, o) ds -> columns o = cs).
    { intros Hp Hf s o Hi. destruct ds as [|[s0 o0] ds]; [easy|]. cbn [map snd] in Hf. subst cs.
      destruct (series_columns o0 (Hs s0 o0 (or_introl eq_refl))) as (c0 & E0). destruct (series_columns o (Hs s o Hi)) as (c & E).
      assert (Hss : same_set (columns o0) (columns o)) by (apply Hp; [now left|eapply Hin; exact Hi]). rewrite E0, E in *.
      now rewrite (same_singletons _ _ Hss). }
    destruct mc.
    - destruct Hj as (_ & Hf & _).
      assert (Hp : pairwise_same (map (fun kv => columns (snd kv)) ds)).
      { destruct (Hl eq_refl) as [(o & Ho & Hns)|Ha].
        - exfalso. apply in_map_iff in Ho. destruct Ho as ([s o'] & E & Hi). cbn in E. subst o'. apply Hns. eapply Hs; exact Hi.
        - intros x y Hx Hy. apply in_map_iff in Hx, Hy. destruct Hx as ([s o] & <- & Hx), Hy as ([t p] & <- & Hy). cbn.
          rewrite (Ha o p); [apply same_set_refl| |]; apply in_map_iff; [exists (s, o)|exists (t, p)]; auto. }
      apply Hpw; [exact Hp|now apply Hf].
    - destruct ds as [|[s0 o0] ds]; [easy|]. cbn [map snd] in Hj. destruct Hj as (kp & -> & Hk).
      destruct (series_columns o0 (Hs s0 o0 (or_introl eq_refl))) as (c0 & E0). rewrite E0 in *. cbn [filter] in *.
      destruct (kp c0) eqn:Ek; [|easy]. intros s o Hi. destruct (series_columns o (Hs s o Hi)) as (c & E). rewrite E. f_equal.
      pose proof (proj1 (Hk c0 (or_introl eq_refl)) Ek (columns o)) as H. rewrite E in H. destruct H as [H|[]]; [|now symmetry].
      rewrite <- E. change ([c0] :: map (fun kv => columns (snd kv)) ds) with ([c0] :: map (fun kv : string * obj => columns (snd kv)) ds).
      rewrite <- E0. now apply (Hin s).
    - destruct Hj. now apply Hpw.
    - destruct Hj. now apply Hpw.
  Qed.

  Lemma align_columns_ok ds missing rs ds' : ds <> [] -> all_proper ds -> (forall s o, In (s, o) ds -> rows o = rs) ->
    lossless missing (map snd ds) -> align_columns ds missing = Ok ds' ->
    exists cs, joined missing (map (fun kv => columns (snd kv)) ds) cs /\ Forall2 (new_cols_of cs) ds ds' /\ uniform ds'.
  Proof.
    intros Hne Hp Hr Hl H. unfold align_columns in H. destruct (Nat.eqb (List.length ds) 1) eqn:El.
    - injection H as <-. destruct ds as [|[s o] [|? ?]]; [easy| |discriminate]. exists (columns o).
      pose proof (Hp s o (or_introl eq_refl)) as Po. split; [|split].
      + apply joined_single. apply proper_frame_of in Po. rewrite columns_frame. apply Po.
      + constructor; [|constructor]. split; [reflexivity|]. split; [exact Po|]. split; [reflexivity|]. split; [reflexivity|].
        intros c r v Hc _. cbn. split; [now left|]. intros [He|[Hn _]]; [exact He|contradiction].
      + intros a x b y [Ha|[]] [Hb|[]]. injection Ha as <- <-. injection Hb as <- <-. reflexivity.
    - cbv zeta in H. rewrite columns_map in H.
      destruct (join_labels missing "columns" (map (fun kv => columns (snd kv)) ds)) as [cs|] eqn:Ej; [|discriminate]. cbn [bind] in H.
      assert (Hj : joined missing (map (fun kv => columns (snd kv)) ds) cs).
      { apply (join_labels_joined missing "columns"); [now destruct ds| |exact Ej]. rewrite Forall_map, Forall_forall. intros [s o] Hi. cbn.
        specialize (Hp s o Hi). apply proper_frame_of in Hp. rewrite columns_frame. apply Hp. }
      exists cs. split; [exact Hj|]. apply map_dict_ok in H. pose proof (joined_nodup _ _ _ Hj) as Hnc.
      assert (Hre : forall s o, In (s, o) ds -> reindex_columns (index_of o) (to_frame o) cs = Ok (recolumned (rows o) (to_frame o) cs)).
      { intros s o Hi. rewrite reindex_columns_eq; [reflexivity|]. specialize (Hp s o Hi). apply proper_frame_of in Hp. apply Hp. }
      destruct (existsb (fun kv => is_frame (snd kv)) ds) eqn:Em.
      + split.
        * eapply Forall2_impl2; [|exact H]. intros [s o] [t p] Hi _ [E1 E2]. cbn [fst snd] in *. rewrite (Hre s o Hi) in E2. cbn [bind] in E2.
          injection E2 as <-. split; [exact E1|]. pose proof (Hp s o Hi) as Po. cbn [fst snd]. split; [|split; [reflexivity|split]].
          -- apply proper_frame_of. cbn. apply recolumned_proper; [|exact Hnc]. now apply proper_frame_of.
          -- cbn. apply recolumned_fst.
          -- intros c r v Hc Hr'. now apply recolumned_entry.
        * assert (Hf : forall s o, In (s, o) ds' -> ~ series o).
          { intros t p Hi Hsp. destruct (Forall2_in_r _ _ _ _ H Hi) as ([s o] & Ho & _ & E2). cbn [fst snd] in E2. rewrite (Hre s o Ho) in E2. cbn [bind] in E2.
            injection E2 as <-. exact Hsp. }
          intros s o t p H1 H2. pose proof (Hf s o H1). pose proof (Hf t p H2). tauto.
      + assert (Hs : forall s o, In (s, o) ds -> series o).
        { intros s o Hi. destruct o; cbn; [exact I|]. assert (E : existsb (fun kv => is_frame (snd kv)) ds = true); [|congruence].
          apply existsb_exists. eexists. split; [exact Hi|reflexivity]. }
        assert (Hcs : cs <> []).
        { intros ->. destruct ds as [|[s o] ds]; [easy|]. inversion H as [|? [t p] ? ? [_ E2] _]; subst. cbn [fst snd] in E2.
          rewrite (Hre s o (or_introl eq_refl)) in E2. discriminate. }
        pose proof (series_same_column missing ds cs Hne Hs Hj Hcs Hl) as Hcol.
        assert (Hone : exists c, cs = [c]).
        { destruct ds as [|[s o] ds]; [easy|]. destruct (series_columns o (Hs s o (or_introl eq_refl))) as (c & E). exists c.
          rewrite <- E. symmetry. eapply Hcol. now left. }
        destruct Hone as (c & ->).
        assert (Hform : forall s o p, In (s, o) ds -> (let! cols := reindex_columns (index_of o) (to_frame o) [c] in
              match find_column c cols with None => Err (KeyError "columns") | Some vs =>
                 Ok (Series (if existsb (fun kv => unnamed (snd kv)) ds then None else Some c) (index_of o) vs) end) = Ok p ->
              exists vs, to_frame o = [(c, vs)] /\ p = Series (if existsb (fun kv => unnamed (snd kv)) ds then None else Some c) (rows o) vs).
        { intros s o p Hi E. rewrite (Hre s o Hi) in E. cbn [bind recolumned map find_column] in E. rewrite label_eqb_refl in E. injection E as <-.
          pose proof (Hcol s o Hi) as Ec. rewrite columns_frame in Ec. destruct (to_frame o) as [|[d vs] [|? ?]]; try discriminate.
          cbn in Ec. injection Ec as ->. cbn [find_column]. rewrite label_eqb_refl. exists vs. auto. }
        assert (Hname : match (if existsb (fun kv => unnamed (snd kv)) ds then None else Some c) with Some a => a | None => Number 0 end = c).
        { destruct (existsb (fun kv => unnamed (snd kv)) ds) eqn:Eu; [|reflexivity]. apply existsb_exists in Eu. destruct Eu as ([s o] & Hi & Eu). cbn in Eu.
          pose proof (Hcol s o Hi) as Ec. destruct o as [[n|] i vs|i cols]; try discriminate. cbn in Ec. congruence. }
        split.
        * eapply Forall2_impl2; [|exact H]. intros [s o] [t p] Hi _ [E1 E2]. cbn [fst snd] in *.
          destruct (Hform s o p Hi E2) as (vs & Ef & ->). pose proof (Hp s o Hi) as Po. apply proper_frame_of in Po. rewrite Ef in Po.
          destruct Po as (P1 & P2 & P3). split; [exact E1|]. cbn [fst snd]. split; [|split; [reflexivity|split]].
          -- cbn. split; [exact P1|]. eapply P3. now left.
          -- destruct (existsb (fun kv => unnamed (snd kv)) ds); cbn in *; congruence.
          -- intros c' r v [<-|[]] Hr'. rewrite !entry_frame. cbn [to_frame rows]. rewrite Hname, Ef. split; [now left|].
             intros [He|[Hn _]]; [exact He|]. exfalso. apply Hn. rewrite columns_frame, Ef. now left.
        * assert (Hf : forall s o, In (s, o) ds' -> series o).
          { intros t p Hi. destruct (Forall2_in_r _ _ _ _ H Hi) as ([s o] & Ho & _ & E2). cbn [fst snd] in E2.
            destruct (Hform s o p Ho E2) as (vs & _ & ->). exact I. }
          intros s o t p H1 H2. pose proof (Hf s o H1). pose proof (Hf t p H2). tauto.
  Qed.

  (** ** both alignments *)
  Definition sees (rs cs : list label) (a b : string * obj) : Prop :=
    fst b = fst a /\ proper (snd b) /\ shows (snd a) (snd b) rs cs.
  Lemma aligned_ok ds mi mc a b : ds <> [] -> all_proper ds -> lossless mc (map snd ds) ->
    align_index ds mi = Ok a -> align_columns a mc = Ok b ->
    exists rs cs, joined mi (map obj_rows ds) rs /\ joined mc (map (fun kv => columns (snd kv)) ds) cs /\
      Forall2 (sees rs cs) ds b /\ uniform b.
  Proof.
    intros Hne Hp Hl Ha Hb. destruct (align_index_ok ds mi a Hne Hp Ha) as (rs & Hj & HF). pose proof (joined_nodup _ _ _ Hj) as Hn.
    assert (HF' : Forall2 (fun x y => proper (snd x) /\ new_rows_of rs x y) ds a).
    { eapply Forall2_impl2; [|exact HF]. intros [s o] y Hi _ H. split; [eapply Hp; exact Hi|exact H]. }
    assert (Pa : all_proper a).
    { intros t p Hi. destruct (Forall2_in_r _ _ _ _ HF' Hi) as (x & _ & Px & Hx). now apply (new_rows_facts rs x (t, p)). }
    assert (Ra : forall s o, In (s, o) a -> rows o = rs).
    { intros t p Hi. destruct (Forall2_in_r _ _ _ _ HF' Hi) as (x & _ & Px & Hx). now apply (new_rows_facts rs x (t, p)). }
    assert (Ec : map (fun kv => columns (snd kv)) a = map (fun kv => columns (snd kv)) ds).
    { clear - HF' Hn. induction HF' as [|x y l m [Px Hx] H IH]; cbn; [reflexivity|]. f_equal; [|exact IH]. now apply (new_rows_facts rs x y). }
    assert (La : lossless mc (map snd a)).
    { intro Em. destruct (Hl Em) as [(o & Ho & Hs)|Hall].
      - left. apply in_map_iff in Ho. destruct Ho as ([s o'] & E & Hi). cbn in E. subst o'.
        destruct (Forall2_in_l _ _ _ _ HF' Hi) as ([t p] & Hy & Px & Hx). exists p. split; [apply in_map_iff; exists (t, p); auto|].
        destruct (new_rows_facts rs _ _ Hn Px Hx) as (_ & _ & _ & _ & Hse & _). cbn in Hse. tauto.
      - right. intros o p Ho Hq. apply in_map_iff in Ho, Hq. destruct Ho as (x & <- & Hx), Hq as (y & <- & Hy).
        destruct (Forall2_in_r _ _ _ _ HF' Hx) as (x0 & Hx0 & Px & Rx). destruct (Forall2_in_r _ _ _ _ HF' Hy) as (y0 & Hy0 & Py & Ry).
        destruct (new_rows_facts rs _ _ Hn Px Rx) as (_ & _ & _ & -> & _). destruct (new_rows_facts rs _ _ Hn Py Ry) as (_ & _ & _ & -> & _).
        apply Hall; now apply in_map. }
    assert (Hna : a <> []) by (intros ->; inversion HF; subst; easy).
    destruct (align_columns_ok a mc rs b Hna Pa Ra La Hb) as (cs & Hjc & HC & Hu). rewrite Ec in Hjc.
    exists rs, cs. split; [exact Hj|]. split; [exact Hjc|]. split; [|exact Hu].
    eapply Forall2_impl2; [|exact (Forall2_trans2 _ _ _ _ _ HF' HC)]. intros x z _ _ (y & Hy & [Px Rx] & (E1 & P1 & R1 & C1 & V1)).
    destruct (new_rows_facts rs x y Hn Px Rx) as (E2 & P2 & R2 & C2 & _ & _ & _ & V2).
    split; [congruence|]. split; [exact P1|]. split; [congruence|]. split; [exact C1|].
    intros c r Hc Hr v. rewrite V1 by (auto; congruence). rewrite V2 by exact Hr. rewrite C2.
    assert (He : entry (snd x) c r v -> In c (columns (snd x)) /\ In r (rows (snd x))).
    { intro He. apply entry_frame in He. destruct He as (vs & k & H1 & H2 & _). split; [|exact (nth_error_In _ _ H2)].
      rewrite columns_frame. change c with (fst (c, vs)). now apply in_map. }
    destruct (in_dec label_dec c (columns (snd x))) as [Hi|Hi]; destruct (in_dec label_dec r (rows (snd x))) as [Hi'|Hi']; tauto.
  Qed.
  Lemma shows_sees rs cs ds b : Forall2 (sees rs cs) ds b -> NoDup (map fst ds) -> uniform b -> b <> [] ->
    forall i l c mi mc, i = rs -> consistent (mkData b i l c mi mc).
  Proof.
    intros HF Hn Hu Hne i l c mi mc ->. split; [exact Hne|]. cbn. split.
    - rewrite (Forall2_keys (sees rs cs) ds b); [exact Hn|now intros x y [? _]|exact HF].
    - split.
      + intros s o Hi. destruct (Forall2_in_r _ _ _ _ HF Hi) as (x & _ & _ & Px & Rx & _). auto.
      + intros s o t p Ho Hp. destruct (Forall2_in_r _ _ _ _ HF Ho) as (x & _ & _ & _ & _ & Cx & _).
        destruct (Forall2_in_r _ _ _ _ HF Hp) as (y & _ & _ & _ & _ & Cy & _). cbn in *. split; [congruence|]. eapply Hu; eassumption.
  Qed.
  Lemma meta_equal_of (a b : obj) : rows a = rows b -> columns a = columns b -> (series a <-> series b) -> meta_equal a b = true.
  Proof.
    intros Hr Hc Hs. destruct a as [n i vs|i cols], b as [m j ws|j ds]; cbn in *; try tauto.
    - apply same_labels_eq. exact Hr.
    - apply andb_true_iff. split; apply same_labels_eq; assumption.
  Qed.
  Lemma new_data_ok (d : data) : consistent d -> new_data d = Ok d.
  Proof.
    intros (Hne & Hn & Hr & Hu). unfold new_data. destruct (d_data d) as [|[s0 o0] ds] eqn:E; [reflexivity|].
    assert (Ef : forallb (fun kv => meta_equal (snd kv) o0) ((s0, o0) :: ds) = true).
    { apply forallb_forall. intros [s o] Hi. cbn. destruct (Hr s o Hi) as [_ R1]. destruct (Hr s0 o0 (or_introl eq_refl)) as [_ R2].
      destruct (Hu s o s0 o0 Hi (or_introl eq_refl)) as [Hc Hs]. apply meta_equal_of; congruence || assumption. }
    rewrite Ef. reflexivity.
  Qed.

  Lemma from_data_ok sources loc conv mi mc d : NoDup (map fst sources) -> from_data sources loc conv mi mc = Ok d ->
    exists objs, Forall2 (fun s o => fst o = fst s /\ read_as loc conv 0 (snd s) (snd o)) sources objs /\
      (all_proper objs -> lossless mc (map snd objs) ->
       exists rs cs, joined mi (map obj_rows objs) rs /\ joined mc (map (fun kv => columns (snd kv)) objs) cs /\
         consistent d /\ d_index d = rs /\ Forall2 (sees rs cs) objs (d_data d)).
  Proof.
    intros Hnd H. unfold from_data in H.
    destruct (map_dict (fun r => to_zone loc conv (to_pandas 0 r)) sources) as [objs|] eqn:E1; [|discriminate]. cbn [bind] in H.
    destruct (align_index objs mi) as [a|] eqn:E2; [|discriminate]. cbn [bind] in H.
    destruct (align_columns a mc) as [b|] eqn:E3; [|discriminate]. cbn [bind] in H. apply map_dict_ok in E1.
    assert (R : Forall2 (fun s o => fst o = fst s /\ read_as loc conv 0 (snd s) (snd o)) sources objs).
    { eapply Forall2_impl2; [|exact E1]. intros s o _ _ [Hk Hz]. split; [exact Hk|]. exists (to_pandas 0 (snd s)).
      split; [apply to_pandas_numbered|now apply to_zone_ok]. }
    exists objs. split; [exact R|]. intros Hp Hl.
    destruct b as [|[s0 o0] b']; [discriminate|].
    assert (Hne : objs <> []).
    { intros ->. cbn in E2. injection E2 as <-. cbn in E3. discriminate. }
    destruct (aligned_ok objs mi mc a _ Hne Hp Hl E2 E3) as (rs & cs & Hj & Hjc & HF & Hu). exists rs, cs.
    assert (Hno : NoDup (map fst objs)) by (rewrite (Forall2_keys _ _ _ (fun a b H => proj1 H) R); exact Hnd).
    assert (R0 : index_of o0 = rs).
    { rewrite <- rows_index. inversion HF as [|x y l m (_ & _ & R0 & _) _]; subst. reflexivity. }
    assert (Hc : consistent (mkData ((s0, o0) :: b') (index_of o0) loc conv mi mc)) by (eapply shows_sees; eauto; discriminate).
    rewrite (new_data_ok _ Hc) in H. injection H as <-. cbn. auto.
  Qed.

  (** nothing is refused without need *)
  Lemma align_columns_total ds missing : all_proper ds ->
    (missing = MNan \/ (missing = MDrop /\ exists s o, In (s, o) ds /\ ~ series o)) \/ pairwise_same (map (fun kv => columns (snd kv)) ds) ->
    exists ds', align_columns ds missing = Ok ds'.
  Proof.
    intros Hp H. unfold align_columns. destruct (Nat.eqb (List.length ds) 1); [eexists; reflexivity|]. cbv zeta. rewrite columns_map.
    destruct (join_labels_total missing "columns" (map (fun kv => columns (snd kv)) ds)) as (cs & Ej).
    { destruct H as [[H|[H _]]|H]; [left; now left|left; now right|now right]. }
    rewrite Ej. cbn [bind]. apply map_dict_total. intros s o Hi.
    assert (Po : proper o) by (eapply Hp; exact Hi). rewrite reindex_columns_eq by (apply proper_frame_of in Po; apply Po). cbn [bind].
    destruct (existsb (fun kv => is_frame (snd kv)) ds) eqn:Em; [eexists; reflexivity|].
    assert (Hs : forall s o, In (s, o) ds -> series o).
    { intros s' o' Hi'. destruct o'; cbn; [exact I|]. assert (E : existsb (fun kv => is_frame (snd kv)) ds = true); [|congruence].
      apply existsb_exists. eexists. split; [exact Hi'|reflexivity]. }
    assert (Hj : joined missing (map (fun kv => columns (snd kv)) ds) cs).
    { apply (join_labels_joined missing "columns"); [now destruct ds| |exact Ej]. rewrite Forall_map, Forall_forall. intros [s' o'] Hi'. cbn.
      specialize (Hp s' o' Hi'). apply proper_frame_of in Hp. rewrite columns_frame. apply Hp. }
    destruct cs as [|c cs].
    - exfalso. destruct (series_columns o (Hs s o Hi)) as (c & Ec). assert (In [c] (map (fun kv => columns (snd kv)) ds)).
      { rewrite <- Ec. apply in_map_iff. exists (s, o). auto. }
      destruct Hj as [_ Hj]. destruct H as [[->|[-> (s' & o' & Hi' & Hns)]]|H].
      + destruct Hj as [Hj _]. apply (proj2 (Hj c)). exists [c]. split; [assumption|now left].
      + apply Hns. eapply Hs; exact Hi'.
      + destruct ds as [|[s0 o0] ds]; [easy|]. cbn [map snd] in *. destruct (series_columns o0 (Hs s0 o0 (or_introl eq_refl))) as (c0 & E0).
        rewrite E0 in *. destruct missing.
        * destruct Hj as (_ & Hj & _). specialize (Hj H). discriminate.
        * destruct Hj as (kp & Hf & Hk). cbn in Hf. destruct (kp c0) eqn:Ek; [discriminate|].
          assert (kp c0 = true); [|congruence]. apply Hk; [now left|]. intros x Hx. apply (H [c0] x); [now left|exact Hx|now left].
        * destruct Hj as [_ Hj]. discriminate.
        * destruct Hj as [_ Hj]. discriminate.
    - cbn [recolumned map find_column]. rewrite label_eqb_refl. eexists; reflexivity.
  Qed.
End Lemmas.
