From Coq Require Import String ZArith Bool List Arith Lia.
From Verif Require Import Base Num Dicts Data DataSpec DataLemmas DataLemmas2 DataLemmas3 DataLemmas4 DataLemmas5.
Import ListNotations.

Section Lemmas.
  Context {T : Type} {N : Num T}.
  Local Notation obj := (@obj T). Local Notation raw := (@raw T). Local Notation data := (@data T).

  Lemma reindex_self (l : list label) (vs : list T) r v : NoDup l -> List.length vs = List.length l ->
    (In (r, v) (combine l (reindex_values l l vs)) <-> In (r, v) (combine l vs)).
  Proof.
    intros Hn Hl. rewrite <- !nth_combine. split.
    - intros (k & Hk & Hv). rewrite (reindex_nth _ _ _ _ _ Hk) in Hv. injection Hv as Hv.
      destruct (find_label r l vs) as [w|] eqn:E.
      + subst w. apply find_label_some in E; auto.
      + apply find_label_none in E; auto. exfalso. apply E. exact (nth_error_In _ _ Hk).
    - intros (k & Hk & Hv). exists k. split; [exact Hk|]. rewrite (reindex_nth _ _ _ _ _ Hk).
      assert (E : find_label r l vs = Some v) by (apply find_label_some; auto; now exists k). now rewrite E.
  Qed.
  Lemma symbol_columns_ok index c : forall ds : list (string * obj), NoDup (map fst ds) -> NoDup index ->
    (forall s o, In (s, o) ds -> proper o /\ rows o = index /\ In c (columns o)) ->
    exists cols, symbol_columns index c ds = Ok cols /\ map fst cols = map (fun kv => Name (fst kv)) ds /\
      (forall x ws, In (x, ws) cols -> List.length ws = List.length index) /\
      forall s o, In (s, o) ds -> exists ws, In (Name s, ws) cols /\ forall r v, entry o c r v <-> In (r, v) (combine index ws).
  Proof.
    induction ds as [|[s o] ds IH]; intros Hn Hi H; cbn [symbol_columns]; [exists []; repeat split; easy|].
    inversion Hn; subst. destruct (H s o (or_introl eq_refl)) as (Po & Ro & Co). destruct (column_of_ok o c Co Po) as (vs & E & Lv & Hv).
    rewrite E. cbn [bind]. destruct IH as (cols & Ec & Ef & El & Ev); auto; [intros; eapply H; right; eassumption|]. rewrite Ec. cbn [bind fst snd].
    eexists. split; [reflexivity|]. split; [cbn; now rewrite Ef|]. split.
    - intros x ws [Hx|Hx]; [injection Hx as _ <-; unfold reindex_values; apply map_length|]. now apply (El x).
    - intros t p [Hx|Hx].
      + injection Hx as <- <-. eexists. split; [left; reflexivity|]. intros r v. rewrite Hv, Ro. symmetry. apply reindex_self; auto. congruence.
      + destruct (Ev t p Hx) as (ws & Hw & Hr). exists ws. split; [now right|exact Hr].
  Qed.
  Lemma nodup_names (l : list string) : NoDup l -> NoDup (map Name l).
  Proof.
    induction 1 as [|a l Hn H IH]; cbn; constructor; auto. intro Hi. apply in_map_iff in Hi. destruct Hi as (b & E & Hb). injection E as ->. contradiction.
  Qed.
  Lemma concat_one_ok (d : data) c : consistent d -> (forall s o, In (s, o) (d_data d) -> In c (columns o)) ->
    exists f, concat_one (d_index d) (d_data d) c = Ok f /\ side_by_side d c f /\ (series f <-> List.length (d_data d) = 1).
  Proof.
    intros (Hne & Hn & Hr & _) Hc.
    assert (Ni : NoDup (d_index d)).
    { destruct (d_data d) as [|[s o] ds]; [easy|]. destruct (Hr s o (or_introl eq_refl)) as [Po <-]. apply proper_frame_of in Po. apply Po. }
    destruct (symbol_columns_ok (d_index d) c (d_data d) Hn Ni) as (cols & Ec & Ef & El & Ev).
    { intros s o Hi. destruct (Hr s o Hi). repeat split; auto. eapply Hc; eassumption. }
    unfold concat_one, side_by_side. destruct (d_data d) as [|[s o] [|[s2 o2] ds]] eqn:Ed; [easy| |].
    - cbn [symbol_columns] in Ec. destruct (column_of o c) as [[i vs]|] eqn:Eo; [|discriminate]. cbn [bind fst snd] in *.
      eexists. split; [reflexivity|]. injection Ec as <-. split; [|cbn; tauto]. split; [cbn; split; [exact Ni|]; eapply El; now left|].
      split; [reflexivity|]. split; [reflexivity|]. intros t p r v [Hi|[]]. injection Hi as <- <-.
      destruct (Ev s o (or_introl eq_refl)) as (ws & [Hw|[]] & Hrv). injection Hw as <-. rewrite Hrv, <- nth_combine. cbn. tauto.
    - rewrite Ec. cbn [bind]. eexists. split; [reflexivity|]. split; [|cbn; split; [easy|discriminate]]. split.
      + cbn [proper]. split; [exact Ni|]. split; [rewrite Ef|exact El].
        rewrite <- (map_map fst Name). now apply nodup_names.
      + split; [reflexivity|]. split; [cbn [columns]; now rewrite Ef|]. intros t p r v Hi. destruct (Ev t p Hi) as (ws & Hw & Hrv). rewrite Hrv, <- nth_combine. cbn. split.
        * intros (us & k & Hu & Hk). assert (us = ws).
          { assert (Nf : NoDup (map fst cols)) by (rewrite Ef; rewrite <- (map_map fst Name); now apply nodup_names).
            apply (find_column_some (Name t)) in Hu; auto. apply (find_column_some (Name t)) in Hw; auto. congruence. }
          subst us. now exists k.
        * intros (k & Hk). exists ws, k. tauto.
  Qed.
  Lemma concat_each_ok (d : data) : consistent d -> forall cs,
    (forall c, In c cs -> forall s o, In (s, o) (d_data d) -> In (key c) (columns o)) ->
    exists cd, concat_each (d_index d) (d_data d) cs = Ok cd /\ map fst cd = cs /\
      forall c f, In (c, f) cd -> side_by_side d (key c) f /\ (series f <-> List.length (d_data d) = 1).
  Proof.
    intro Hd. induction cs as [|c cs IH]; intro H; cbn [concat_each]; [exists []; repeat split; easy|].
    destruct (concat_one_ok d (key c) Hd) as (f & Ef & Hf); [intros; eapply H; [now left|eassumption]|].
    change (match c with Some a => a | None => Number 0 end) with (key c). rewrite Ef. cbn [bind].
    destruct IH as (cd & Ec & Em & Hcd); [intros; eapply H; [right; eassumption|eassumption]|]. rewrite Ec. cbn [bind].
    eexists. split; [reflexivity|]. split; [cbn; now rewrite Em|]. intros x g [Hx|Hx]; [injection Hx as <- <-; exact Hf|now apply Hcd].
  Qed.
  Lemma first_columns_key (o : obj) : map key (first_columns o) = columns o.
  Proof. destruct o as [[n|] i vs|i cols]; cbn; try reflexivity. now rewrite map_map. Qed.
  Lemma concat_ok (d : data) : consistent d -> exists cd, concat d = Ok cd /\
    (forall s o, In (s, o) (d_data d) -> map (fun x => key (fst x)) cd = columns o) /\
    forall c f, In (c, f) cd -> side_by_side d (key c) f /\ (series f <-> List.length (d_data d) = 1).
  Proof.
    intro Hd. pose proof Hd as (Hne & Hn & Hr & Hu). unfold concat. destruct (d_data d) as [|[s0 o0] ds] eqn:Ed; [easy|]. rewrite <- Ed in *.
    assert (H0 : In (s0, o0) (d_data d)) by (rewrite Ed; now left).
    destruct (Hr s0 o0 H0) as [P0 R0]. rewrite <- (rows_index o0), R0.
    destruct (concat_each_ok d Hd (first_columns o0)) as (cd & Ec & Em & Hcd).
    { intros c Hc s o Ho. rewrite (proj1 (Hu s o s0 o0 Ho H0)), <- first_columns_key. now apply in_map. }
    exists cd. split; [exact Ec|]. split; [|exact Hcd]. intros s o Ho. rewrite (proj1 (Hu s o s0 o0 Ho H0)), <- first_columns_key, <- Em, map_map. reflexivity.
  Qed.

  Lemma find_got_in cd c f : find_got c cd = Some f -> In (Some c, f) (cd : list (option label * obj)).
  Proof.
    induction cd as [|[k g] cd IH]; cbn; [discriminate|]. destruct k as [a|]; [destruct (label_eqb c a) eqn:E|].
    - intro H. apply label_eqb_eq in E. subst. left. congruence.
    - intro H. right. now apply IH.
    - intro H. right. now apply IH.
  Qed.
  Lemma find_got_none cd c : find_got c (cd : list (option label * obj)) = None -> ~ In (Some c) (map fst cd).
  Proof.
    induction cd as [|[k g] cd IH]; cbn; [tauto|]. destruct k as [a|]; [destruct (label_eqb c a) eqn:E|]; try discriminate.
    - intros H [Hc|Hc]; [injection Hc as ->; now rewrite label_eqb_refl in E|now apply IH].
    - intros H [Hc|Hc]; [discriminate|now apply IH].
  Qed.

  (** several symbols, one column of several *)
  Lemma get_column (d : data) c : consistent d -> List.length (d_data d) >= 2 ->
    (forall s o, In (s, o) (d_data d) -> ~ series o /\ List.length (columns o) >= 2) ->
    (forall s o, In (s, o) (d_data d) -> In c (columns o)) ->
    exists f, get d (Some c) = Ok (One f) /\ side_by_side d c f.
  Proof.
    intros Hd Hl Hf Hc. destruct (concat_ok d Hd) as (cd & Ec & Em & Hcd).
    destruct (d_data d) as [|[s0 o0] [|[s1 o1] ds]] eqn:Ed; cbn in Hl; try lia.
    assert (H0 : In (s0, o0) (d_data d)) by (rewrite Ed; now left). rewrite <- Ed in *.
    assert (Eg : get d (Some c) = match cd with
        | [(_, single)] => match single with DataFrame i cols => match find_column c cols with Some vs => Ok (One (Series (Some c) i vs)) | None => Ok (One single) end | _ => Ok (One single) end
        | _ => match find_got c cd with Some o => Ok (One o) | None => Err (KeyError "column") end end).
    { unfold get. rewrite Ed, Ec. cbn [bind]. destruct cd as [|[k g] [|? ?]]; reflexivity. }
    pose proof (Em s0 o0 H0) as E0. destruct (Hf s0 o0 H0) as [Hs Hlen]. rewrite <- E0, map_length in Hlen.
    destruct cd as [|[k g] [|x cd]]; cbn in Hlen; try lia. set (cd0 := (k, g) :: x :: cd) in *.
    assert (Hfound : exists f, find_got c cd0 = Some f).
    { destruct (find_got c cd0) as [f|] eqn:E; [now exists f|]. exfalso. apply find_got_none in E. apply E.
      (* keys of frames are all names *)
      assert (Hk : forall y, In y (map fst cd0) -> y <> None).
      { unfold concat in Ec. rewrite Ed in Ec. destruct o0 as [n i vs|i cols]; [now exfalso; apply Hs|].
        cbn [first_columns index_of] in Ec. clear - Ec.
        assert (G : forall ds cs r, concat_each i ds cs = Ok r -> map fst r = cs).
        { intros dd. induction cs as [|y cs IH]; intros r H; cbn in H; [now injection H as <-|]. destruct (concat_one i dd _); [|discriminate]. cbn in H.
          destruct (concat_each i dd cs) as [rest|] eqn:E; [|discriminate]. cbn in H. injection H as <-. cbn. f_equal. now apply IH. }
        rewrite (G _ _ _ Ec). intros y Hy. apply in_map_iff in Hy. destruct Hy as (? & <- & _). discriminate. }
      assert (Hin : In c (map (fun y => key (fst y)) cd0)) by (rewrite E0; eapply Hc; exact H0).
      apply in_map_iff in Hin. destruct Hin as (y & Ey & Hy). assert (Hy' : In (fst y) (map fst cd0)) by now apply in_map.
      destruct (fst y) as [a|] eqn:Ef; [cbn in Ey; subst a; exact Hy'|]. exfalso. now apply (Hk _ Hy'). }
    destruct Hfound as (f & Ef). exists f. split.
    - rewrite Eg. unfold cd0 in *. destruct x as [k2 g2]. rewrite Ef. reflexivity.
    - apply find_got_in in Ef. destruct (Hcd (Some c) f Ef) as [H _]. exact H.
  Qed.
  (** several symbols of one column *)
  Lemma get_only_column (d : data) c0 : consistent d -> List.length (d_data d) >= 2 ->
    (forall s o, In (s, o) (d_data d) -> columns o = [c0]) ->
    exists f, get d None = Ok (One f) /\ side_by_side d c0 f /\
      (forall c, (forall s, c = Name s -> ~ In s (map fst (d_data d))) -> get d (Some c) = Ok (One f)) /\
      forall s o, In (s, o) (d_data d) ->
        exists g, get d (Some (Name s)) = Ok (One g) /\ rows g = d_index d /\ forall r v, entry g (Name s) r v <-> entry o c0 r v.
  Proof.
    intros Hd Hl Hc. destruct (concat_ok d Hd) as (cd & Ec & Em & Hcd).
    destruct (d_data d) as [|[s0 o0] [|[s1 o1] ds]] eqn:Ed; cbn in Hl; try lia.
    assert (H0 : In (s0, o0) (d_data d)) by (rewrite Ed; now left). rewrite <- Ed in *.
    pose proof (Em s0 o0 H0) as E0. rewrite (Hc s0 o0 H0) in E0. destruct cd as [|[k f] [|x cd]]; try discriminate. cbn in E0. injection E0 as E0.
    destruct (Hcd k f (or_introl eq_refl)) as [Hsbs Hser]. rewrite E0 in Hsbs.
    destruct f as [n i vs|i cols]; [exfalso; assert (List.length (d_data d) = 1) by (apply Hser; exact I); rewrite Ed in *; cbn in *; lia|].
    assert (Eg : forall col, get d col = match col with Some c => match find_column c cols with Some vs => Ok (One (Series (Some c) i vs)) | None => Ok (One (DataFrame i cols)) end | None => Ok (One (DataFrame i cols)) end).
    { intro col. unfold get. rewrite Ed, Ec. cbn [bind]. now destruct col. }
    destruct Hsbs as (Pf & Rf & Cf & Hv). cbn in Rf, Cf. exists (DataFrame i cols). split; [apply Eg|]. split; [exact (conj Pf (conj Rf (conj Cf Hv)))|]. split.
    - intros c Hn. rewrite Eg. destruct (find_column c cols) as [vs|] eqn:E; [|reflexivity]. exfalso.
      assert (Hi : In c (map fst cols)). { destruct (in_dec label_dec c (map fst cols)) as [Hi|Hi]; [exact Hi|]. apply find_column_none in Hi. congruence. }
      rewrite Cf in Hi. apply in_map_iff in Hi. destruct Hi as ([s o] & <- & Hi). apply (Hn s eq_refl). change s with (fst (s, o)). now apply in_map.
    - intros s o Hi. rewrite Eg. assert (Hn : In (Name s) (map fst cols)) by (rewrite Cf; apply in_map_iff; exists (s, o); auto).
      destruct (find_column (Name s) cols) as [vs|] eqn:E; [|apply find_column_none in E; contradiction]. exists (Series (Some (Name s)) i vs).
      split; [reflexivity|]. split; [exact Rf|]. intros r v. rewrite <- (Hv s o r v Hi). cbn. apply find_column_some in E; [|apply Pf]. split.
      + intros [_ (k' & Hk)]. exists vs, k'. tauto.
      + intros (ws & k' & Hw & Hk). split; [reflexivity|]. exists k'.
        assert (ws = vs) by (apply (find_column_some (Name s)) in Hw; [|apply Pf]; apply (find_column_some (Name s)) in E; [|apply Pf]; congruence). now subst.
  Qed.

  (** ** statements symbol by symbol *)
  Lemma from_data_by_symbol (sources : list (string * raw)) loc conv mi mc d : NoDup (map fst sources) -> from_data sources loc conv mi mc = Ok d ->
    exists objs, map fst objs = map fst sources /\
      (forall s r o, In (s, r) sources -> In (s, o) objs -> read_as loc conv 0 r o) /\
      (all_proper objs -> lossless mc (map snd objs) ->
       exists rs cs, joined mi (map (fun kv => rows (snd kv)) objs) rs /\ joined mc (map (fun kv => columns (snd kv)) objs) cs /\
         consistent d /\ d_index d = rs /\ map fst (d_data d) = map fst sources /\
         forall s o p, In (s, o) objs -> In (s, p) (d_data d) -> shows o p rs cs).
  Proof.
    intros Hn H. destruct (from_data_ok sources loc conv mi mc d Hn H) as (objs & HF & Hall).
    assert (K : map fst objs = map fst sources) by (eapply Forall2_keys; [|exact HF]; now intros ? ? [? _]).
    exists objs. split; [exact K|]. split.
    - intros s r o Hr Ho. destruct (Forall2_in_r _ _ _ _ HF Ho) as ([s' r'] & Hr' & E & R). cbn in *. subst s'. now rewrite (same_key _ _ _ _ Hn Hr Hr').
    - intros Hp Hl. destruct (Hall Hp Hl) as (rs & cs & Hj & Hjc & Hc & Hi & HS). exists rs, cs. repeat (split; [assumption|]). split.
      + rewrite (Forall2_keys (sees rs cs) objs (d_data d)); [exact K|now intros ? ? [? _]|exact HS].
      + intros s o p Ho Hp'. destruct (Forall2_in_r _ _ _ _ HS Hp') as ([s' o'] & Ho' & E & _ & S). cbn in *. subst s'.
        assert (No : NoDup (map fst objs)) by (now rewrite K). now rewrite (same_key _ _ _ _ No Ho Ho').
  Qed.
  Lemma in_pandas (objs : list (string * obj)) : map_dict (fun r => to_zone None None (to_pandas 0 r)) (map (fun kv => (fst kv, Pandas (snd kv))) objs) = Ok objs.
  Proof. induction objs as [|[s o] objs IH]; [reflexivity|]. cbn [map map_dict fst snd]. rewrite IH. now destruct o. Qed.
  Lemma from_data_total (objs : list (string * obj)) mi mc : objs <> [] -> NoDup (map fst objs) -> all_proper objs -> lossless mc (map snd objs) ->
    (mi = MNan \/ mi = MDrop) \/ (forall x y, In x (map (fun kv => rows (snd kv)) objs) -> In y (map (fun kv => rows (snd kv)) objs) -> same_set x y) ->
    (mc = MNan \/ (mc = MDrop /\ exists s o, In (s, o) objs /\ ~ series o)) \/
      (forall x y, In x (map (fun kv => columns (snd kv)) objs) -> In y (map (fun kv => columns (snd kv)) objs) -> same_set x y) ->
    exists d, from_data (map (fun kv => (fst kv, Pandas (snd kv))) objs) None None mi mc = Ok d.
  Proof.
    intros Hne Hn Hp Hl Hi Hc. unfold from_data. rewrite in_pandas. cbn [bind]. destruct (align_index_total objs mi Hp Hi) as (a & Ea). rewrite Ea. cbn [bind].
    destruct (align_index_ok objs mi a Hne Hp Ea) as (rs & Hj & HF). pose proof (joined_nodup _ _ _ Hj) as Nr.
    assert (HF' : Forall2 (fun x y => proper (snd x) /\ new_rows_of rs x y) objs a).
    { eapply Forall2_impl2; [|exact HF]. intros [s o] y Hx _ H. split; [eapply Hp; exact Hx|exact H]. }
    assert (Pa : all_proper a).
    { intros t p Hx. destruct (Forall2_in_r _ _ _ _ HF' Hx) as (x & _ & Px & Rx). now apply (new_rows_facts rs x (t, p)). }
    assert (Ec : map (fun kv => columns (snd kv)) a = map (fun kv => columns (snd kv)) objs).
    { clear - HF' Nr. induction HF' as [|x y l m [Px Hx] H IH]; cbn; [reflexivity|]. f_equal; [|exact IH]. now apply (new_rows_facts rs x y). }
    destruct (align_columns_total a mc Pa) as (b & Eb).
    { destruct Hc as [[Hc|[Hc (s & o & Ho & Hs)]]|Hc]; [left; now left| |right; unfold pairwise_same; now rewrite Ec].
      left. right. split; [exact Hc|]. destruct (Forall2_in_l _ _ _ _ HF' Ho) as ([t p] & Hy & Px & Rx). exists t, p. split; [exact Hy|].
      destruct (new_rows_facts rs _ _ Nr Px Rx) as (_ & _ & _ & _ & Hse & _). cbn in Hse. tauto. }
    rewrite Eb. cbn [bind]. destruct (aligned_ok objs mi mc a b Hne Hp Hl Ea Eb) as (rs' & cs & _ & _ & HS & Hu).
    destruct b as [|[s0 o0] b']; [inversion HS; subst; easy|].
    assert (R0 : index_of o0 = rs') by (rewrite <- rows_index; inversion HS as [|x y l m (_ & _ & R0 & _) _]; subst; reflexivity).
    eexists. apply new_data_ok. eapply shows_sees; eauto. discriminate.
  Qed.

  Lemma selected {V} s k (v : V) : forall kw, In (k, v) (select_symbol_kwargs s kw) <->
    In (k, ForAll v) kw \/ exists dct, In (k, PerSymbol dct) kw /\ dict_get dct s = Some v.
  Proof.
    induction kw as [|[k' [v'|dct]] kw IH]; cbn.
    - split; [easy|]. intros [[]|(? & [] & _)].
    - rewrite IH. split.
      + intros [H|[H|(x & H & H')]]; [left; left; congruence|left; now right|right; exists x; split; [now right|exact H']].
      + intros [[H|H]|(x & [H|H] & H')]; [left; congruence|right; now left|discriminate|right; right; now exists x].
    - destruct (dict_get dct s) as [w|] eqn:E; cbn; rewrite IH; split.
      + intros [H|[H|(x & H & H')]]; [right; exists dct; split; [left; congruence|congruence]|left; now right|right; exists x; split; [now right|exact H']].
      + intros [[H|H]|(x & [H|H] & H')]; [discriminate|right; now left|left; congruence|right; right; now exists x].
      + intros [H|(x & H & H')]; [left; now right|right; exists x; split; [now right|exact H']].
      + intros [[H|H]|(x & [H|H] & H')]; [discriminate|now left|congruence|right; now exists x].
  Qed.
  Lemma dict_set_keys {V} (d : list (string * V)) k v : NoDup (map fst d) ->
    NoDup (map fst (dict_set d k v)) /\ (forall s, In s (map fst (dict_set d k v)) <-> s = k \/ In s (map fst d)) /\
    forall s w, In (s, w) (dict_set d k v) <-> (s = k /\ w = v) \/ (s <> k /\ In (s, w) d).
  Proof.
    induction d as [|[k' v'] d IH]; intro Hn; cbn [dict_set].
    - cbn. split; [repeat constructor; easy|]. split; [intro s; split; [intros [H|[]]; now left|intros [H|[]]; now left]|].
      intros s w. split; [intros [H|[]]; left; injection H; auto|intros [[-> ->]|[_ []]]; now left].
    - cbn in Hn. inversion Hn; subst. destruct (String.eqb k k') eqn:E.
      + apply String.eqb_eq in E. subst k'. cbn. split; [exact Hn|]. split; [intro s; split; [intros [H|H]; [left; now symmetry|right; now right]|intros [H|[H|H]]; [left; now symmetry|now left|now right]]|].
        intros s w. split.
        * intros [H|H]; [injection H as <- <-; now left|]. right. split; [|now right]. intros ->. apply H1. change k with (fst (k, w)). now apply in_map.
        * intros [[-> ->]|[Hs [H|H]]]; [now left|injection H as <- <-; easy|now right].
      + destruct (IH H2) as (I1 & I2 & I3). assert (Hk : k' <> k) by (intros ->; now rewrite String.eqb_refl in E). cbn. split; [|split].
        * constructor; [rewrite I2; intros [H|H]; [congruence|contradiction]|exact I1].
        * intro s. rewrite I2. tauto.
        * intros s w. rewrite I3. split.
          -- intros [H|[H|[H H']]]; [injection H as <- <-; right; split; [exact Hk|now left]|now left|right; split; [exact H|now right]].
          -- intros [H|[H [H'|H']]]; [right; now left|left; exact H'|right; right; auto].
  Qed.
  Lemma download_ok {V} (dl : string -> list (string * V) -> res raw) kw symbols : forall acc sources,
    NoDup (map fst acc) -> (forall s r, In (s, r) acc -> dl s (select_symbol_kwargs s kw) = Ok r) ->
    foldM (fun acc s => let! r := dl s (select_symbol_kwargs s kw) in Ok (dict_set acc s r)) acc symbols = Ok sources ->
    NoDup (map fst sources) /\ (forall s, In s (map fst sources) <-> In s symbols \/ In s (map fst acc)) /\
    forall s r, In (s, r) sources -> dl s (select_symbol_kwargs s kw) = Ok r.
  Proof.
    induction symbols as [|x symbols IH]; intros acc sources Hn Ha H; cbn [foldM] in H.
    - injection H as <-. split; [exact Hn|]. split; [intro; cbn; tauto|exact Ha].
    - destruct (dl x (select_symbol_kwargs x kw)) as [r|] eqn:E; [|discriminate]. cbn [bind] in H.
      destruct (dict_set_keys acc x r Hn) as (K1 & K2 & K3). apply IH in H; [|exact K1|].
      + destruct H as (H1 & H2 & H3). split; [exact H1|]. split; [|exact H3]. intro s. rewrite H2, K2. cbn. split; [intros [?|[->|?]]; auto|intros [[->|?]|?]; auto].
      + intros s w Hw. apply K3 in Hw. destruct Hw as [[-> ->]|[_ Hw]]; [exact E|now apply Ha].
  Qed.
  Lemma download_sources {V} (dl : string -> list (string * V) -> res raw) symbols kw loc conv mi mc d :
    download dl symbols kw loc conv mi mc = Ok d ->
    exists sources, NoDup (map fst sources) /\ (forall s, In s (map fst sources) <-> In s symbols) /\
      (forall s r, In (s, r) sources -> dl s (select_symbol_kwargs s kw) = Ok r) /\ from_data sources loc conv mi mc = Ok d.
  Proof.
    unfold download. intro H. destruct (foldM _ [] symbols) as [sources|] eqn:E; [|discriminate]. cbn [bind] in H.
    apply download_ok in E; [|constructor|easy]. destruct E as (H1 & H2 & H3). exists sources. split; [exact H1|]. split; [|auto].
    intro s. rewrite H2. cbn. tauto.
  Qed.
End Lemmas.
