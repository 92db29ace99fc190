From Coq Require Import String ZArith Bool List Arith Lia.
From Verif Require Import Base Num Dicts Data DataSpec DataLemmas.
Import ListNotations.

Section Lemmas.
  Context {T : Type} {N : Num T}.
  Local Notation obj := (@obj T). Local Notation raw := (@raw T). Local Notation data := (@data T).

  (** *** one view of Series and frames *)
  Lemma rows_index (o : obj) : rows o = index_of o. Proof. now destruct o. Qed.
  Lemma columns_frame (o : obj) : columns o = map fst (to_frame o).
  Proof. destruct o as [[n|] i vs|i cols]; reflexivity. Qed.
  Lemma entry_frame (o : obj) c r v : entry o c r v <->
    exists vs k, In (c, vs) (to_frame o) /\ nth_error (rows o) k = Some r /\ nth_error vs k = Some v.
  Proof.
    destruct o as [n i vs|i cols]; cbn; [|reflexivity]. split.
    - intros [-> (k & H1 & H2)]. exists vs, k. auto.
    - intros (ws & k & [H|[]] & H1 & H2). injection H as <- <-. split; [reflexivity|]. now exists k.
  Qed.
  Definition proper_frame (i : list label) (cols : list (label * list T)) : Prop :=
    NoDup i /\ NoDup (map fst cols) /\ forall c vs, In (c, vs) cols -> List.length vs = List.length i.
  Lemma proper_frame_of (o : obj) : proper o <-> proper_frame (rows o) (to_frame o).
  Proof.
    destruct o as [n i vs|i cols]; cbn; [|reflexivity]. unfold proper_frame. cbn. split.
    - intros [H1 H2]. split; [exact H1|]. split; [repeat constructor; now intros []|]. intros c ws [H|[]]. injection H as _ <-. exact H2.
    - intros (H1 & _ & H3). split; [exact H1|]. eapply H3. left. reflexivity.
  Qed.

  Lemma find_label_some (a : label) : forall l (vs : list T) v, List.length vs = List.length l -> NoDup l ->
    (find_label a l vs = Some v <-> exists k, nth_error l k = Some a /\ nth_error vs k = Some v).
  Proof.
    induction l as [|b l IH]; intros [|w vs] v Hl Hn; cbn in Hl; try discriminate; cbn.
    - split; [discriminate|]. intros (k & H & _). destruct k; discriminate.
    - inversion Hn; subst. destruct (label_eqb a b) eqn:E.
      + apply label_eqb_eq in E. subst b. split.
        * intro H. exists 0. cbn. split; [reflexivity|congruence].
        * intros ([|k] & H & H'); cbn in *; [congruence|]. exfalso. apply H1. exact (nth_error_In _ _ H).
      + rewrite IH by (auto; lia). split.
        * intros (k & H). now exists (S k).
        * intros ([|k] & H & H'); cbn in *; [|now exists k]. injection H as ->. now rewrite label_eqb_refl in E.
  Qed.
  Lemma find_label_none (a : label) : forall l (vs : list T), List.length vs = List.length l ->
    (find_label a l vs = None <-> ~ In a l).
  Proof.
    induction l as [|b l IH]; intros [|w vs] Hl; cbn in Hl; try discriminate; cbn; [tauto|].
    destruct (label_eqb a b) eqn:E.
    - apply label_eqb_eq in E. subst b. split; [discriminate|]. intro H. exfalso. apply H. now left.
    - rewrite IH by lia. split; [intros H [->|Hi]; [now rewrite label_eqb_refl in E|contradiction]|tauto].
  Qed.
  Lemma find_column_some {A} (c : label) : forall (cols : list (label * A)) v, NoDup (map fst cols) ->
    (find_column c cols = Some v <-> In (c, v) cols).
  Proof.
    induction cols as [|[d w] cols IH]; intros v Hn; cbn; [split; [discriminate|easy]|]. cbn in Hn. inversion Hn; subst.
    destruct (label_eqb c d) eqn:E.
    - apply label_eqb_eq in E. subst d. split; [intro H; left; congruence|]. intros [H|H]; [congruence|].
      exfalso. apply H1. change c with (fst (c, v)). now apply in_map.
    - rewrite IH by assumption. split; [tauto|]. intros [H|H]; [|exact H]. injection H as -> ->. now rewrite label_eqb_refl in E.
  Qed.
  Lemma find_column_none {A} (c : label) : forall (cols : list (label * A)), find_column c cols = None <-> ~ In c (map fst cols).
  Proof.
    induction cols as [|[d w] cols IH]; cbn; [tauto|]. destruct (label_eqb c d) eqn:E.
    - apply label_eqb_eq in E. subst d. split; [discriminate|]. intro H. exfalso. apply H. now left.
    - rewrite IH. split; [intros H [->|Hi]; [now rewrite label_eqb_refl in E|contradiction]|tauto].
  Qed.
  Lemma nodup_nth (l : list label) i j a : NoDup l -> nth_error l i = Some a -> nth_error l j = Some a -> i = j.
  Proof.
    intros Hn Hi Hj. apply (proj1 (NoDup_nth_error l) Hn); [|congruence]. apply nth_error_Some. congruence.
  Qed.

  (** *** reading *)
  Lemma range_length start n : List.length (range_from start n) = n.
  Proof. unfold range_from. now rewrite map_length, seq_length. Qed.
  Lemma range_nth start n k : k < n -> nth_error (range_from start n) k = Some (Number (start + Z.of_nat k)).
  Proof.
    intro H. unfold range_from. rewrite nth_error_map.
    assert (E : nth_error (seq 0 n) k = Some k).
    { rewrite (nth_error_nth' _ 0) by (rewrite seq_length; exact H). now rewrite seq_nth. }
    now rewrite E.
  Qed.
  Lemma combine_fst {A B} (l : list A) (m : list B) : List.length l = List.length m -> map fst (combine l m) = l.
  Proof. revert m. induction l as [|a l IH]; intros [|b m] H; cbn in *; try easy. rewrite IH by lia. reflexivity. Qed.
  Lemma combine_snd {A B} (l : list A) (m : list B) : List.length l = List.length m -> map snd (combine l m) = m.
  Proof. revert m. induction l as [|a l IH]; intros [|b m] H; cbn in *; try easy. rewrite IH by lia. reflexivity. Qed.
  Lemma to_pandas_numbered start (r : raw) : arrays_numbered start r (to_pandas start r).
  Proof.
    destruct r as [vs|n cs|o]; cbn; [| |reflexivity].
    - exists (range_from start (List.length vs)). split; [reflexivity|]. split; [apply range_length|]. intros; now apply range_nth.
    - exists (range_from start n), (numbered cs). split; [reflexivity|]. split; [apply range_length|].
      split; [intros; now apply range_nth|]. unfold numbered. split; [apply combine_snd, range_length|].
      intros k Hk. rewrite combine_fst by apply range_length. rewrite range_nth by exact Hk. do 2 f_equal.
  Qed.
  Lemma forallb_clock l : forallb is_clock l = true <-> clock_times l.
  Proof.
    rewrite forallb_forall. split; intros H a Ha; specialize (H a Ha).
    - destruct a; try discriminate. now exists t.
    - destruct H as (t & ->). reflexivity.
  Qed.
  Lemma localize_ok z : forall l l', clock_times l -> localize z l = Ok l' ->
    Forall2 (fun a b => exists t i, a = Clock t /\ b = Instant i /\ z t = Ok i) l l'.
  Proof.
    induction l as [|a l IH]; intros l' Hc H; cbn in H; [injection H as <-; constructor|].
    destruct (Hc a (or_introl eq_refl)) as (t & ->). destruct (z t) as [i|] eqn:Ez; [|discriminate]. cbn in H.
    destruct (localize z l) as [l2|] eqn:El; [|discriminate]. cbn in H. injection H as <-. constructor.
    - exists t, i. auto.
    - apply IH; [|reflexivity]. intros b Hb. apply Hc. now right.
  Qed.
  Lemma set_index_rows (o : obj) i : rows (set_index o i) = i. Proof. now destruct o. Qed.
  Lemma to_zone_ok loc conv (o o' : obj) : to_zone loc conv o = Ok o' -> in_zone loc conv o o'.
  Proof.
    unfold to_zone. intro H.
    destruct (match loc with Some z => if forallb is_clock (index_of o) then localize z (index_of o) else Ok (index_of o) | None => Ok (index_of o) end)
      as [i1|] eqn:E; [|discriminate]. cbn [bind] in H.
    assert (Ho : o' = set_index o i1 /\ (conv <> None -> i1 <> [] -> ~ clock_times i1)).
    { destruct conv as [z|]; [|injection H as <-; split; [reflexivity|easy]]. unfold raise_if in H.
      destruct i1 as [|a i1]; [injection H as <-; split; [reflexivity|easy]|].
      destruct (forallb is_clock (a :: i1)) eqn:Ec; [discriminate|]. injection H as <-. split; [reflexivity|].
      intros _ _ Hc. apply forallb_clock in Hc. congruence. }
    destruct Ho as [-> Hc]. split; [destruct o; cbn; auto|]. rewrite set_index_rows. split; [|exact Hc].
    rewrite <- rows_index in E. destruct loc as [z|]; [|now injection E].
    destruct (forallb is_clock (rows o)) eqn:Ec.
    - apply forallb_clock in Ec. split; [|contradiction]. intros _. now apply localize_ok.
    - injection E as <-. split; [|reflexivity]. intro H'. apply forallb_clock in H'. congruence.
  Qed.

  (** *** maps over symbols *)
  Lemma map_dict_ok {A B} (f : A -> res B) : forall d d', map_dict f d = Ok d' ->
    Forall2 (fun a b => fst b = fst a /\ f (snd a) = Ok (snd b)) d d'.
  Proof.
    induction d as [|[k v] d IH]; intros d' H; cbn in H; [injection H as <-; constructor|].
    destruct (f v) as [w|] eqn:E; [|discriminate]. cbn in H. destruct (map_dict f d) as [ws|] eqn:E2; [|discriminate]. cbn in H.
    injection H as <-. constructor; [auto|now apply IH].
  Qed.
  Lemma map_dict_total {A B} (f : A -> res B) : forall d, (forall k v, In (k, v) d -> exists w, f v = Ok w) -> exists d', map_dict f d = Ok d'.
  Proof.
    induction d as [|[k v] d IH]; intro H; cbn; [now exists []|]. destruct (H k v (or_introl eq_refl)) as (w & ->). cbn.
    destruct IH as (d' & ->); [intros k' v' Hi; eapply H; right; exact Hi|]. cbn. eexists; reflexivity.
  Qed.
  Lemma Forall2_keys {A B} (R : string * A -> string * B -> Prop) : forall l m,
    (forall a b, R a b -> fst b = fst a) -> Forall2 R l m -> map fst m = map fst l.
  Proof. intros l m Hf H. induction H; cbn; [reflexivity|]. f_equal; auto. Qed.
  Lemma Forall2_len {A B} (R : A -> B -> Prop) l m : Forall2 R l m -> List.length l = List.length m.
  Proof. induction 1; cbn; congruence. Qed.
  Lemma Forall2_in_r {A B} (R : A -> B -> Prop) l m b : Forall2 R l m -> In b m -> exists a, In a l /\ R a b.
  Proof.
    induction 1 as [|x y l m Hr H IH]; cbn; [easy|]. intros [<-|Hi]; [exists x; auto|]. destruct (IH Hi) as (a & Ha & Hb). exists a; auto.
  Qed.
  Lemma Forall2_in_l {A B} (R : A -> B -> Prop) l m a : Forall2 R l m -> In a l -> exists b, In b m /\ R a b.
  Proof.
    induction 1 as [|x y l m Hr H IH]; cbn; [easy|]. intros [<-|Hi]; [exists y; auto|]. destruct (IH Hi) as (b & Hb & Hc). exists b; auto.
  Qed.
  Lemma Forall2_impl2 {A B} (R S : A -> B -> Prop) l m : (forall a b, In a l -> In b m -> R a b -> S a b) -> Forall2 R l m -> Forall2 S l m.
  Proof.
    intros Hi H. induction H as [|x y l m Hr H IH]; constructor; [apply Hi; auto; now left|]. apply IH. intros; apply Hi; auto; now right.
  Qed.
  Lemma Forall2_trans2 {A B C} (R : A -> B -> Prop) (S : B -> C -> Prop) l m n :
    Forall2 R l m -> Forall2 S m n -> Forall2 (fun a c => exists b, In b m /\ R a b /\ S b c) l n.
  Proof.
    intro H. revert n. induction H as [|x y l m Hr H IH]; intros n Hn; inversion Hn; subst; constructor.
    - exists y. split; [now left|auto].
    - eapply Forall2_impl2; [|apply IH; eassumption]. intros a c _ _ (b & Hb & Hc). exists b. split; [now right|exact Hc].
  Qed.

  (** *** new rows *)
  Lemma reindex_nth old new (vs : list T) k r : nth_error new k = Some r ->
    nth_error (reindex_values old new vs) k = Some (match find_label r old vs with Some v => v | None => nan end).
  Proof. intro H. unfold reindex_values. now rewrite nth_error_map, H. Qed.
  Definition reindexed (o : obj) (index : list label) : obj :=
    match o with
    | Series n i vs => Series n index (reindex_values i index vs)
    | DataFrame i cols => DataFrame index (map (fun c => (fst c, reindex_values i index (snd c))) cols)
    end.
  Lemma reindex_rows_eq (o : obj) index : proper o -> reindex_rows o index = Ok (reindexed o index).
  Proof.
    intro Hp. unfold reindex_rows. assert (E : has_dups (index_of o) = false).
    { apply has_dups_NoDup. rewrite <- rows_index. apply proper_frame_of in Hp. apply Hp. }
    rewrite E. cbn. now destruct o.
  Qed.
  Lemma reindexed_frame (o : obj) index :
    to_frame (reindexed o index) = map (fun c => (fst c, reindex_values (rows o) index (snd c))) (to_frame o).
  Proof. now destruct o. Qed.
  Lemma reindexed_rows (o : obj) index : rows (reindexed o index) = index. Proof. now destruct o. Qed.
  Lemma reindexed_columns (o : obj) index : columns (reindexed o index) = columns o.
  Proof. rewrite !columns_frame, reindexed_frame, map_map. reflexivity. Qed.
  Lemma reindexed_series (o : obj) index : series (reindexed o index) <-> series o. Proof. now destruct o. Qed.
  Lemma reindexed_unnamed (o : obj) index : unnamed (reindexed o index) = unnamed o. Proof. now destruct o as [[n|] i vs|i cols]. Qed.
  Lemma reindexed_is_frame (o : obj) index : is_frame (reindexed o index) = is_frame o. Proof. now destruct o. Qed.
  Lemma reindexed_proper (o : obj) index : proper o -> NoDup index -> proper (reindexed o index).
  Proof.
    rewrite !proper_frame_of. intros (H1 & H2 & H3) Hi. unfold proper_frame. rewrite reindexed_rows, reindexed_frame, map_map. cbn.
    split; [exact Hi|]. split; [exact H2|]. intros c vs H. apply in_map_iff in H. destruct H as ([d ws] & E & _). injection E as _ <-.
    unfold reindex_values. now rewrite map_length.
  Qed.
  Lemma reindexed_entry (o : obj) index c r v : proper o -> NoDup index -> In r index ->
    (entry (reindexed o index) c r v <-> In c (columns o) /\ (entry o c r v \/ (~ In r (rows o) /\ v = nan))).
  Proof.
    intros Hp Hi Hr. pose proof (proj1 (proper_frame_of o) Hp) as (P1 & P2 & P3). rewrite !entry_frame, reindexed_frame, reindexed_rows. split.
    - intros (vs & k & Hc & Hk & Hv). apply in_map_iff in Hc. destruct Hc as ([d ws] & E & Hd). cbn in E. injection E as -> <-.
      split; [rewrite columns_frame; change c with (fst (c, ws)); now apply in_map|].
      rewrite (reindex_nth _ _ _ _ _ Hk) in Hv. injection Hv as Hv. pose proof (P3 c ws Hd) as Hl.
      destruct (find_label r (rows o) ws) as [w|] eqn:E.
      + subst w. left. exists ws. apply find_label_some in E; auto. destruct E as (k' & ? & ?). exists k'. auto.
      + right. apply find_label_none in E; auto.
    - intros [Hc H]. rewrite columns_frame in Hc. apply in_map_iff in Hc. destruct Hc as ([d ws] & E & Hd). cbn in E. subst d.
      pose proof (P3 c ws Hd) as Hl. apply In_nth_error in Hr. destruct Hr as (k & Hk).
      exists (reindex_values (rows o) index ws), k. split; [apply in_map_iff; exists (c, ws); auto|]. split; [exact Hk|].
      rewrite (reindex_nth _ _ _ _ _ Hk). f_equal. destruct H as [(ws' & k' & Hd' & Hk' & Hv')|[Hn ->]].
      + assert (ws' = ws).
        { apply (find_column_some c) in Hd; auto. apply (find_column_some c) in Hd'; auto. congruence. }
        subst ws'. assert (E : find_label r (rows o) ws = Some v) by (apply find_label_some; auto; now exists k'). now rewrite E.
      + assert (E : find_label r (rows o) ws = None) by now apply find_label_none. now rewrite E.
  Qed.

  (** *** new columns *)
  Definition recolumned (i : list label) (cols : list (label * list T)) (cs : list label) : list (label * list T) :=
    map (fun c => (c, match find_column c cols with Some v => v | None => map (fun _ => nan) i end)) cs.
  Lemma reindex_columns_eq i cols cs : NoDup (map fst cols) -> reindex_columns i cols cs = Ok (recolumned i cols cs).
  Proof. intro H. unfold reindex_columns. apply has_dups_NoDup in H. now rewrite H. Qed.
  Lemma recolumned_fst i cols cs : map fst (recolumned i cols cs) = cs.
  Proof. unfold recolumned. rewrite map_map. cbn. apply map_id. Qed.
  Lemma recolumned_proper i cols cs : proper_frame i cols -> NoDup cs -> proper_frame i (recolumned i cols cs).
  Proof.
    intros (H1 & H2 & H3) Hc. split; [exact H1|]. rewrite recolumned_fst. split; [exact Hc|]. intros c vs H.
    apply in_map_iff in H. destruct H as (d & E & _). injection E as -> <-. destruct (find_column c cols) as [v|] eqn:E.
    - apply find_column_some in E; auto. now apply (H3 c).
    - apply map_length.
  Qed.
  Lemma recolumned_entry (o : obj) cs c r v : proper o -> In c cs -> In r (rows o) ->
    (entry (DataFrame (rows o) (recolumned (rows o) (to_frame o) cs)) c r v <->
     (entry o c r v \/ (~ In c (columns o) /\ v = nan))).
  Proof.
    intros Hp Hc Hr. apply proper_frame_of in Hp. destruct Hp as (P1 & P2 & P3). rewrite entry_frame, (entry_frame o). cbn. split.
    - intros (vs & k & Hi & Hk & Hv). apply in_map_iff in Hi. destruct Hi as (d & E & _). injection E as -> <-.
      destruct (find_column c (to_frame o)) as [ws|] eqn:E.
      + left. exists ws, k. split; [now apply find_column_some in E|auto].
      + right. apply find_column_none in E. rewrite columns_frame. split; [exact E|]. rewrite nth_error_map, Hk in Hv. cbn in Hv. congruence.
    - intros [(vs & k & Hi & Hk & Hv)|[Hn ->]].
      + exists vs, k. split; [|auto]. apply in_map_iff. exists c. apply (find_column_some c) in Hi; auto. now rewrite Hi.
      + apply In_nth_error in Hr. destruct Hr as (k & Hk). rewrite columns_frame in Hn. apply find_column_none in Hn.
        eexists _, k. split; [apply in_map_iff; exists c; rewrite Hn; split; [reflexivity|exact Hc]|]. split; [exact Hk|].
        now rewrite nth_error_map, Hk.
  Qed.

  (** ** aligning rows *)
  Definition obj_rows (kv : string * obj) : list label := rows (snd kv).
  Lemma joined_single missing (l : list label) : NoDup l -> joined missing [l] l.
  Proof. intro H. apply knows_joined; [easy|]. now apply knows_first. Qed.
  Lemma map_index_rows (ds : list (string * obj)) : map (fun kv => index_of (snd kv)) ds = map obj_rows ds.
  Proof. apply map_ext. intro kv. unfold obj_rows. reflexivity. Qed.
  Definition new_rows_of (rs : list label) (a b : string * obj) : Prop :=
    fst b = fst a /\ (snd b = reindexed (snd a) rs \/ (snd b = snd a /\ rs = rows (snd a))).
  Lemma align_index_ok ds missing ds' : ds <> [] -> all_proper ds -> align_index ds missing = Ok ds' ->
    exists rs, joined missing (map obj_rows ds) rs /\ Forall2 (new_rows_of rs) ds ds'.
  Proof.
    intros Hne Hp H. unfold align_index in H. destruct (Nat.eqb (List.length ds) 1) eqn:El.
    - injection H as <-. destruct ds as [|[s o] [|? ?]]; [easy| |discriminate]. exists (rows o). split.
      + apply joined_single. specialize (Hp s o (or_introl eq_refl)). apply proper_frame_of in Hp. apply Hp.
      + constructor; [|constructor]. split; [reflexivity|]. right. auto.
    - destruct (join_labels missing "index" (map (fun kv => index_of (snd kv)) ds)) as [rs|] eqn:Ej; [|discriminate]. cbn [bind] in H.
      rewrite map_index_rows in Ej. exists rs. split.
      + apply (join_labels_joined missing "index"); [now destruct ds| |exact Ej]. rewrite Forall_map, Forall_forall. intros [s o] Hi.
        specialize (Hp s o Hi). apply proper_frame_of in Hp. apply Hp.
      + apply map_dict_ok in H. eapply Forall2_impl2; [|exact H]. intros [s o] [t p] Hi _ [E1 E2]. cbn in *. split; [exact E1|].
        left. rewrite reindex_rows_eq in E2 by (eapply Hp; exact Hi). injection E2 as E2. now symmetry.
  Qed.
  Lemma align_index_total ds missing : all_proper ds -> (missing = MNan \/ missing = MDrop) \/ pairwise_same (map obj_rows ds) ->
    exists ds', align_index ds missing = Ok ds'.
  Proof.
    intros Hp H. unfold align_index. destruct (Nat.eqb (List.length ds) 1); [eexists; reflexivity|]. rewrite map_index_rows.
    destruct (join_labels_total missing "index" _ H) as (rs & ->). cbn [bind]. apply map_dict_total. intros k v Hi.
    rewrite reindex_rows_eq by (eapply Hp; exact Hi). eexists; reflexivity.
  Qed.
  Lemma joined_nodup missing ls l : joined missing ls l -> NoDup l. Proof. now intros [H _]. Qed.
  Lemma new_rows_facts rs (a b : string * obj) : NoDup rs -> proper (snd a) -> new_rows_of rs a b ->
    fst b = fst a /\ proper (snd b) /\ rows (snd b) = rs /\ columns (snd b) = columns (snd a) /\ (series (snd b) <-> series (snd a)) /\
    is_frame (snd b) = is_frame (snd a) /\ unnamed (snd b) = unnamed (snd a) /\
    forall c r v, In r rs -> (entry (snd b) c r v <-> In c (columns (snd a)) /\ (entry (snd a) c r v \/ (~ In r (rows (snd a)) /\ v = nan))).
  Proof.
    intros Hn Hp [Hk [->|[-> ->]]].
    - rewrite reindexed_rows, reindexed_columns, reindexed_is_frame, reindexed_unnamed.
      split; [exact Hk|]. split; [now apply reindexed_proper|]. split; [reflexivity|]. split; [reflexivity|].
      split; [apply reindexed_series|]. split; [reflexivity|]. split; [reflexivity|].
      intros c r v Hr. now apply reindexed_entry.
    - split; [exact Hk|]. split; [exact Hp|]. split; [reflexivity|]. split; [reflexivity|]. split; [reflexivity|].
      split; [reflexivity|]. split; [reflexivity|]. intros c r v Hr. split.
      + intro H0. split; [|now left]. apply entry_frame in H0. destruct H0 as (vs & k & Hi & _). rewrite columns_frame.
        change c with (fst (c, vs)). now apply in_map.
      + intros [_ [H0|[H0 _]]]; [exact H0|contradiction].
  Qed.
End Lemmas.
