(** * Broadcasting as a whole *)
From Coq Require Import String ZArith Bool List Arith Lia.
From Verif Require Import Base Grouper Reshape IndexFns IndexSpec Broadcast BroadcastSpec BaseFnsLemmas BaseFnsLemmas4 BaseFnsLemmas5 BroadcastLemmas BroadcastLemmas2.
Import ListNotations.
Local Open Scope nat_scope.

(** ** Nothing to align *)
Lemma to_align_labels : forall {A} c (x : BArg A) i, consistent x -> to_align c x = Some i -> labels_on c x = [i] /\ 1 < index_len i.
Proof.
  intros A c [a|ix nm l|ix cs rows] i Hc H; cbn [to_align labels_on] in *; [discriminate| |].
  - destruct c; [discriminate|]. destruct (Nat.ltb_spec 1 (index_len ix)); inversion H; subst. auto.
  - destruct (Nat.ltb_spec 1 (index_len (if c then cs else ix))); inversion H; subst. auto.
Qed.
Lemma align_none : forall {A} c (args : list (BArg A)) junk, Forall consistent args -> same_numbers c args -> align_args c args junk = Ok args.
Proof.
  intros A c args junk Hc Hs. unfold align_args. set (xs := flat_map _ args).
  assert (Hin : forall i, In i xs -> In i (all_labels c args) /\ 1 < index_len i).
  { intros i Hi. unfold xs in Hi. apply in_flat_map in Hi. destruct Hi as [x [Hx Hi]]. destruct (to_align c x) as [j|] eqn:E; [|contradiction].
    destruct Hi as [<-|[]]. eapply Forall_forall in Hc; [|exact Hx]. destruct (to_align_labels c x j Hc E) as [El Hl]. split; [|exact Hl].
    apply in_flat_map. exists x. split; [exact Hx|]. rewrite El. now left. }
  replace (forallb _ xs) with true; [now rewrite andb_false_r|]. symmetry. apply forallb_forall. intros i Hi. apply Nat.eqb_eq.
  assert (Hle : index_len i <= max_len xs) by (unfold max_len; apply fold_max_ge; now apply in_map).
  assert (Hge : max_len xs <= index_len i); [|lia]. unfold max_len. apply fold_max_le. split; [lia|]. apply Forall_forall. intros k Hk. apply in_map_iff in Hk.
  destruct Hk as [j [<- Hj]]. destruct (Hin i Hi), (Hin j Hj). rewrite (Hs j i); auto.
Qed.

(** ** The parts of a broadcast *)
Definition any_pandas {A} (o : BOpts) (args : list (BArg A)) : bool :=
  match bo_to_pd o with Some f => existsb f (seq 0 (length args)) | None => existsb is_pandas args end.
Definition pandas_at {A} (o : BOpts) (args : list (BArg A)) (k : nat) : bool :=
  match bo_to_pd o with Some f => f k | None => any_pandas o args end.

Lemma broadcast_inv : forall {A} o (args : list (BArg A)) junk ys shape ni nc, Forall consistent args -> bo_to_frame o = None -> no_alignment o args ->
  broadcast o args junk = Ok (ys, (shape, (ni, nc))) ->
  let two := two_axes (bo_shape o) args in
  match bo_shape o with Some s => s = shape | None => broadcast_shapes (map (fun x => shape_of (array_of two x)) args) = Ok shape end /\
  (exists arrs, broadcast_each two (bo_keep_raw o) 0 args shape = Ok arrs /\
    wrap_each o (pandas_at o args) 0 args arrs ni nc = Ok ys) /\
  (if any_pandas o args then broadcast_index (bo_stack o) args shape (bo_index_from o) false = Ok ni /\ broadcast_index (bo_stack o) args shape (bo_columns_from o) true = Ok nc
   else ni = None /\ nc = None).
Proof.
  intros A o args junk ys shape ni nc Hc Hf [Hi Hcol] H. unfold broadcast in H. rewrite Hf, two_axes_model in H. fold (any_pandas o args) in H. cbv zeta.
  assert (E1 : (if bo_align_index o then align_args false args junk else Ok args) = Ok args) by (destruct (bo_align_index o); [apply align_none; auto|reflexivity]).
  rewrite E1 in H. cbn [bind] in H.
  assert (E2 : (if bo_align_columns o then align_args true args junk else Ok args) = Ok args) by (destruct (bo_align_columns o); [apply align_none; auto|reflexivity]).
  rewrite E2 in H. cbn [bind] in H. apply bind_ok in H. destruct H as [sh [Hsh H]]. apply bind_ok in H. destruct H as [arrs [Ha H]].
  apply bind_ok in H. destruct H as [[i c] [Hm H]]. apply bind_ok in H. destruct H as [zs [Hz H]]. inversion H; subst. clear H. split; [|split].
  - destruct (bo_shape o); [congruence|exact Hsh].
  - exists arrs. split; [exact Ha|]. unfold pandas_at, any_pandas. exact Hz.
  - destruct (any_pandas o args); [|inversion Hm; auto]. apply bind_ok in Hm. destruct Hm as [i' [Hi' Hm]]. apply bind_ok in Hm. destruct Hm as [c' [Hc' Hm]].
    inversion Hm; subst. auto.
Qed.
Lemma broadcast_intro : forall {A} o (args : list (BArg A)) junk ys shape ni nc arrs, Forall consistent args -> bo_to_frame o = None -> no_alignment o args ->
  let two := two_axes (bo_shape o) args in
  match bo_shape o with Some s => s = shape | None => broadcast_shapes (map (fun x => shape_of (array_of two x)) args) = Ok shape end ->
  broadcast_each two (bo_keep_raw o) 0 args shape = Ok arrs ->
  wrap_each o (pandas_at o args) 0 args arrs ni nc = Ok ys ->
  (if any_pandas o args then broadcast_index (bo_stack o) args shape (bo_index_from o) false = Ok ni /\ broadcast_index (bo_stack o) args shape (bo_columns_from o) true = Ok nc
   else ni = None /\ nc = None) ->
  broadcast o args junk = Ok (ys, (shape, (ni, nc))).
Proof.
  intros A o args junk ys shape ni nc arrs Hc Hf [Hi Hcol] two Hs Ha Hw Hm. unfold broadcast. rewrite Hf, two_axes_model. fold (any_pandas o args). 
  assert (E1 : (if bo_align_index o then align_args false args junk else Ok args) = Ok args) by (destruct (bo_align_index o); [apply align_none; auto|reflexivity]).
  rewrite E1. cbn [bind].
  assert (E2 : (if bo_align_columns o then align_args true args junk else Ok args) = Ok args) by (destruct (bo_align_columns o); [apply align_none; auto|reflexivity]).
  rewrite E2. cbn [bind]. fold two.
  assert (E3 : (match bo_shape o with Some s => Ok s | None => broadcast_shapes (map (fun x => shape_of (array_of two x)) args) end) = Ok shape) by (destruct (bo_shape o); [congruence|exact Hs]).
  rewrite E3. cbn [bind]. rewrite Ha. cbn [bind].
  assert (E4 : (if any_pandas o args then let! i := broadcast_index (bo_stack o) args shape (bo_index_from o) false in let! c := broadcast_index (bo_stack o) args shape (bo_columns_from o) true in Ok (i, c) else Ok (None, None)) = Ok (ni, nc)).
  { destruct (any_pandas o args); [destruct Hm as [-> ->]; reflexivity|destruct Hm as [-> ->]; reflexivity]. }
  rewrite E4. cbn [bind]. unfold pandas_at in Hw. destruct (bo_to_pd o); rewrite Hw; reflexivity.
Qed.

(** The number of axes of the result *)
Lemma shape_axes : forall {A} o (args : list (BArg A)) shape arrs, args <> [] ->
  let two := two_axes (bo_shape o) args in
  match bo_shape o with Some s => s = shape | None => broadcast_shapes (map (fun x => shape_of (array_of two x)) args) = Ok shape end ->
  broadcast_each two (bo_keep_raw o) 0 args shape = Ok arrs ->
  (two = true -> length shape = 2) /\ (two = false -> length shape <= 1) /\
  (bo_shape o = None -> chosen_shape two args shape).
Proof.
  intros A o args shape arrs Hne two Hs Ha.
  assert (Hax : two = false -> forall x, In x args -> length (axes x) <= 1) by (intros E x Hx; eapply two_axes_false; eauto).
  apply broadcast_each_nth in Ha. destruct Ha as [_ Ha]. destruct (bo_shape o) as [s|] eqn:Es.
  - subst s. assert (Hle : length shape <= 2).
    { destruct args as [|x args]; [congruence|]. destruct (Ha 0 x eq_refl) as [b [Hb _]]. unfold np_broadcast_to in Hb.
      destruct (array_of two x); destruct shape as [|n [|m [|]]]; cbn; try discriminate; lia. }
    split; [|split; [|discriminate]].
    + intros E. destruct (Nat.ltb_spec 1 (length shape)); [lia|]. unfold two, two_axes in E. apply orb_true_iff in E.
      destruct E as [E|E]; [|apply Nat.ltb_lt in E; lia]. apply existsb_exists in E. destruct E as [x [Hx E]]. apply Nat.ltb_lt in E. apply In_nth_error in Hx. destruct Hx as [k Hk].
      destruct (Ha k x Hk) as [b [Hb _]]. exfalso. destruct x as [[v|l|c rows]|ix nm l|ix c rows]; cbn in E; try lia; cbn [array_of np_broadcast_to] in Hb;
        destruct shape as [|n [|m t]]; cbn in *; try lia; discriminate.
    + intros E. unfold two, two_axes in E. apply orb_false_iff in E. destruct E as [_ E]. apply Nat.ltb_ge in E. lia.
  - assert (H2 : two = true -> exists x, In x args /\ length (axes x) = 2).
    { intros E. unfold two, two_axes in E. rewrite orb_false_r in E. apply existsb_exists in E. destruct E as [x [Hx E]]. apply Nat.ltb_lt in E. exists x. split; [exact Hx|].
      destruct x as [[v|l|c rows]|ix nm l|ix c rows]; cbn in *; lia. }
    destruct (broadcast_shapes_ok two args shape H2 Hax Hs) as [H3 [H4 H5]]. auto.
Qed.

Lemma wrap_each_nth : forall {A} o pd (args : list (BArg A)) k arrs ni nc ys, length arrs = length args -> wrap_each o pd k args arrs ni nc = Ok ys ->
  length ys = length args /\
  forall i x a, nth_error args i = Some x -> nth_error arrs i = Some a -> exists y, nth_error ys i = Some y /\
    if bo_keep_raw o (k + i) then y = Raw a else wrap_broadcasted (bo_stack o) x a (pd (k + i)) ni nc = Ok y.
Proof.
  intros A o pd. induction args as [|x args IH]; intros k [|a arrs] ni nc ys Hl H; cbn in Hl; try lia; cbn [wrap_each] in H.
  - inversion H. split; [reflexivity|]. intros [|i] y b Hy; discriminate.
  - apply bind_ok in H. destruct H as [y [Hy H]]. apply bind_ok in H. destruct H as [zs [Hz H]]. inversion H; subst.
    destruct (IH (S k) arrs ni nc zs) as [H1 H2]; [lia|exact Hz|]. split; [cbn; lia|]. intros [|i] x' a' Hx' Ha'; cbn [nth_error] in *.
    + inversion Hx'; inversion Ha'; subst. exists y. split; [reflexivity|]. rewrite Nat.add_0_r. destruct (bo_keep_raw o k); [congruence|exact Hy].
    + rewrite Nat.add_succ_r. apply (H2 i x' a'); auto.
Qed.

Definition is_result {A} (two : bool) (new : Arr A) (y : BArg A) : Prop :=
  axes y = shape_of new /\ forall i j, seen two y i j = seen two (Raw new) i j.

Lemma fit_ok : forall x n i, fit_index x n = Ok i -> index_len i = n /\ (x = Some i \/ (x = None /\ i = range_index n)).
Proof.
  intros [j|] n i H; cbn [fit_index] in H.
  - apply raise_if_ok in H. destruct H as [H1 H2]. inversion H2; subst. apply negb_false_iff, Nat.eqb_eq in H1. auto.
  - inversion H. split; [apply range_length|auto].
Qed.

Lemma wrap_ok : forall {A} so two (x : BArg A) new pd ni nc y, (two = true -> length (shape_of new) = 2) -> wrap_broadcasted so x new pd ni nc = Ok y ->
  is_result two new y /\
  (pd = false -> y = Raw new) /\
  (pd = true -> exists i, labels_on false y = [i] /\ index_len i = nth 0 (shape_of new) 0 /\ (forall w, ni = Some w -> i = w) /\
     match y with Frame _ c _ => index_len c = nth 1 (shape_of new) 0 /\ (forall w, nc = Some w -> c = w) 
                | Ser _ nm _ => forall w, nc = Some w -> nm = series_name (Some w) | Raw _ => False end).
Proof.
  intros A so two x new pd ni nc y Ht H. unfold wrap_broadcasted in H. destruct pd; [|inversion H; subst; split; [|split; [auto|discriminate]]].
  2:{ split; [|auto]. destruct new; reflexivity. }
  destruct new as [v|l|c rows]; [discriminate| |]; cbn [shape_of nth] in H.
  - apply bind_ok in H. destruct H as [i [Hi H]]. inversion H; subst. apply fit_ok in Hi. destruct Hi as [Hl Hi]. split; [|split; [discriminate|]].
    + split; [reflexivity|]. intros i0 j. cbn [seen]. destruct two; [|reflexivity].
      specialize (Ht eq_refl). discriminate.
    + intros _. exists i. cbn [labels_on shape_of nth]. repeat split; auto.
      * intros w ->. destruct Hi as [Hi|[Hi _]]; congruence.
      * intros w ->. reflexivity.
  - apply bind_ok in H. destruct H as [i [Hi H]]. apply bind_ok in H. destruct H as [cc [Hcc H]]. inversion H; subst. apply fit_ok in Hi, Hcc.
    destruct Hi as [Hl Hi]. destruct Hcc as [Hlc Hcc]. split; [|split; [discriminate|]].
    + split; [cbn [axes shape_of]; now rewrite Hlc|]. intros i0 j. cbn [seen]. rewrite Hlc. reflexivity.
    + intros _. exists i. cbn [labels_on shape_of nth]. repeat split; auto.
      * intros w ->. destruct Hi as [Hi|[Hi _]]; congruence.
      * intros w ->. destruct Hcc as [Hi'|[Hi' _]]; congruence.
Qed.

(** ** Values *)
Lemma flex_seen : forall {A} two (a : Arr A) i j, flex_select_auto_nb a i j two = seen two (Raw a) i j.
Proof.
  intros A two a i j. unfold flex_select_auto_nb, flex_choose_i_and_col_nb, flex_select_nb, seen, pick.
  destruct a as [v|l|c rows]; [reflexivity| |].
  - destruct two; destruct (Nat.eqb (length l) 1); reflexivity.
  - destruct (Nat.eqb (length rows) 1), (Nat.eqb c 1); reflexivity.
Qed.

Lemma broadcast_values : forall {A} o (args : list (BArg A)) junk ys shape meta, Forall consistent args -> bo_to_frame o = None -> no_alignment o args ->
  broadcast o args junk = Ok (ys, (shape, meta)) -> args <> [] ->
  let two := two_axes (bo_shape o) args in
  length ys = length args /\
  (two = true -> length shape = 2) /\ (two = false -> length shape <= 1) /\
  (forall s, bo_shape o = Some s -> shape = s) /\
  (bo_shape o = None -> (two = false -> length shape = fold_left Nat.max (map (fun x => length (axes x)) args) 0) /\
     common_size (map (height two) args) (rows_in shape) /\ common_size (map (width two) args) (columns_in shape)) /\
  forall k x y, nth_error args k = Some x -> nth_error ys k = Some y ->
    (bo_keep_raw o k = false -> axes y = shape) /\
    (bo_keep_raw o k = true -> exists a, y = Raw a /\ forall i j, flex_select_auto_nb a i j two = seen two x i j) /\
    forall i j, i < rows_in shape -> j < columns_in shape -> seen two y i j = seen two x i j /\ seen two y i j <> None.
Proof.
  intros A o args junk ys shape [ni nc] Hc Hf Hna H Hne two. apply broadcast_inv in H; auto. cbv zeta in H. fold two in H.
  destruct H as [Hs [[arrs [Ha Hw]] _]]. destruct (shape_axes o args shape arrs Hne Hs Ha) as [H2 [H1 Hch]]. fold two in H2, H1, Hch.
  apply broadcast_each_nth in Ha. destruct Ha as [Hla Ha]. apply wrap_each_nth in Hw; [|exact Hla]. destruct Hw as [Hly Hw].
  assert (Hax : forall x, In x args -> two = false -> length (axes x) <= 1) by (intros x Hx E; eapply two_axes_false; eauto).
  split; [exact Hly|]. split; [exact H2|]. split; [exact H1|]. split; [intros s E; rewrite E in Hs; congruence|]. split.
  { intros E. specialize (Hch E). destruct Hch as [C1 [C2 C3]]. split; [|split; assumption]. intros Et. rewrite C1. f_equal. apply map_ext_in. intros x Hx. 
    rewrite Et. destruct x as [[v|l|c rows]|ix nm l|ix c rows]; try reflexivity. }
  intros k x y Hx Hy. destruct (Ha k x Hx) as [b [Hb Hak]]. cbn [Nat.add] in Hak.
  destruct (Hw k x _ Hx Hak) as [y' [Hy' Hwk]]. rewrite Hy in Hy'. inversion Hy'; subst y'. clear Hy'. cbn [Nat.add] in Hwk.
  assert (Hin : In x args) by (eapply nth_error_In; eauto). assert (Hcx : consistent x) by (eapply Forall_forall in Hc; eauto).
  destruct (np_broadcast_ok two (array_of two x) b shape (array_consistent two x Hcx) H2 H1 Hb) as [Hsb [_ [_ [_ [_ Hseen]]]]].
  destruct (bo_keep_raw o k).
  - subst y. split; [discriminate|]. split.
    + intros _. exists (array_of two x). split; [reflexivity|]. intros i j. rewrite flex_seen. apply array_seen. auto.
    + intros i j Hi Hj. destruct (Hseen i j Hi Hj) as [E1 E2]. rewrite E1 in E2. rewrite array_seen in * by auto. auto.
  - destruct (wrap_ok (bo_stack o) two x b (pandas_at o args k) ni nc y) as [[Hy1 Hy2] _]; [rewrite Hsb; exact H2|exact Hwk|].
    split; [intros _; congruence|]. split; [discriminate|]. intros i j Hi Hj. rewrite Hy2. destruct (Hseen i j Hi Hj) as [E1 E2]. split; [|exact E2].
    rewrite E1. apply array_seen. auto.
Qed.

(** ** The index or the columns *)

Lemma sublist_filter : forall {A} (f : A -> bool) l, sublist (filter f l) l.
Proof. induction l as [|x l IH]; cbn; [constructor|]. destruct (f x); [apply sub_take|apply sub_skip]; exact IH. Qed.
Lemma sublist_app : forall {A} (a b c d : list A), sublist a b -> sublist c d -> sublist (a ++ c) (b ++ d).
Proof. intros A a b c d H H2. induction H; cbn; auto; [apply sub_skip|apply sub_take]; auto. Qed.
Lemma sublist_flat : forall {A B} (f : A -> list B) a b, sublist a b -> sublist (flat_map f a) (flat_map f b).
Proof.
  intros A B f a b H. induction H as [|x a b H IH|x a b H IH]; cbn; [constructor| |].
  - change (flat_map f a) with ([] ++ flat_map f a). apply sublist_app; [apply sublist_nil|exact IH].
  - apply sublist_app; [apply sublist_refl|exact IH].
Qed.
Lemma drawn_super : forall n r s s', sublist s s' -> drawn n r s -> drawn n r s'.
Proof.
  intros n r s s' H. revert r. induction H as [|x a b H IH|x a b H IH]; intros r Hr; [exact Hr|apply dr_skip; auto|].
  inversion Hr; subst; [apply dr_skip|apply dr_take]; auto.
Qed.

Lemma stackable_sub : forall {A} o (args : list (BArg A)) c, sublist (stackable o args c) (all_labels c args).
Proof.
  intros A o args c. unfold stackable. rewrite pick_labels. eapply sublist_trans; [|apply sublist_filter]. apply sublist_flat. apply sublist_filter.
Qed.
Lemma stackable_in : forall {A} o (args : list (BArg A)) c x i, In x args -> ignored o c x = false -> In i (labels_on c x) -> ~ default_index i -> In i (stackable o args c).
Proof.
  intros A o args c x i Hx Hi Hin Hd. unfold stackable. rewrite pick_labels. apply filter_In. split.
  - apply in_flat_map. exists x. split; [|exact Hin]. apply filter_In. split; [exact Hx|]. unfold ignored in Hi. now rewrite Hi.
  - apply negb_true_iff. destruct (is_default_index i) eqn:E; [|reflexivity]. apply is_default_spec in E. contradiction.
Qed.
Lemma stackable_all : forall {A} o (args : list (BArg A)) c, Forall consistent args -> Forall (fun y => proper_index y /\ ~ default_index y) (stackable o args c).
Proof.
  intros A o args c Hc. apply Forall_forall. intros y Hy. split.
  - eapply all_proper; [exact Hc|]. eapply sublist_in; [apply stackable_sub|exact Hy].
  - unfold stackable in Hy. apply filter_In in Hy. destruct Hy as [_ Hy]. intros Hd. apply is_default_spec in Hd. rewrite Hd in Hy. discriminate.
Qed.

(** Bringing an index to the length of the axis *)
Definition finished (o : StackOpts) (m : nat) (strict : bool) (new : option Index) : res (option Index) :=
  match new with
  | None => Ok (Some (range_index m))
  | Some x =>
      if Nat.ltb (index_len x) m then
        raise_if strict (ValueError "Broadcasting is not allowed when strict") (
        raise_if (Nat.ltb 1 m && Nat.ltb 1 (index_len x)) (ValueError "Indexes could not be broadcast together") (
        Ok (Some (repeat_index x m (so_ignore_default o)))))
      else Ok (Some x)
  end.
Definition stacked {A} (o : StackOpts) (args : list (BArg A)) (m : nat) (strict c : bool) : res (option Index) :=
  if negb (index_conflict None (all_labels c args)) then finished o m strict (last (map Some (all_labels c args)) None)
  else let! new := foldM (stack_one o strict) None (stackable o args c) in finished o m strict new.
Lemma broadcast_index_stack : forall {A} o (args : list (BArg A)) shape (strict c : bool), shape <> [] ->
  broadcast_index o args shape (if strict then FromStrict else FromStack) c = stacked o args (size_on c shape) strict c.
Proof.
  intros A o args shape strict c Hne. unfold broadcast_index, stacked. rewrite <- pick_labels.
  destruct shape as [|n [|m t]]; [congruence| |]; cbn [bind]; destruct strict, c; reflexivity.
Qed.

Lemma finished_holds : forall o done x m x', holds o done x -> finished o m false (Some x) = Ok (Some x') -> index_len x' = m -> holds o done x'.
Proof.
  intros o done x m x' Hh H Hm. unfold finished in H. destruct (Nat.ltb_spec (index_len x) m) as [Hlt|Hge]; [|inversion H; subst; exact Hh].
  unfold raise_if at 1 in H. apply raise_if_ok in H. destruct H as [H1 H]. inversion H; subst x'. clear H.
  apply andb_false_iff in H1. rewrite !Nat.ltb_ge in H1.
  assert (Hpx : proper_index x) by exact (proj1 Hh). destruct (Nat.eq_dec (index_len x) 0) as [E|].
  - assert (Ho : of_length 0 (repeat_index x m (so_ignore_default o))) by (apply repeat_index_empty; apply of_length_proper; auto).
    apply of_length_proper in Ho. destruct Ho as [_ Ho]. lia.
  - apply holds_repeat; auto; lia.
Qed.

Lemma stacked_ok : forall {A} o (args : list (BArg A)) m c r, Forall consistent args -> stacked o args m false c = Ok r ->
  exists x, r = Some x /\ (index_len x = m -> proper_index x /\
    (default_index x \/ drawn_from m (levels_of x) (flat_map levels_of (all_labels c args))) /\
    forall z w l, In z args -> ignored o c z = false -> In w (labels_on c z) -> ~ default_index w -> In l (levels_of w) ->
      In (stretch_level m l) (levels_of x) \/ (lossy o /\ uninformative (stretch_level m l))).
Proof.
  intros A o args m c r Hc H.
  assert (Hrange : proper_index (range_index m) /\ default_index (range_index m)).
  { split; [split; [repeat constructor|discriminate]|]. exists (range_level m). split; [reflexivity|apply range_is_range]. }
  assert (Hfin : forall done x, sublist done (all_labels c args) -> 
            (forall z w, In z args -> ignored o c z = false -> In w (labels_on c z) -> ~ default_index w -> In w done) ->
            holds o done x -> finished o m false (Some x) = Ok r ->
            exists x, r = Some x /\ (index_len x = m -> proper_index x /\
    (default_index x \/ drawn_from m (levels_of x) (flat_map levels_of (all_labels c args))) /\
    forall z w l, In z args -> ignored o c z = false -> In w (labels_on c z) -> ~ default_index w -> In l (levels_of w) ->
      In (stretch_level m l) (levels_of x) \/ (lossy o /\ uninformative (stretch_level m l)))).
  { intros done x Hsub Hcov Hh Hfi. assert (Hr : exists x', r = Some x').
    { unfold finished in Hfi. destruct (Nat.ltb (index_len x) m); [unfold raise_if at 1 in Hfi; apply raise_if_ok in Hfi; destruct Hfi as [_ Hfi]|]; inversion Hfi; eauto. }
    destruct Hr as [x' ->]. exists x'. split; [reflexivity|]. intros Hm. pose proof (finished_holds o done x m x' Hh Hfi Hm) as [Hp [Hd [Hy [Hdr Hk]]]].
    rewrite Hm in *. split; [exact Hp|]. split; [right; apply drawn_weaken; eapply drawn_super; [apply sublist_flat; exact Hsub|exact Hdr]|].
    intros z w l Hz Hi Hw Hnd Hl. apply (Hk w l); auto. eapply Hcov; eauto. }
  unfold stacked in H. destruct (index_conflict None (all_labels c args)) eqn:Ec; cbn [negb] in H.
  - apply bind_ok in H. destruct H as [new [Hn H]]. destruct (stackable o args c) as [|y ys] eqn:Es.
    + cbn [foldM] in Hn. inversion Hn; subst new. cbn [finished] in H. inversion H; subst. exists (range_index m). split; [reflexivity|]. intros _. split; [apply Hrange|].
      split; [left; apply Hrange|]. intros z w l Hz Hi Hw Hnd Hl. exfalso. pose proof (stackable_in o args c z w Hz Hi Hw Hnd) as Hin. rewrite Es in Hin. contradiction.
    + pose proof (stackable_all o args c Hc) as Hall. rewrite Es in Hall. inversion Hall as [|? ? [Hpy _] Hall']; subst.
      cbn [foldM stack_one bind] in Hn. destruct (stack_all_holds o ys [y] y new (holds_one o y Hpy) Hall' Hn) as [x [-> Hh]]. cbn [app] in Hh. rewrite <- Es in Hh.
      apply (Hfin (stackable o args c) x); auto; [apply stackable_sub|]. intros z w Hz Hi Hw Hnd. eapply stackable_in; eauto.
  - apply conflict_none in Ec. destruct Ec as [E|[x0 [Hx0 Hne]]].
    + rewrite E in H. cbn in H. inversion H; subst. exists (range_index m). split; [reflexivity|]. intros _. split; [apply Hrange|].
      split; [left; apply Hrange|]. intros z w l Hz Hi Hw Hnd Hl. exfalso. assert (Hin : In w (all_labels c args)) by (apply in_flat_map; eauto). rewrite E in Hin. contradiction.
    + rewrite (last_all _ x0 Hx0 Hne) in H. assert (Hp : proper_index x0).
      { destruct (all_labels c args) as [|x1 t] eqn:E; [congruence|]. inversion Hx0; subst. eapply all_proper; [exact Hc|]. rewrite E. now left. }
      apply (Hfin [x0] x0); auto.
      * destruct (all_labels c args) as [|x1 t]; [congruence|]. inversion Hx0; subst. apply sub_take. apply sublist_nil.
      * intros z w Hz Hi Hw Hnd. left. eapply Forall_forall in Hx0; [exact Hx0|]. apply in_flat_map. eauto.
      * now apply holds_one.
Qed.

Lemma stacked_strict_ok : forall {A} o (args : list (BArg A)) m c r, Forall consistent args -> stacked o args m true c = Ok r ->
  exists x, r = Some x /\ proper_index x /\ m <= index_len x /\ (In x (all_labels c args) \/ index_len x = m) /\
    forall z w, In z args -> ignored o c z = false -> In w (labels_on c z) -> w = x \/ default_index w.
Proof.
  intros A o args m c r Hc H.
  assert (Hrange : proper_index (range_index m)) by (split; [repeat constructor|discriminate]).
  assert (Hrl : index_len (range_index m) = m) by apply range_length.
  assert (Hfin : forall x, finished o m true (Some x) = Ok r -> r = Some x /\ m <= index_len x).
  { intros x Hx. unfold finished in Hx. destruct (Nat.ltb_spec (index_len x) m); [discriminate|]. inversion Hx. auto. }
  unfold stacked in H. destruct (index_conflict None (all_labels c args)) eqn:Ec; cbn [negb] in H.
  - apply bind_ok in H. destruct H as [new [Hn H]]. destruct (stackable o args c) as [|y ys] eqn:Es.
    + cbn [foldM] in Hn. inversion Hn; subst new. cbn [finished] in H. inversion H; subst. exists (range_index m). split; [reflexivity|]. split; [exact Hrange|]. split; [lia|]. split; [right; exact Hrl|].
      intros z w Hz Hi Hw. right. destruct (is_default_index w) eqn:E; [now apply is_default_spec|]. exfalso.
      assert (Hin : In w (stackable o args c)); [|rewrite Es in Hin; contradiction]. apply (stackable_in o args c z); auto. intros Hd. apply is_default_spec in Hd. congruence.
    + cbn [foldM stack_one bind] in Hn. apply stack_strict in Hn. destruct Hn as [-> Hall]. destruct (Hfin y H) as [-> Hle]. exists y. split; [reflexivity|].
      split; [pose proof (stackable_all o args c Hc) as Hp; rewrite Es in Hp; inversion Hp; tauto|]. split; [exact Hle|]. split; [left; eapply sublist_in; [apply (stackable_sub o)|]; rewrite Es; now left|].
      intros z w Hz Hi Hw. destruct (is_default_index w) eqn:E; [right; now apply is_default_spec|]. left.
      assert (Hin : In w (stackable o args c)) by (apply (stackable_in o args c z); auto; intros Hd; apply is_default_spec in Hd; congruence).
      rewrite Es in Hin. destruct Hin as [<-|Hin]; [reflexivity|]. eapply Forall_forall in Hall; [|exact Hin]. auto.
  - apply conflict_none in Ec. destruct Ec as [E|[x0 [Hx0 Hne]]].
    + rewrite E in H. cbn in H. inversion H; subst. exists (range_index m). split; [reflexivity|]. split; [exact Hrange|]. split; [lia|]. split; [right; exact Hrl|].
      intros z w Hz Hi Hw. exfalso. assert (Hin : In w (all_labels c args)) by (apply in_flat_map; eauto). rewrite E in Hin. contradiction.
    + rewrite (last_all _ x0 Hx0 Hne) in H. destruct (Hfin x0 H) as [-> Hle]. exists x0. split; [reflexivity|]. split.
      * destruct (all_labels c args) as [|x1 t] eqn:E; [congruence|]. inversion Hx0; subst. eapply all_proper; [exact Hc|]. rewrite E. now left.
      * split; [exact Hle|]. split; [left; destruct (all_labels c args) as [|x1 t]; [congruence|]; inversion Hx0; subst; now left|]. intros z w Hz Hi Hw. left. symmetry. eapply Forall_forall in Hx0; [exact Hx0|]. apply in_flat_map. eauto.
Qed.

(** ** When stacking succeeds *)
Lemma stacked_total : forall {A} o (args : list (BArg A)) m c, Forall consistent args -> 1 <= m ->
  (forall w, In w (all_labels c args) -> index_len w = m \/ index_len w = 1) ->
  exists x, stacked o args m false c = Ok (Some x) /\ index_len x = m.
Proof.
  intros A o args m c Hc Hm Hl.
  assert (Hfin : forall x, proper_index x -> index_len x = m \/ index_len x = 1 -> exists x', finished o m false (Some x) = Ok (Some x') /\ index_len x' = m).
  { intros x Hp Hx. unfold finished. destruct (Nat.ltb_spec (index_len x) m) as [Hlt|Hge]; [|exists x; split; [reflexivity|lia]].
    unfold raise_if. replace (Nat.ltb 1 m && Nat.ltb 1 (index_len x)) with false by (symmetry; apply andb_false_iff; rewrite !Nat.ltb_ge; lia).
    eexists. split; [reflexivity|]. assert (Ho : of_length 1 x) by (apply of_length_proper; split; [exact Hp|lia]).
    destruct (repeat_index_spec x m (so_ignore_default o) Ho ltac:(lia)) as [Hof _]. apply of_length_proper in Hof. apply Hof. }
  unfold stacked. destruct (index_conflict None (all_labels c args)) eqn:Ec; cbn [negb].
  - destruct (stackable o args c) as [|y ys] eqn:Es; [exists (range_index m); split; [reflexivity|apply range_length]|].
    pose proof (stackable_all o args c Hc) as Hall. rewrite Es in Hall. inversion Hall as [|? ? [Hpy _] Hall']; subst.
    assert (Hls : Forall (fun w => index_len w = m \/ index_len w = 1) (y :: ys)).
    { apply Forall_forall. intros w Hw. apply Hl. eapply sublist_in; [apply (stackable_sub o)|]. rewrite Es. exact Hw. }
    inversion Hls; subst. cbn [foldM stack_one bind].
    destruct (stack_all_total o ys [y] y m (holds_one o y Hpy) Hall' Hm) as [x [Ex Hx]]; auto. rewrite Ex. cbn [bind]. apply Hfin; [|exact Hx].
    destruct (stack_all_holds o ys [y] y _ (holds_one o y Hpy) Hall' Ex) as [x1 [E1 Hh]]. inversion E1; subst. exact (proj1 Hh).
  - apply conflict_none in Ec. destruct Ec as [E|[x0 [Hx0 Hne]]].
    + rewrite E. exists (range_index m). split; [reflexivity|apply range_length].
    + rewrite (last_all _ x0 Hx0 Hne). assert (Hin : In x0 (all_labels c args)) by (destruct (all_labels c args) as [|x1 t]; [congruence|]; inversion Hx0; subst; now left).
      apply Hfin; [eapply all_proper; eauto|]. apply Hl. exact Hin.
Qed.

Lemma stackable_rows : forall {A} o (args : list (BArg A)) w, In w (stackable o args false) <-> In w (all_labels false args) /\ ~ default_index w.
Proof.
  intros A o args w. split.
  - intros H. split; [eapply sublist_in; [apply stackable_sub|exact H]|]. unfold stackable in H. apply filter_In in H. destruct H as [_ H].
    intros Hd. apply is_default_spec in Hd. rewrite Hd in H. discriminate.
  - intros [H Hd]. apply in_flat_map in H. destruct H as [x [Hx Hw]]. apply (stackable_in o args false x); auto.
Qed.

Lemma conflict_true : forall xs, index_conflict None xs = true -> exists x y, In x xs /\ In y xs /\ x <> y.
Proof.
  intros [|x xs] H; [discriminate|]. cbn [index_conflict orb] in H. revert H. assert (Hg : forall xs x, index_conflict (Some x) xs = true -> exists y, In y xs /\ x <> y).
  { clear. induction xs as [|y xs IH]; intros x H; [discriminate|]. cbn [index_conflict] in H. apply orb_true_iff in H. destruct (is_index_equal y x) eqn:E.
    - apply is_index_equal_spec in E. subst y. destruct H as [H|H]; [discriminate|]. destruct (IH x H) as [z [Hz Hn]]. exists z. split; [now right|exact Hn].
    - exists y. split; [now left|]. intros ->. assert (is_index_equal y y = true) by now apply is_index_equal_spec. congruence. }
  intros H. destruct (Hg xs x H) as [y [Hy Hn]]. exists x, y. split; [now left|]. split; [now right|exact Hn].
Qed.
Lemma conflict_iff : forall xs x y, In x xs -> In y xs -> x <> y -> index_conflict None xs = true.
Proof.
  intros xs x y Hx Hy Hn. destruct (index_conflict None xs) eqn:E; [reflexivity|]. apply conflict_none in E. destruct E as [->|[z [Hz _]]]; [contradiction|].
  pose proof (proj1 (Forall_forall _ _) Hz x Hx). pose proof (proj1 (Forall_forall _ _) Hz y Hy). congruence.
Qed.

Lemma strict_iff : forall {A} o (args : list (BArg A)) m, (exists x, stacked o args m true false = Ok (Some x) /\ index_len x = m) <-> agreeing m (all_labels false args).
Proof.
  intros A o args m. unfold stacked. split.
  - intros [x [H Hm]]. destruct (index_conflict None (all_labels false args)) eqn:Ec; cbn [negb] in H.
    + right. right. split; [now apply conflict_true|]. apply bind_ok in H. destruct H as [new [Hn H]].
      intros w Hw Hd. assert (Hin : In w (stackable o args false)) by (apply stackable_rows; auto).
      destruct (stackable o args false) as [|y ys] eqn:Es; [contradiction|]. cbn [foldM stack_one bind] in Hn. apply stack_strict in Hn. destruct Hn as [-> Hall].
      assert (Ex : x = y) by (unfold finished in H; destruct (Nat.ltb (index_len y) m); [discriminate|]; congruence). subst y.
      assert (Hall' : forall v, In v (x :: ys) -> v = x) by (intros v [<-|Hv]; [reflexivity|]; symmetry; eapply Forall_forall in Hall; eauto).
      pose proof (Hall' w Hin). subst w. split; [exact Hm|]. intros y Hy Hdy. symmetry. apply Hall'. rewrite <- Es. apply stackable_rows. auto.
    + apply conflict_none in Ec. destruct Ec as [E|[x0 [Hx0 Hne]]]; [left; exact E|]. right. left. exists x0. split; [exact Hx0|].
      rewrite (last_all _ x0 Hx0 Hne) in H. unfold finished in H. destruct (Nat.ltb (index_len x0) m); [discriminate|]. congruence.
  - intros H. destruct H as [E|[[x [Hx Hm]]|[[a [b [Ha [Hb Hab]]]] Hall]]].
    + rewrite E. exists (range_index m). split; [reflexivity|apply range_length].
    + destruct (all_labels false args) as [|x1 t] eqn:E; [exists (range_index m); split; [reflexivity|apply range_length]|].
      assert (Ec : index_conflict None (x1 :: t) = false) by (apply conflict_none; right; exists x; split; [exact Hx|discriminate]).
      rewrite Ec. cbn [negb]. rewrite (last_all _ x Hx) by discriminate. exists x. split; [|exact Hm]. unfold finished. rewrite Hm, Nat.ltb_irrefl. reflexivity.
    + rewrite (conflict_iff _ a b Ha Hb Hab). cbn [negb]. destruct (stackable o args false) as [|y ys] eqn:Es; [exists (range_index m); split; [reflexivity|apply range_length]|].
      assert (Hy : In y (all_labels false args) /\ ~ default_index y) by (apply (stackable_rows o); rewrite Es; now left). destruct Hy as [Hy Hyd].
      destruct (Hall y Hy Hyd) as [Hly Heq]. cbn [foldM stack_one bind]. rewrite stack_strict_total.
      * cbn [bind]. exists y. split; [|exact Hly]. unfold finished. rewrite Hly, Nat.ltb_irrefl. reflexivity.
      * apply Forall_forall. intros w Hw. assert (Hw' : In w (all_labels false args) /\ ~ default_index w) by (apply (stackable_rows o); rewrite Es; now right). apply Heq; apply Hw'.
Qed.
