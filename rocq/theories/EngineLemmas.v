(** * Facts about the choice of an engine *)
From Coq Require Import String ZArith List Bool Arith Lia.
From Verif Require Import Base Engine EngineSpec.
Import ListNotations.
Open Scope list_scope.

Lemma numba_always : forall w s, resolve_engine w (Some "numba"%string) s = (Use Numba, w).
Proof. reflexivity. Qed.

Lemma setting_used : forall w s, resolve_engine w None s = resolve_engine w (Some (engine_setting w)) s.
Proof. reflexivity. Qed.

Lemma rust_choice : forall w s,
  fst (resolve_engine w (Some "rust"%string) s) =
    (if fst (is_rust_available w) then
       if supported s then Use Rust else RaiseUnsupported (reason s ++ " Use engine='numba'.")%string
     else RaiseImport).
Proof.
  intros w s. unfold resolve_engine. cbn [String.eqb].
  change (String.eqb "rust" "numba") with false. change (String.eqb "rust" "rust") with true. cbn iota.
  destruct (is_rust_available w) as [av w']; cbn [fst]. destruct av, (supported s); reflexivity.
Qed.

Lemma auto_choice : forall w s,
  fst (resolve_engine w (Some "auto"%string) s) =
    (if supported s && fst (is_rust_available w) then Use Rust else Use Numba).
Proof.
  intros w s. unfold resolve_engine.
  change (String.eqb "auto" "numba") with false. change (String.eqb "auto" "rust") with false.
  change (String.eqb "auto" "auto") with true. cbn [negb].
  destruct (is_rust_available w) as [av w']; cbn [fst]. destruct (supported s), av; reflexivity.
Qed.

Lemma invalid_choice : forall w s name, name <> "numba"%string -> name <> "rust"%string ->
  name <> "auto"%string -> resolve_engine w (Some name) s = (RaiseInvalid, w).
Proof.
  intros w s name H1 H2 H3. unfold resolve_engine.
  apply String.eqb_neq in H1. apply String.eqb_neq in H2. apply String.eqb_neq in H3.
  now rewrite H1, H2, H3.
Qed.

Lemma combine_from_spec : forall l acc,
  (Forall (fun s => supported s = true) l /\
     combine_from acc l = mkSupport true "" (acc ++ flat_map conversions l)) \/
  (exists before s behind, l = before ++ s :: behind /\ Forall (fun s => supported s = true) before /\
     supported s = false /\ combine_from acc l = s).
Proof.
  induction l as [|s l IH]; intros acc.
  - left. split; [constructor|]. cbn. now rewrite app_nil_r.
  - cbn [combine_from]. destruct (supported s) eqn:Es.
    + destruct (IH (acc ++ conversions s)) as [[H1 H2]|(b & x & a & -> & H2 & H3 & H4)].
      * left. split; [constructor; auto|]. rewrite H2. cbn [flat_map]. now rewrite app_assoc.
      * right. exists (s :: b), x, a. split; [reflexivity|]. split; [constructor; auto|]. auto.
    + right. exists [], s, l. repeat split; auto.
Qed.

Lemma combine_all : forall l,
  supported (combine_support l) = true <-> Forall (fun s => supported s = true) l.
Proof.
  intros l. unfold combine_support. destruct (combine_from_spec l []) as [[H1 ->]|(b & x & a & -> & H2 & H3 & ->)].
  - cbn. tauto.
  - rewrite H3. split; [discriminate|]. intros H. apply Forall_app in H as [_ H].
    inversion H; subst. congruence.
Qed.

Lemma combine_reason : forall l, supported (combine_support l) = false ->
  exists before s behind, l = before ++ s :: behind /\ Forall (fun s => supported s = true) before /\
    supported s = false /\ combine_support l = s.
Proof.
  intros l H. unfold combine_support in *. destruct (combine_from_spec l []) as [[H1 H2]|E]; [|exact E].
  rewrite H2 in H. discriminate H.
Qed.

Lemma kind_eqb_eq : forall a b, kind_eqb a b = true <-> a = b.
Proof. intros [] []; cbn; split; congruence. Qed.

Section Arrays.
  Context {F : Type}.
  Implicit Types a : array F.

  Lemma wrap_fits : forall d z, (0 < dt_bits d)%Z -> fits d z -> wrap d z = z.
  Proof.
    intros d z Hb Hf. unfold fits, wrap in *. destruct (dt_kind d); try contradiction.
    - destruct Hf as [-> | ->]; reflexivity.
    - assert (E : (2 ^ dt_bits d = 2 * 2 ^ (dt_bits d - 1))%Z).
      { rewrite <- Z.pow_succ_r by lia. f_equal. lia. }
      rewrite Z.mod_small by lia. lia.
    - apply Z.mod_small. exact Hf.
  Qed.

  Lemma fits_wider : forall d1 d2 z, (0 < dt_bits d1)%Z -> can_cast_safe d1 d2 = true -> fits d1 z ->
    fits d2 z.
  Proof.
    intros d1 d2 z Hb Hc Hf. unfold can_cast_safe, fits in *.
    destruct (dt_kind d1), (dt_kind d2); try discriminate Hc; try contradiction; try exact Hf.
    - apply Z.leb_le in Hc.
      assert ((2 ^ (dt_bits d1 - 1) <= 2 ^ (dt_bits d2 - 1))%Z) by (apply Z.pow_le_mono_r; lia). lia.
    - apply Z.ltb_lt in Hc.
      assert ((2 ^ dt_bits d1 <= 2 ^ (dt_bits d2 - 1))%Z) by (apply Z.pow_le_mono_r; lia). lia.
    - apply Z.leb_le in Hc.
      assert ((2 ^ dt_bits d1 <= 2 ^ dt_bits d2)%Z) by (apply Z.pow_le_mono_r; lia). lia.
  Qed.

  Lemma safe_bits : forall d1 d2, (0 < dt_bits d1)%Z -> can_cast_safe d1 d2 = true ->
    dt_kind d1 <> KBool -> (0 < dt_bits d2)%Z.
  Proof.
    intros d1 d2 Hb Hc Hk. unfold can_cast_safe in Hc.
    destruct (dt_kind d1), (dt_kind d2); try discriminate Hc; try congruence;
      first [apply Z.leb_le in Hc | apply Z.ltb_lt in Hc]; lia.
  Qed.

  Lemma array_support_inv : forall a d, supported (array_support (AArray a) d) = true ->
    (dtype_eqb (a_dtype a) d = true /\ conversions (array_support (AArray a) d) = [] \/
     dtype_eqb (a_dtype a) d = false /\ can_cast_safe (a_dtype a) d = true /\
       conversions (array_support (AArray a) d) = [mkConversion d (size_of a)]) /\ bad_ndim a = false.
  Proof.
    intros a d H. unfold array_support in *. destruct (dtype_eqb (a_dtype a) d) eqn:E; cbn [negb] in *.
    - destruct (bad_ndim a) eqn:En; [discriminate H|]. split; [left|]; auto.
    - match type of H with context [if ?c then _ else _] => destruct c eqn:Ec; [discriminate H|] end.
      destruct (bad_ndim a) eqn:En; [discriminate H|].
      apply orb_false_iff in Ec as [_ Ec]. apply negb_false_iff in Ec. split; [right|]; auto.
  Qed.

  Lemma asarray_safe : forall a d, well_typed a -> can_cast_safe (a_dtype a) d = true ->
    asarray a d = Some (mkArray d (a_shape a) (a_data a)).
  Proof.
    intros [d0 sh data] d [Hb Hw] Hc. cbn [a_dtype a_shape a_data] in *. unfold asarray. cbn [a_dtype a_shape a_data].
    enough (E : forall l, Forall (fun v => match v with
                   | VZ z => fits d0 z | VF _ => dt_kind d0 = KFloat
                   | VOther => dt_kind d0 = KOther end) l ->
      fold_right (fun v r => match cast_value d0 d v, r with
                    | Some w, Some l => Some (w :: l) | _, _ => None end) (Some []) l = Some l)
      by (rewrite (E data Hw); reflexivity).
    induction l as [|v l IH]; intros Hl; [reflexivity|].
    inversion Hl as [|? ? Hv Hl']; subst. cbn [fold_right]. rewrite (IH Hl').
    enough (E : cast_value d0 d v = Some v) by now rewrite E.
    destruct v as [z|x|]; cbn [cast_value].
    - pose proof (fits_wider d0 d z Hb Hc Hv) as Hf.
      assert (W : wrap d z = z).
      { destruct (dt_kind d0) eqn:Ek.
        - unfold can_cast_safe in Hc. rewrite Ek in Hc. unfold fits in Hf. unfold wrap.
          destruct (dt_kind d); try discriminate Hc. destruct Hf as [-> | ->]; reflexivity.
        - apply wrap_fits; [|exact Hf]. apply (safe_bits d0); congruence || assumption.
        - apply wrap_fits; [|exact Hf]. apply (safe_bits d0); congruence || assumption.
        - unfold fits in Hv. rewrite Ek in Hv. contradiction.
        - unfold fits in Hv. rewrite Ek in Hv. contradiction. }
      rewrite W. unfold fits in Hf. destruct (dt_kind d); try contradiction; reflexivity.
    - unfold can_cast_safe in Hc. rewrite Hv in Hc. destruct (dt_kind d); try discriminate Hc.
      now rewrite Hc.
    - unfold can_cast_safe in Hc. rewrite Hv in Hc. discriminate Hc.
  Qed.

  Lemma prepared_same : forall a d, well_typed a -> supported (array_support (AArray a) d) = true ->
    exists b, prepare_array (AArray a) d = Ok (Some b) /\ a_shape b = a_shape a /\ a_data b = a_data a /\
      dtype_eqb (a_dtype b) d = true.
  Proof.
    intros a d Hw Hs. unfold prepare_array. rewrite Hs.
    destruct (array_support_inv a d Hs) as [[[E _]|(E & Hc & _)] _]; rewrite E.
    - exists a. auto.
    - rewrite (asarray_safe a d Hw Hc). eexists. split; [reflexivity|]. cbn. repeat split.
      unfold dtype_eqb. rewrite Z.eqb_refl, String.eqb_refl, orb_true_r.
      now rewrite (proj2 (kind_eqb_eq _ _) eq_refl).
  Qed.

  Lemma exact_support : forall a d,
    supported (exact_array_support (AArray a) d) = true <->
    dtype_eqb (a_dtype a) d = true /\ bad_ndim a = false.
  Proof.
    intros a d. unfold exact_array_support. split.
    - destruct (supported (array_support (AArray a) d)) eqn:Hs; [|intros H; congruence].
      destruct (array_support_inv a d Hs) as [[[E Ec]|(E & _ & Ec)] Hn]; rewrite Ec; auto.
      discriminate.
    - intros [E Hn].
      assert (Es : array_support (AArray a) d = yes) by (unfold array_support; rewrite E, Hn; reflexivity).
      rewrite Es. reflexivity.
  Qed.

  Lemma dispatch_same : forall A w e a d s (nb : arg F -> res A) rs r,
    well_typed a ->
    (supported s = true -> supported (array_support (AArray a) d) = true) ->
    (forall b, a_shape b = a_shape a -> a_data b = a_data a -> supported s = true ->
       rs b = nb (AArray a)) ->
    dispatch w e (AArray a) d s nb rs = Answer r -> r = nb (AArray a).
  Proof.
    intros A w e a d s nb rs r Hw Hs Hrs H. unfold dispatch in H.
    destruct (resolve_engine w e s) as [c w'] eqn:E. cbn [fst] in H.
    destruct c as [[]| | |]; try discriminate H; [congruence|].
    assert (Hsup : supported s = true).
    { unfold resolve_engine in E. destruct (supported s); [reflexivity|]. exfalso.
      destruct (is_rust_available w) as [av w''].
      destruct (String.eqb _ "numba"); [discriminate E|].
      destruct (String.eqb _ "rust"); [destruct av; discriminate E|].
      destruct (String.eqb _ "auto"); discriminate E. }
    destruct (prepared_same a d Hw (Hs Hsup)) as (b & Hb & H1 & H2 & _). rewrite Hb in H.
    rewrite <- (Hrs b H1 H2 Hsup). congruence.
  Qed.
End Arrays.

Lemma removelast_snoc : forall A (l : list A) x, removelast (l ++ [x]) = l.
Proof. intros. rewrite removelast_app by discriminate. cbn. apply app_nil_r. Qed.

Lemma without_patch_dotted : forall v, dotted v -> exists front x, v = front ++ [x] /\ without_patch v = front.
Proof.
  intros v H. destruct (exists_last (l := v)) as (front & x & ->).
  { intros ->. unfold dotted in H. cbn in H. lia. }
  exists front, x. split; [reflexivity|]. unfold without_patch.
  destruct front as [|y front]; [unfold dotted in H; cbn in H; lia|].
  cbn [app]. destruct (front ++ [x]) eqn:E; [destruct front; discriminate E|]. rewrite <- E.
  change (y :: front ++ [x]) with ((y :: front) ++ [x]). apply removelast_snoc.
Qed.

Lemma available_fresh : forall w, rust_status w = None -> dotted (vbt_version w) ->
  (forall v, rust_version w = Some v -> dotted v) ->
  (fst (is_rust_available w) = true <-> compatible w).
Proof.
  intros w Hs Hd Hr. unfold is_rust_available. rewrite Hs. cbn [fst].
  destruct (without_patch_dotted _ Hd) as (f1 & x1 & E1 & P1).
  destruct (rust_version w) as [v|] eqn:Ev.
  - destruct (without_patch_dotted v (Hr v eq_refl)) as (f2 & x2 & E2 & P2).
    rewrite P1, P2. destruct (list_eq_dec string_dec f1 f2) as [->|Hn].
    + split; [|auto]. intros _. exists f2, x2, x1. split; [congruence|exact E1].
    + split; [discriminate|]. intros (f & x & y & Ha & Hb). rewrite Ev in Ha. injection Ha as Ha.
      rewrite E2 in Ha. rewrite E1 in Hb. apply app_inj_tail in Ha as [-> _].
      apply app_inj_tail in Hb as [-> _]. congruence.
  - split; [discriminate|]. intros (f & x & y & Ha & _). congruence.
Qed.

Lemma available_kept : forall w b, rust_status w = Some b -> fst (is_rust_available w) = b.
Proof. intros w b H. unfold is_rust_available. now rewrite H. Qed.

Lemma status_after : forall l w b, rust_status w = Some b -> ~ In Clear l ->
  rust_status (after w l) = Some b.
Proof.
  induction l as [|e l IH]; intros w b H Hn; [exact H|].
  unfold after. cbn [fold_left]. apply IH; [|intros Hi; apply Hn; right; exact Hi].
  destruct e; cbn [happen]; try exact H.
  - unfold is_rust_available. rewrite H. exact H.
  - exfalso. apply Hn. left. reflexivity.
Qed.

Lemma asked_status : forall w, rust_status (happen w Ask) = Some (fst (is_rust_available w)).
Proof.
  intros w. cbn [happen]. unfold is_rust_available.
  destruct (rust_status w) eqn:E; cbn; [exact E|reflexivity].
Qed.

Lemma answer_stays : forall w l, ~ In Clear l ->
  fst (is_rust_available (after w (Ask :: l))) = fst (is_rust_available w).
Proof.
  intros w l H. change (after w (Ask :: l)) with (after (happen w Ask) l).
  apply available_kept. apply status_after; [apply asked_status|exact H].
Qed.

Lemma no_ask_no_status : forall l w, rust_status w = None -> ~ In Ask l -> rust_status (after w l) = None.
Proof.
  induction l as [|e l IH]; intros w H Hn; [exact H|].
  change (after w (e :: l)) with (after (happen w e) l).
  apply IH; [|intros Hi; apply Hn; right; exact Hi].
  destruct e; cbn [happen]; try exact H; [|reflexivity].
  exfalso. apply Hn. left. reflexivity.
Qed.

Lemma cleared_anew : forall w l1 l2, ~ In Ask l2 -> rust_status (after w (l1 ++ Clear :: l2)) = None.
Proof.
  intros w l1 l2 H. unfold after. rewrite fold_left_app. cbn [fold_left].
  apply (no_ask_no_status l2); [reflexivity|exact H].
Qed.

Lemma random_numba : forall F A w e (x : arg F) d s (nb : arg F -> res A) rs,
  e = None \/ e = Some "auto"%string \/ e = Some "numba"%string -> dispatch_random w e x d s nb rs = Answer (nb x).
Proof. intros F A w e x d s nb rs [->|[->| ->]]; reflexivity. Qed.

Lemma non_neg_supported : forall name v, supported (non_neg_int name v) = true <-> (forall m, v = Some m -> (0 <= m)%Z).
Proof.
  intros name [z|]; cbn.
  - destruct (Z.ltb_spec z 0); cbn; split; intros H0; try discriminate; auto.
    + specialize (H0 z eq_refl). lia.
    + intros m E. injection E as <-. exact H.
  - split; auto. intros _ m E. discriminate E.
Qed.
Lemma rolling_supported : forall F (x : arg F) window minp,
  supported (rolling_support x window minp) = true <->
  supported (array_support x float64) = true /\ (0 <= window)%Z /\ (forall m, minp = Some m -> (0 <= m)%Z).
Proof.
  intros F x window minp. unfold rolling_support. rewrite combine_all, !Forall_cons_iff, !non_neg_supported. split.
  - intros (H1 & H2 & H3 & _). repeat split; auto.
  - intros (H1 & H2 & H3). repeat split; auto. intros m E. injection E as <-. exact H2.
Qed.
