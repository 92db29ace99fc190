(** * Lemmas about caching *)
From Coq Require Import String ZArith Bool List Arith Lia.
From Verif Require Import Base Cache CacheSpec.
Import ListNotations.
Local Open Scope list_scope.
Local Open Scope nat_scope.

(** ** Conditions *)
Lemma flag_holds_in flags kv : flag_holds flags kv = true <-> In kv flags.
Proof.
  unfold flag_holds. rewrite existsb_exists. destruct kv as [k v]. split.
  - intros [[k' v'] [Hin H]]. cbn in H. apply andb_prop in H. destruct H as [H1 H2].
    apply String.eqb_eq in H1. apply Z.eqb_eq in H2. subst. exact Hin.
  - intros H. exists (k, v). split; [exact H|]. cbn. rewrite String.eqb_refl, Z.eqb_refl. reflexivity.
Qed.

Lemma func_matches_spec f r b :
  (exists s, r = FName s) \/ (exists id, r = FProperty id) ->
  func_matches f r = Ok b -> (b = true <-> is_func f r).
Proof.
  intros [[s ->]|[id ->]]; unfold func_matches, is_func.
  - destruct (f_kind f); intros [= <-]; apply String.eqb_eq.
  - destruct (f_kind f); intros [= <-].
    + rewrite Nat.eqb_eq. tauto.
    + split; [discriminate|]. intros [H _]. discriminate H.
Qed.
Lemma func_matches_ok f r : (exists s, r = FName s) \/ (exists id, r = FProperty id) -> exists b, func_matches f r = Ok b.
Proof. intros [[s ->]|[id ->]]; unfold func_matches; destruct (f_kind f); eexists; reflexivity. Qed.

Lemma cls_matches_spec i r : r <> COther -> exists b, cls_matches i r = Ok b /\ (b = true <-> is_class (i_cls i) r).
Proof.
  destruct r as [id|s|]; intros H; [| |congruence]; cbn; eexists; (split; [reflexivity|]).
  - apply Nat.eqb_eq.
  - apply String.eqb_eq.
Qed.
Lemma base_matches_spec i r : r <> COther -> exists b, base_matches i r = Ok b /\ (b = true <-> exists x, In x (i_bases i) /\ is_class x r).
Proof.
  destruct r as [id|s|]; intros H; [| |congruence]; cbn; eexists; (split; [reflexivity|]); rewrite existsb_exists;
    split; intros [x [Hx He]]; exists x; (split; [exact Hx|]).
  - apply Nat.eqb_eq. exact He.
  - apply Nat.eqb_eq. exact He.
  - apply String.eqb_eq. exact He.
  - apply String.eqb_eq. exact He.
Qed.

(** the rank of a well-formed condition *)
Lemma condition_rank_spec f i c :
  named c -> exists r, condition_rank f i c = Ok r /\
    (applies f i c /\ says_something c -> r = rank_of c) /\ (~ (applies f i c /\ says_something c) -> r = start_rank).
Proof.
  intros [Hf [Hc Hb]]. unfold condition_rank.
  destruct (q_instance c) as [j|] eqn:Ei.
  1: destruct (Nat.eqb (i_id i) j) eqn:Ej; cbn [negb].
  2:{ exists start_rank. split; [reflexivity|]. split; [|reflexivity]. intros [[Ha _] _].
      apply Nat.eqb_neq in Ej. exfalso. apply Ej. apply Ha. exact Ei. }
  all: assert (Hinst : forall j', q_instance c = Some j' -> i_id i = j') by
    (rewrite Ei; intros j' E; first [discriminate E | injection E as <-; apply Nat.eqb_eq; exact Ej]).
  all: assert (Hmf : exists mf, opt_matches (func_matches f) (q_func c) = Ok mf /\ (mf = true <-> forall r, q_func c = Some r -> is_func f r)).
  1,3: destruct (q_func c) as [r|] eqn:Er; cbn [opt_matches];
    [ assert (Hr : (exists s, r = FName s) \/ (exists id, r = FProperty id));
      [ destruct Hf as [Hf|[[s Hf]|[id Hf]]]; [discriminate|left; exists s; congruence|right; exists id; congruence]
      | destruct (func_matches_ok f r Hr) as [b Eb]; exists b; split; [exact Eb|];
        rewrite (func_matches_spec f r b Hr Eb); split; [intros H r' [= <-]; exact H|intros H; apply H; reflexivity] ]
    | exists true; split; [reflexivity|]; split; [intros _ r' H; discriminate H|reflexivity] ].
  all: destruct Hmf as [mf [Emf Hmf]]; rewrite Emf; cbn [bind].
  all: assert (Hmc : exists mc, opt_matches (cls_matches i) (q_cls c) = Ok mc /\ (mc = true <-> forall r, q_cls c = Some r -> is_class (i_cls i) r)).
  1,3: destruct (q_cls c) as [r|] eqn:Er; cbn [opt_matches];
    [ destruct (cls_matches_spec i r) as [b [Eb Hs]]; [congruence|]; exists b; split; [exact Eb|]; rewrite Hs;
        split; [intros H r' [= <-]; exact H|intros H; apply H; reflexivity]
    | exists true; split; [reflexivity|]; split; [intros _ r' H; discriminate H|reflexivity] ].
  all: destruct Hmc as [mc [Emc Hmc]].
  all: assert (Hmb : exists mb, opt_matches (base_matches i) (q_base c) = Ok mb /\ (mb = true <-> forall r, q_base c = Some r -> exists b, In b (i_bases i) /\ is_class b r)).
  1,3: destruct (q_base c) as [r|] eqn:Er; cbn [opt_matches];
    [ destruct (base_matches_spec i r) as [b [Eb Hs]]; [congruence|]; exists b; split; [exact Eb|]; rewrite Hs;
        split; [intros H r' [= <-]; exact H|intros H; apply H; reflexivity]
    | exists true; split; [reflexivity|]; split; [intros _ r' H; discriminate H|reflexivity] ].
  all: destruct Hmb as [mb [Emb Hmb]].
  all: destruct mf; cbn [negb];
    [|exists start_rank; split; [reflexivity|]; split; [|reflexivity]; intros [[_ [Ha _]] _]; exfalso; apply Hmf in Ha; discriminate Ha].
  all: rewrite Emc; cbn [bind]; destruct mc; cbn [negb];
    [|exists start_rank; split; [reflexivity|]; split; [|reflexivity]; intros [[_ [_ [Ha _]]] _]; exfalso; apply Hmc in Ha; discriminate Ha].
  all: rewrite Emb; cbn [bind]; destruct mb; cbn [negb];
    [|exists start_rank; split; [reflexivity|]; split; [|reflexivity]; intros [[_ [_ [_ [Ha _]]]] _]; exfalso; apply Hmb in Ha; discriminate Ha].
  all: assert (Hfl : match q_flags c with Some fl => negb (forallb (flag_holds (f_flags f)) fl) | None => false end = false <->
                     forall fl k v, q_flags c = Some fl -> In (k, v) fl -> In (k, v) (f_flags f)).
  1,3: destruct (q_flags c) as [fl|] eqn:Efl; [rewrite negb_false_iff, forallb_forall; split;
    [intros H fl' k v [= <-] Hin; apply flag_holds_in; apply H; exact Hin|intros H [k v] Hin; apply flag_holds_in; exact (H fl k v eq_refl Hin)]
    |split; [intros _ fl' k v H; discriminate H|reflexivity]].
  all: destruct (match q_flags c with Some fl => negb (forallb (flag_holds (f_flags f)) fl) | None => false end) eqn:Em;
    [exists start_rank; split; [reflexivity|]; split; [|reflexivity]; intros [[_ [_ [_ [_ Ha]]]] _]; exfalso; apply Hfl in Ha; discriminate Ha|].
  all: assert (Happ : applies f i c) by
    (split; [exact Hinst|]; split; [apply Hmf; reflexivity|]; split; [apply Hmc; reflexivity|]; split; [apply Hmb; reflexivity|apply Hfl; reflexivity]).
  all: eexists; split; [reflexivity|].
  all: unfold says_something, rank_of, place; rewrite Ei.
  all: destruct (q_cls c), (q_base c), (q_func c), (q_flags c); cbn [given andb]; split; intros Hx;
    try (destruct (q_rank c); reflexivity);
    try (exfalso; apply Hx; split; [exact Happ|];
         first [left; discriminate | right; left; discriminate | right; right; left; discriminate
               | right; right; right; left; discriminate | right; right; right; right; discriminate]);
    try reflexivity.
  all: destruct Hx as [_ [Hx|[Hx|[Hx|[Hx|Hx]]]]]; congruence.
Qed.

Lemma rank_cases f i c : named c -> exists r, condition_rank f i c = Ok r /\
    ((applies f i c /\ says_something c) /\ r = rank_of c \/ r = start_rank) /\ (counts f i c -> r = rank_of c).
Proof.
  intros Hn. destruct (condition_rank_spec f i c Hn) as [r [E [H1 H2]]]. exists r. split; [exact E|].
  split; [|intros [Ha [Hs _]]; apply H1; split; assumption].
  (* decide whether the condition applies by its rank *)
  destruct (Z.eq_dec r start_rank) as [->|Hne]; [right; reflexivity|].
  left.
  assert (Hdec : applies f i c /\ says_something c).
  { (* the computation of the rank decides it *)
    destruct Hn as [Hf [Hc Hb]].
    assert (D : forall P : Prop, ~ ~ P -> (P \/ ~ P) -> P) by tauto.
    apply D; [intros Hnot; apply Hne; apply H2; exact Hnot|].
    clear -Hf Hc Hb.
    assert (Dapp : applies f i c \/ ~ applies f i c).
    { unfold applies.
      assert (D1 : (forall j, q_instance c = Some j -> i_id i = j) \/ ~ (forall j, q_instance c = Some j -> i_id i = j)).
      { destruct (q_instance c) as [j|]; [|left; discriminate]. destruct (Nat.eq_dec (i_id i) j) as [E|E];
          [left; intros j' [= <-]; exact E|right; intros H; apply E; apply H; reflexivity]. }
      assert (D2 : (forall r, q_func c = Some r -> is_func f r) \/ ~ (forall r, q_func c = Some r -> is_func f r)).
      { destruct (q_func c) as [r|]; [|left; discriminate].
        assert (Hr : (exists s, r = FName s) \/ (exists id, r = FProperty id))
          by (destruct Hf as [Hf|[[s Hf]|[id Hf]]]; [discriminate|left; exists s; congruence|right; exists id; congruence]).
        destruct (func_matches_ok f r Hr) as [b Eb]. pose proof (func_matches_spec f r b Hr Eb) as Hs.
        destruct b; [left; intros r' [= <-]; apply Hs; reflexivity|right; intros H; specialize (H r eq_refl); apply Hs in H; discriminate H]. }
      assert (D3 : (forall r, q_cls c = Some r -> is_class (i_cls i) r) \/ ~ (forall r, q_cls c = Some r -> is_class (i_cls i) r)).
      { destruct (q_cls c) as [r|]; [|left; discriminate].
        destruct (cls_matches_spec i r) as [b [Eb Hs]]; [congruence|].
        destruct b; [left; intros r' [= <-]; apply Hs; reflexivity|right; intros H; specialize (H r eq_refl); apply Hs in H; discriminate H]. }
      assert (D4 : (forall r, q_base c = Some r -> exists b, In b (i_bases i) /\ is_class b r) \/ ~ (forall r, q_base c = Some r -> exists b, In b (i_bases i) /\ is_class b r)).
      { destruct (q_base c) as [r|]; [|left; discriminate].
        destruct (base_matches_spec i r) as [b [Eb Hs]]; [congruence|].
        destruct b; [left; intros r' [= <-]; apply Hs; reflexivity|right; intros H; specialize (H r eq_refl); apply Hs in H; discriminate H]. }
      assert (D5 : (forall fl k v, q_flags c = Some fl -> In (k, v) fl -> In (k, v) (f_flags f)) \/ ~ (forall fl k v, q_flags c = Some fl -> In (k, v) fl -> In (k, v) (f_flags f))).
      { destruct (q_flags c) as [fl|]; [|left; discriminate].
        destruct (forallb (flag_holds (f_flags f)) fl) eqn:E.
        - left. intros fl' k v [= <-] Hin. apply flag_holds_in. rewrite forallb_forall in E. apply E. exact Hin.
        - right. intros H. assert (forallb (flag_holds (f_flags f)) fl = true); [|congruence].
          apply forallb_forall. intros [k v] Hin. apply flag_holds_in. exact (H fl k v eq_refl Hin). }
      tauto. }
    assert (Dsay : says_something c \/ ~ says_something c).
    { unfold says_something.
      destruct (q_instance c); [left; left; discriminate|]. destruct (q_cls c); [left; right; left; discriminate|].
      destruct (q_base c); [left; right; right; left; discriminate|]. destruct (q_func c); [left; do 3 right; left; discriminate|].
      destruct (q_flags c); [left; do 4 right; discriminate|]. right. intuition congruence. }
    tauto. }
  split; [exact Hdec|]. apply H1. exact Hdec.
Qed.

Lemma best_rank_gen f i cs : forall start,
  (forall c, In c cs -> named c) -> (start <= start_rank)%Z ->
  exists r, foldM (fun best c => let! r := condition_rank f i c in Ok (Z.min best r)) start cs = Ok r /\
    (r <= start)%Z /\ (forall c, In c cs -> counts f i c -> (r <= rank_of c)%Z) /\
    (r = start \/ exists c, In c cs /\ counts f i c /\ rank_of c = r).
Proof.
  induction cs as [|c cs IH]; intros start Hn Hs; cbn [foldM].
  - exists start. split; [reflexivity|]. split; [lia|]. split; [intros c []|left; reflexivity].
  - destruct (rank_cases f i c (Hn c (or_introl eq_refl))) as [r [E [Hr Hc]]]. rewrite E. cbn [bind].
    destruct (IH (Z.min start r)) as [m [Em [Hle [Hall Hex]]]]; [intros d Hd; apply Hn; right; exact Hd|lia|].
    exists m. split; [exact Em|]. split; [lia|]. split.
    + intros d [<-|Hd] Hcd; [rewrite (Hc Hcd) in Hle; lia|apply Hall; assumption].
    + destruct Hex as [->|[d [Hd [Hcd Hrd]]]]; [|right; exists d; split; [right; exact Hd|split; assumption]].
      destruct (Z.le_gt_cases start r) as [Hcmp|Hcmp].
      * left. lia.
      * right. exists c. split; [left; reflexivity|]. unfold start_rank in *.
        destruct Hr as [[Ha Hra]|Hra]; [|lia]. split; [|lia].
        destruct Ha as [Ha1 Ha2]. split; [exact Ha1|]. split; [exact Ha2|]. lia.
Qed.
Lemma best_rank_spec f i cs :
  (forall c, In c cs -> named c) ->
  exists r, best_rank f i cs = Ok r /\ (forall c, In c cs -> counts f i c -> (r <= rank_of c)%Z) /\
    (r = start_rank \/ exists c, In c cs /\ counts f i c /\ rank_of c = r) /\ (r <= start_rank)%Z.
Proof.
  intros Hn. destruct (best_rank_gen f i cs start_rank Hn) as [r [E [Hle [Hall Hex]]]]; [lia|].
  exists r. split; [exact E|]. split; [exact Hall|]. split; [exact Hex|exact Hle].
Qed.

Lemma should_cache_spec s f i :
  sound s ->
  exists b, should_cache s f i = Ok b /\
    (beats f i (s_white s) (s_black s) -> b = true) /\ (beats f i (s_black s) (s_white s) -> b = false) /\
    (~ beats f i (s_white s) (s_black s) -> ~ beats f i (s_black s) (s_white s) -> b = s_enabled s).
Proof.
  intros Hs.
  destruct (best_rank_spec f i (s_white s)) as [w [Ew [Hw [Hwx Hwl]]]]; [intros c Hc; apply Hs; left; exact Hc|].
  destruct (best_rank_spec f i (s_black s)) as [b [Eb [Hb [Hbx Hbl]]]]; [intros c Hc; apply Hs; right; exact Hc|].
  unfold should_cache. rewrite Ew, Eb. cbn [bind]. eexists. split; [reflexivity|].
  assert (Hlt : forall these those m n,
    (forall c, In c these -> counts f i c -> (m <= rank_of c)%Z) ->
    (n = start_rank \/ exists c, In c those /\ counts f i c /\ rank_of c = n) ->
    beats f i these those -> (m < n)%Z).
  { intros these those m n Hm Hn [c [Hc [Hcc Hall]]]. specialize (Hm c Hc Hcc).
    destruct Hn as [->|[d [Hd [Hcd <-]]]]; [destruct Hcc as [_ [_ Hl]]; unfold start_rank; lia|].
    specialize (Hall d Hd Hcd). lia. }
  assert (Hgt : forall these those m n,
    (forall c, In c those -> counts f i c -> (n <= rank_of c)%Z) ->
    (m = start_rank \/ exists c, In c these /\ counts f i c /\ rank_of c = m) ->
    (n <= start_rank)%Z -> (m < n)%Z -> beats f i these those).
  { intros these those m n Hn Hm Hle Hlt'. destruct Hm as [->|[c [Hc [Hcc Hr]]]]; [lia|].
    exists c. split; [exact Hc|]. split; [exact Hcc|]. intros d Hd Hcd. specialize (Hn d Hd Hcd). lia. }
  split; [|split].
  - intros H. apply (Hlt _ _ _ _ Hw Hbx) in H. replace (Z.eqb w b) with false by (symmetry; apply Z.eqb_neq; lia). apply Z.ltb_lt. exact H.
  - intros H. apply (Hlt _ _ _ _ Hb Hwx) in H. replace (Z.eqb w b) with false by (symmetry; apply Z.eqb_neq; lia). apply Z.ltb_ge. lia.
  - intros H1 H2. destruct (Z.eqb w b) eqn:E; [reflexivity|]. apply Z.eqb_neq in E. exfalso.
    destruct (Z.lt_total w b) as [Hlt'|[Heq|Hgt']]; [|contradiction|].
    + apply H1. exact (Hgt _ _ _ _ Hb Hwx Hbl Hlt').
    + apply H2. exact (Hgt _ _ _ _ Hw Hbx Hwl Hgt').
Qed.
