(** * Lemmas about cached values *)
From Coq Require Import String ZArith Bool List Arith Lia.
From Verif Require Import Base Cache CacheSpec CacheLemmas.
Import ListNotations.
Local Open Scope list_scope.
Local Open Scope nat_scope.

Lemma same_slot_eq x y : same_slot x y = true <-> x = y.
Proof.
  destruct x as [a b], y as [c d]. unfold same_slot. cbn. rewrite andb_true_iff, Nat.eqb_eq, String.eqb_eq.
  split; [intros [-> ->]; reflexivity|intros [= -> ->]; split; reflexivity].
Qed.
Lemma same_slot_refl x : same_slot x x = true.
Proof. apply same_slot_eq. reflexivity. Qed.

Section Values.
  Context {V A : Type}.
  Variable no_args : A.
  Variable same : bool -> A -> A -> bool.
  Variable hashable : A -> bool.
  Variable body : nat -> Inst -> A -> @Comp V A.
  Variable inst_of : nat -> Inst.
  Variable fn_of : nat -> string -> Fn.
  Notation run := (run body).
  Notation crun := (crun same hashable body).
  Notation direct := (direct body).
  Notation regular := (regular no_args inst_of fn_of).
  Notation regular_read := (regular_read no_args inst_of fn_of).
  Notation truthful := (truthful no_args body inst_of fn_of).

  (** ** The caches as a map *)
  Lemma look_drop (cs : @Caches V A) s s' : look (drop cs s) s' = if same_slot s' s then None else look cs s'.
  Proof.
    induction cs as [|[x e] cs IH]; cbn [drop look]; [destruct (same_slot s' s); reflexivity|].
    destruct (same_slot s x) eqn:E1.
    - apply same_slot_eq in E1. subst x. rewrite IH. destruct (same_slot s' s); reflexivity.
    - cbn [look]. rewrite IH. destruct (same_slot s' x) eqn:E2; [|reflexivity].
      apply same_slot_eq in E2. subst x. destruct (same_slot s' s) eqn:E3; [|reflexivity].
      apply same_slot_eq in E3. subst s'. rewrite same_slot_refl in E1. discriminate E1.
  Qed.
  Lemma look_put (cs : @Caches V A) s e s' : look (put cs s e) s' = if same_slot s' s then Some e else look cs s'.
  Proof. unfold put. cbn [look]. destruct (same_slot s' s) eqn:E; [reflexivity|]. rewrite look_drop, E. reflexivity. Qed.

  (** ** Running without caches *)
  Lemma run_mono : forall n c r, run n c = Some r -> forall m, n <= m -> run m c = Some r.
  Proof.
    induction n as [|n IH]; intros c r; destruct c as [v|e|f i a k]; cbn [Cache.run]; intros H m Hm;
      try (destruct m; exact H); try discriminate H.
    destruct m as [|m]; [lia|]. cbn [Cache.run].
    destruct (run n (body (f_id f) i a)) as [[v|e]|] eqn:E; [| |discriminate H];
      rewrite (IH _ _ E m) by lia; [apply IH; [exact H|lia]|exact H].
  Qed.
  Lemma direct_det c r1 r2 : direct c r1 -> direct c r2 -> r1 = r2.
  Proof.
    intros [n Hn] [m Hm]. apply run_mono with (m := Nat.max n m) in Hn; [|lia].
    apply run_mono with (m := Nat.max n m) in Hm; [|lia]. congruence.
  Qed.
  Lemma direct_return v r : direct (Return v) r <-> r = Ok v.
  Proof. split; [intros [n H]; destruct n; cbn in H; congruence|intros ->; exists 0; reflexivity]. Qed.
  Lemma direct_throw e r : direct (Throw e) r <-> r = Err e.
  Proof. split; [intros [n H]; destruct n; cbn in H; congruence|intros ->; exists 0; reflexivity]. Qed.
  Lemma direct_read_ok f i a k v r : direct (body (f_id f) i a) (Ok v) -> direct (k v) r -> direct (Read f i a k) r.
  Proof.
    intros [n Hn] [m Hm]. exists (S (Nat.max n m)). cbn [Cache.run].
    rewrite (run_mono _ _ _ Hn (Nat.max n m)) by lia. apply (run_mono _ _ _ Hm). lia.
  Qed.
  Lemma direct_read_err f i a k e : direct (body (f_id f) i a) (Err e) -> direct (Read f i a k) (Err e).
  Proof. intros [n Hn]. exists (S n). cbn [Cache.run]. rewrite Hn. reflexivity. Qed.

  (** ** Least recently used results *)
  Lemma lru_find_in typed (l : list (A * V)) a b v : lru_find same typed l a = Some (b, v) -> In (b, v) l /\ same typed a b = true.
  Proof.
    induction l as [|[c w] l IH]; cbn [lru_find]; [discriminate|].
    destruct (same typed a c) eqn:E.
    - intros [= <- <-]. split; [left; reflexivity|exact E].
    - intros H. destruct (IH H) as [Hin Hs]. split; [right; exact Hin|exact Hs].
  Qed.
  Lemma lru_remove_in typed (l : list (A * V)) a x : In x (@lru_remove V A same typed l a) -> In x l.
  Proof.
    induction l as [|[c w] l IH]; cbn [lru_remove]; [intros []|].
    destruct (same typed a c); [intros H; right; exact H|]. intros [H|H]; [left; exact H|right; apply IH; exact H].
  Qed.
  Lemma lru_remove_length typed (l : list (A * V)) a e : lru_find same typed l a = Some e -> S (length (@lru_remove V A same typed l a)) = length l.
  Proof.
    induction l as [|[c w] l IH]; cbn [lru_find lru_remove]; [discriminate|].
    destruct (same typed a c); [reflexivity|]. intros H. cbn [length]. rewrite IH by exact H. reflexivity.
  Qed.
  Lemma firstn_in {X} n (l : list X) x : In x (firstn n l) -> In x l.
  Proof.
    revert l. induction n as [|n IH]; intros [|y l]; cbn; try tauto. intros [->|H]; [left; reflexivity|right; apply IH; exact H].
  Qed.
  Lemma lru_add_in maxsize typed (l : list (A * V)) a v x : In x (lru_add same maxsize typed l a v) -> In x l \/ x = (a, v).
  Proof.
    unfold lru_add. destruct (lru_find same typed l a); [tauto|].
    destruct maxsize as [n|]; [intros H; apply firstn_in in H|]; [destruct H as [H|H]|intros [H|H]]; auto.
  Qed.

  (** ** Reading through the caches *)
  Section Reading.
    Variable s : Settings.
    Hypothesis Hsound : sound s.
    Hypothesis Hbodies : regular_bodies no_args body inst_of fn_of.
    Hypothesis Hkeys : keys_tell no_args same body inst_of fn_of.

    Lemma truthful_put_value cs f i v :
      truthful cs -> regular_read f i no_args -> f_kind f = KProperty -> direct (body (f_id f) i no_args) (Ok v) ->
      truthful (put cs (slot_of f i) (EValue v)).
    Proof.
      intros Ht [Hi [Hf _]] Hk Hd j name. rewrite look_put. destruct (same_slot (j, name) (slot_of f i)) eqn:E; [|apply Ht].
      apply same_slot_eq in E. unfold slot_of in E. injection E as -> ->. rewrite <- Hf, <- Hi. split; assumption.
    Qed.
    Lemma truthful_put_method cs f i l :
      truthful cs -> i = inst_of (i_id i) -> f = fn_of (i_id i) (f_name f) -> f_kind f <> KProperty ->
      (forall a v, In (a, v) l -> direct (body (f_id f) i a) (Ok v)) ->
      (forall n typed, f_kind f = KMethod (Some n) typed -> length l <= n) ->
      truthful (put cs (slot_of f i) (EMethod f l)).
    Proof.
      intros Ht Hi Hf Hk Hd Hn j name. rewrite look_put. destruct (same_slot (j, name) (slot_of f i)) eqn:E; [|apply Ht].
      apply same_slot_eq in E. unfold slot_of in E. injection E as -> ->. rewrite <- Hi.
      split; [exact Hf|]. split; [exact Hk|]. split; [exact Hd|exact Hn].
    Qed.
    Lemma truthful_drop cs slot : truthful cs -> truthful (drop cs slot).
    Proof. intros Ht j name. rewrite look_drop. destruct (same_slot (j, name) slot); [exact I|apply Ht]. Qed.
    Lemma truthful_nil : truthful [].
    Proof. intros j name. exact I. Qed.

    Lemma truthful_slot cs f i a : truthful cs -> regular_read f i a ->
      match look cs (slot_of f i) with
      | None => True
      | Some (EValue v) => f_kind f = KProperty /\ direct (body (f_id f) i no_args) (Ok v)
      | Some (EMethod owner l) =>
          owner = f /\ f_kind owner <> KProperty /\
          (forall a v, In (a, v) l -> direct (body (f_id owner) i a) (Ok v)) /\
          (forall n typed, f_kind owner = KMethod (Some n) typed -> length l <= n)
      end.
    Proof.
      intros Ht [Hi [Hf _]]. specialize (Ht (i_id i) (f_name f)). unfold slot_of.
      rewrite <- Hf, <- Hi in Ht. exact Ht.
    Qed.

    Lemma crun_sound : forall n c cs cs' o,
      regular c -> truthful cs -> crun s n cs c = (cs', o) ->
      truthful cs' /\ (forall r, o = Some r -> direct c r).
    Proof.
      induction n as [|n IH]; intros c cs cs' o Hc Ht.
      - destruct c as [v|e|f i a k]; cbn [Cache.crun]; intros [= <- <-]; (split; [exact Ht|]); intros r [= <-].
        + apply direct_return. reflexivity.
        + apply direct_throw. reflexivity.
      - destruct c as [v|e|f i a k]; cbn [Cache.crun].
        1,2: intros [= <- <-]; (split; [exact Ht|]); intros r [= <-]; first [apply direct_return; reflexivity|apply direct_throw; reflexivity].
        inversion Hc as [| |f' i' a' k' Hread Hk]; subst.
        assert (Hb : regular (body (f_id f) i a)) by (apply Hbodies; exact Hread).
        destruct (should_cache_spec s f i Hsound) as [sc [Esc _]]. rewrite Esc.
        (* what the inner read gives *)
        assert (Hinner : forall cs1 o1,
          (if sc
           then match f_kind f with
                | KProperty =>
                    match look cs (slot_of f i) with
                    | Some (EValue v) => (cs, Some (Ok v))
                    | Some (EMethod _ _) => (cs, Some (Err wrong_entry))
                    | None =>
                        match crun s n cs (body (f_id f) i a) with
                        | (cs1, Some (Ok v)) => (put cs1 (slot_of f i) (EValue v), Some (Ok v))
                        | other => other
                        end
                    end
                | KMethod _ _ =>
                    let cs0 := match look cs (slot_of f i) with None => put cs (slot_of f i) (EMethod f []) | Some _ => cs end in
                    if negb (hashable a) then crun s n cs0 (body (f_id f) i a)
                    else
                      match look cs0 (slot_of f i) with
                      | Some (EMethod owner l) =>
                          let '(maxsize, typed) := limits owner in
                          match lru_find same typed l a with
                          | Some (b, v) => (put cs0 (slot_of f i) (EMethod owner (lru_hit same typed l a (b, v))), Some (Ok v))
                          | None =>
                              match crun s n cs0 (body (f_id owner) i a) with
                              | (cs1, Some (Ok v)) =>
                                  match look cs1 (slot_of f i) with
                                  | Some (EMethod _ l1) => (put cs1 (slot_of f i) (EMethod owner (lru_add same maxsize typed l1 a v)), Some (Ok v))
                                  | _ => (cs1, Some (Ok v))
                                  end
                              | other => other
                              end
                          end
                      | _ => (cs0, Some (Err wrong_entry))
                      end
                end
           else crun s n cs (body (f_id f) i a)) = (cs1, o1) ->
          truthful cs1 /\ (forall r, o1 = Some r -> direct (body (f_id f) i a) r)).
        { intros cs1 o1. destruct sc; [|apply IH; assumption].
          pose proof (truthful_slot cs f i a Ht Hread) as Hslot.
          destruct (f_kind f) as [|maxsize0 typed0] eqn:Ek.
          - assert (Ha : a = no_args) by (apply Hread; exact Ek). subst a.
            destruct (look cs (slot_of f i)) as [[v|owner l]|] eqn:El.
            + intros [= <- <-]. split; [exact Ht|]. intros r [= <-]. apply Hslot.
            + destruct Hslot as [-> [Hne _]]. contradiction.
            + destruct (crun s n cs (body (f_id f) i no_args)) as [cs2 o2] eqn:E2.
              destruct (IH _ _ _ _ Hb Ht E2) as [Ht2 Hd2].
              destruct o2 as [[v|e]|]; intros [= <- <-].
              * split; [apply truthful_put_value; [exact Ht2|exact Hread|exact Ek|apply Hd2; reflexivity]|exact Hd2].
              * split; [exact Ht2|exact Hd2].
              * split; [exact Ht2|exact Hd2].
          - set (cs0 := match look cs (slot_of f i) with None => put cs (slot_of f i) (EMethod f []) | Some _ => cs end).
            assert (Ht0 : truthful cs0).
            { subst cs0. destruct (look cs (slot_of f i)); [exact Ht|]. destruct Hread as [Hi [Hf _]].
              apply truthful_put_method; [exact Ht|exact Hi|exact Hf|rewrite Ek; discriminate|intros ? ? []|cbn; lia]. }
            cbv zeta. destruct (negb (hashable a)); [intros H; exact (IH _ _ _ _ Hb Ht0 H)|].
            pose proof (truthful_slot cs0 f i a Ht0 Hread) as Hslot0.
            destruct (look cs0 (slot_of f i)) as [[v|owner l]|] eqn:El0.
            + destruct Hslot0 as [Habs _]. rewrite Ek in Habs. discriminate Habs.
            + destruct Hslot0 as [-> [Hne [Hl Hlen]]]. unfold limits. rewrite Ek.
              destruct (lru_find same typed0 l a) as [[b v]|] eqn:Efind.
              * intros [= <- <-]. destruct (lru_find_in _ _ _ _ _ Efind) as [Hin Hsame]. split.
                -- destruct Hread as [Hi [Hf Hargs]]. apply truthful_put_method; [exact Ht0|exact Hi|exact Hf|exact Hne| |].
                   ++ intros a' v' [[= <- <-]|H]; [apply Hl; exact Hin|apply Hl; exact (lru_remove_in _ _ _ _ H)].
                   ++ intros m t Hm. unfold lru_hit. cbn [length]. rewrite (lru_remove_length _ _ _ _ Efind). exact (Hlen m t Hm).
                -- intros r [= <-]. apply (Hkeys f i a b (Ok v) maxsize0 typed0 Hread Ek Hsame). apply Hl. exact Hin.
              * destruct (crun s n cs0 (body (f_id f) i a)) as [cs2 o2] eqn:E2.
                destruct (IH _ _ _ _ Hb Ht0 E2) as [Ht2 Hd2].
                destruct o2 as [[v|e]|]; [|intros [= <- <-]; split; [exact Ht2|exact Hd2]..].
                pose proof (truthful_slot cs2 f i a Ht2 Hread) as Hslot2.
                destruct (look cs2 (slot_of f i)) as [[v2|owner2 l2]|] eqn:El2;
                  [intros [= <- <-]; split; [exact Ht2|exact Hd2]| |intros [= <- <-]; split; [exact Ht2|exact Hd2]].
                intros [= <- <-]. split; [|exact Hd2]. destruct Hslot2 as [-> [_ [Hl2 Hlen2]]].
                destruct Hread as [Hi [Hf Hargs]]. apply truthful_put_method; [exact Ht2|exact Hi|exact Hf|exact Hne| |].
                -- intros a' v' H. apply lru_add_in in H. destruct H as [H|[= -> ->]]; [apply Hl2; exact H|apply Hd2; reflexivity].
                -- intros m t Hm. rewrite Ek in Hm. injection Hm as -> ->. unfold lru_add.
                   destruct (lru_find same t l2 a); [exact (Hlen2 m t Ek)|]. apply firstn_le_length.
            + intros [= <- <-]. exfalso. subst cs0.
              destruct (look cs (slot_of f i)) eqn:El; [congruence|]. rewrite look_put, same_slot_refl in El0. discriminate El0. }
        match goal with |- (let '(_, _) := ?X in _) = _ -> _ => set (inner := X) end.
        assert (Einner : inner = (fst inner, snd inner)) by (destruct inner; reflexivity).
        specialize (Hinner (fst inner) (snd inner)).
        assert (Hin : truthful (fst inner) /\ (forall r, snd inner = Some r -> direct (body (f_id f) i a) r)).
        { apply Hinner. rewrite <- Einner. subst inner. destruct sc; reflexivity. }
        clear Hinner. clearbody inner. destruct inner as [cs1 o1]. cbn [fst snd] in Hin. destruct Hin as [Ht1 Hd1].
        destruct o1 as [[v|e]|].
        + intros H. destruct (IH _ _ _ _ (Hk v) Ht1 H) as [Ht' Hd']. split; [exact Ht'|].
          intros r Hr. apply (direct_read_ok f i a k v r); [apply Hd1; reflexivity|apply Hd'; exact Hr].
        + intros [= <- <-]. split; [exact Ht1|]. intros r [= <-]. apply direct_read_err. apply Hd1. reflexivity.
        + intros [= <- <-]. split; [exact Ht1|]. intros r H. discriminate H.
    Qed.

    Lemma crun_ends : forall n c cs r,
      regular c -> truthful cs -> run n c = Some r -> snd (crun s n cs c) <> None.
    Proof.
      induction n as [|n IH]; intros c cs r Hc Ht Hrun.
      - destruct c as [v|e|f i a k]; cbn in *; discriminate.
      - destruct c as [v|e|f i a k]; [cbn; discriminate|cbn; discriminate|].
        inversion Hc as [| |f' i' a' k' Hread Hk]; subst.
        assert (Hb : regular (body (f_id f) i a)) by (apply Hbodies; exact Hread).
        assert (Hfin : forall cs1 o1, o1 <> None -> truthful cs1 -> (forall r', o1 = Some r' -> direct (body (f_id f) i a) r') ->
                  snd (match o1 with Some (Ok v) => crun s n cs1 (k v) | other => (cs1, other) end) <> None).
        { intros cs1 o1 Ho Ht1 Hd. destruct o1 as [[v|e]|]; [|cbn; discriminate|congruence].
          cbn [Cache.run] in Hrun. destruct (run n (body (f_id f) i a)) as [rb|] eqn:Eb; [|discriminate Hrun].
          assert (rb = Ok v) by (apply (direct_det (body (f_id f) i a)); [exists n; exact Eb|apply Hd; reflexivity]). subst rb.
          apply (IH _ _ r); [apply Hk|exact Ht1|exact Hrun]. }
        (* the inner read, as a computation of its own *)
        destruct (crun s (S n) cs (Read f i a Return)) as [cs1 o1] eqn:E1.
        assert (Hreg1 : @CacheSpec.regular V A no_args inst_of fn_of (Read f i a Return)) by (constructor; [exact Hread|intros v; constructor]).
        destruct (crun_sound (S n) _ _ _ _ Hreg1 Ht E1) as [Ht1 Hd1].
        cbn [Cache.crun] in E1 |- *.
        match goal with |- snd (let '(_, _) := ?X in _) <> _ => set (inner := X) in * end.
        assert (Hinner : snd inner <> None).
        { cbn [Cache.run] in Hrun. destruct (run n (body (f_id f) i a)) as [rb|] eqn:Eb; [|discriminate Hrun].
          assert (Hcr : forall cs', truthful cs' -> snd (crun s n cs' (body (f_id f) i a)) <> None) by (intros cs' Ht'; exact (IH _ _ _ Hb Ht' Eb)).
          subst inner. destruct (should_cache_spec s f i Hsound) as [sc [Esc _]]. rewrite Esc.
          destruct sc; [|apply Hcr; exact Ht].
          pose proof (truthful_slot cs f i a Ht Hread) as Hslot.
          destruct (f_kind f) as [|maxsize0 typed0] eqn:Ek.
          - destruct (look cs (slot_of f i)) as [[v|owner l]|] eqn:El; [cbn; discriminate|cbn; discriminate|].
            specialize (Hcr cs Ht). destruct (crun s n cs (body (f_id f) i a)) as [cs2 [[v|e]|]]; cbn in *; congruence.
          - set (cs0 := match look cs (slot_of f i) with None => put cs (slot_of f i) (EMethod f []) | Some _ => cs end).
            assert (Ht0 : truthful cs0).
            { subst cs0. destruct (look cs (slot_of f i)); [exact Ht|]. destruct Hread as [Hi [Hf _]].
              apply truthful_put_method; [exact Ht|exact Hi|exact Hf|rewrite Ek; discriminate|intros ? ? []|cbn; lia]. }
            cbv zeta. destruct (negb (hashable a)); [apply Hcr; exact Ht0|].
            pose proof (truthful_slot cs0 f i a Ht0 Hread) as Hslot0.
            destruct (look cs0 (slot_of f i)) as [[v|owner l]|] eqn:El0; [cbn; discriminate| |cbn; discriminate].
            destruct Hslot0 as [-> _]. unfold limits. rewrite Ek.
            destruct (lru_find same typed0 l a) as [[b v]|] eqn:Efind; [cbn; discriminate|].
            specialize (Hcr cs0 Ht0). destruct (crun s n cs0 (body (f_id f) i a)) as [cs2 [[v|e]|]]; cbn in *; try congruence.
            destruct (look cs2 (slot_of f i)) as [[v2|owner2 l2]|]; cbn; discriminate. }
        clearbody inner. destruct inner as [cs2 o2]. cbn [snd] in Hinner.
        destruct o2 as [[v|e]|]; [|cbn; discriminate|congruence].
        assert (E1' : cs1 = cs2 /\ o1 = Some (Ok v)) by (destruct n; cbn in E1; injection E1 as <- <-; split; reflexivity).
        destruct E1' as [-> ->].
        cbn [Cache.run] in Hrun. destruct (run n (body (f_id f) i a)) as [rb|] eqn:Eb; [|discriminate Hrun].
        assert (Hread1 : direct (Read f i a Return) (Ok v)) by (apply Hd1; reflexivity).
        assert (rb = Ok v).
        { apply (direct_det (Read f i a Return)); [|exact Hread1]. destruct rb as [w|e].
          - apply (direct_read_ok f i a Return w); [exists n; exact Eb|apply direct_return; reflexivity].
          - apply direct_read_err. exists n. exact Eb. }
        subst rb. apply (IH _ _ r); [apply Hk|exact Ht1|exact Hrun].
    Qed.

    Lemma crun_complete n c cs r :
      regular c -> truthful cs -> run n c = Some r -> exists cs', crun s n cs c = (cs', Some r) /\ truthful cs'.
    Proof.
      intros Hc Ht Hrun. pose proof (crun_ends n c cs r Hc Ht Hrun) as Hne.
      destruct (crun s n cs c) as [cs' o] eqn:E. cbn in Hne. destruct (crun_sound n c cs cs' o Hc Ht E) as [Ht' Hd].
      destruct o as [r'|]; [|congruence]. exists cs'. split; [|exact Ht']. f_equal. f_equal.
      apply (direct_det c); [apply Hd; reflexivity|exists n; exact Hrun].
    Qed.
  End Reading.

  (** ** Programs *)
  Lemma program_uncached n es : forall s cs,
    sound s -> regular_bodies no_args body inst_of fn_of -> keys_tell no_args same body inst_of fn_of ->
    truthful cs -> (forall e, In e es -> regular_event no_args inst_of fn_of e) ->
    ~ In None (uncached body n es) ->
    snd (program same hashable body n s cs es) = uncached body n es /\ truthful (fst (program same hashable body n s cs es)).
  Proof.
    induction es as [|e es IH]; intros s cs Hs Hb Hk Ht He Hn; cbn [program uncached].
    - split; [reflexivity|exact Ht].
    - assert (He' : forall e, In e es -> regular_event no_args inst_of fn_of e) by (intros e' H; apply He; right; exact H).
      specialize (He e (or_introl eq_refl)). destruct e as [f i a|f i|s']; cbn [regular_event] in He; cbn [uncached] in Hn.
      + destruct (run n (Read f i a Return)) as [r|] eqn:Er; [|exfalso; apply Hn; left; reflexivity].
        destruct (crun_complete s Hs Hb Hk n (Read f i a Return) cs r) as [cs1 [E1 Ht1]];
          [constructor; [exact He|intros v; constructor]|exact Ht|exact Er|].
        rewrite E1. specialize (IH s cs1 Hs Hb Hk Ht1 He').
        destruct (program same hashable body n s cs1 es) as [cs2 rs]. cbn [fst snd] in *.
        destruct IH as [-> Ht2]; [intros H; apply Hn; right; exact H|]. split; [reflexivity|exact Ht2].
      + apply IH; try assumption. apply truthful_drop. exact Ht.
      + apply IH; assumption.
  Qed.

  Lemma program_sound n es : forall s cs,
    sound s -> regular_bodies no_args body inst_of fn_of -> keys_tell no_args same body inst_of fn_of ->
    truthful cs -> (forall e, In e es -> regular_event no_args inst_of fn_of e) ->
    truthful (fst (program same hashable body n s cs es)) /\
    Forall2 (fun o c => forall r, o = Some r -> direct c r) (snd (program same hashable body n s cs es))
      (flat_map (fun e => match e with Get f i a => [Read f i a Return] | _ => [] end) es).
  Proof.
    induction es as [|e es IH]; intros s cs Hs Hb Hk Ht He; cbn [program flat_map].
    - split; [exact Ht|constructor].
    - assert (He' : forall e, In e es -> regular_event no_args inst_of fn_of e) by (intros e' H; apply He; right; exact H).
      specialize (He e (or_introl eq_refl)). destruct e as [f i a|f i|s']; cbn [regular_event] in He; cbn [app].
      + destruct (crun s n cs (Read f i a Return)) as [cs1 o1] eqn:E1.
        destruct (crun_sound s Hs Hb Hk n (Read f i a Return) cs cs1 o1) as [Ht1 Hd1];
          [constructor; [exact He|intros v; constructor]|exact Ht|exact E1|].
        specialize (IH s cs1 Hs Hb Hk Ht1 He').
        destruct (program same hashable body n s cs1 es) as [cs2 rs]. cbn [fst snd] in *.
        destruct IH as [Ht2 HF]. split; [exact Ht2|]. constructor; [exact Hd1|exact HF].
      + apply IH; try assumption. apply truthful_drop. exact Ht.
      + apply IH; assumption.
  Qed.

  (** ** What is kept *)
  Definition keeps (x y : option (@Entry V A)) : Prop :=
    match x with
    | None => True
    | Some (EValue v) => y = Some (EValue v)
    | Some (EMethod owner _) => exists l, y = Some (EMethod owner l)
    end.
  Lemma keeps_refl x : keeps x x.
  Proof. destruct x as [[v|o l]|]; cbn; [reflexivity|exists l; reflexivity|exact I]. Qed.
  Lemma keeps_trans x y z : keeps x y -> keeps y z -> keeps x z.
  Proof. destruct x as [[v|o l]|]; cbn; [intros -> H; exact H|intros [l' ->] H; exact H|intros; exact I]. Qed.

  Lemma crun_keeps s : forall n c cs slot, keeps (look cs slot) (look (fst (crun s n cs c)) slot).
  Proof.
    induction n as [|n IH]; intros c cs slot; destruct c as [v|e|f i a k]; try (cbn; apply keeps_refl).
    cbn [Cache.crun].
    match goal with |- keeps _ (look (fst (let '(_, _) := ?X in _)) _) => assert (Hin : keeps (look cs slot) (look (fst X) slot)); [|destruct X as [cs1 [[v|e]|]]; cbn [fst] in *; [|exact Hin..]] end.
    2:{ eapply keeps_trans; [exact Hin|apply IH]. }
    destruct (should_cache s f i) as [[|]|e]; [|apply IH|apply keeps_refl].
    destruct (f_kind f) as [|maxsize0 typed0].
    - destruct (look cs (slot_of f i)) as [[v|owner l]|] eqn:El; [apply keeps_refl|apply keeps_refl|].
      pose proof (IH (body (f_id f) i a) cs slot) as H. destruct (crun s n cs (body (f_id f) i a)) as [cs2 [[v|e]|]]; cbn [fst] in *; [|exact H..].
      rewrite look_put. destruct (same_slot slot (slot_of f i)) eqn:E; [|exact H].
      apply same_slot_eq in E. subst slot. rewrite El. exact I.
    - set (cs0 := match look cs (slot_of f i) with None => put cs (slot_of f i) (EMethod f []) | Some _ => cs end).
      assert (H0 : keeps (look cs slot) (look cs0 slot)).
      { subst cs0. destruct (look cs (slot_of f i)) eqn:El; [apply keeps_refl|]. rewrite look_put.
        destruct (same_slot slot (slot_of f i)) eqn:E; [|apply keeps_refl]. apply same_slot_eq in E. subst slot. rewrite El. exact I. }
      cbv zeta. destruct (negb (hashable a)); [eapply keeps_trans; [exact H0|apply IH]|].
      destruct (look cs0 (slot_of f i)) as [[v|owner l]|] eqn:El0; [exact H0| |exact H0].
      destruct (limits owner) as [maxsize typed]. destruct (lru_find same typed l a) as [[b v]|] eqn:Efind.
      + eapply keeps_trans; [exact H0|]. cbn [fst]. rewrite look_put. destruct (same_slot slot (slot_of f i)) eqn:E; [|apply keeps_refl].
        apply same_slot_eq in E. subst slot. rewrite El0. eexists. reflexivity.
      + eapply keeps_trans; [exact H0|]. pose proof (IH (body (f_id owner) i a) cs0 slot) as H.
        pose proof (IH (body (f_id owner) i a) cs0 (slot_of f i)) as Hs.
        destruct (crun s n cs0 (body (f_id owner) i a)) as [cs2 [[v|e]|]]; cbn [fst] in *; [|exact H..].
        rewrite El0 in Hs. cbn in Hs. destruct Hs as [l2 El2]. rewrite El2. cbn [fst]. rewrite look_put.
        destruct (same_slot slot (slot_of f i)) eqn:E; [|exact H].
        apply same_slot_eq in E. subst slot. rewrite El0. eexists. reflexivity.
  Qed.

  Lemma program_keeps n es slot : forall s cs,
    (forall f i, In (Clear f i) es -> slot_of f i <> slot) ->
    keeps (look cs slot) (look (fst (program same hashable body n s cs es)) slot).
  Proof.
    induction es as [|e es IH]; intros s cs Hc; cbn [program]; [apply keeps_refl|].
    assert (Hc' : forall f i, In (Clear f i) es -> slot_of f i <> slot) by (intros f i H; apply Hc; right; exact H).
    destruct e as [f i a|f i|s'].
    - pose proof (crun_keeps s n (Read f i a Return) cs slot) as H. destruct (crun s n cs (Read f i a Return)) as [cs1 o1]. cbn [fst] in H.
      specialize (IH s cs1 Hc'). destruct (program same hashable body n s cs1 es) as [cs2 rs]. cbn [fst] in *. eapply keeps_trans; eassumption.
    - specialize (IH s (drop cs (slot_of f i)) Hc'). rewrite look_drop in IH.
      destruct (same_slot slot (slot_of f i)) eqn:E; [|exact IH]. apply same_slot_eq in E. exfalso.
      apply (Hc f i (or_introl eq_refl)). symmetry. exact E.
    - apply IH. exact Hc'.
  Qed.

  (** after a property was read, its value is there *)
  Lemma crun_stores s n f i a cs cs' v :
    should_cache s f i = Ok true -> f_kind f = KProperty ->
    crun s n cs (Read f i a Return) = (cs', Some (Ok v)) -> look cs' (slot_of f i) = Some (EValue v).
  Proof.
    intros Hsc Hk. destruct n as [|n]; cbn [Cache.crun]; [intros H; discriminate H|].
    rewrite Hsc, Hk. destruct (look cs (slot_of f i)) as [[w|owner l]|] eqn:El.
    - destruct n; cbn [Cache.crun]; intros [= <- <-]; exact El.
    - intros H. discriminate H.
    - destruct (crun s n cs (body (f_id f) i a)) as [cs2 [[w|e]|]]; [|intros H; discriminate H..].
      destruct n; cbn [Cache.crun]; intros [= <- <-]; rewrite look_put, same_slot_refl; reflexivity.
  Qed.

End Values.

Section Again.
  Context {V A : Type}.
  Variable same : bool -> A -> A -> bool.
  Variable hashable : A -> bool.
  Variable body : nat -> Inst -> A -> @Comp V A.
  (** A method called again with the same arguments: the function itself is not needed. *)
  Lemma method_stores s n f i a cs cs' v maxsize typed :
    should_cache s f i = Ok true -> f_kind f = KMethod maxsize typed -> maxsize <> Some 0 -> hashable a = true ->
    same typed a a = true ->
    (look cs (slot_of f i) = None \/ exists l, look cs (slot_of f i) = Some (EMethod f l)) ->
    crun same hashable body s n cs (Read f i a Return) = (cs', Some (Ok v)) ->
    exists l, look cs' (slot_of f i) = Some (EMethod f l) /\ exists b w, lru_find same typed l a = Some (b, w).
  Proof.
    intros Hsc Hk Hmax Hh Hsame Hown. destruct n as [|n]; cbn [Cache.crun]; [intros H; discriminate H|].
    rewrite Hsc, Hk, Hh. cbn [negb].
    set (cs0 := match look cs (slot_of f i) with None => put cs (slot_of f i) (EMethod f []) | Some _ => cs end).
    assert (H0 : exists l, look cs0 (slot_of f i) = Some (EMethod f l)).
    { subst cs0. destruct Hown as [E|[l E]]; rewrite E; [rewrite look_put, same_slot_refl; exists []; reflexivity|exists l; exact E]. }
    cbv zeta. destruct H0 as [l El0]. rewrite El0. unfold limits. rewrite Hk.
    destruct (lru_find same typed l a) as [[b w]|] eqn:Efind.
    - destruct (lru_find_in same typed l a b w Efind) as [_ Hs].
      destruct n; cbn [Cache.crun]; intros [= <- <-]; rewrite look_put, same_slot_refl; eexists; (split; [reflexivity|]);
        exists b, w; unfold lru_hit; cbn [lru_find]; rewrite Hs; reflexivity.
    - pose proof (crun_keeps same hashable body s n (body (f_id f) i a) cs0 (slot_of f i)) as Hkeep.
      destruct (crun same hashable body s n cs0 (body (f_id f) i a)) as [cs2 [[w|e]|]]; [|intros H; discriminate H..].
      cbn [fst] in Hkeep. rewrite El0 in Hkeep. destruct Hkeep as [l2 El2]. rewrite El2.
      assert (Hfind : exists b' w', lru_find same typed (lru_add same maxsize typed l2 a w) a = Some (b', w')).
      { unfold lru_add. destruct (lru_find same typed l2 a) as [[b' w']|] eqn:E2; [exists b', w'; exact E2|].
        exists a, w. destruct maxsize as [[|m]|]; [congruence| |]; cbn [firstn lru_find]; rewrite Hsame; reflexivity. }
      destruct n; cbn [Cache.crun]; intros [= <- <-]; rewrite look_put, same_slot_refl; eexists; (split; [reflexivity|exact Hfind]).
  Qed.
End Again.
