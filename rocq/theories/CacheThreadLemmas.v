(** * Lemmas about cached properties and threads *)
From Coq Require Import String ZArith Bool List Arith Lia.
From Verif Require Import Base Cache CacheThreads CacheSpec CacheLemmas2.
Import ListNotations.
Local Open Scope list_scope.
Local Open Scope nat_scope.

Lemma forall2_nth {X Y} (R : X -> Y -> Prop) xs ys n y :
  Forall2 R xs ys -> nth_error ys n = Some y -> exists x, nth_error xs n = Some x /\ R x y.
Proof.
  intros H. revert n. induction H as [|x y' xs ys Hxy H IH]; intros [|n]; cbn; try discriminate.
  - intros [= <-]. exists x. split; [reflexivity|exact Hxy].
  - apply IH.
Qed.
Lemma forall2_upd {X Y} (R : X -> Y -> Prop) xs ys n y x :
  Forall2 R xs ys -> nth_error xs n = Some x -> R x y -> Forall2 R xs (upd ys n y).
Proof.
  intros H. revert n. induction H as [|x' y' xs ys Hxy H IH]; intros [|n]; cbn; try discriminate.
  - intros [= ->] Hr. constructor; assumption.
  - intros Hn Hr. constructor; [exact Hxy|]. apply IH; assumption.
Qed.
Lemma nth_upd_same {X} (l : list X) n x y : nth_error l n = Some y -> nth_error (upd l n x) n = Some x.
Proof. revert n. induction l as [|z l IH]; intros [|n]; cbn; try discriminate; [reflexivity|apply IH]. Qed.
Lemma nth_upd_other {X} (l : list X) n m x : n <> m -> nth_error (upd l n x) m = nth_error l m.
Proof.
  revert n m. induction l as [|z l IH]; intros [|n] [|m] H; cbn; try reflexivity; try congruence.
  apply IH. congruence.
Qed.

Section Threads.
  Context {V : Type}.
  Variable body : nat -> Inst -> unit -> @Comp V unit.
  Variable caching : Fn -> Inst -> bool.
  Notation step := (step body caching).
  Notation execute := (execute body caching).
  Notation direct := (direct body).

  Lemma execute_inv (P : State -> Prop) :
    (forall w t w', P w -> step w t = Some w' -> P w') -> forall schedule w, P w -> P (execute w schedule).
  Proof.
    intros Hstep schedule. induction schedule as [|t schedule IH]; intros w Hw; [exact Hw|].
    unfold CacheThreads.execute. cbn [fold_left]. apply IH. destruct (step w t) as [w'|] eqn:E; [exact (Hstep _ _ _ Hw E)|exact Hw].
  Qed.

  (** ** Locks *)
  Definition holds_ctl (l : nat) (c : @Control V) : nat :=
    match c with Second f _ | Unlocking f _ => if Nat.eqb (f_id f) l then 1 else 0 | _ => 0 end.
  Definition holds_frame (l : nat) (fr : @Frame V) : nat :=
    match fr with FStore f _ => if Nat.eqb (f_id f) l then 1 else 0 | _ => 0 end.
  Definition holds (l : nat) (th : @Thread V) : nat :=
    holds_ctl l (t_ctl th) + fold_right (fun fr n => holds_frame l fr + n) 0 (t_stack th).
  Definition locks_ok (w : @State V) : Prop :=
    forall l, match w_locks w l with
              | None => forall t th, nth_error (w_threads w) t = Some th -> holds l th = 0
              | Some (t, d) =>
                  d > 0 /\ (exists th, nth_error (w_threads w) t = Some th /\ holds l th = d) /\
                  (forall t' th, t' <> t -> nth_error (w_threads w) t' = Some th -> holds l th = 0)
              end.

  Lemma locks_ok_same w w' t th th' :
    locks_ok w -> nth_error (w_threads w) t = Some th -> w_threads w' = upd (w_threads w) t th' -> w_locks w' = w_locks w ->
    (forall l, holds l th' = holds l th) -> locks_ok w'.
  Proof.
    intros H Ht Eth El Hh l. specialize (H l). rewrite El. destruct (w_locks w l) as [[o d]|].
    - destruct H as [Hd [[tho [Eo Ho]] Hoth]]. split; [exact Hd|]. split.
      + destruct (Nat.eq_dec t o) as [->|Hne].
        * exists th'. rewrite Eth. split; [exact (nth_upd_same _ _ _ _ Ht)|]. rewrite Hh. congruence.
        * exists tho. rewrite Eth, nth_upd_other by exact Hne. split; assumption.
      + intros t' th0 Hne E. rewrite Eth in E. destruct (Nat.eq_dec t t') as [->|Hne'].
        * rewrite (nth_upd_same _ _ _ _ Ht) in E. injection E as <-. rewrite Hh. exact (Hoth t' th Hne Ht).
        * rewrite nth_upd_other in E by exact Hne'. exact (Hoth t' th0 Hne E).
    - intros t' th0 E. rewrite Eth in E. destruct (Nat.eq_dec t t') as [->|Hne'].
      + rewrite (nth_upd_same _ _ _ _ Ht) in E. injection E as <-. rewrite Hh. exact (H t' th Ht).
      + rewrite nth_upd_other in E by exact Hne'. exact (H t' th0 E).
  Qed.

  Lemma locks_ok_acquire w t th th' lk cache st :
    locks_ok w -> nth_error (w_threads w) t = Some th -> forall m, acquire (w_locks w) t lk = Some m ->
    (forall l, holds l th' = (if Nat.eqb lk l then 1 else 0) + holds l th) ->
    locks_ok (mkState cache m (upd (w_threads w) t th') st).
  Proof.
    intros H Ht m Hm Hh l. unfold acquire in Hm. cbn [w_locks w_threads]. pose proof (H lk) as Hlk. pose proof (H l) as Hl.
    assert (Hm' : exists d, m = set_lock (w_locks w) lk (Some (t, S d)) /\ holds lk th = d /\
                 (forall t' th, t' <> t -> nth_error (w_threads w) t' = Some th -> holds lk th = 0)).
    { destruct (w_locks w lk) as [[o d]|].
      - destruct (Nat.eqb t o) eqn:E; [|discriminate Hm]. apply Nat.eqb_eq in E. subst o. injection Hm as <-.
        destruct Hlk as [_ [[tho [Eo Ho]] Hoth]]. exists d. split; [reflexivity|]. split; [congruence|exact Hoth].
      - injection Hm as <-. exists 0. split; [reflexivity|]. split; [exact (Hlk t th Ht)|]. intros t' th0 _ E. exact (Hlk t' th0 E). }
    destruct Hm' as [d [-> [Hd Hoth]]]. unfold set_lock. rewrite (Nat.eqb_sym l lk). specialize (Hh l). destruct (Nat.eqb lk l) eqn:E.
    - apply Nat.eqb_eq in E. subst l. split; [lia|]. split.
      + exists th'. split; [exact (nth_upd_same _ _ _ _ Ht)|]. lia.
      + intros t' th0 Hne E0. rewrite nth_upd_other in E0 by congruence. exact (Hoth t' th0 Hne E0).
    - cbn [Nat.add] in Hh. destruct (w_locks w l) as [[o d']|].
      + destruct Hl as [Hd' [[tho [Eo Ho]] Hoth']]. split; [exact Hd'|]. split.
        * destruct (Nat.eq_dec t o) as [->|Hne].
          -- exists th'. split; [exact (nth_upd_same _ _ _ _ Ht)|]. rewrite Hh. congruence.
          -- exists tho. rewrite nth_upd_other by exact Hne. split; assumption.
        * intros t' th0 Hne E0. destruct (Nat.eq_dec t t') as [->|Hne'].
          -- rewrite (nth_upd_same _ _ _ _ Ht) in E0. injection E0 as <-. rewrite Hh. exact (Hoth' t' th Hne Ht).
          -- rewrite nth_upd_other in E0 by exact Hne'. exact (Hoth' t' th0 Hne E0).
      + intros t' th0 E0. destruct (Nat.eq_dec t t') as [->|Hne'].
        * rewrite (nth_upd_same _ _ _ _ Ht) in E0. injection E0 as <-. rewrite Hh. exact (Hl t' th Ht).
        * rewrite nth_upd_other in E0 by exact Hne'. exact (Hl t' th0 E0).
  Qed.

  Lemma locks_ok_release w t th th' lk cache st :
    locks_ok w -> nth_error (w_threads w) t = Some th ->
    (forall l, holds l th = (if Nat.eqb lk l then 1 else 0) + holds l th') ->
    locks_ok (mkState cache (release (w_locks w) lk) (upd (w_threads w) t th') st).
  Proof.
    intros H Ht Hh l. cbn [w_locks w_threads]. pose proof (H lk) as Hlk. pose proof (H l) as Hl.
    pose proof (Hh lk) as Hhk. rewrite Nat.eqb_refl in Hhk.
    assert (Hm : exists d, w_locks w lk = Some (t, S d) /\ holds lk th' = d /\
                 (forall t' th, t' <> t -> nth_error (w_threads w) t' = Some th -> holds lk th = 0)).
    { destruct (w_locks w lk) as [[o d]|].
      - destruct Hlk as [Hd [[tho [Eo Ho]] Hoth]].
        destruct (Nat.eq_dec t o) as [->|Hne]; [|specialize (Hoth t th Hne Ht); lia].
        assert (tho = th) by congruence. subst tho. destruct d as [|d]; [lia|]. exists d. split; [reflexivity|]. split; [lia|exact Hoth].
      - specialize (Hlk t th Ht). lia. }
    destruct Hm as [d [Elk [Hd Hoth]]]. unfold release. rewrite Elk.
    assert (Hrest : lk <> l -> match w_locks w l with
              | None => forall t0 th0, nth_error (upd (w_threads w) t th') t0 = Some th0 -> holds l th0 = 0
              | Some (o, d') => d' > 0 /\ (exists th0, nth_error (upd (w_threads w) t th') o = Some th0 /\ holds l th0 = d') /\
                  (forall t' th0, t' <> o -> nth_error (upd (w_threads w) t th') t' = Some th0 -> holds l th0 = 0)
              end).
    { intros Hne0. specialize (Hh l). apply Nat.eqb_neq in Hne0. rewrite Hne0 in Hh. cbn [Nat.add] in Hh.
      destruct (w_locks w l) as [[o d']|].
      + destruct Hl as [Hd' [[tho [Eo Ho]] Hoth']]. split; [exact Hd'|]. split.
        * destruct (Nat.eq_dec t o) as [->|Hne].
          -- exists th'. split; [exact (nth_upd_same _ _ _ _ Ht)|]. rewrite <- Hh. congruence.
          -- exists tho. rewrite nth_upd_other by exact Hne. split; assumption.
        * intros t' th0 Hne E0. destruct (Nat.eq_dec t t') as [->|Hne'].
          -- rewrite (nth_upd_same _ _ _ _ Ht) in E0. injection E0 as <-. rewrite <- Hh. exact (Hoth' t' th Hne Ht).
          -- rewrite nth_upd_other in E0 by exact Hne'. exact (Hoth' t' th0 Hne E0).
      + intros t' th0 E0. destruct (Nat.eq_dec t t') as [->|Hne'].
        * rewrite (nth_upd_same _ _ _ _ Ht) in E0. injection E0 as <-. rewrite <- Hh. exact (Hl t' th Ht).
        * rewrite nth_upd_other in E0 by exact Hne'. exact (Hl t' th0 E0). }
    destruct d as [|d]; unfold set_lock; rewrite (Nat.eqb_sym l lk); destruct (Nat.eqb lk l) eqn:E;
      try (apply Hrest; apply Nat.eqb_neq; exact E); apply Nat.eqb_eq in E; subst l.
    - intros t' th0 E0. destruct (Nat.eq_dec t t') as [->|Hne'].
      + rewrite (nth_upd_same _ _ _ _ Ht) in E0. injection E0 as <-. exact Hd.
      + rewrite nth_upd_other in E0 by exact Hne'. apply (Hoth t' th0); [congruence|exact E0].
    - split; [lia|]. split; [exists th'; split; [exact (nth_upd_same _ _ _ _ Ht)|exact Hd]|].
      intros t' th0 Hne E0. rewrite nth_upd_other in E0 by congruence. exact (Hoth t' th0 Hne E0).
  Qed.

  Lemma step_locks w t w' : locks_ok w -> step w t = Some w' -> locks_ok w'.
  Proof.
    intros H. unfold CacheThreads.step. destruct (nth_error (w_threads w) t) as [[ctl stack]|] eqn:Et; [|discriminate].
    destruct ctl as [c|f i|f i|f i|f r|f i|f i|r].
    - destruct c as [v|e|f i a k].
      + destruct stack as [|[k|f i] stack]; intros [= <-];
          (eapply locks_ok_same; [exact H|exact Et|reflexivity|reflexivity|]; intros l; unfold holds; cbn; lia).
      + destruct stack as [|[k|f i] stack]; intros [= <-];
          (eapply locks_ok_same; [exact H|exact Et|reflexivity|reflexivity|]; intros l; unfold holds; cbn; lia).
      + destruct (caching f i); intros [= <-];
          (eapply locks_ok_same; [exact H|exact Et|reflexivity|reflexivity|]; intros l; unfold holds; cbn; lia).
    - destruct (w_cache w (slot_of f i)); intros [= <-];
        (eapply locks_ok_same; [exact H|exact Et|reflexivity|reflexivity|]; intros l; unfold holds; cbn; lia).
    - destruct (acquire (w_locks w) t (f_id f)) as [m|] eqn:Ea; [|discriminate]. intros [= <-].
      eapply locks_ok_acquire; [exact H|exact Et|exact Ea|]. intros l. unfold holds. cbn. lia.
    - destruct (w_cache w (slot_of f i)); intros [= <-];
        (eapply locks_ok_same; [exact H|exact Et|reflexivity|reflexivity|]; intros l; unfold holds; cbn; lia).
    - intros [= <-]. eapply locks_ok_release; [exact H|exact Et|]. intros l. unfold holds. cbn. lia.
    - destruct (w_cache w (slot_of f i)); intros [= <-];
        (eapply locks_ok_same; [exact H|exact Et|reflexivity|reflexivity|]; intros l; unfold holds; cbn; lia).
    - destruct (w_cache w (slot_of f i)); intros [= <-];
        (eapply locks_ok_same; [exact H|exact Et|reflexivity|reflexivity|]; intros l; unfold holds; cbn; lia).
    - discriminate.
  Qed.
  Lemma start_locks jobs : locks_ok (start jobs).
  Proof.
    intros l. cbn. intros t th E. apply nth_error_In in E. apply in_map_iff in E. destruct E as [j [<- _]].
    destruct j; reflexivity.
  Qed.
  Lemma in_stack_holds (f : Fn) (i : Inst) (th : @Thread V) : In (FStore f i) (t_stack th) -> holds (f_id f) th > 0.
  Proof.
    destruct th as [ctl stack]. cbn [t_stack]. unfold holds. cbn [t_ctl t_stack]. intros H.
    assert (fold_right (fun fr n => holds_frame (f_id f) fr + n) 0 stack > 0); [|lia].
    induction stack as [|fr stack IH]; [destruct H|]. cbn [fold_right]. destruct H as [->|H]; [cbn; rewrite Nat.eqb_refl; lia|specialize (IH H); lia].
  Qed.
  Lemma holder_unique w t t' th th' l :
    locks_ok w -> nth_error (w_threads w) t = Some th -> nth_error (w_threads w) t' = Some th' ->
    holds l th > 0 -> holds l th' > 0 -> t = t'.
  Proof.
    intros H E E' H1 H2. specialize (H l). destruct (w_locks w l) as [[o d]|].
    - destruct H as [_ [_ Ho]].
      destruct (Nat.eq_dec t o) as [->|N1]; [|specialize (Ho t th N1 E); lia].
      destruct (Nat.eq_dec t' o) as [->|N2]; [reflexivity|specialize (Ho t' th' N2 E'); lia].
    - specialize (H t th E). lia.
  Qed.

  (** ** Layers *)
  Section Ranks.
    Variable rank : Fn -> Inst -> nat.
    Hypothesis Hcycle : no_cycle body rank.
    Fixpoint bound (stack : list (@Frame V)) (n : nat) : Prop :=
      match stack with [] => True | FResume _ :: s => bound s n | FStore f i :: _ => n < rank f i end.
    Fixpoint lay (stack : list (@Frame V)) : Prop :=
      match stack with
      | [] => True
      | FResume k :: s => (forall v, reads_only (fun g j => bound s (rank g j)) (k v)) /\ lay s
      | FStore f i :: s => bound s (rank f i) /\ lay s
      end.
    Definition low (th : @Thread V) : Prop :=
      lay (t_stack th) /\
      match t_ctl th with
      | Running c => reads_only (fun g j => bound (t_stack th) (rank g j)) c
      | First f i | Waiting f i | Second f i => bound (t_stack th) (rank f i)
      | Unlocking _ _ => True
      | Clearing _ _ | Deleting _ _ | Finished _ => t_stack th = []
      end.
    Lemma bound_le s n m : bound s n -> m <= n -> bound s m.
    Proof. induction s as [|[k|f i] s IH]; cbn; [tauto|exact IH|lia]. Qed.
    Lemma reads_only_mono (P Q : Fn -> Inst -> Prop) (c : @Comp V unit) : (forall f i, P f i -> Q f i) -> reads_only P c -> reads_only Q c.
    Proof. intros H. induction 1; constructor; auto. Qed.
    Lemma body_low s f i : bound s (rank f i) -> reads_only (fun g j => bound s (rank g j)) (body (f_id f) i tt).
    Proof.
      intros Hb. eapply reads_only_mono; [|apply Hcycle]. intros g j Hlt. cbn in Hlt. apply (bound_le s _ _ Hb). lia.
    Qed.
    Lemma bound_store s n f j : lay s -> bound s n -> In (FStore f j) s -> n < rank f j.
    Proof.
      revert n. induction s as [|[k|g i] s IH]; intros n; cbn [lay bound]; [intros _ _ []| |].
      - intros [_ Hl] Hb [H|H]; [discriminate H|exact (IH n Hl Hb H)].
      - intros [Hb0 Hl] Hb [H|H]; [injection H as -> ->; exact Hb|]. specialize (IH (rank g i) Hl Hb0 H). lia.
    Qed.

    Lemma step_low w t w' :
      (forall th, In th (w_threads w) -> low th) -> step w t = Some w' -> (forall th, In th (w_threads w') -> low th).
    Proof.
      intros H. unfold CacheThreads.step. destruct (nth_error (w_threads w) t) as [[ctl stack]|] eqn:Et; [|discriminate].
      assert (Hth : low (mkThread ctl stack)) by (apply H; eapply nth_error_In; exact Et).
      assert (Hfin : forall th' w', w_threads w' = upd (w_threads w) t th' -> low th' -> forall th, In th (w_threads w') -> low th).
      { intros th' w0 E Hl th Hin. rewrite E in Hin. apply In_nth_error in Hin. destruct Hin as [n Hn].
        destruct (Nat.eq_dec t n) as [->|Hne].
        - rewrite (nth_upd_same _ _ _ _ Et) in Hn. injection Hn as <-. exact Hl.
        - rewrite nth_upd_other in Hn by exact Hne. apply H. eapply nth_error_In. exact Hn. }
      destruct Hth as [Hlay Hctl]. cbn [t_ctl t_stack] in *.
      destruct ctl as [c|f i|f i|f i|f r|f i|f i|r].
      - destruct c as [v|e|f i a k].
        + destruct stack as [|[k|f i] stack]; intros [= <-]; (eapply Hfin; [reflexivity|]).
          * split; [exact I|reflexivity].
          * destruct Hlay as [Hk Hl]. split; [exact Hl|apply Hk].
          * destruct Hlay as [_ Hl]. split; [exact Hl|exact I].
        + destruct stack as [|[k|f i] stack]; intros [= <-]; (eapply Hfin; [reflexivity|]).
          * split; [exact I|reflexivity].
          * destruct Hlay as [Hk Hl]. split; [exact Hl|constructor].
          * destruct Hlay as [_ Hl]. split; [exact Hl|exact I].
        + inversion Hctl as [| |f' i' a' k' Hr Hk]; subst.
          destruct (caching f i); intros [= <-]; (eapply Hfin; [reflexivity|]).
          * split; [split; [exact Hk|exact Hlay]|exact Hr].
          * split; [split; [exact Hk|exact Hlay]|]. cbn [t_ctl t_stack bound]. apply body_low. exact Hr.
      - destruct (w_cache w (slot_of f i)); intros [= <-]; (eapply Hfin; [reflexivity|]).
        + split; [exact Hlay|constructor].
        + split; [exact Hlay|exact Hctl].
      - destruct (acquire (w_locks w) t (f_id f)) as [m|]; [|discriminate]. intros [= <-]. eapply Hfin; [reflexivity|].
        split; [exact Hlay|exact Hctl].
      - destruct (w_cache w (slot_of f i)); intros [= <-]; (eapply Hfin; [reflexivity|]).
        + split; [exact Hlay|exact I].
        + split; [split; [exact Hctl|exact Hlay]|]. cbn [t_ctl t_stack bound]. apply Hcycle.
      - intros [= <-]. eapply Hfin; [reflexivity|]. split; [exact Hlay|]. cbn [t_ctl]. destruct r; constructor.
      - subst stack. destruct (w_cache w (slot_of f i)); intros [= <-]; (eapply Hfin; [reflexivity|]); split; reflexivity.
      - subst stack. destruct (w_cache w (slot_of f i)); intros [= <-]; (eapply Hfin; [reflexivity|]); split; reflexivity.
      - discriminate.
    Qed.
    Lemma start_low jobs : forall th, In th (w_threads (start jobs)) -> low th.
    Proof.
      intros th H. cbn in H. apply in_map_iff in H. destruct H as [j [<- _]]. destruct j as [c|f i]; (split; [exact I|]).
      - cbn [t_ctl t_stack bound]. induction c as [v|e|f i a k IH]; constructor; [exact I|exact IH].
      - reflexivity.
    Qed.
  End Ranks.

  Lemma execute_locks jobs schedule : locks_ok (execute (start jobs) schedule).
  Proof. apply execute_inv; [intros w t w' H E; exact (step_locks w t w' H E)|apply start_locks]. Qed.
  Lemma execute_low rank jobs schedule : no_cycle body rank -> forall th, In th (w_threads (execute (start jobs) schedule)) -> low rank th.
  Proof.
    intros Hc. apply (execute_inv (fun w => forall th, In th (w_threads w) -> low rank th)).
    - intros w t w' H E. exact (step_low rank Hc w t w' H E).
    - apply start_low.
  Qed.

  (** ** No deadlock *)
  Lemma blocked_waits w t th :
    nth_error (w_threads w) t = Some th -> step w t = None ->
    (exists r, t_ctl th = Finished r) \/
    (exists f i o d, t_ctl th = Waiting f i /\ w_locks w (f_id f) = Some (o, d) /\ o <> t).
  Proof.
    intros E. unfold CacheThreads.step. rewrite E. destruct th as [ctl stack]. cbn [t_ctl].
    destruct ctl as [c|f i|f i|f i|f r|f i|f i|r].
    - destruct c as [v|e|f i a k]; [destruct stack as [|[k|f i] stack]; discriminate..|destruct (caching f i); discriminate].
    - destruct (w_cache w (slot_of f i)); discriminate.
    - unfold acquire. destruct (w_locks w (f_id f)) as [[o d]|] eqn:El; [|discriminate].
      destruct (Nat.eqb t o) eqn:Eo; [discriminate|]. intros _. right. exists f, i, o, d. split; [reflexivity|]. split; [exact El|].
      apply Nat.eqb_neq in Eo. congruence.
    - destruct (w_cache w (slot_of f i)); discriminate.
    - discriminate.
    - destruct (w_cache w (slot_of f i)); discriminate.
    - destruct (w_cache w (slot_of f i)); discriminate.
    - intros _. left. exists r. reflexivity.
  Qed.

  Lemma no_deadlock layer jobs schedule t th :
    layered body layer ->
    nth_error (w_threads (execute (start jobs) schedule)) t = Some th -> (forall r, t_ctl th <> Finished r) ->
    exists t', step (execute (start jobs) schedule) t' <> None.
  Proof.
    intros Hlay. set (w := execute (start jobs) schedule).
    assert (Hlow : forall th, In th (w_threads w) -> low (fun f _ => layer (f_id f)) th).
    { apply execute_low. intros f i. apply Hlay. }
    assert (Hlocks : locks_ok w) by apply execute_locks.
    intros E Hne.
    (* by strong induction on the layer a blocked thread waits for *)
    assert (Hind : forall n t th f i, nth_error (w_threads w) t = Some th -> t_ctl th = Waiting f i -> layer (f_id f) < n -> exists t', step w t' <> None).
    { induction n as [|n IH]; intros t0 th0 f i E0 Hw Hn; [lia|].
      destruct (step w t0) as [w0|] eqn:Es; [exists t0; congruence|].
      destruct (blocked_waits w t0 th0 E0 Es) as [[r Hr]|[f' [i' [o [d [Hw' [Hl Ho]]]]]]]; [congruence|].
      assert (f' = f) by congruence. subst f'. pose proof (Hlocks (f_id f)) as Hlk. rewrite Hl in Hlk.
      destruct Hlk as [Hd [[tho [Eo Hho]] _]].
      destruct (step w o) as [wo|] eqn:Eso; [exists o; congruence|].
      assert (Hlo := Hlow tho (nth_error_In _ _ Eo)). destruct tho as [ctl stack]. destruct Hlo as [Hls Hlc]. cbn [t_ctl t_stack] in *.
      assert (Hin : exists j g, In (FStore g j) stack /\ f_id g = f_id f).
      { assert (Hsum : fold_right (fun fr n => holds_frame (f_id f) fr + n) 0 stack > 0).
        { destruct (blocked_waits w o _ Eo Eso) as [[r Hr]|[g [j [o' [d' [Hw2 _]]]]]]; cbn [t_ctl] in *; subst ctl; unfold holds in Hho; cbn in Hho; lia. }
        clear -Hsum. induction stack as [|[k|g j] stack IH]; cbn in Hsum; [lia| |].
        - destruct (IH Hsum) as [j [g [H1 H2]]]. exists j, g. split; [right; exact H1|exact H2].
        - destruct (Nat.eqb (f_id g) (f_id f)) eqn:Eg.
          + exists j, g. split; [left; reflexivity|]. apply Nat.eqb_eq. exact Eg.
          + destruct (IH Hsum) as [j' [g' [H1 H2]]]. exists j', g'. split; [right; exact H1|exact H2]. }
      destruct Hin as [j [g [Hin Hg]]].
      destruct (blocked_waits w o _ Eo Eso) as [[r Hr]|[g' [j' [o' [d' [Hw2 _]]]]]]; cbn [t_ctl] in *; subst ctl.
      - subst stack. destruct Hin.
      - apply (IH o _ g' j' Eo eq_refl). pose proof (bound_store _ stack _ g j Hls Hlc Hin) as Hlt. cbn in Hlt. rewrite Hg in Hlt. lia. }
    destruct (step w t) as [w1|] eqn:Es; [exists t; congruence|].
    destruct (blocked_waits w t th E Es) as [[r Hr]|[f [i [o [d [Hw _]]]]]]; [exfalso; exact (Hne r Hr)|].
    exact (Hind _ t th f i E Hw (Nat.lt_succ_diag_r _)).
  Qed.

  (** ** Values *)
  Section Truth.
    Variable inst_of : nat -> Inst.
    Variable fn_of : nat -> string -> Fn.
    Hypothesis Hbodies : regular_bodies tt body inst_of fn_of.
    Notation regular := (@regular V unit tt inst_of fn_of).
    Notation regular_read := (@regular_read unit tt inst_of fn_of).

    Definition sem (c : @Control V) (r : res V) : Prop :=
      match c with
      | Running c => direct c r
      | First f i | Waiting f i | Second f i => direct (body (f_id f) i tt) r
      | Unlocking _ r' => r = r'
      | Finished (Some r') => r = r'
      | _ => False
      end.
    Fixpoint leads (c0 : @Comp V unit) (S : res V -> Prop) (stack : list (@Frame V)) : Prop :=
      match stack with
      | [] => forall r, S r -> direct c0 r
      | FResume k :: s =>
          (forall v, regular (k v)) /\
          leads c0 (fun r => (exists v, S (Ok v) /\ direct (k v) r) \/ (exists e, S (Err e) /\ r = Err e)) s
      | FStore f i :: s => regular_read f i tt /\ (forall r, S r -> direct (body (f_id f) i tt) r) /\ leads c0 S s
      end.
    Definition reg_ctl (c : @Control V) : Prop :=
      match c with
      | Running c => regular c
      | First f i | Waiting f i | Second f i => regular_read f i tt
      | Unlocking _ _ => True
      | Finished (Some _) => True
      | _ => False
      end.
    Definition thread_ok (j : @Job V) (th : @Thread V) : Prop :=
      match j with
      | Evaluate c0 => reg_ctl (t_ctl th) /\ leads c0 (sem (t_ctl th)) (t_stack th)
      | ClearCache _ _ => (exists f i, t_ctl th = Clearing f i) \/ (exists f i, t_ctl th = Deleting f i) \/ (exists r, t_ctl th = Finished r)
      end.
    Definition cache_ok (m : nat * string -> option V) : Prop :=
      forall f i v, regular_read f i tt -> m (slot_of f i) = Some v -> direct (body (f_id f) i tt) (Ok v).
    Lemma leads_mono c0 (s : list (@Frame V)) : forall (S S' : res V -> Prop), (forall r, S' r -> S r) -> leads c0 S s -> leads c0 S' s.
    Proof.
      induction s as [|[k|f i] s IH]; intros S S' H; cbn [leads].
      - intros Hl r Hr. apply Hl. apply H. exact Hr.
      - intros [Hk Hl]. split; [exact Hk|]. revert Hl. apply IH.
        intros r [[v [Hv Hd]]|[e [He ->]]]; [left; exists v; split; [apply H; exact Hv|exact Hd]|right; exists e; split; [apply H; exact He|reflexivity]].
      - intros [Hr [Hd Hl]]. split; [exact Hr|]. split; [intros r Hr'; apply Hd; apply H; exact Hr'|]. revert Hl. apply IH. exact H.
    Qed.
    Lemma regular_same_slot f i g j : regular_read f i tt -> regular_read g j tt -> slot_of f i = slot_of g j -> f = g /\ i = j.
    Proof.
      intros [Hi [Hf _]] [Hj [Hg _]] E. unfold slot_of in E. injection E as E1 E2.
      assert (i = j) by (rewrite Hi, Hj, E1; reflexivity). split; [|assumption]. rewrite Hf, Hg, E1, E2. reflexivity.
    Qed.

    Definition good (jobs : list Job) (w : State) : Prop := cache_ok (w_cache w) /\ Forall2 thread_ok jobs (w_threads w).
    Lemma step_good jobs w t w' : good jobs w -> step w t = Some w' -> good jobs w'.
    Proof.
      intros [Hc Hth]. unfold CacheThreads.step. destruct (nth_error (w_threads w) t) as [[ctl stack]|] eqn:Et; [|discriminate].
      destruct (forall2_nth _ _ _ _ _ Hth Et) as [j [Ej Hj]].
      assert (Hsame : forall th', thread_ok j th' -> good jobs (with_thread w t th')).
      { intros th' H'. split; [exact Hc|]. cbn. exact (forall2_upd _ _ _ _ _ _ Hth Ej H'). }
      assert (Hgen : forall m lk st th', cache_ok m -> thread_ok j th' -> good jobs (mkState m lk (upd (w_threads w) t th') st)).
      { intros m lk st th' Hm H'. split; [exact Hm|]. cbn. exact (forall2_upd _ _ _ _ _ _ Hth Ej H'). }
      destruct j as [c0|f0 i0]; cbn [thread_ok t_ctl t_stack] in Hj.
      - destruct Hj as [Hreg Hlead]. destruct ctl as [c|f i|f i|f i|f r|f i|f i|r]; cbn [reg_ctl] in Hreg; try contradiction; try discriminate.
        + destruct c as [v|e|f i a k].
          * destruct stack as [|[k|f i] stack]; intros [= <-].
            -- apply Hsame. split; [exact I|]. intros r Hr. apply Hlead. cbn in Hr. subst r. apply direct_return. reflexivity.
            -- apply Hsame. destruct Hlead as [Hk Hl]. split; [apply Hk|]. revert Hl. apply leads_mono. intros r Hr. cbn in Hr.
               left. exists v. split; [apply direct_return; reflexivity|exact Hr].
            -- destruct Hlead as [Hr [Hd Hl]]. apply Hgen.
               ++ intros g j' v' Hg E. unfold set_slot in E. destruct (same_slot (slot_of g j') (slot_of f i)) eqn:Es; [|exact (Hc g j' v' Hg E)].
                  apply same_slot_eq in Es. destruct (regular_same_slot g j' f i Hg Hr Es) as [-> ->]. injection E as <-.
                  apply Hd. apply direct_return. reflexivity.
               ++ split; [exact I|]. revert Hl. apply leads_mono. intros r Hr'. cbn in Hr'. subst r. apply direct_return. reflexivity.
          * destruct stack as [|[k|f i] stack]; intros [= <-]; apply Hsame.
            -- split; [exact I|]. intros r Hr. apply Hlead. cbn in Hr. subst r. apply direct_throw. reflexivity.
            -- destruct Hlead as [Hk Hl]. split; [constructor|]. revert Hl. apply leads_mono. intros r Hr. cbn in Hr.
               apply direct_throw in Hr. subst r. right. exists e. split; [apply direct_throw; reflexivity|reflexivity].
            -- destruct Hlead as [Hr [Hd Hl]]. split; [exact I|]. revert Hl. apply leads_mono. intros r Hr'. cbn in Hr'. subst r. apply direct_throw. reflexivity.
          * inversion Hreg as [| |f' i' a' k' Hr Hk]; subst. destruct a.
            assert (Hlead' : leads c0 (direct (body (f_id f) i tt)) (FResume k :: stack)).
            { cbn [leads]. split; [exact Hk|]. revert Hlead. apply leads_mono. cbn [sem]. intros r [[v [Hv Hd]]|[e [He ->]]].
              - apply (direct_read_ok body f i tt k v r Hv Hd).
              - apply direct_read_err. exact He. }
            destruct (caching f i); intros [= <-]; apply Hsame; (split; [|exact Hlead']).
            -- exact Hr.
            -- cbn [t_ctl reg_ctl]. apply Hbodies. exact Hr.
        + destruct (w_cache w (slot_of f i)) as [v|] eqn:Ev; intros [= <-]; apply Hsame.
          * split; [constructor|]. revert Hlead. apply leads_mono. intros r Hr. cbn in Hr. apply direct_return in Hr. subst r. exact (Hc f i v Hreg Ev).
          * split; [exact Hreg|exact Hlead].
        + destruct (acquire (w_locks w) t (f_id f)) as [m|]; [|discriminate]. intros [= <-]. apply Hgen; [exact Hc|]. split; [exact Hreg|exact Hlead].
        + destruct (w_cache w (slot_of f i)) as [v|] eqn:Ev; intros [= <-].
          * apply Hsame. split; [exact I|]. revert Hlead. apply leads_mono. intros r Hr. cbn in Hr. subst r. exact (Hc f i v Hreg Ev).
          * apply Hgen; [exact Hc|]. split; [cbn [t_ctl reg_ctl]; apply Hbodies; exact Hreg|].
            cbn [t_ctl t_stack sem leads]. split; [exact Hreg|]. split; [intros r Hr; exact Hr|exact Hlead].
        + intros [= <-]. apply Hgen; [exact Hc|]. split; [destruct r; constructor|]. revert Hlead. apply leads_mono.
          intros r0 Hr0. cbn in *. destruct r; [apply direct_return in Hr0|apply direct_throw in Hr0]; exact Hr0.
      - destruct Hj as [[f [i ->]]|[[f [i ->]]|[r ->]]]; [| |discriminate].
        + destruct (w_cache w (slot_of f i)); intros [= <-]; apply Hsame; cbn [thread_ok t_ctl]; [right; left; exists f, i; reflexivity|right; right; exists None; reflexivity].
        + destruct (w_cache w (slot_of f i)); intros [= <-].
          * apply Hgen; [|right; right; exists None; reflexivity]. intros g j' v' Hg E. unfold set_slot in E.
            destruct (same_slot (slot_of g j') (slot_of f i)); [discriminate E|exact (Hc g j' v' Hg E)].
          * apply Hsame. right; right. eexists. reflexivity.
    Qed.

    Definition regular_job (j : @Job V) : Prop := match j with Evaluate c => regular c | ClearCache _ _ => True end.
    Lemma start_good jobs : (forall j, In j jobs -> regular_job j) -> good jobs (start jobs).
    Proof.
      intros H. split; [intros f i v _ E; discriminate E|]. cbn. induction jobs as [|j jobs IH]; [constructor|].
      constructor; [|apply IH; intros j' Hj'; apply H; right; exact Hj'].
      specialize (H j (or_introl eq_refl)). destruct j as [c|f i]; cbn.
      - split; [exact H|]. intros r Hr. exact Hr.
      - left. exists f, i. reflexivity.
    Qed.
    Lemma execute_good jobs schedule : (forall j, In j jobs -> regular_job j) -> good jobs (execute (start jobs) schedule).
    Proof. intros H. apply execute_inv; [intros w t w' Hw E; exact (step_good jobs w t w' Hw E)|apply start_good; exact H]. Qed.

    Lemma leads_stores c0 (S : res V -> Prop) stack f i : leads c0 S stack -> In (FStore f i) stack -> regular_read f i tt.
    Proof.
      revert S. induction stack as [|[k|g j] stack IH]; intros S; cbn [leads]; [intros _ []| |].
      - intros [_ Hl] [H|H]; [discriminate H|exact (IH _ Hl H)].
      - intros [Hr [_ Hl]] [H|H]; [injection H as -> ->; exact Hr|exact (IH _ Hl H)].
    Qed.

    (** ** Started at most once *)
    Definition once (w : @State V) : Prop :=
      (forall t th f i, nth_error (w_threads w) t = Some th -> In (FStore f i) (t_stack th) -> w_cache w (slot_of f i) = None) /\
      (forall x, In x (w_started w) -> w_cache w x <> None \/
         exists t th f i, nth_error (w_threads w) t = Some th /\ In (FStore f i) (t_stack th) /\ slot_of f i = x) /\
      NoDup (w_started w).
    Definition reads_all (jobs : list (@Job V)) : Prop := forall j, In j jobs -> exists c, j = Evaluate c.
    Definition never_raises : Prop := forall f i e, regular_read f i tt -> ~ direct (body (f_id f) i tt) (Err e).

    Lemma step_once rank jobs w t w' :
      never_raises -> no_cycle body rank -> reads_all jobs -> locks_ok w -> (forall th, In th (w_threads w) -> low rank th) -> good jobs w -> once w ->
      step w t = Some w' -> once w'.
    Proof.
      intros Hraise Hcyc Hall Hlocks Hlow [_ Hgood] [H1 [H2 H3]]. unfold CacheThreads.step.
      destruct (nth_error (w_threads w) t) as [[ctl stack]|] eqn:Et; [|discriminate].
      assert (Hlt : low rank (mkThread ctl stack)) by (apply Hlow; eapply nth_error_In; exact Et).
      assert (Hreads : forall t th, nth_error (w_threads w) t = Some th -> exists c0, reg_ctl (t_ctl th) /\ leads c0 (sem (t_ctl th)) (t_stack th)).
      { intros t0 th0 E0. destruct (forall2_nth _ _ _ _ _ Hgood E0) as [j [Ej Hj]].
        destruct (Hall j (nth_error_In _ _ Ej)) as [c ->]. exists c. exact Hj. }
      destruct (Hreads t _ Et) as [c0 [Hreg Hlead]]. cbn [t_ctl t_stack] in *.
      assert (Hregst : forall t th f i, nth_error (w_threads w) t = Some th -> In (FStore f i) (t_stack th) -> regular_read f i tt).
      { intros t0 th0 f i E0 Hin. destruct (Hreads t0 th0 E0) as [c1 [_ Hl1]]. exact (leads_stores _ _ _ _ _ Hl1 Hin). }
      (* the stores pending stay the same and so does the cache *)
      assert (Hsame : forall th' lk, (forall f i, In (FStore f i) (t_stack th') <-> In (FStore f i) stack) ->
                once (mkState (w_cache w) lk (upd (w_threads w) t th') (w_started w))).
      { intros th' lk Hiff. split; [|split; [|exact H3]]; cbn [w_cache w_threads w_started].
        - intros t0 th0 f i E0 Hin. destruct (Nat.eq_dec t t0) as [->|Hne].
          + rewrite (nth_upd_same _ _ _ _ Et) in E0. injection E0 as <-. apply Hiff in Hin. exact (H1 t0 _ f i Et Hin).
          + rewrite nth_upd_other in E0 by exact Hne. exact (H1 t0 th0 f i E0 Hin).
        - intros x Hx. destruct (H2 x Hx) as [Hc|[t0 [th0 [f [i [E0 [Hin Hs]]]]]]]; [left; exact Hc|right].
          destruct (Nat.eq_dec t t0) as [->|Hne].
          + exists t0, th', f, i. split; [exact (nth_upd_same _ _ _ _ Et)|]. split; [|exact Hs]. apply Hiff. rewrite Et in E0. injection E0 as <-. exact Hin.
          + exists t0, th0, f, i. rewrite nth_upd_other by exact Hne. split; [exact E0|split; assumption]. }
      assert (Hiff_res : forall k f i, In (FStore f i) (FResume k :: stack) <-> In (FStore f i) stack).
      { intros k f i. split; [intros [H|H]; [discriminate H|exact H]|intros H; right; exact H]. }
      destruct ctl as [c|f i|f i|f i|f r|f i|f i|r]; cbn [reg_ctl] in Hreg; try contradiction; try discriminate.
      - destruct c as [v|e|f i a k].
        + destruct stack as [|[k|f i] stack]; intros [= <-].
          * apply Hsame. intros f i. split; intros [].
          * apply Hsame. intros f i. cbn [t_stack]. split; [intros H; right; exact H|intros [H|H]; [discriminate H|exact H]].
          * (* the value is stored *)
            destruct Hlead as [Hrf [_ _]]. destruct Hlt as [[Hbf Hlf] _]. cbn [t_stack] in *.
            split; [|split; [|exact H3]]; cbn [w_cache w_threads w_started].
            -- intros t0 th0 g j E0 Hin. unfold set_slot.
               assert (Hcase : (t0 = t /\ In (FStore g j) stack) \/ (t0 <> t /\ nth_error (w_threads w) t0 = Some th0)).
               { destruct (Nat.eq_dec t t0) as [->|Hne].
                 - rewrite (nth_upd_same _ _ _ _ Et) in E0. injection E0 as <-. left. split; [reflexivity|exact Hin].
                 - rewrite nth_upd_other in E0 by exact Hne. right. split; [congruence|exact E0]. }
               destruct (same_slot (slot_of g j) (slot_of f i)) eqn:Es.
               ++ exfalso. apply same_slot_eq in Es. destruct Hcase as [[-> Hin']|[Hne E0']].
                  ** assert (Hrg : regular_read g j tt) by (apply (Hregst t _ g j Et); right; exact Hin').
                     destruct (regular_same_slot g j f i Hrg Hrf Es) as [-> ->].
                     pose proof (bound_store rank stack _ f i Hlf Hbf Hin'). lia.
                  ** assert (Hrg : regular_read g j tt) by (apply (Hregst t0 _ g j E0'); exact Hin).
                     destruct (regular_same_slot g j f i Hrg Hrf Es) as [-> ->]. apply Hne.
                     apply (holder_unique w t0 t th0 _ (f_id f) Hlocks E0' Et); apply (in_stack_holds f i); [exact Hin|left; reflexivity].
               ++ destruct Hcase as [[-> Hin']|[Hne E0']].
                  ** apply (H1 t _ g j Et). right. exact Hin'.
                  ** exact (H1 t0 th0 g j E0' Hin).
            -- intros x Hx. unfold set_slot. destruct (same_slot x (slot_of f i)) eqn:Es; [left; discriminate|].
               destruct (H2 x Hx) as [Hc|[t0 [th0 [g [j [E0 [Hin Hs]]]]]]]; [left; exact Hc|right].
               destruct (Nat.eq_dec t t0) as [->|Hne].
               ++ rewrite Et in E0. injection E0 as <-. cbn [t_stack] in Hin. destruct Hin as [Hin|Hin].
                  ** injection Hin as -> ->. rewrite Hs, same_slot_refl in Es. discriminate Es.
                  ** eexists t0, _, g, j. split; [exact (nth_upd_same _ _ _ _ Et)|]. split; [exact Hin|exact Hs].
               ++ exists t0, th0, g, j. rewrite nth_upd_other by exact Hne. split; [exact E0|split; assumption].
        + destruct stack as [|[k|f i] stack]; intros [= <-].
          * apply Hsame. intros f i. split; intros [].
          * apply Hsame. intros f i. cbn [t_stack]. split; [intros H; right; exact H|intros [H|H]; [discriminate H|exact H]].
          * exfalso. destruct Hlead as [Hrf [Hd _]]. apply (Hraise f i e Hrf). apply Hd. apply direct_throw. reflexivity.
        + destruct (caching f i); intros [= <-]; apply Hsame; intros g j; apply Hiff_res.
      - destruct (w_cache w (slot_of f i)); intros [= <-]; apply Hsame; intros g j; reflexivity.
      - destruct (acquire (w_locks w) t (f_id f)) as [m|]; [|discriminate]. intros [= <-]. apply Hsame. intros g j. reflexivity.
      - destruct (w_cache w (slot_of f i)) as [v|] eqn:Ev; intros [= <-]; [apply Hsame; intros g j; reflexivity|].
        split; [|split]; cbn [w_cache w_threads w_started].
        + intros t0 th0 g j E0 Hin. destruct (Nat.eq_dec t t0) as [->|Hne].
          * rewrite (nth_upd_same _ _ _ _ Et) in E0. injection E0 as <-. cbn [t_stack] in Hin. destruct Hin as [Hin|Hin].
            -- injection Hin as -> ->. exact Ev.
            -- exact (H1 t0 _ g j Et Hin).
          * rewrite nth_upd_other in E0 by exact Hne. exact (H1 t0 th0 g j E0 Hin).
        + intros x [<-|Hx].
          * right. eexists t, _, f, i. split; [exact (nth_upd_same _ _ _ _ Et)|]. split; [left; reflexivity|reflexivity].
          * destruct (H2 x Hx) as [Hc|[t0 [th0 [g [j [E0 [Hin Hs]]]]]]]; [left; exact Hc|right].
            destruct (Nat.eq_dec t t0) as [->|Hne].
            -- eexists t0, _, g, j. split; [exact (nth_upd_same _ _ _ _ Et)|]. split; [|exact Hs]. right. rewrite Et in E0. injection E0 as <-. exact Hin.
            -- exists t0, th0, g, j. rewrite nth_upd_other by exact Hne. split; [exact E0|split; assumption].
        + constructor; [|exact H3]. intros Hx. destruct (H2 _ Hx) as [Hc|[t0 [th0 [g [j [E0 [Hin Hs]]]]]]]; [contradiction|].
          assert (Hrg : regular_read g j tt) by exact (Hregst t0 th0 g j E0 Hin).
          destruct (regular_same_slot g j f i Hrg Hreg Hs) as [-> ->].
          assert (t0 = t).
          { apply (holder_unique w t0 t th0 _ (f_id f) Hlocks E0 Et); [exact (in_stack_holds f i th0 Hin)|].
            unfold holds. cbn. rewrite Nat.eqb_refl. lia. }
          subst t0. rewrite Et in E0. injection E0 as <-. destruct Hlt as [Hls Hb]. cbn [t_ctl t_stack] in *.
          pose proof (bound_store rank stack _ f i Hls Hb Hin). lia.
      - intros [= <-]. apply Hsame. intros g j. reflexivity.
    Qed.

    Lemma execute_once rank jobs schedule :
      never_raises -> no_cycle body rank -> reads_all jobs -> (forall j, In j jobs -> regular_job j) ->
      NoDup (w_started (execute (start jobs) schedule)).
    Proof.
      intros Hr Hcyc Hall Hreg.
      assert (H : let w := execute (start jobs) schedule in
                  locks_ok w /\ (forall th, In th (w_threads w) -> low rank th) /\ good jobs w /\ once w).
      { apply (execute_inv (fun w => locks_ok w /\ (forall th, In th (w_threads w) -> low rank th) /\ good jobs w /\ once w)).
        - intros w t w' [H1 [H2 [H3 H4]]] E. split; [exact (step_locks w t w' H1 E)|]. split; [exact (step_low rank Hcyc w t w' H2 E)|].
          split; [exact (step_good jobs w t w' H3 E)|exact (step_once rank jobs w t w' Hr Hcyc Hall H1 H2 H3 H4 E)].
        - split; [apply start_locks|]. split; [apply start_low|]. split; [apply start_good; exact Hreg|].
          split; [|split; [intros x []|constructor]]. intros t th f i E Hin. reflexivity. }
      apply H.
    Qed.

    Lemma execute_result jobs schedule t c r th :
      (forall j, In j jobs -> regular_job j) -> nth_error jobs t = Some (Evaluate c) ->
      nth_error (w_threads (execute (start jobs) schedule)) t = Some th -> th = mkThread (Finished (Some r)) [] -> direct c r.
    Proof.
      intros Hreg Ej Et ->. destruct (execute_good jobs schedule Hreg) as [_ HF].
      destruct (forall2_nth _ _ _ _ _ HF Et) as [j [Ej' Hj]]. rewrite Ej in Ej'. injection Ej' as <-.
      destruct Hj as [_ Hl]. apply Hl. reflexivity.
    Qed.
  End Truth.
End Threads.
