(** * Properties of caching (C55) *)
From Coq Require Import String ZArith Bool List Arith Lia.
From Verif Require Import Base Cache CacheThreads CacheSpec CacheLemmas CacheLemmas2 CacheThreadLemmas.
Import ListNotations.
Local Open Scope list_scope.
Local Open Scope nat_scope.

(** ** Values *)
(** Whatever is read, cleared and configured and in whichever order: every
    read gives what the function gives without caching. *)
Theorem C55_caching_transparent :
  forall (V A : Type) (no_args : A) same hashable (body : nat -> Inst -> A -> @Comp V A) inst_of fn_of,
  regular_bodies no_args body inst_of fn_of -> keys_tell no_args same body inst_of fn_of ->
  forall n s es, sound s -> (forall e, In e es -> regular_event no_args inst_of fn_of e) ->
  ~ In None (uncached body n es) ->
  snd (program same hashable body n s [] es) = uncached body n es.
Proof.
  intros V A no_args same hashable body inst_of fn_of Hb Hk n s es Hs He Hn.
  exact (proj1 (program_uncached no_args same hashable body inst_of fn_of n es s [] Hs Hb Hk (truthful_nil no_args body inst_of fn_of) He Hn)).
Qed.
Print Assumptions C55_caching_transparent.

(** Caching also makes up nothing: a read that ends gives what the function
    would give if it were computed. *)
Theorem C55_cached_results_are_computed :
  forall (V A : Type) (no_args : A) same hashable (body : nat -> Inst -> A -> @Comp V A) inst_of fn_of,
  regular_bodies no_args body inst_of fn_of -> keys_tell no_args same body inst_of fn_of ->
  forall n s es, sound s -> (forall e, In e es -> regular_event no_args inst_of fn_of e) ->
  Forall2 (fun o c => forall r, o = Some r -> direct body c r) (snd (program same hashable body n s [] es))
    (flat_map (fun e => match e with Get f i a => [Read f i a Return] | _ => [] end) es).
Proof.
  intros V A no_args same hashable body inst_of fn_of Hb Hk n s es Hs He.
  exact (proj2 (program_sound no_args same hashable body inst_of fn_of n es s [] Hs Hb Hk (truthful_nil no_args body inst_of fn_of) He)).
Qed.
Print Assumptions C55_cached_results_are_computed.

(** A cached property is not computed again until it is cleared: whatever
    happens to other properties, the value is returned even if the function
    were replaced by another. *)
Theorem C55_property_computed_once :
  forall (V A : Type) same hashable (body body' : nat -> Inst -> A -> @Comp V A) s s' s'' n m f i a b cs cs' v es,
  f_kind f = KProperty -> should_cache s f i = Ok true -> should_cache s' f i = Ok true ->
  crun same hashable body s n cs (Read f i a Return) = (cs', Some (Ok v)) ->
  (forall g j, In (Clear g j) es -> slot_of g j <> slot_of f i) ->
  snd (crun same hashable body' s' 1 (fst (program same hashable body m s'' cs' es)) (Read f i b Return)) = Some (Ok v).
Proof.
  intros V A same hashable body body' s s' s'' n m f i a b cs cs' v es Hk Hsc Hsc' Hrun Hclear.
  pose proof (crun_stores same hashable body s n f i a cs cs' v Hsc Hk Hrun) as Hl.
  pose proof (program_keeps same hashable body m es (slot_of f i) s'' cs' Hclear) as Hkeep. rewrite Hl in Hkeep. cbn in Hkeep.
  cbn [Cache.crun]. rewrite Hsc', Hk, Hkeep. reflexivity.
Qed.
Print Assumptions C55_property_computed_once.

(** A method called again with the same arguments is not computed again. *)
Theorem C55_method_computed_once :
  forall (V A : Type) (no_args : A) same hashable (body body' : nat -> Inst -> A -> @Comp V A) inst_of fn_of,
  regular_bodies no_args body inst_of fn_of -> keys_tell no_args same body inst_of fn_of ->
  forall s n f i a cs cs' v maxsize typed,
  sound s -> truthful no_args body inst_of fn_of cs -> regular_read no_args inst_of fn_of f i a ->
  should_cache s f i = Ok true -> f_kind f = KMethod maxsize typed -> maxsize <> Some 0 -> hashable a = true -> same typed a a = true ->
  crun same hashable body s n cs (Read f i a Return) = (cs', Some (Ok v)) ->
  snd (crun same hashable body' s 1 cs' (Read f i a Return)) = Some (Ok v).
Proof.
  intros V A no_args same hashable body body' inst_of fn_of Hb Hk s n f i a cs cs' v maxsize typed Hs Ht Hread Hsc Hkind Hmax Hh Hsame Hrun.
  assert (Hown : look cs (slot_of f i) = None \/ exists l, look cs (slot_of f i) = Some (EMethod f l)).
  { pose proof (truthful_slot no_args body inst_of fn_of cs f i a Ht Hread) as H.
    destruct (look cs (slot_of f i)) as [[w|o l]|]; [destruct H; congruence| |left; reflexivity].
    destruct H as [-> _]. right. exists l. reflexivity. }
  destruct (method_stores same hashable body s n f i a cs cs' v maxsize typed Hsc Hkind Hmax Hh Hsame Hown Hrun) as [l [El [b [w Ef]]]].
  assert (Hreg : @regular V A no_args inst_of fn_of (Read f i a Return)) by (constructor; [exact Hread|intros x; constructor]).
  destruct (crun_sound no_args same hashable body inst_of fn_of s Hs Hb Hk n _ _ _ _ Hreg Ht Hrun) as [Ht' Hd].
  assert (Hhit : forall body0 : nat -> Inst -> A -> @Comp V A,
    snd (crun same hashable body0 s 1 cs' (Read f i a Return)) = Some (Ok w)).
  { intros body0. cbn [Cache.crun]. rewrite Hsc, Hkind, El, Hh. cbn [negb]. rewrite El. unfold limits. rewrite Hkind, Ef. reflexivity. }
  rewrite Hhit. f_equal. apply (direct_det body (Read f i a Return)); [|apply Hd; reflexivity].
  destruct (crun same hashable body s 1 cs' (Read f i a Return)) as [cs2 o2] eqn:E2.
  destruct (crun_sound no_args same hashable body inst_of fn_of s Hs Hb Hk 1 _ _ _ _ Hreg Ht' E2) as [_ Hd2]. apply Hd2.
  specialize (Hhit body). rewrite E2 in Hhit. exact Hhit.
Qed.
Print Assumptions C55_method_computed_once.

(** A cached method keeps at most [maxsize] results for an instance. *)
Theorem C55_method_results_bounded :
  forall (V A : Type) (no_args : A) same hashable (body : nat -> Inst -> A -> @Comp V A) inst_of fn_of,
  regular_bodies no_args body inst_of fn_of -> keys_tell no_args same body inst_of fn_of ->
  forall n s es slot owner results maxsize typed, sound s -> (forall e, In e es -> regular_event no_args inst_of fn_of e) ->
  look (fst (program same hashable body n s [] es)) slot = Some (EMethod owner results) ->
  f_kind owner = KMethod (Some maxsize) typed -> length results <= maxsize.
Proof.
  intros V A no_args same hashable body inst_of fn_of Hb Hk n s es slot owner results maxsize typed Hs He Hl Hkind.
  pose proof (proj1 (program_sound no_args same hashable body inst_of fn_of n es s [] Hs Hb Hk (truthful_nil no_args body inst_of fn_of) He)) as Ht.
  specialize (Ht (fst slot) (snd slot)). destruct slot as [i name]. cbn [fst snd] in Ht. rewrite Hl in Ht.
  destruct Ht as [_ [_ [_ Hlen]]]. exact (Hlen maxsize typed Hkind).
Qed.
Print Assumptions C55_method_results_bounded.

(** ** Conditions: the list with the best-ranked matching condition decides *)
Theorem C55_best_condition_decides :
  forall s f i, sound s ->
  (beats f i (s_white s) (s_black s) -> should_cache s f i = Ok true) /\
  (beats f i (s_black s) (s_white s) -> should_cache s f i = Ok false) /\
  (~ beats f i (s_white s) (s_black s) -> ~ beats f i (s_black s) (s_white s) -> should_cache s f i = Ok (s_enabled s)).
Proof.
  intros s f i Hs. destruct (should_cache_spec s f i Hs) as [b [E [H1 [H2 H3]]]]. rewrite E.
  split; [intros H; rewrite (H1 H); reflexivity|]. split; [intros H; rewrite (H2 H); reflexivity|].
  intros Ha Hb. rewrite (H3 Ha Hb). reflexivity.
Qed.
Print Assumptions C55_best_condition_decides.

(** ** Threads *)
(** Any number of threads that read and clear, in any interleaving: a read
    that ends gives what the function gives without caching. *)
Theorem C55_threads_transparent :
  forall (V : Type) (body : nat -> Inst -> unit -> @Comp V unit) caching inst_of fn_of,
  regular_bodies tt body inst_of fn_of ->
  forall jobs schedule t c r,
  (forall c, In (Evaluate c) jobs -> regular tt inst_of fn_of c) ->
  nth_error jobs t = Some (Evaluate c) ->
  nth_error (w_threads (execute body caching (start jobs) schedule)) t = Some (mkThread (Finished (Some r)) []) ->
  direct body c r.
Proof.
  intros V body caching inst_of fn_of Hb jobs schedule t c r Hreg Ej Et.
  apply (execute_result body caching inst_of fn_of Hb jobs schedule t c r _ (fun j Hj => match j as j return In j jobs -> regular_job inst_of fn_of j with Evaluate c => Hreg c | ClearCache _ _ => fun _ => I end Hj) Ej Et eq_refl).
Qed.
Print Assumptions C55_threads_transparent.

(** Threads that only read, of functions that raise nothing and do not read
    themselves: each property of each instance is computed at most once. *)
Theorem C55_threads_compute_once :
  forall (V : Type) (body : nat -> Inst -> unit -> @Comp V unit) caching inst_of fn_of,
  regular_bodies tt body inst_of fn_of ->
  forall rank jobs schedule,
  no_cycle body rank ->
  (forall f i e, regular_read tt inst_of fn_of f i tt -> ~ direct body (body (f_id f) i tt) (Err e)) ->
  (forall j, In j jobs -> exists c, j = Evaluate c) ->
  (forall c, In (Evaluate c) jobs -> regular tt inst_of fn_of c) ->
  NoDup (w_started (execute body caching (start jobs) schedule)).
Proof.
  intros V body caching inst_of fn_of Hb rank jobs schedule Hc Hr Hall Hreg.
  exact (execute_once body caching inst_of fn_of Hb rank jobs schedule Hr Hc Hall (fun j Hj => match j as j return In j jobs -> regular_job inst_of fn_of j with Evaluate c => Hreg c | ClearCache _ _ => fun _ => I end Hj)).
Qed.
Print Assumptions C55_threads_compute_once.

(** No two threads compute the same property at the same time. *)
Theorem C55_threads_exclusive :
  forall (V : Type) (body : nat -> Inst -> unit -> @Comp V unit) caching jobs schedule t t' th th' f i g j,
  nth_error (w_threads (execute body caching (start jobs) schedule)) t = Some th ->
  nth_error (w_threads (execute body caching (start jobs) schedule)) t' = Some th' ->
  In (FStore f i) (t_stack th) -> In (FStore g j) (t_stack th') -> f_id f = f_id g -> t = t'.
Proof.
  intros V body caching jobs schedule t t' th th' f i g j E E' H H' Hid.
  apply (holder_unique _ t t' th th' (f_id f) (execute_locks body caching jobs schedule) E E').
  - exact (in_stack_holds f i th H).
  - rewrite Hid. exact (in_stack_holds g j th' H').
Qed.
Print Assumptions C55_threads_exclusive.

(** If properties come in layers, threads never block each other for good. *)
Theorem C55_threads_no_deadlock :
  forall (V : Type) (body : nat -> Inst -> unit -> @Comp V unit) caching layer jobs schedule t th,
  layered body layer ->
  nth_error (w_threads (execute body caching (start jobs) schedule)) t = Some th -> (forall r, t_ctl th <> Finished r) ->
  exists t', step body caching (execute body caching (start jobs) schedule) t' <> None.
Proof. intros V body caching layer jobs schedule t th Hl E Hne. exact (no_deadlock body caching layer jobs schedule t th Hl E Hne). Qed.
Print Assumptions C55_threads_no_deadlock.

(** ** A concrete case *)
Local Open Scope string_scope.
Definition object (n : nat) : Inst := mkInst n (0, "Portfolio") [(0, "Portfolio"); (1, "Wrapping")].
(* arguments: is it a Boolean, and the number it equals *)
Definition argument : Type := bool * Z.
Definition equal_keys (typed : bool) (a b : argument) : bool := Z.eqb (snd a) (snd b) && (negb typed || Bool.eqb (fst a) (fst b)).
Definition returns_fn := mkFn 1 "returns" KProperty [("cacheable", 1%Z)].
Definition stats_fn := mkFn 2 "stats" (KMethod (Some 2) false) [].
Definition functions (_ : nat) (name : string) : Fn := if String.eqb name "stats" then stats_fn else returns_fn.
Definition bodies (id : nat) (i : Inst) (a : argument) : @Comp Z argument :=
  if Nat.eqb id 1 then Read stats_fn i (false, 3%Z) (fun x => Read stats_fn i (true, 3%Z) (fun y => Return (x + y)%Z))
  else if Z.eqb (snd a) 0 then Throw (ValueError "zero") else Return (10 * Z.of_nat (i_id i) + snd a)%Z.
Definition defaults := mkSettings true [mkCond None None None (Some (CName "Wrapping")) None None] [].
Definition no_returns := mkSettings true [] [mkCond None (Some (FName "returns")) None None None None].

Lemma functions_regular f i a : regular_read (false, 0%Z) object functions f i a -> i = object (i_id i) /\ (f = stats_fn \/ f = returns_fn).
Proof.
  intros [Hi [Hf _]]. split; [exact Hi|]. unfold functions in Hf. destruct (String.eqb (f_name f) "stats"); [left|right]; exact Hf.
Qed.
Lemma stats_read n a : regular_read (false, 0%Z) object functions stats_fn (object n) a.
Proof. split; [reflexivity|]. split; [reflexivity|discriminate]. Qed.
Lemma bodies_regular : regular_bodies (false, 0%Z) bodies object functions.
Proof.
  intros f i a H. destruct (functions_regular f i a H) as [-> [-> | ->]]; cbn.
  - destruct (Z.eqb (snd a) 0); constructor.
  - constructor; [apply stats_read|]. intros x. constructor; [apply stats_read|]. intros y. constructor.
Qed.
Lemma bodies_keys : keys_tell (false, 0%Z) equal_keys bodies object functions.
Proof.
  intros f i a b r maxsize typed H Hk Hs. unfold equal_keys in Hs. apply andb_prop in Hs. destruct Hs as [Hs _]. apply Z.eqb_eq in Hs.
  destruct (functions_regular f i a H) as [_ [-> | ->]]; [|discriminate Hk]. unfold bodies. cbn. rewrite Hs. reflexivity.
Qed.
Lemma defaults_sound : sound defaults.
Proof. intros c [[<-|[]]|[]]. split; [left; reflexivity|]. split; discriminate. Qed.
Lemma no_returns_sound : sound no_returns.
Proof. intros c [[]|[<-|[]]]. split; [right; left; exists "returns"; reflexivity|]. split; discriminate. Qed.

Definition story : list (@Event argument) :=
  [Get returns_fn (object 1) (false, 0%Z); Get stats_fn (object 1) (false, 3%Z); Get returns_fn (object 1) (false, 0%Z);
   Clear returns_fn (object 1); Get stats_fn (object 1) (true, 5%Z); Get stats_fn (object 2) (true, 0%Z);
   Configure no_returns; Get returns_fn (object 1) (false, 0%Z)].
Example C55_nonvacuous :
  regular_bodies (false, 0%Z) bodies object functions /\ keys_tell (false, 0%Z) equal_keys bodies object functions /\
  sound defaults /\ (forall e, In e story -> regular_event (false, 0%Z) object functions e) /\
  uncached bodies 5 story = [Some (Ok 26%Z); Some (Ok 13%Z); Some (Ok 26%Z); Some (Ok 15%Z); Some (Err (ValueError "zero")); Some (Ok 26%Z)] /\
  length (fst (program equal_keys (fun _ => true) bodies 5 defaults [] story)) = 2.
Proof.
  split; [exact bodies_regular|]. split; [exact bodies_keys|]. split; [exact defaults_sound|]. split; [|split; vm_compute; reflexivity].
  intros e H. repeat (destruct H as [<-|H]; [first [exact I | exact no_returns_sound | split; [reflexivity|split; [reflexivity|first [reflexivity|discriminate]]]]|]). destruct H.
Qed.

(** conditions: a class against a base class, a tie *)
Example C55_condition_nonvacuous :
  let narrow := mkCond None (Some (FName "returns")) (Some (CName "Portfolio")) None None None in
  let broad := mkCond None None None (Some (CName "Wrapping")) None None in
  sound (mkSettings true [broad] [narrow]) /\
  beats returns_fn (object 1) [narrow] [broad] /\ ~ beats stats_fn (object 1) [narrow] [broad] /\
  should_cache (mkSettings true [broad] [narrow]) returns_fn (object 1) = Ok false /\
  should_cache (mkSettings true [broad] [narrow]) stats_fn (object 1) = Ok true /\
  should_cache (mkSettings false [broad] [broad]) stats_fn (object 1) = Ok false.
Proof.
  cbv zeta. split; [|split; [|split; [|split; [|split]]]]; try (vm_compute; reflexivity).
  - intros c [[<-|[]]|[<-|[]]]; (split; [|split; discriminate]); [left; reflexivity|right; left; exists "returns"; reflexivity].
  - eexists. split; [left; reflexivity|]. split.
    + split; [|split; [right; left; discriminate|reflexivity]].
      split; [discriminate|]. split; [intros r [= <-]; reflexivity|]. split; [intros r [= <-]; reflexivity|]. split; discriminate.
    + intros d [<-|[]] _. reflexivity.
  - intros [c [[<-|[]] [[Ha _] _]]]. destruct Ha as [_ [Ha _]]. specialize (Ha _ eq_refl). discriminate Ha.
Qed.

(** threads: two readers and one who clears *)
Definition layers_body (id : nat) (i : Inst) (_ : unit) : @Comp Z unit :=
  if Nat.eqb id 1 then Read (mkFn 2 "value" KProperty []) i tt (fun x => Return (x + 1)%Z) else Return (Z.of_nat (i_id i)).
Definition layers_fn (_ : nat) (name : string) : Fn := if String.eqb name "value" then mkFn 2 "value" KProperty [] else returns_fn.
Example C55_threads_nonvacuous :
  layered layers_body (fun id => if Nat.eqb id 1 then 1 else 0) /\
  regular_bodies tt layers_body object layers_fn /\
  regular tt object layers_fn (@Read Z unit returns_fn (object 7) tt Return) /\
  let w := execute layers_body (fun _ _ => true)
             (start [Evaluate (Read returns_fn (object 7) tt Return); Evaluate (Read returns_fn (object 7) tt Return); ClearCache returns_fn (object 7)])
             [0; 1; 0; 1; 0; 1; 0; 0; 0; 1; 0; 0; 0; 0; 0; 0; 0; 2; 1; 1; 1; 1; 1; 2; 0; 0; 1; 1; 1] in
  map t_ctl (w_threads w) = [Finished (Some (Ok 8%Z)); Finished (Some (Ok 8%Z)); Finished None] /\
  w_started w = [(7, "value"); (7, "returns")].
Proof.
  split; [|split; [|split]].
  - intros f i. unfold layers_body. destruct (Nat.eqb (f_id f) 1) eqn:E; [|constructor].
    constructor; [cbn; lia|intros v; constructor].
  - intros f i a [Hi [Hf _]]. unfold layers_fn in Hf. destruct (String.eqb (f_name f) "value"); rewrite Hf; cbn; [constructor|].
    constructor; [|intros v; constructor]. split; [exact Hi|]. split; [reflexivity|]. destruct a. reflexivity.
  - constructor; [|intros v; constructor]. split; [reflexivity|]. split; [reflexivity|reflexivity].
  - vm_compute. split; reflexivity.
Qed.

(** ** Where caching is not transparent *)
(** Keys that compare equal: with [typed=False] the argument [True] is
    answered with the result for [1]. *)
Definition by_type (id : nat) (i : Inst) (a : argument) : @Comp Z argument := Return (if fst a then 100 else 200)%Z.
Theorem C55_equal_keys_refuted :
  exists es, (forall e, In e es -> regular_event (false, 0%Z) object functions e) /\
    uncached by_type 3 es = [Some (Ok 200%Z); Some (Ok 100%Z)] /\
    snd (program equal_keys (fun _ => true) by_type 3 defaults [] es) = [Some (Ok 200%Z); Some (Ok 200%Z)].
Proof.
  exists [Get stats_fn (object 1) (false, 1%Z); Get stats_fn (object 1) (true, 1%Z)].
  split; [|split; vm_compute; reflexivity]. intros e [<-|[<-|[]]]; (split; [reflexivity|split; [reflexivity|discriminate]]).
Qed.
Print Assumptions C55_equal_keys_refuted.

(** A property that a subclass overrides: both keep their value under the
    same name, so after [super().f] was read from elsewhere the subclass's own
    [f] gives the value of the base class. *)
Definition base_f := mkFn 1 "f" KProperty [].
Definition sub_f := mkFn 2 "f" KProperty [].
Definition sub_g := mkFn 3 "g" KProperty [].
Definition overridden (id : nat) (i : Inst) (a : argument) : @Comp Z argument :=
  match id with 1 => Return 1%Z | 2 => Return 2%Z | _ => Read base_f i (false, 0%Z) Return end.
Theorem C55_overridden_property_refuted :
  uncached overridden 3 [Get sub_g (object 1) (false, 0%Z); Get sub_f (object 1) (false, 0%Z)] = [Some (Ok 1%Z); Some (Ok 2%Z)] /\
  snd (program equal_keys (fun _ => true) overridden 3 defaults [] [Get sub_g (object 1) (false, 0%Z); Get sub_f (object 1) (false, 0%Z)])
    = [Some (Ok 1%Z); Some (Ok 1%Z)].
Proof. split; vm_compute; reflexivity. Qed.
Print Assumptions C55_overridden_property_refuted.

(** A cached method that calls the cached method it overrides never ends. *)
Definition base_m := mkFn 1 "m" (KMethod (Some 128) false) [].
Definition sub_m := mkFn 2 "m" (KMethod (Some 128) false) [].
Definition calls_super (id : nat) (i : Inst) (a : argument) : @Comp Z argument :=
  match id with 1 => Return 1%Z | _ => Read base_m i a (fun x => Return (x + 1)%Z) end.
Theorem C55_overridden_method_refuted :
  direct calls_super (Read sub_m (object 1) (false, 0%Z) Return) (Ok 2%Z) /\
  forall n, snd (crun equal_keys (fun _ => true) calls_super defaults n [] (Read sub_m (object 1) (false, 0%Z) Return)) = None.
Proof.
  split; [exists 3; reflexivity|].
  assert (H : forall n k, snd (crun equal_keys (fun _ => true) calls_super defaults n [((1, "m"), EMethod sub_m [])] (Read base_m (object 1) (false, 0%Z) k)) = None).
  { induction n as [|n IH]; intros k; [reflexivity|]. cbn - [crun]. cbn [crun].
    change (should_cache defaults base_m (object 1)) with (Ok true). cbn - [crun].
    specialize (IH (fun x => Return (x + 1)%Z)).
    match goal with |- context [crun ?a ?b ?c ?d n ?e ?g] => change (snd (crun a b c d n e g) = None) in IH; destruct (crun a b c d n e g) as [cs [r|]] end;
      [discriminate IH|reflexivity]. }
  intros [|n]; [reflexivity|]. cbn [crun]. change (should_cache defaults sub_m (object 1)) with (Ok true). cbn - [crun].
  specialize (H n (fun x => Return (x + 1)%Z)).
  match goal with |- context [crun ?a ?b ?c ?d n ?e ?g] => change (snd (crun a b c d n e g) = None) in H; destruct (crun a b c d n e g) as [cs [r|]] end;
    [discriminate H|reflexivity].
Qed.
Print Assumptions C55_overridden_method_refuted.

(** A condition that names a cached method, as documented, makes every cached
    property raise. *)
Theorem C55_method_condition_refuted :
  should_cache (mkSettings true [mkCond None (Some (FMethod 2)) None None None None] []) stats_fn (object 1) = Ok true /\
  should_cache (mkSettings true [mkCond None (Some (FMethod 2)) None None None None] []) returns_fn (object 1) = Err func_error.
Proof. split; reflexivity. Qed.
Print Assumptions C55_method_condition_refuted.

(** Properties that read each other on different objects, with no cycle among
    the values: two threads can block each other for good, because the lock is
    one for all objects. *)
Definition f_prop := mkFn 1 "f" KProperty [].
Definition g_prop := mkFn 2 "g" KProperty [].
Definition crossing (id : nat) (i : Inst) (_ : unit) : @Comp Z unit :=
  if Nat.eqb (i_id i) 0 then Return (Z.of_nat id)
  else if Nat.eqb id 1 then Read g_prop (object 0) tt Return else Read f_prop (object 0) tt Return.
Theorem C55_threads_deadlock_refuted :
  direct crossing (Read f_prop (object 1) tt Return) (Ok 2%Z) /\ direct crossing (Read g_prop (object 1) tt Return) (Ok 1%Z) /\
  exists schedule,
    let w := execute crossing (fun _ _ => true) (start [Evaluate (Read f_prop (object 1) tt Return); Evaluate (Read g_prop (object 1) tt Return)]) schedule in
    (forall t, step crossing (fun _ _ => true) w t = None) /\
    (forall t r, ~ nth_error (map t_ctl (w_threads w)) t = Some (Finished r)).
Proof.
  split; [exists 5; reflexivity|]. split; [exists 5; reflexivity|].
  exists [0; 0; 0; 0; 1; 1; 1; 1; 0; 0; 1; 1]. cbv zeta. split.
  - intros [|[|t]]; [vm_compute; reflexivity..|].
    unfold step. match goal with |- match nth_error ?l ?n with _ => _ end = _ => assert (E : nth_error l n = None) end.
    + apply nth_error_None. vm_compute. lia.
    + rewrite E. reflexivity.
  - match goal with |- forall t r, ~ nth_error ?l t = _ => let l' := eval vm_compute in l in replace l with l' by (vm_compute; reflexivity) end.
    intros [|[|t]] r H; [discriminate H..|]. destruct t; discriminate H.
Qed.
Print Assumptions C55_threads_deadlock_refuted.

(** Two threads that clear the same property: one of them can raise. *)
Theorem C55_clear_race_refuted :
  exists schedule,
    map t_ctl (w_threads (execute crossing (fun _ _ => true)
      (start [Evaluate (Read f_prop (object 0) tt Return); ClearCache f_prop (object 0); ClearCache f_prop (object 0)]) schedule))
    = [Finished (Some (Ok 1%Z)); Finished None; Finished (Some (Err attribute_error))].
Proof. exists [0; 0; 0; 0; 0; 0; 0; 0; 0; 0; 1; 2; 1; 2]. vm_compute. reflexivity. Qed.
Print Assumptions C55_clear_race_refuted.
