(** * Properties of configs: C53, C54 *)
From Coq Require Import String ZArith Bool List Arith.
From Verif Require Import Base Dicts DictSpec DictLemmas4 DictLemmas5 DictLemmas6 DictLemmas9.
Import ListNotations.
Local Open Scope list_scope.
Local Open Scope nat_scope.

(** C53. Merging two or more dictionaries, of any depth, succeeds, leaves
    every existing object as it was and gives a new dictionary that is their
    overlay from left to right. *)
Theorem C53_merge : forall fuel dicts ts mode h,
  2 <= List.length dicts -> Forall2 (argument h) dicts ts -> Forall (fun t => depth t <= fuel) ts ->
  exists h' r t, merge_dicts fuel dicts true mode true false h = (h', Done r) /\ unchanged h h' /\
    denotes no_config h' (VRef r) t /\ merge_of merge_of_two ts t.
Proof. intros fuel dicts ts mode h H1 H2 H3. exact (merge_dicts_ok false fuel dicts ts mode h H1 H2 H3 ltac:(discriminate)). Qed.
Print Assumptions C53_merge.

(** C53. Path by path: a leaf of the second is a leaf of the merge, and where
    the second says nothing the merge is the first. *)
Theorem C53_merge_leaves : forall fuel d1 d2 t1 t2 mode h,
  argument h d1 t1 -> argument h d2 t2 -> depth t1 <= fuel -> depth t2 <= fuel -> is_open t1 -> is_open t2 ->
  exists h' r t, merge_dicts fuel [d1; d2] true mode true false h = (h', Done r) /\ denotes no_config h' (VRef r) t /\
    (forall p u, p <> [] -> at_path t2 p u -> is_leaf u -> at_path t p u) /\
    (forall p u, silent t2 p -> (at_path t p u <-> at_path t1 p u)).
Proof. exact merge_leaf. Qed.
Print Assumptions C53_merge_leaves.

(** C53. With [same_keys] and a first dictionary that is not empty, the keys
    are those of the first. *)
Theorem C53_same_keys : forall fuel dicts ts mode h kt l rest,
  2 <= List.length dicts -> Forall2 (argument h) dicts ts -> Forall (fun t => depth t <= fuel) ts ->
  ts = TDict false (kt :: l) :: rest -> (forall t, In t ts -> is_open t) ->
  exists h' r t, merge_dicts fuel dicts true mode true true h = (h', Done r) /\ unchanged h h' /\
    denotes no_config h' (VRef r) t /\ merge_of merge_on_first_keys ts t.
Proof.
  intros fuel dicts ts mode h kt l rest H1 H2 H3 H4 H5.
  apply (merge_dicts_ok true fuel dicts ts mode h H1 H2 H3). intros _. split; [exists kt, l, rest; exact H4|exact H5].
Qed.
Print Assumptions C53_same_keys.

(** [{"a": {"b": 1}, "c": 2}] and [{"a": {"d": 3}, "e": 4}] *)
Definition two_dicts : Heap :=
  [plain [("a"%string, VRef 1); ("c"%string, VAtom 2)]; plain [("b"%string, VAtom 1)];
   plain [("a"%string, VRef 3); ("e"%string, VAtom 4)]; plain [("d"%string, VAtom 3)]].
Example C53_nonvacuous :
  let t1 := TDict false [("a"%string, TDict false [("b"%string, TAtom 1)]); ("c"%string, TAtom 2)] in
  let t2 := TDict false [("a"%string, TDict false [("d"%string, TAtom 3)]); ("e"%string, TAtom 4)] in
  Forall2 (argument two_dicts) [Some 0; Some 2; None] [t1; t2; TDict false []] /\ depth t1 <= 5 /\
  match merge_dicts 5 [Some 0; Some 2; None] true (Some Hybrid) true false two_dicts with
  | (h, Done r) => match nth_error h r with Some o => keys (o_items o) = ["a"; "c"; "e"]%string | None => False end
  | _ => False
  end.
Proof.
  split; [|split; [vm_compute; repeat constructor|vm_compute; reflexivity]].
  assert (Hnd : forall x y : string, x <> y -> NoDup [x; y]).
  { intros x y H. constructor; [intros [E|[]]; congruence|]. constructor; [intros []|constructor]. }
  constructor; [|constructor; [|constructor; [reflexivity|constructor]]].
  - cbn. eexists 0, _. split; [reflexivity|]. split; [reflexivity|]. split; [exact I|]. split; [reflexivity|]. split; [apply Hnd; discriminate|].
    split; [reflexivity|]. split; [|repeat split]. eexists 1, _. split; [reflexivity|]. split; [reflexivity|]. split; [exact I|]. split; [reflexivity|].
    split; [constructor; [intros []|constructor]|]. repeat split.
  - cbn. eexists 2, _. split; [reflexivity|]. split; [reflexivity|]. split; [exact I|]. split; [reflexivity|]. split; [apply Hnd; discriminate|].
    split; [reflexivity|]. split; [|repeat split]. eexists 3, _. split; [reflexivity|]. split; [reflexivity|]. split; [exact I|]. split; [reflexivity|].
    split; [constructor; [intros []|constructor]|]. repeat split.
Qed.

(** C53 fails in corners. [same_keys] does not reach nested dictionaries:
    key "d" is not in the first dictionary's "a". *)
Theorem C53_same_keys_nested_refuted :
  exists h r a o k, merge_dicts 5 [Some 0; Some 2] true (Some Hybrid) true true two_dicts = (h, Done r) /\
    match nth_error h r with Some ro => dict_get (o_items ro) "a"%string = Some (VRef a) | None => False end /\
    nth_error h a = Some o /\ dict_get (o_items o) "d"%string = Some (VAtom k).
Proof. vm_compute. do 5 eexists. repeat split; reflexivity. Qed.
Print Assumptions C53_same_keys_nested_refuted.

(** With an empty first dictionary [same_keys] lets every key in. *)
Theorem C53_same_keys_empty_refuted :
  exists h r o, merge_dicts 5 [None; Some 2] true (Some Hybrid) true true two_dicts = (h, Done r) /\
    nth_error h r = Some o /\ keys (o_items o) = ["a"; "e"]%string.
Proof. vm_compute. do 3 eexists. repeat split; reflexivity. Qed.
Print Assumptions C53_same_keys_empty_refuted.

(** An atomic dictionary nested in the first is not treated as one value: it
    is filled with the keys of the second. *)
Theorem C53_atomic_refuted :
  exists h r a o, merge_dicts 5 [Some 0; Some 2] true (Some Hybrid) true false
      [plain [("a"%string, VRef 1)]; mkObj true None [("b"%string, VAtom 1)] [];
       plain [("a"%string, VRef 3)]; plain [("d"%string, VAtom 3)]] = (h, Done r) /\
    match nth_error h r with Some ro => dict_get (o_items ro) "a"%string = Some (VRef a) | None => False end /\
    nth_error h a = Some o /\ o_atomic o = true /\ keys (o_items o) = ["b"; "d"]%string.
Proof. vm_compute. do 4 eexists. repeat split; reflexivity. Qed.
Print Assumptions C53_atomic_refuted.

(** One dictionary alone raises an IndexError. *)
Theorem C53_single_refuted : exists h e, merge_dicts 5 [Some 0] true (Some Hybrid) true false two_dicts = (h, Raise (Py (IndexError e))).
Proof. vm_compute. do 2 eexists. reflexivity. Qed.
Print Assumptions C53_single_refuted.

(** C54. No unforced calls of a config's methods, on any objects, with any
    arguments and whatever they raise, change a read-only config. *)
Theorem C54_read_only : forall ops h a o,
  Forall unforced ops -> nth_error h a = Some o -> read_only o ->
  exists o', nth_error (calls h ops) a = Some o' /\ read_only o' /\ o_items o' = o_items o /\ o_attrs o' = o_attrs o.
Proof. exact readonly_history. Qed.
Print Assumptions C54_read_only.

(** C54. No unforced calls but resets change the keys of a config with frozen
    keys. *)
Theorem C54_frozen_keys : forall ops h a o,
  Forall unforced ops -> Forall (fun c => ~ is_reset c) ops -> nth_error h a = Some o -> frozen o ->
  exists o', nth_error (calls h ops) a = Some o' /\ frozen o' /\ keys (o_items o') = keys (o_items o).
Proof. exact frozen_history. Qed.
Print Assumptions C54_frozen_keys.

(** C54. The attributes of a config with attribute access are its items, from
    its creation on and after any calls of its methods, forced or not. *)
Theorem C54_attributes_are_items : forall ops h, Forall overridden ops -> mirrored h -> mirrored (calls h ops).
Proof. exact mirrored_history. Qed.
Print Assumptions C54_attributes_are_items.
Theorem C54_attributes_from_creation : forall fuel atomic dct reset_dct readonly frozen nested convert as_attrs copy_kw reset_kw h,
  mirrored h -> mirrored (fst (config_init fuel atomic dct reset_dct readonly frozen nested convert as_attrs copy_kw reset_kw h)).
Proof. exact keeps_init. Qed.
Print Assumptions C54_attributes_from_creation.

(** C54. A config made from dictionaries that are copied at every level holds
    what they hold. After any history of edits, new dictionaries, resets and
    checkpoints a reset gives it back what it held at its creation or last
    checkpoint, at every level. *)
Theorem C54_reset : forall fuel h dct ts atomic readonly frozen nested as_attrs copy_kw reset_kw,
  closed h -> holds h dct ts -> depth (TDict false ts) <= fuel -> depth (TDict false ts) <= depth_limit ->
  cp_nested copy_kw = true -> cp_nested reset_kw = true ->
  exists h1 a, config_init (S fuel) atomic dct None readonly frozen nested false as_attrs copy_kw reset_kw h = (h1, Done a) /\
    unchanged h h1 /\ holds h1 a ts /\
    forall h2 ts2, history a h1 (fun b => b < List.length h \/ b = a) ts h2 ts2 ->
      exists h3, call a OReset true h2 = (h3, Done tt) /\ holds h3 a ts2.
Proof. exact reset_history. Qed.
Print Assumptions C54_reset.

Definition a_config (readonly frozen : bool) (h : Heap) (dct : nat) : Heap * nat :=
  match config_init 9 false dct None readonly frozen true false true (mkCopyKwargs Hybrid true) (mkCopyKwargs Hybrid true) h with
  | (h', Done a) => (h', a)
  | (h', _) => (h', 0)
  end.
Definition value_at (h : Heap) (a : nat) (k1 k2 : string) : option Val :=
  match nth_error h a with
  | Some o => match dict_get (o_items o) k1 with
              | Some (VRef b) => match nth_error h b with Some ob => dict_get (o_items ob) k2 | None => None end
              | _ => None
              end
  | None => None
  end.
(** A deep change is seen and undone; a denied change raises. *)
Example C54_nonvacuous :
  (let '(h, a) := a_config false false two_dicts 0 in
   match nth_error h a with
   | Some o =>
       match dict_get (o_items o) "a"%string with
       | Some (VRef b) =>
           let h2 := calls h [(b, OSet "b"%string (VAtom 9), false); (a, ODel "c"%string, false); (a, OSet "z"%string (VRef 2), false)] in
           value_at h a "a" "b" = Some (VAtom 1) /\ value_at h2 a "a" "b" = Some (VAtom 9) /\
           value_at (calls h2 [(a, OReset, false)]) a "a" "b" = Some (VAtom 1) /\
           match nth_error (calls h2 [(a, OReset, false)]) a with Some o' => keys (o_items o') = ["a"; "c"]%string /\ o_attrs o' = o_items o' | None => False end
       | _ => False
       end
   | None => False
   end) /\
  (let '(h, a) := a_config true false two_dicts 0 in
   (exists o, nth_error h a = Some o /\ read_only o) /\ snd (call a (OSet "c"%string (VAtom 9)) false h) = Raise denied_readonly) /\
  (let '(h, a) := a_config false true two_dicts 0 in
   (exists o, nth_error h a = Some o /\ frozen o) /\ snd (call a (OSet "c"%string (VAtom 9)) false h) = Done tt /\
   snd (call a (OSet "z"%string (VAtom 9)) false h) = Raise denied_key).
Proof.
  split; [vm_compute; repeat split|]. split.
  - vm_compute. split; [eexists; split; [reflexivity|]; eexists; split; reflexivity|reflexivity].
  - vm_compute. split; [eexists; split; [reflexivity|]; eexists; split; reflexivity|]. split; reflexivity.
Qed.

(** C54 fails in corners. [setdefault] and [|=] are inherited from [dict] and
    change a read-only config. *)
Theorem C54_inherited_refuted :
  let '(h, a) := a_config true true two_dicts 0 in
  (exists o, nth_error h a = Some o /\ read_only o) /\
  (exists o, nth_error (calls h [(a, OSetDefault "z"%string (VAtom 9), false); (a, OIor 2, false)]) a = Some o /\ keys (o_items o) = ["a"; "c"; "z"; "e"]%string).
Proof. vm_compute. split; [eexists; split; [reflexivity|]; eexists; split; reflexivity|]. eexists. split; reflexivity. Qed.
Print Assumptions C54_inherited_refuted.

(** A nested dictionary of a read-only config that is not a config itself is
    changed by an unforced update of the config. *)
Theorem C54_nested_refuted :
  let '(h, a) := a_config true true two_dicts 0 in
  value_at h a "a" "b" = Some (VAtom 1) /\ value_at h a "a" "d" = None /\
  value_at (calls (h ++ [plain [("a"%string, VRef 3)]]) [(a, OUpdate (List.length h) None, false)]) a "a" "d" = Some (VAtom 3).
Proof. vm_compute. repeat split. Qed.
Print Assumptions C54_nested_refuted.

(** A reset can change the keys of a config with frozen keys: one made with
    other keys to reset to. *)
Theorem C54_frozen_reset_refuted :
  match config_init 9 false 0 (Some 2) false true true false true (mkCopyKwargs Hybrid true) (mkCopyKwargs Hybrid true) two_dicts with
  | (h, Done a) =>
      (exists o, nth_error h a = Some o /\ frozen o /\ keys (o_items o) = ["a"; "c"]%string) /\
      exists o, nth_error (calls h [(a, OReset, false)]) a = Some o /\ keys (o_items o) = ["a"; "e"]%string
  | _ => False
  end.
Proof. vm_compute. split; eexists; [split; [reflexivity|]; split; [eexists; split; reflexivity|reflexivity]|split; reflexivity]. Qed.
Print Assumptions C54_frozen_reset_refuted.

(** Without nested copies, the default, a reset does not undo a change two
    levels down. *)
Theorem C54_reset_not_nested_refuted :
  let h0 := [plain [("a"%string, VRef 1)]; plain [("b"%string, VRef 2)]; plain [("c"%string, VAtom 1)]] in
  match config_init 9 false 0 None false false false false false (mkCopyKwargs Hybrid false) (mkCopyKwargs Hybrid false) h0 with
  | (h, Done a) =>
      match value_at h a "a" "b" with
      | Some (VRef b) =>
          let h2 := calls h [(b, OSet "c"%string (VAtom 9), false); (a, OReset, false)] in
          match nth_error h b with Some o => dict_get (o_items o) "c"%string = Some (VAtom 1) | None => False end /\
          value_at h2 a "a" "b" = Some (VRef b) /\
          match nth_error h2 b with Some o => dict_get (o_items o) "c"%string = Some (VAtom 9) | None => False end
      | _ => False
      end
  | _ => False
  end.
Proof. vm_compute. repeat split. Qed.
Print Assumptions C54_reset_not_nested_refuted.
