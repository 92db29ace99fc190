(** * C79: broadcasting *)
From Coq Require Import String ZArith Bool List Arith.
From Verif Require Import Base Grouper Reshape IndexFns IndexSpec Broadcast BroadcastSpec.
From Verif Require BroadcastLemmas3 BroadcastLemmas4 BroadcastLemmas5 BroadcastLemmas6.
Import ListNotations.
Local Open Scope nat_scope.

(** Shapes and values: the results have one common shape (arguments kept raw
    can be indexed as if they had it), and each shows, at every position of
    it, the element of its argument: its only element along an axis it has
    one element on, the element at that position otherwise. *)
Theorem C79_values : forall {A} o (args : list (BArg A)) junk ys shape meta, Forall consistent args -> bo_to_frame o = None -> no_alignment o args ->
  broadcast o args junk = Ok (ys, (shape, meta)) -> args <> [] ->
  let two := two_axes (bo_shape o) args in
  length ys = length args /\
  (two = true -> length shape = 2) /\ (two = false -> length shape <= 1) /\
  (forall s, bo_shape o = Some s -> shape = s) /\
  (bo_shape o = None -> (two = false -> length shape = fold_left Nat.max (map (fun x => length (axes x)) args) 0) /\
     common_size (map (height two) args) (rows_in shape) /\ common_size (map (width two) args) (columns_in shape)) /\
  forall k x y, nth_error args k = Some x -> nth_error ys k = Some y ->
    (bo_keep_raw o k = false -> axes y = shape) /\
    (bo_keep_raw o k = true -> exists a, y = Raw a /\ forall i j, flex_select_auto_nb a i j two = seen two x i j) /\
    forall i j, i < rows_in shape -> j < columns_in shape -> seen two y i j = seen two x i j /\ seen two y i j <> None.
Proof. exact @BroadcastLemmas3.broadcast_values. Qed.
Print Assumptions C79_values.

(** All results carry the same labels, as many as the shape says; without a
    pandas object among the arguments none carries labels. *)
Theorem C79_shared_labels : forall {A} o (args : list (BArg A)) junk ys shape meta, Forall consistent args -> bo_to_frame o = None -> no_alignment o args ->
  broadcast o args junk = Ok (ys, (shape, meta)) -> bo_to_pd o = None -> bo_index_from o <> FromKeep -> bo_columns_from o <> FromKeep ->
  (existsb is_pandas args = true -> exists i c, forall k y, nth_error ys k = Some y -> bo_keep_raw o k = false ->
     labels_on false y = [i] /\ labels_on true y = [c] /\ index_len i = rows_in shape /\ index_len c = columns_in shape) /\
  (existsb is_pandas args = false -> forall y, In y ys -> exists a, y = Raw a).
Proof. exact @BroadcastLemmas4.shared_labels. Qed.
Print Assumptions C79_shared_labels.

(** Stacked labels: every level of every argument is a level of the result,
    except levels that tell nothing apart, and the levels of the result are
    levels of the arguments in their order. *)
Theorem C79_stacked_labels : forall {A} o (args : list (BArg A)) junk ys shape meta ax k y x, Forall consistent args -> bo_to_frame o = None -> no_alignment o args ->
  broadcast o args junk = Ok (ys, (shape, meta)) -> bo_to_pd o = None -> bo_index_from o <> FromKeep -> bo_columns_from o <> FromKeep ->
  existsb is_pandas args = true -> from_on o ax = FromStack -> nth_error ys k = Some y -> bo_keep_raw o k = false -> (ax = true -> length (axes y) = 2) -> labels_on ax y = [x] ->
  let n := size_on ax shape in
  index_len x = n /\ proper_index x /\ (default_index x \/ drawn_from n (levels_of x) (flat_map levels_of (all_labels ax args))) /\
  forall z w l, In z args -> ignored (bo_stack o) ax z = false -> In w (labels_on ax z) -> ~ default_index w -> In l (levels_of w) ->
      In (stretch_level n l) (levels_of x) \/ (lossy (bo_stack o) /\ uninformative (stretch_level n l)).
Proof. exact @BroadcastLemmas4.stacked_labels. Qed.
Print Assumptions C79_stacked_labels.

(** Strict labels: those of every argument that are not a plain range are the
    labels of the result. *)
Theorem C79_strict_labels : forall {A} o (args : list (BArg A)) junk ys shape meta ax k y x, Forall consistent args -> bo_to_frame o = None -> no_alignment o args ->
  broadcast o args junk = Ok (ys, (shape, meta)) -> bo_to_pd o = None -> bo_index_from o <> FromKeep -> bo_columns_from o <> FromKeep ->
  existsb is_pandas args = true -> from_on o ax = FromStrict -> nth_error ys k = Some y -> bo_keep_raw o k = false -> (ax = true -> length (axes y) = 2) -> labels_on ax y = [x] ->
  index_len x = size_on ax shape /\ proper_index x /\
  forall z w, In z args -> ignored (bo_stack o) ax z = false -> In w (labels_on ax z) -> w = x \/ default_index w.
Proof. exact @BroadcastLemmas4.strict_labels. Qed.
Print Assumptions C79_strict_labels.

(** Which arguments can be broadcast: without empty axes, exactly those with a
    common size on both axes whose row labels, with the strict rule, agree. *)
Theorem C79_accepts : forall {A} o (args : list (BArg A)) junk, Forall consistent args -> bo_to_frame o = None -> no_alignment o args ->
  bo_shape o = None -> bo_to_pd o = None -> args <> [] -> (forall x, In x args -> ~ In 0 (axes x)) ->
  (bo_index_from o = FromStrict \/ bo_index_from o = FromStack \/ bo_index_from o = FromReset) ->
  (bo_columns_from o = FromStack \/ bo_columns_from o = FromReset) ->
  let two := two_axes None args in
  (exists r, broadcast o args junk = Ok r) <->
  exists n m, common_size (map (height two) args) n /\ common_size (map (width two) args) m /\
    (bo_index_from o = FromStrict -> agreeing n (all_labels false args)).
Proof. exact @BroadcastLemmas4.accepts. Qed.
Print Assumptions C79_accepts.

(** Broadcasting what has been broadcast changes nothing. *)
Theorem C79_rebroadcast : forall {A} o (args : list (BArg A)) junk junk' ys shape meta, Forall consistent args -> bo_to_frame o = None -> no_alignment o args ->
  bo_shape o = None -> bo_to_pd o = None -> (forall k, bo_keep_raw o k = false) -> args <> [] ->
  rule (bo_index_from o) -> rule (bo_columns_from o) ->
  broadcast o args junk = Ok (ys, (shape, meta)) -> exists meta', broadcast o ys junk' = Ok (ys, (shape, meta')).
Proof. exact @BroadcastLemmas5.rebroadcast. Qed.
Print Assumptions C79_rebroadcast.

(** Alignment: frames with fewer columns are first replaced by their columns
    whose labels agree with those of a widest frame. *)
Theorem C79_alignment : forall {A} o (args : list (BArg A)) junk r, Forall consistent args -> bo_align_index o = false -> bo_align_columns o = true ->
  broadcast o args junk = Ok r ->
  exists args', Forall2 (aligned_to args) args args' /\ Forall consistent args' /\ broadcast (without_alignment o) args' junk = Ok r.
Proof. exact @BroadcastLemmas6.broadcast_aligned. Qed.
Print Assumptions C79_alignment.

(** A Series, a frame, an array and a number with the default options *)
Definition dates : Index := Plain (mkLevel None [LStr "d1"; LStr "d2"; LStr "d3"]).
Definition price : BArg Z := Ser dates (Some [LStr "p"]) [10; 20; 30]%Z.
Definition sizes : BArg Z := Frame dates (Plain (mkLevel (Some "asset"%string) [LStr "a"; LStr "b"])) [[1; 2]; [3; 4]; [5; 6]]%Z.
Example C79_nonvacuous :
  broadcast default_opts [price; sizes; Raw (A1 [7; 8]%Z); Raw (A0 9%Z)] (fun _ => 0) =
  Ok ([Frame dates (Plain (mkLevel (Some "asset"%string) [LStr "a"; LStr "b"])) [[10; 10]; [20; 20]; [30; 30]]%Z;
       Frame dates (Plain (mkLevel (Some "asset"%string) [LStr "a"; LStr "b"])) [[1; 2]; [3; 4]; [5; 6]]%Z;
       Frame dates (Plain (mkLevel (Some "asset"%string) [LStr "a"; LStr "b"])) [[7; 8]; [7; 8]; [7; 8]]%Z;
       Frame dates (Plain (mkLevel (Some "asset"%string) [LStr "a"; LStr "b"])) [[9; 9]; [9; 9]; [9; 9]]%Z],
      ([3; 2], (Some dates, Some (Plain (mkLevel (Some "asset"%string) [LStr "a"; LStr "b"]))))) /\
  Forall consistent [price; sizes; Raw (A1 [7; 8]%Z); Raw (A0 9%Z)] /\ no_alignment default_opts [price; sizes; Raw (A1 [7; 8]%Z); Raw (A0 9%Z)].
Proof.
  split; [vm_compute; reflexivity|]. split.
  - repeat constructor; cbn; try discriminate; auto.
  - split; [discriminate|]. intros _ x y Hx Hy H1 H2. cbn in Hx, Hy. repeat match goal with H : _ \/ _ |- _ => destruct H end; subst; try contradiction; cbn in *; auto; inversion H1; inversion H2; try discriminate; auto; match goal with H : _ <= 0 |- _ => inversion H end.
Qed.

(** Columns of a frame of windows and a frame of assets under windows *)
Definition windows : BArg Z := Frame dates (Plain (mkLevel (Some "w"%string) [LInt 5; LInt 9])) [[1; 2]; [3; 4]; [5; 6]]%Z.
Definition both : Index := Multi [mkLevel (Some "w"%string) [LInt 5; LInt 5; LInt 9; LInt 9]; mkLevel (Some "asset"%string) [LStr "a"; LStr "b"; LStr "a"; LStr "b"]].
Definition under : BArg Z := Frame dates both [[10; 20; 30; 40]; [11; 21; 31; 41]; [12; 22; 32; 42]]%Z.
Example C79_alignment_nonvacuous : Forall consistent [windows; under] /\
  match broadcast default_opts [windows; under] (fun _ => 0) with
  | Ok (ys, _) => ys = [Frame dates both [[1; 1; 2; 2]; [3; 3; 4; 4]; [5; 5; 6; 6]]%Z; under]
  | Err _ => False
  end.
Proof. split; [repeat constructor; cbn; try discriminate; auto|vm_compute; reflexivity]. Qed.

(** Common sizes are not enough with an empty axis: a frame without rows next
    to a frame with one row is refused although its shape is that of both. *)
Definition no_rows : BArg Z := Frame (Plain (mkLevel None [])) (Plain (mkLevel None [LStr "a"])) [].
Definition one_row : BArg Z := Frame (Plain (mkLevel (Some "t"%string) [LStr "d1"])) (Plain (mkLevel None [LStr "a"])) [[1]]%Z.
Definition stacking : BOpts := mkBOpts None None None false true FromStack FromStack (fun _ => false) default_stack.
Theorem C79_empty_refuted :
  Forall consistent [no_rows; one_row] /\ common_size (map (height true) [no_rows; one_row]) 0 /\ common_size (map (width true) [no_rows; one_row]) 1 /\
  forall junk r, broadcast stacking [no_rows; one_row] junk <> Ok r.
Proof.
  split; [repeat constructor; cbn; try discriminate; auto|]. split; [split; [intros s [<-|[<-|[]]]; auto|right; now left]|]. split; [split; [intros s [<-|[<-|[]]]; auto|now left]|].
  intros junk r. vm_compute. discriminate.
Qed.
Print Assumptions C79_empty_refuted.

(** Where a column of the widest frame agrees with no column of a narrower
    one, the values shown for it are whatever memory held. *)
Definition diagonal : BArg Z := Frame dates (Multi [mkLevel (Some "w"%string) [LInt 5; LInt 9]; mkLevel (Some "asset"%string) [LStr "a"; LStr "b"]])
  [[1; 2]; [3; 4]; [5; 6]]%Z.
Theorem C79_alignment_refuted :
  Forall consistent [diagonal; under] /\
  exists junk1 junk2, broadcast default_opts [diagonal; under] junk1 <> broadcast default_opts [diagonal; under] junk2.
Proof.
  split; [repeat constructor; cbn; try discriminate; auto|]. exists (fun _ => 0), (fun _ => 1). vm_compute. discriminate.
Qed.
Print Assumptions C79_alignment_refuted.
