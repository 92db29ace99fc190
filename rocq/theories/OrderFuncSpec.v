(** * Specification vocabulary for simulation with callbacks

    Used in theorem statements; contains no proofs. *)
From Coq Require Import ZArith QArith Qabs Bool List Arith.
From Verif Require Import Base Num XQFacts Order Simulate SimSpec ReturnsNb Replay ReplaySpec OrderFunc.
Import ListNotations.
Local Open Scope nat_scope.

Section OrderFuncSpec.
  Context {T : Type} {N : Num T} {U A0 A1 A2 : Type}.

  (** ** Two simulations that agree before row [t] *)
  Record opts_agree (t : nat) (o1 o2 : FOpts T) : Prop := {
    oa_sharing : fo_sharing o1 = fo_sharing o2;
    oa_close : forall i c, i < t -> fo_close o1 i c = fo_close o2 i c;
    oa_mask : forall i g, i < t -> fo_mask o1 i g = fo_mask o2 i g;
    oa_pre : fo_call_pre o1 = fo_call_pre o2; oa_post : fo_call_post o1 = fo_call_post o2;
    oa_ffill : fo_ffill o1 = fo_ffill o2; oa_update : fo_update o1 = fo_update o2;
    oa_fill_pos : fo_fill_pos o1 = fo_fill_pos o2 }.

  (** The callbacks return the same whenever they are called in a row before [t]. *)
  Record calls_agree (t : nat) (c1 c2 : Callbacks T U A0 A1 A2) : Prop := {
    ca_pre_sim : forall st u, cb_pre_sim c1 st u = cb_pre_sim c2 st u;
    ca_pre_row : forall a i st u, i < t -> cb_pre_row c1 a i st u = cb_pre_row c2 a i st u;
    ca_post_row : forall a i st u, i < t -> cb_post_row c1 a i st u = cb_post_row c2 a i st u;
    ca_pre_segment : forall a g i st u, i < t -> cb_pre_segment c1 a g i st u = cb_pre_segment c2 a g i st u;
    ca_post_segment : forall a g i st u, i < t -> cb_post_segment c1 a g i st u = cb_post_segment c2 a g i st u;
    ca_order : forall a g i c k st u, i < t -> cb_order c1 a g i c k st u = cb_order c2 a g i c k st u;
    ca_flex : forall a g i k st u, i < t -> cb_flex_order c1 a g i k st u = cb_flex_order c2 a g i k st u;
    ca_post_order : forall a g i c k s r st u, i < t ->
      cb_post_order c1 a g i c k s r st u = cb_post_order c2 a g i c k s r st u }.

  (** ** Who is called when *)
  Inductive Call :=
  | PreSim | PostSim
  | PreGroup (g : nat) | PostGroup (g : nat)
  | PreRow (i : nat) | PostRow (i : nat)
  | PreSegment (g i : nat) (calls : list nat)   (* the call sequence it leaves *)
  | PostSegment (g i : nat)
  | OrderCall (g i k col : nat) | PostOrderCall (g i k col : nat)
  | FlexCall (g i k : nat) (col : option nat).

  (** Callbacks that do what [cb] does and write down each call together with
      the state it was shown *)
  Definition spy (cb : Callbacks T U A0 A1 A2) : Callbacks T (U * list (Call * FState T)) A0 A1 A2 :=
    mkCallbacks
      (fun st '(u, l) => let! (a, u') := cb_pre_sim cb st u in Ok (a, (u', l ++ [(PreSim, st)])))
      (fun st '(u, l) => let! u' := cb_post_sim cb st u in Ok (u', l ++ [(PostSim, st)]))
      (fun a g st '(u, l) => let! (a', u') := cb_pre_group cb a g st u in Ok (a', (u', l ++ [(PreGroup (sg_group g), st)])))
      (fun a g st '(u, l) => let! u' := cb_post_group cb a g st u in Ok (u', l ++ [(PostGroup (sg_group g), st)]))
      (fun a i st '(u, l) => let! (a', u') := cb_pre_row cb a i st u in Ok (a', (u', l ++ [(PreRow i, st)])))
      (fun a i st '(u, l) => let! u' := cb_post_row cb a i st u in Ok (u', l ++ [(PostRow i, st)]))
      (fun a g i st '(u, l) => let! (a', vp, calls, u') := cb_pre_segment cb a g i st u in
         Ok (a', vp, calls, (u', l ++ [(PreSegment (sg_group g) i calls, st)])))
      (fun a g i st '(u, l) => let! u' := cb_post_segment cb a g i st u in
         Ok (u', l ++ [(PostSegment (sg_group g) i, st)]))
      (fun a g i c k st '(u, l) => let! (o, u') := cb_order cb a g i c k st u in
         Ok (o, (u', l ++ [(OrderCall (sg_group g) i k c, st)])))
      (fun a g i k st '(u, l) => let! (c, o, u') := cb_flex_order cb a g i k st u in
         Ok (c, o, (u', l ++ [(FlexCall (sg_group g) i k c, st)])))
      (fun a g i c k s r st '(u, l) => let! u' := cb_post_order cb a g i c k s r st u in
         Ok (u', l ++ [(PostOrderCall (sg_group g) i k c, st)])).

  (** One column after the other in the order [calls], counted from [k] *)
  Fixpoint order_calls (g i from k : nat) (calls : list nat) : list Call :=
    match calls with
    | [] => []
    | c :: cs => OrderCall g i k (from + c) :: PostOrderCall g i k (from + c) :: order_calls g i from (S k) cs
    end.
  (** Columns as the flexible order function chooses them, until it chooses none *)
  Fixpoint flex_calls (g i k : nat) (cols : list nat) : list Call :=
    match cols with
    | [] => [FlexCall g i k None]
    | c :: cs => FlexCall g i k (Some c) :: PostOrderCall g i k c :: flex_calls g i (S k) cs
    end.

  (** The calls during one segment *)
  Inductive segment_calls (op : FOpts T) (m : Mode) (g : Seg) (i : nat) : list Call -> Prop :=
  | sc_inactive : forall calls, fo_mask op i (sg_group g) = false ->
      segment_calls op m g i ((if fo_call_pre op then [PreSegment (sg_group g) i calls] else []) ++
                              (if fo_call_post op then [PostSegment (sg_group g) i] else []))
  | sc_active : forall calls, fo_mask op i (sg_group g) = true -> m = ByCallSeq -> length calls = sg_len g ->
      Forall (fun c => c < sg_len g) calls ->
      segment_calls op m g i (PreSegment (sg_group g) i calls ::
        order_calls (sg_group g) i (sg_from g) 0 calls ++ [PostSegment (sg_group g) i])
  | sc_flexible : forall calls fuel cols, fo_mask op i (sg_group g) = true -> m = Flexible fuel ->
      Forall (fun c => sg_from g <= c < sg_from g + sg_len g) cols ->
      segment_calls op m g i (PreSegment (sg_group g) i calls ::
        flex_calls (sg_group g) i 0 cols ++ [PostSegment (sg_group g) i]).

  (** One after the other *)
  Inductive in_turn {A} (one : A -> list Call -> Prop) : list A -> list Call -> Prop :=
  | it_nil : in_turn one [] []
  | it_cons : forall a l t1 t2, one a t1 -> in_turn one l t2 -> in_turn one (a :: l) (t1 ++ t2).
  Inductive between {A} (first last : Call) (one : A -> list Call -> Prop) (l : list A) : list Call -> Prop :=
  | bt : forall t, in_turn one l t -> between first last one l (first :: t ++ [last]).

  (** Column by column: all rows of a group before the next group *)
  Definition group_calls (op : FOpts T) (m : Mode) (nrows : nat) (g : Seg) : list Call -> Prop :=
    between (PreGroup (sg_group g)) (PostGroup (sg_group g)) (segment_calls op m g) (seq 0 nrows).
  Definition simulation_calls (op : FOpts T) (m : Mode) (nrows : nat) (groups : list Seg) : list Call -> Prop :=
    between PreSim PostSim (group_calls op m nrows) groups.
  (** Row by row *)
  Definition row_calls (op : FOpts T) (m : Mode) (groups : list Seg) (i : nat) : list Call -> Prop :=
    between (PreRow i) (PostRow i) (fun g => segment_calls op m g i) groups.
  Definition row_simulation_calls (op : FOpts T) (m : Mode) (nrows : nat) (groups : list Seg) : list Call -> Prop :=
    between PreSim PostSim (row_calls op m groups) (seq 0 nrows).

  (** The function before a segment leaves an entry of the call sequence for
      every column (it is handed an array of that length to change in place). *)
  Definition full_call_seq (cb : Callbacks T U A0 A1 A2) : Prop :=
    forall a g i st u a' vp calls u', cb_pre_segment cb a g i st u = Ok (a', vp, calls, u') -> length calls = sg_len g.

  (** ** What the calls see *)

  Definition in_seg (g : Seg) (c : nat) : Prop := sg_from g <= c < sg_from g + sg_len g.

  (** [o] points to the latest of the records [l] of column [c], if any. *)
  Definition latest {R} (col : R -> nat) (l : list R) (c : nat) (o : option nat) : Prop :=
    match o with
    | None => forall r, In r l -> col r <> c
    | Some k => exists r, nth_error l k = Some r /\ col r = c /\
                  forall j r', nth_error l j = Some r' -> k < j -> col r' <> c
    end.

  (** Cash plus the worth of all positions, of the group with cash sharing and
      of the column without; positions of zero do not count. *)
  Definition current_value (op : FOpts T) (st : FState T) (g : Seg) (c : nat) : T :=
    let plus v k := if eqb (fs_pos st k) zero then v else add v (mul (fs_pos st k) (fs_vp st k)) in
    if fo_sharing op then fold_left plus (seq (sg_from g) (sg_len g)) (fs_cash st (sg_group g))
    else plus (fs_cash st c) c.

  (** Value and return are those of the current cash, positions and prices. *)
  Definition valued (op : FOpts T) (g : Seg) (st : FState T) : Prop :=
    forall c, in_seg g c ->
      fs_value st (slot op g c) = current_value op st g c /\
      fs_return st (slot op g c) = get_return_nb (fs_second st (slot op g c)) (current_value op st g c).

  (** Valuation prices are the closing prices of row [i], where known. *)
  Definition priced_at_close (op : FOpts T) (g : Seg) (i : nat) (st : FState T) : Prop :=
    forall c, in_seg g c -> isnan (fo_close op i c) = false \/ fo_ffill op = false -> fs_vp st c = fo_close op i c.

  (** The state shown after the latest segment of group [g] *)
  Fixpoint last_segment (g : nat) (l : list (Call * FState T)) : option (FState T) :=
    match l with
    | [] => None
    | (c, s) :: l' =>
        match last_segment g l' with
        | Some s' => Some s'
        | None => match c with PostSegment g' _ => if Nat.eqb g' g then Some s else None | _ => None end
        end
    end.

  (** What call [c] is shown in state [s], after the calls [before] *)
  Definition sees (op : FOpts T) (groups : list Seg) (cash : list T) (before : list (Call * FState T)) (c : Call)
      (s : FState T) : Prop :=
    (forall col, latest or_col (rc_orders (fs_rc s)) col (fs_oidx s col) /\
                 latest lg_col (rc_logs (fs_rc s)) col (fs_lidx s col)) /\
    match c with
    | OrderCall gi _ 0 _ | FlexCall gi _ 0 _ => forall g, In g groups -> sg_group g = gi -> valued op g s
    | PostSegment gi i => forall g, In g groups -> sg_group g = gi ->
        priced_at_close op g i s /\ valued op g s /\
        (fo_call_post op = true -> forall col, in_seg g col ->
          fs_second s (slot op g col) =
          match last_segment gi before with
          | Some s' => fs_value s' (slot op g col)
          | None => nth (slot op g col) cash nan
          end)
    | _ => True
    end.

  (** ** Flexible order functions that follow the call sequence *)

  (** Instead of being called for the columns in the order of the call sequence,
      remember it and choose one column after the other, then none. What is
      returned as order along with no column does not matter. *)
  Definition following (cb : Callbacks T U A0 A1 A2) (no_order : Order T) : Callbacks T U A0 A1 (A2 * list nat) :=
    mkCallbacks (cb_pre_sim cb) (cb_post_sim cb) (cb_pre_group cb) (cb_post_group cb) (cb_pre_row cb) (cb_post_row cb)
      (fun a g i st u => let! (a', vp, calls, u') := cb_pre_segment cb a g i st u in Ok ((a', calls), vp, calls, u'))
      (cb_post_segment cb)
      (fun '(a, _) g i c k st u => cb_order cb a g i c k st u)
      (fun '(a, calls) g i k st u =>
         if Nat.ltb k (sg_len g) then
           let col := sg_from g + nth k calls 0 in
           let! (o, u') := cb_order cb a g i col k st u in Ok (Some col, o, u')
         else Ok (None, no_order, u))
      (fun '(a, _) g i c k s r st u => cb_post_order cb a g i c k s r st u).

  (** All entries of the call sequence are columns of the group. *)
  Definition valid_call_seq (cb : Callbacks T U A0 A1 A2) : Prop :=
    forall a g i st u a' vp calls u', cb_pre_segment cb a g i st u = Ok (a', vp, calls, u') ->
      Forall (fun c => c < sg_len g) calls.
End OrderFuncSpec.

(** ** Orders given as arrays, written with callbacks *)
Section FromOrdersSpec.
  Context {T : Type} {N : Num T}.

  (** The order function reads the arrays. Before a segment the valuation
      prices are taken from the arrays and, with cash sharing and automatic call
      sequence, the columns are sorted by the values of their orders. *)
  Definition array_callbacks (inp : Inputs T) (fl : Flags) (op : FOpts T) : Callbacks T unit unit unit unit :=
    mkCallbacks (fun _ u => Ok (tt, u)) (fun _ u => Ok u) (fun _ _ _ u => Ok (tt, u)) (fun _ _ _ u => Ok u)
      (fun _ _ _ u => Ok (tt, u)) (fun _ _ _ u => Ok u)
      (fun _ g i st u =>
         let vp := fun c => let v := resolve_val_price inp i c (resolve_price inp i c) in
                            if isnan v && ffill_val_price fl then fs_vp st c else v in
         let now := map (fun k => fs_seq st i (sg_from g + k)) (seq 0 (sg_len g)) in
         let! calls :=
           if fo_sharing op then
             if auto_call_seq fl then
               sort_call_seq_out_nb op g (take_segment g i vp now st) (fun k => in_size inp i (sg_from g + k))
                 (fun k => in_size_type inp i (sg_from g + k)) (fun k => in_direction inp i (sg_from g + k)) now
             else Ok now
           else Ok (seq 0 (sg_len g)) in
         Ok (tt, vp, calls, u))
      (fun _ _ _ _ u => Ok u)
      (fun _ g i c k st u => Ok (make_order inp i c (in_price inp i c), u))
      (fun _ g i k st u => Ok (None, make_order inp i 0 nan, u))
      (fun _ _ _ _ _ _ _ _ u => Ok u).

  (** All segments active, no position records *)
  Definition array_options (inp : Inputs T) (fl : Flags) (lens : list nat) (pre post : bool) : FOpts T :=
    mkFOpts (is_grouped lens) (in_close inp) (fun _ _ => true) pre post (ffill_val_price fl) (update_value fl) false.

  (** The call sequence of every group is 0, 1, 2, ... *)
  Definition default_call_seq (lens : list nat) (call_seq : nat -> nat -> nat) : Prop :=
    forall i g k, In g (segs 0 0 lens) -> k < sg_len g -> call_seq i (sg_from g + k) = k.
End FromOrdersSpec.

(** ** The account that callbacks see *)
Local Open Scope Q_scope.

(** Fee rate above -100%; percentage sizes are non-zero numbers. *)
Definition tame_order (o : Order XQ) : Prop :=
  (forall f, o_fees o = Fin f -> - (1) < f) /\
  (o_size_type o = Percent -> exists q, o_size o = Fin q /\ ~ q == 0).
Definition not_infinite (x : XQ) : Prop := x <> PInf /\ x <> NInf.

(** Callbacks that return such orders and, unless there are any already, no
    infinite valuation prices *)
Definition tame_callbacks {U A0 A1 A2} (cb : Callbacks XQ U A0 A1 A2) : Prop :=
  (forall a g i st u a' vp calls u', (forall c, not_infinite (fs_vp st c)) ->
     cb_pre_segment cb a g i st u = Ok (a', vp, calls, u') -> forall c, not_infinite (vp c)) /\
  (forall a g i c k st u o u', cb_order cb a g i c k st u = Ok (o, u') -> tame_order o) /\
  (forall a g i k st u c o u', cb_flex_order cb a g i k st u = Ok (Some c, o, u') -> tame_order o).

(** Position and cash of [st] are those of its order records, up to the
    tolerance at which amounts are taken for zero: three roundings an order for
    cash, one for the position. *)
Definition account_of_records (op : FOpts XQ) (groups : list Seg) (cash : list XQ) (st : FState XQ) : Prop :=
  forall g col, In g groups -> in_seg g col ->
    let recs := rc_orders (fs_rc st) in
    let mine := if fo_sharing op then of_cols (sg_from g) (sg_len g) recs else of_col col recs in
    exists c0 c p,
      nth_error cash (slot op g col) = Some (Fin c0) /\
      fs_cash st (slot op g col) = Fin c /\
      within (3 * length mine + 1)%nat (Qabs c0 + turnover mine) c (c0 + ledger_cash mine) /\
      fs_pos st col = Fin p /\
      within (length (of_col col recs)) (volume (of_col col recs)) p (ledger_position (of_col col recs)).
