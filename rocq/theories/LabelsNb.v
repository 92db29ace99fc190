(** * Model of labels/nb.py

    One column at a time. Thresholds, which the code selects with
    flex_select_auto_nb from a scalar, a vector or a matrix (base/reshape_fns.py:1000-1003,
    modelled in FlexSelect.v), are functions of the bar. *)
From Coq Require Import String ZArith Bool List Arith.
From Verif Require Import Base Num GenericNb ReturnsNb.
Import ListNotations.
Local Open Scope string_scope.
Local Open Scope list_scope.
Local Open Scope nat_scope.

(** range(a, b) *)
Definition range (a b : nat) : list nat := seq a (b - a).

Section Labels.
  Context {T : Type} {N : Num T}.

  (** labels/nb.py:32-34 (and 52-54, 60-62, 69-71): shift back by [wait] *)
  Definition maybe_bshift (wait : nat) (out : list T) : list T :=
    if Nat.ltb 0 wait then bshift_1d_nb out wait nan else out.

  (** labels/nb.py:26-34 future_mean_apply_nb *)
  Definition future_mean_apply_nb (close : list T) (window : nat) (ewm : bool) (wait : nat) (adjust : bool) : res (list T) :=
    let! out := (if ewm then ewm_mean_1d_nb (rev close) window (Some window) adjust
                 else rolling_mean_1d_nb (rev close) window (Some window)) in
    Ok (maybe_bshift wait (rev out)).

  (** labels/nb.py:38-54 future_std_apply_nb; the [ewm] branch is not modelled. *)
  Definition future_std_apply_nb (sqrt : T -> T) (tol : T) (close : list T) (window wait : nat) (ddof : Z) : res (list T) :=
    let! out := rolling_std_1d_nb sqrt tol (rev close) window (Some window) ddof in Ok (maybe_bshift wait (rev out)).

  (** labels/nb.py:57-62 future_min_apply_nb, 66-71 future_max_apply_nb *)
  Definition future_min_apply_nb (close : list T) (window wait : nat) : res (list T) :=
    let! out := rolling_min_1d_nb (rev close) window (Some window) in Ok (maybe_bshift wait (rev out)).
  Definition future_max_apply_nb (close : list T) (window wait : nat) : res (list T) :=
    let! out := rolling_max_1d_nb (rev close) window (Some window) in Ok (maybe_bshift wait (rev out)).

  (** labels/nb.py:75-77 fixed_labels_apply_nb, 81-83 mean_labels_apply_nb *)
  Definition relative_to (out close : list T) : list T :=
    map (fun x => div (sub (fst x) (snd x)) (snd x)) (combine out close).
  Definition fixed_labels_apply_nb (close : list T) (n : nat) : list T := relative_to (bshift_1d_nb close n nan) close.
  Definition mean_labels_apply_nb (close : list T) (window : nat) (ewm : bool) (wait : nat) (adjust : bool) : res (list T) :=
    let! out := future_mean_apply_nb close window ewm wait adjust in Ok (relative_to out close).

  (** labels/nb.py:87-91 get_symmetric_pos_th_nb, 95-97 get_symmetric_neg_th_nb *)
  Definition get_symmetric_pos_th_nb (neg_th : T) : res T := sdiv neg_th (sub one neg_th).
  Definition get_symmetric_neg_th_nb (pos_th : T) : res T := sdiv pos_th (add one pos_th).

  (** ** Local extrema *)
  (** State: out, prev_i, direction. *)
  Record Ext := mkExt { x_out : list Z; x_prev : nat; x_dir : Z }.

  (** labels/nb.py:122-160, one bar of local_extrema_apply_nb *)
  Definition local_extrema_step (close : list T) (pos_th neg_th : nat -> T) (s : Ext) (i : nat) : res Ext :=
    let prev := x_prev s in
    let pt := abs (pos_th prev) in
    let nt := abs (neg_th prev) in
    raise_if (eqb pt zero) (ValueError "Positive threshold cannot be 0")
    (raise_if (eqb nt zero) (ValueError "Negative threshold cannot be 0")
    (let c := nth i close nan in
     let p := nth prev close nan in
     let up := geb c (mul p (add one pt)) in
     let down := leb c (mul p (sub one nt)) in
     let trough := mkExt (upd (x_out s) prev (-1)%Z) i (-1)%Z in
     let peak := mkExt (upd (x_out s) prev 1%Z) i 1%Z in
     let s :=
       if Z.eqb (x_dir s) 1 then
         if ltb c p then mkExt (x_out s) i (x_dir s) else if up then trough else s
       else if Z.eqb (x_dir s) (-1) then
         if gtb c p then mkExt (x_out s) i (x_dir s) else if down then peak else s
       else if up then trough else if down then peak else s in
     Ok (if Nat.eqb i (List.length close - 1) && negb (Z.eqb (x_dir s) 0)
         then mkExt (upd (x_out s) (x_prev s) (- x_dir s)%Z) (x_prev s) (x_dir s) else s))).

  (** labels/nb.py:101-161 local_extrema_apply_nb *)
  Definition local_extrema_apply_nb (close : list T) (pos_th neg_th : nat -> T) : res (list Z) :=
    let! s := foldM (local_extrema_step close pos_th neg_th)
                (mkExt (repeat 0%Z (List.length close)) 0 0%Z) (range 1 (List.length close)) in
    Ok (x_out s).

  (** ** Trend labels *)
  (** np.flatnonzero *)
  Definition flatnonzero (l : list Z) : list nat := filter (fun i => negb (Z.eqb (nth i l 0%Z) 0)) (seq 0 (List.length l)).

  (** The common loop: for every pair of adjacent extrema set the bars from
      the first up to the second (exclusive). *)
  Definition between_extrema (label : nat -> nat -> nat -> res T) (n : nat) (local_extrema : list Z) : res (list T) :=
    let idxs := flatnonzero local_extrema in
    foldM (fun out pq => foldM (fun out i => let! v := label (fst pq) (snd pq) i in Ok (upd out i v))
                           out (range (fst pq) (snd pq)))
      (repeat nan n) (combine idxs (tl idxs)).

  (** labels/nb.py:165-183 bn_trend_labels_nb *)
  Definition bn_trend_labels_nb (close : list T) (local_extrema : list Z) : res (list T) :=
    between_extrema (fun p q _ => Ok (if gtb (nth q close nan) (nth p close nan) then one else zero))
      (List.length close) local_extrema.

  (** labels/nb.py:187-204 bn_cont_trend_labels_nb *)
  Definition bn_cont_trend_labels_nb (close : list T) (local_extrema : list Z) : res (list T) :=
    between_extrema (fun p q i =>
      let! lo := np_min (slice p (Datatypes.S q) close) in
      let! hi := np_max (slice p (Datatypes.S q) close) in
      Ok (sub one (div (sub (nth i close nan) lo) (sub hi lo)))) (List.length close) local_extrema.

  (** labels/nb.py:208-256 bn_cont_sat_trend_labels_nb; the thresholds are
      checked once per pair of extrema, here once per bar between them. *)
  Definition bn_cont_sat_trend_labels_nb (close : list T) (local_extrema : list Z) (pos_th neg_th : nat -> T) : res (list T) :=
    between_extrema (fun p q i =>
      let pt := abs (pos_th p) in
      let nt := abs (neg_th p) in
      raise_if (eqb pt zero) (ValueError "Positive threshold cannot be 0")
      (raise_if (eqb nt zero) (ValueError "Negative threshold cannot be 0")
      (let! lo := np_min (slice p (Datatypes.S q) close) in
       let! hi := np_max (slice p (Datatypes.S q) close) in
       let c := nth i close nan in
       if gtb (nth q close nan) (nth p close nan) then
         let! start := sdiv hi (add one pt) in
         let end_ := mul lo (add one pt) in
         if geb hi end_ && leb c start then Ok one
         else let! r := sdiv (sub c start) (sub hi start) in Ok (sub one r)
       else
         let! start := sdiv lo (sub one nt) in
         let end_ := mul hi (sub one nt) in
         if leb lo end_ && geb c start then Ok zero
         else let! r := sdiv (sub c lo) (sub start lo) in Ok (sub one r))))
      (List.length close) local_extrema.

  (** labels/nb.py:260-279 pct_trend_labels_nb *)
  Definition pct_trend_labels_nb (close : list T) (local_extrema : list Z) (normalize : bool) : res (list T) :=
    between_extrema (fun p q i =>
      let c := nth i close nan in
      let next := nth q close nan in
      if gtb next (nth p close nan) && normalize then sdiv (sub next c) next else sdiv (sub next c) c)
      (List.length close) local_extrema.

  (** labels/enums.py:16-21 TrendMode *)
  Inductive TrendMode := Binary | BinaryCont | BinaryContSat | PctChange | PctChangeNorm.

  (** labels/nb.py:283-302 trend_labels_apply_nb; an unknown mode cannot be written. *)
  Definition trend_labels_apply_nb (close : list T) (pos_th neg_th : nat -> T) (mode : TrendMode) : res (list T) :=
    let! local_extrema := local_extrema_apply_nb close pos_th neg_th in
    match mode with
    | Binary => bn_trend_labels_nb close local_extrema
    | BinaryCont => bn_cont_trend_labels_nb close local_extrema
    | BinaryContSat => bn_cont_sat_trend_labels_nb close local_extrema pos_th neg_th
    | PctChange => pct_trend_labels_nb close local_extrema false
    | PctChangeNorm => pct_trend_labels_nb close local_extrema true
    end.

  (** ** Breakout labels *)
  (** labels/nb.py:327-333, the inner loop *)
  Fixpoint first_breakout (close : list T) (c pt nt : T) (js : list nat) : Z :=
    match js with
    | [] => 0%Z
    | j :: js' =>
        if gtb pt zero && geb (nth j close nan) (mul c (add one pt)) then 1%Z
        else if gtb nt zero && leb (nth j close nan) (mul c (sub one nt)) then (-1)%Z
        else first_breakout close c pt nt js'
    end.

  (** labels/nb.py:306-335 breakout_labels_nb *)
  Definition breakout_labels_nb (close : list T) (window : nat) (pos_th neg_th : nat -> T) (wait : nat) : list Z :=
    map (fun i => first_breakout close (nth i close nan) (abs (pos_th i)) (abs (neg_th i))
                    (range (i + wait) (Nat.min (i + window + wait) (List.length close))))
      (seq 0 (List.length close)).
End Labels.
