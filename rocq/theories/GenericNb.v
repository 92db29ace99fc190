(** * Model of vectorbt/generic/nb.py: filling, shifting, rolling, expanding and
    exponential statistics, ranges, drawdowns, crossovers.

    A one-dimensional array is a list. The two-dimensional versions call the
    one-dimensional ones column by column (or loop over columns outermost) and
    are modelled only where records are numbered across columns. Integer counts
    (nobs, nancnt, window lengths) are exact integers; the code keeps some of
    them in float64, where they are exact up to 2^53. Windows, minimum numbers
    of periods and shifts are natural numbers: negative ones are not modelled. *)
From Coq Require Import ZArith Bool List String.
From Verif Require Import Base Num.
Import ListNotations.
Open Scope string_scope.
Open Scope list_scope.

(** A Python loop [for i in range(len(a))] that carries a state and stores one
    output per iteration. *)
Fixpoint scan {S A B} (f : nat -> S -> A -> S * B) (i : nat) (s : S) (l : list A) : list B :=
  match l with
  | [] => []
  | x :: l' => let (s', b) := f i s x in b :: scan f (Datatypes.S i) s' l'
  end.

Fixpoint scanM {S A B} (f : nat -> S -> A -> res (S * B)) (i : nat) (s : S) (l : list A) : res (list B) :=
  match l with
  | [] => Ok []
  | x :: l' =>
      let! (s', b) := f i s x in
      let! r := scanM f (Datatypes.S i) s' l' in
      Ok (b :: r)
  end.

(** [for j in range(start, stop)] over array elements *)
Definition slice {A} (start stop : nat) (l : list A) : list A := skipn start (firstn stop l).

Section GenericNb.
  Context {T : Type} {N : Num T}.

  (** ** Filling and shifting *)

  (** nb.py:441-452 ffill_1d_nb. [a[0]] of an empty array is not read by the
      loop; [lastval] is then irrelevant. *)
  Definition ffill_step (_ : nat) (lastval x : T) : T * T :=
    if isnan x then (lastval, lastval) else (x, x).
  Definition ffill_1d_nb (a : list T) : list T := scan ffill_step 0 (hd nan a) a.

  (** nb.py:414-428 bfill_1d_nb: the same loop from the last index down; the
      outputs come last index first. *)
  Definition bfill_1d_nb (a : list T) : list T := rev (scan ffill_step 0 (last a nan) (rev a)).

  (** nb.py:224-262 bshift_1d_nb, [n >= 0] *)
  Definition bshift_1d_nb (arr : list T) (n : nat) (fill_value : T) : list T :=
    map (fun i => if Nat.leb (i + n + 1) (List.length arr) then nth (i + n) arr nan else fill_value)
      (seq 0 (List.length arr)).

  (** nb.py:300-335 fshift_1d_nb, [n >= 0] *)
  Definition fshift_1d_nb (arr : list T) (n : nat) (fill_value : T) : list T :=
    map (fun i => if Nat.leb n i then nth (i - n) arr nan else fill_value) (seq 0 (List.length arr)).

  (** nb.py:374-382 diff_1d_nb and nb.py:394-402 pct_change_1d_nb, [n >= 1] *)
  Definition diff_1d_nb (a : list T) (n : nat) : list T :=
    map (fun i => if Nat.ltb i n then nan else sub (nth i a nan) (nth (i - n) a nan)) (seq 0 (List.length a)).
  Definition pct_change_1d_nb (a : list T) (n : nat) : list T :=
    map (fun i => if Nat.ltb i n then nan else sub (div (nth i a nan) (nth (i - n) a nan)) one)
      (seq 0 (List.length a)).

  (** ** Rolling statistics *)

  (** nb.py:652-655 and the like *)
  Definition check_minp {A} (window : nat) (minp : option nat) (k : nat -> res A) : res A :=
    let m := match minp with None => window | Some m => m end in
    raise_if (Nat.ltb window m) (ValueError "minp must be <= window") (k m).

  (** nb.py:660-665, one element of the window *)
  Definition extreme_step (better : T -> T -> bool) (s : T * nat) (x : T) : T * nat :=
    let (minv, cnt) := s in
    if isnan x then s
    else (if isnan minv || better x minv then x else minv, Datatypes.S cnt).

  (** nb.py:657-669, one bar; [better] is [<] for the minimum, [>] for the maximum *)
  Definition rolling_extreme (better : T -> T -> bool) (a : list T) (window minp i : nat) : T :=
    let (minv, cnt) := fold_left (extreme_step better) (slice (Datatypes.S i - window) (Datatypes.S i) a)
                         (nth i a nan, 0) in
    if Nat.ltb cnt minp then nan else minv.

  (** nb.py:648-670 rolling_min_1d_nb *)
  Definition rolling_min_1d_nb (a : list T) (window : nat) (minp : option nat) : res (list T) :=
    check_minp window minp (fun m => Ok (map (rolling_extreme ltb a window m) (seq 0 (List.length a)))).

  (** nb.py:683-705 rolling_max_1d_nb *)
  Definition rolling_max_1d_nb (a : list T) (window : nat) (minp : option nat) : res (list T) :=
    check_minp window minp (fun m => Ok (map (rolling_extreme gtb a window m) (seq 0 (List.length a)))).

  (** nb.py:730-747, one bar of rolling_mean_1d_nb. State: cumsum, nancnt and
      what has been stored in cumsum_arr and nancnt_arr. *)
  Definition rolling_mean_step (window minp : nat) (i : nat) (s : T * Z * list T * list Z) (x : T)
    : res ((T * Z * list T * list Z) * T) :=
    let '(cumsum, nancnt, cumsum_arr, nancnt_arr) := s in
    let nancnt := if isnan x then (nancnt + 1)%Z else nancnt in
    let cumsum := if isnan x then cumsum else add cumsum x in
    let nancnt_arr := nancnt_arr ++ [nancnt] in
    let cumsum_arr := cumsum_arr ++ [cumsum] in
    let (window_len, window_cumsum) :=
      if Nat.ltb i window then ((Z.of_nat i + 1 - nancnt)%Z, cumsum)
      else ((Z.of_nat window - (nancnt - nth (i - window) nancnt_arr 0))%Z,
            sub cumsum (nth (i - window) cumsum_arr zero)) in
    if Z.ltb window_len (Z.of_nat minp) then Ok ((cumsum, nancnt, cumsum_arr, nancnt_arr), nan)
    else let! m := sdiv window_cumsum (ofZ window_len) in
         Ok ((cumsum, nancnt, cumsum_arr, nancnt_arr), m).

  (** nb.py:718-748 rolling_mean_1d_nb *)
  Definition rolling_mean_1d_nb (a : list T) (window : nat) (minp : option nat) : res (list T) :=
    check_minp window minp (fun m => scanM (rolling_mean_step window m) 0 (zero, 0%Z, [], []) a).

  (** Running variance: nobs, mean, m2, compensation, numerically_unstable *)
  Record Var := mkVar { v_nobs : Z; v_mean : T; v_m2 : T }.

  (** nb.py:761-783 _add_var_nb; [tol] is _INV_COND_TOL (nb.py:40). Returns the
      state, the compensation and the flag. The division is by [nobs + 1], which
      is at least one. *)
  Definition add_var_nb (tol : T) (val : T) (v : Var) (compensation : T) (unstable : bool) : Var * T * bool :=
    if isnan val then (v, compensation, unstable)
    else
      let nobs := (v_nobs v + 1)%Z in
      let prev_mean := sub (v_mean v) compensation in
      let y := sub val compensation in
      let delta := sub y (v_mean v) in
      let compensation := sub (add delta (v_mean v)) y in
      let mean := add (v_mean v) (div delta (ofZ nobs)) in
      let m2 := add (v_m2 v) (mul (sub val prev_mean) (sub val mean)) in
      (mkVar nobs mean m2, compensation, if gtb (mul (v_m2 v) tol) m2 then true else unstable).

  (** nb.py:786-812 _remove_var_nb *)
  Definition remove_var_nb (tol : T) (val : T) (v : Var) (compensation : T) (unstable : bool) : Var * T * bool :=
    if isnan val then (v, compensation, unstable)
    else
      let nobs := (v_nobs v - 1)%Z in
      if Z.eqb nobs 0 then (mkVar nobs zero zero, compensation, false)
      else
        let prev_mean := sub (v_mean v) compensation in
        let y := sub val compensation in
        let delta := sub y (v_mean v) in
        let compensation := sub (add delta (v_mean v)) y in
        let mean := sub (v_mean v) (div delta (ofZ nobs)) in
        let m2 := sub (v_m2 v) (mul (sub val prev_mean) (sub val mean)) in
        (mkVar nobs mean m2, compensation, if gtb (mul (v_m2 v) tol) m2 then true else unstable).

  (** nb.py:844-854: recompute the window from scratch. The flag passed along is
      reset afterwards. *)
  Definition recompute_var (tol : T) (xs : list T) : Var * T :=
    let '(v, c, _) := fold_left (fun '(v, c, u) x => add_var_nb tol x v c u) xs (mkVar 0 zero zero, zero, false) in
    (v, c).

  (** nb.py:832-859, one bar of rolling_std_1d_nb. State: running variance, the
      two compensations, the flag. [sqrt] is np.sqrt. *)
  Definition rolling_std_step (sqrt : T -> T) (tol : T) (a : list T) (window minp : nat) (ddof : Z)
      (i : nat) (s : Var * T * T * bool) (x : T) : (Var * T * T * bool) * T :=
    let requires_recompute := Nat.eqb i 0 || Nat.eqb window 0 in
    let s1 :=
      if requires_recompute then s
      else
        let '(v, cadd, crem, u) := s in
        let '(v, crem, u) :=
          if Nat.leb window i then remove_var_nb tol (nth (i - window) a nan) v crem u else (v, crem, u) in
        let '(v, cadd, u) := add_var_nb tol x v cadd u in
        (v, cadd, crem, u) in
    let '(v, cadd, crem, u) := s1 in
    let s2 :=
      if requires_recompute || u then
        let (v, cadd) := recompute_var tol (slice (Datatypes.S i - window) (Datatypes.S i) a) in
        (v, cadd, zero, false)
      else s1 in
    let '(v, cadd, crem, u) := s2 in
    (s2, if (Z.of_nat minp <=? v_nobs v)%Z && (ddof <? v_nobs v)%Z
         then sqrt (div (v_m2 v) (ofZ (v_nobs v - ddof))) else nan).

  (** nb.py:816-860 rolling_std_1d_nb *)
  Definition rolling_std_1d_nb (sqrt : T -> T) (tol : T) (a : list T) (window : nat) (minp : option nat) (ddof : Z)
    : res (list T) :=
    check_minp window minp (fun m =>
      Ok (scan (rolling_std_step sqrt tol a window (Nat.max m 1) ddof) 0 (mkVar 0 zero zero, zero, zero, false) a)).

  (** ** Expanding statistics *)

  (** nb.py:1025-1033, one bar of expanding_min_1d_nb *)
  Definition expanding_extreme_step (better : T -> T -> bool) (minp : nat) (_ : nat) (s : T * nat) (x : T)
    : (T * nat) * T :=
    let (minv, cnt) := s in
    let minv := if isnan minv || better x minv then x else minv in
    let cnt := if isnan x then cnt else Datatypes.S cnt in
    ((minv, cnt), if Nat.ltb cnt minp then nan else minv).

  (** nb.py:1018-1034 expanding_min_1d_nb, nb.py:1047-1063 expanding_max_1d_nb *)
  Definition expanding_min_1d_nb (a : list T) (minp : nat) : list T :=
    scan (expanding_extreme_step ltb minp) 0 (hd nan a, 0) a.
  Definition expanding_max_1d_nb (a : list T) (minp : nat) : list T :=
    scan (expanding_extreme_step gtb minp) 0 (hd nan a, 0) a.

  (** nb.py:1076-1080 expanding_mean_1d_nb *)
  Definition expanding_mean_1d_nb (a : list T) (minp : nat) : res (list T) :=
    rolling_mean_1d_nb a (List.length a) (Some minp).

  (** nb.py:1090-1094 expanding_std_1d_nb *)
  Definition expanding_std_1d_nb (sqrt : T -> T) (tol : T) (a : list T) (minp : nat) (ddof : Z) : res (list T) :=
    rolling_std_1d_nb sqrt tol a (List.length a) (Some minp) ddof.

  (** ** Exponential mean *)

  (** nb.py:897-913, one bar. State: weighted_avg, nobs, old_wt. *)
  Definition ewm_mean_step (old_wt_factor new_wt : T) (adjust : bool) (minp : nat) (_ : nat)
      (s : T * nat * T) (cur : T) : res ((T * nat * T) * T) :=
    let '(weighted_avg, nobs, old_wt) := s in
    let is_observation := eqb cur cur in
    let nobs := if is_observation then Datatypes.S nobs else nobs in
    let! (weighted_avg, old_wt) :=
      if eqb weighted_avg weighted_avg then
        let old_wt := mul old_wt old_wt_factor in
        if is_observation then
          let! weighted_avg :=
            if neb weighted_avg cur then
              sdiv (add (mul old_wt weighted_avg) (mul new_wt cur)) (add old_wt new_wt)
            else Ok weighted_avg in
          Ok (weighted_avg, if adjust then add old_wt new_wt else one)
        else Ok (weighted_avg, old_wt)
      else if is_observation then Ok (cur, old_wt)
      else Ok (weighted_avg, old_wt) in
    Ok ((weighted_avg, nobs, old_wt), if Nat.leb minp nobs then weighted_avg else nan).

  (** nb.py:873-914 ewm_mean_1d_nb; [span] a natural number *)
  Definition ewm_mean_1d_nb (a : list T) (span : nat) (minp : option nat) (adjust : bool) : res (list T) :=
    let m := match minp with None => span | Some m => m end in
    raise_if (Nat.ltb span m) (ValueError "minp must be <= span") (
    match a with
    | [] => Ok []
    | a0 :: a' =>
        let com := div (ofZ (Z.of_nat span - 1)) two in
        let! alpha := sdiv one (add one com) in
        let old_wt_factor := sub one alpha in
        let new_wt := if adjust then one else alpha in
        let nobs := if eqb a0 a0 then 1 else 0 in
        let out0 := if Nat.leb m nobs then a0 else nan in
        let! r := scanM (ewm_mean_step old_wt_factor new_wt adjust m) 1 (a0, nobs, one) a' in
        Ok (out0 :: r)
    end).

  (** ** Ranges *)

  Inductive RangeStatus := RangeOpen | RangeClosed.
  Record RangeRec := mkRange {
    rg_id : nat; rg_col : nat; rg_start : Z; rg_end : Z; rg_status : RangeStatus }.

  (** nb.py:1686 *)
  Definition is_gap (gap_value x : T) : bool := eqb x gap_value || isnan x && isnan gap_value.

  (** nb.py:1683-1722, one bar of one column. State: range_started, start_idx,
      records so far (store_record, end_idx and status do not outlive the bar). *)
  Definition find_ranges_step (gap_value : T) (n col : nat) (s : bool * Z * list RangeRec) (ix : nat * T)
    : bool * Z * list RangeRec :=
    let '(started, start_idx, recs) := s in
    let (i, cur_val) := ix in
    let store st e := recs ++ [mkRange (List.length recs) col start_idx e st] in
    if is_gap gap_value cur_val then
      if started then (false, start_idx, store RangeClosed (Z.of_nat i)) else s
    else
      let start_idx := if started then start_idx else Z.of_nat i in
      if Nat.eqb (Datatypes.S i) n then
        (false, start_idx,
         recs ++ [mkRange (List.length recs) col start_idx (Z.of_nat n - 1) RangeOpen])
      else (true, start_idx, recs).

  Definition enumerate {A} (a : list A) : list (nat * A) := combine (seq 0 (List.length a)) a.

  (** nb.py:1676-1722, one column *)
  Definition find_ranges_col (gap_value : T) (recs : list RangeRec) (col : nat) (ts : list T) : list RangeRec :=
    snd (fold_left (find_ranges_step gap_value (List.length ts) col) (enumerate ts) (false, (-1)%Z, recs)).

  (** nb.py:1649-1724 find_ranges_nb; the array is the list of its columns *)
  Definition find_ranges_nb (gap_value : T) (ts : list (list T)) : list RangeRec :=
    fold_left (fun recs '(col, c) => find_ranges_col gap_value recs col c) (enumerate ts) [].

  (** nb.py:1729-1737 range_duration_nb *)
  Definition range_duration_nb (r : RangeRec) : Z :=
    match rg_status r with
    | RangeOpen => rg_end r - rg_start r + 1
    | RangeClosed => rg_end r - rg_start r
    end.

  (** The bars a record is drawn on: nb.py:1774-1777 and nb.py:1807-1810 *)
  Definition in_range (r : RangeRec) (i : nat) : bool :=
    (rg_start r <=? Z.of_nat i)%Z &&
    match rg_status r with
    | RangeOpen => (Z.of_nat i <? rg_end r + 1)%Z
    | RangeClosed => (Z.of_nat i <? rg_end r)%Z
    end.

  (** nb.py:1786-1812 ranges_to_mask_nb, one column (records of that column) *)
  Definition ranges_to_mask_nb (recs : list RangeRec) (index_len : nat) : list bool :=
    fold_left (fun out r => map (fun '(i, b) => if in_range r i then true else b) (enumerate out))
      recs (repeat false index_len).

  (** nb.py:1741-1783 range_coverage_nb, one column (records of that column,
      at least one), [normalize=False] *)
  Definition range_coverage_nb (recs : list RangeRec) (index_len : nat) (overlapping : bool) : nat :=
    let temp := fold_left (fun out r => map (fun '(i, k) => if in_range r i then Datatypes.S k else k) (enumerate out))
                  recs (repeat 0 index_len) in
    List.length (filter (fun k => if overlapping then Nat.ltb 1 k else Nat.ltb 0 k) temp).

  (** ** Drawdowns *)

  Inductive DrawdownStatus := Active | Recovered.
  Record DrawdownRec := mkDD {
    dd_id : nat; dd_col : nat; dd_peak_idx : Z; dd_start_idx : Z; dd_valley_idx : Z; dd_end_idx : Z;
    dd_peak_val : T; dd_valley_val : T; dd_end_val : T; dd_status : DrawdownStatus }.

  Record DDState := mkDDS {
    ds_started : bool; ds_peak_idx : Z; ds_valley_idx : Z; ds_peak_val : T; ds_valley_val : T;
    ds_recs : list DrawdownRec }.

  (** nb.py:1858-1915, one bar of one column *)
  Definition drawdown_step (n col : nat) (s : DDState) (ix : nat * T) : DDState :=
    let (i, cur_val) := ix in
    let zi := Z.of_nat i in
    if isnan cur_val then s
    else
      (* 1862-1885 *)
      let '(started, peak_idx, valley_idx, peak_val, valley_val, store) :=
        if isnan (ds_peak_val s) || geb cur_val (ds_peak_val s) then
          if negb (ds_started s) then
            (false, zi, ds_valley_idx s, cur_val, ds_valley_val s, None)
          else if geb cur_val (ds_peak_val s) then
            (false, ds_peak_idx s, ds_valley_idx s, ds_peak_val s, ds_valley_val s, Some Recovered)
          else (ds_started s, ds_peak_idx s, ds_valley_idx s, ds_peak_val s, ds_valley_val s, None)
        else
          if negb (ds_started s) then
            (true, ds_peak_idx s, zi, ds_peak_val s, cur_val, None)
          else if ltb cur_val (ds_valley_val s) then
            (true, ds_peak_idx s, zi, ds_peak_val s, cur_val, None)
          else (true, ds_peak_idx s, ds_valley_idx s, ds_peak_val s, ds_valley_val s, None) in
      (* 1887-1891 *)
      let '(started, store) :=
        if Nat.eqb (Datatypes.S i) n && started then (false, Some Active) else (started, store) in
      (* 1893-1915 *)
      match store with
      | Some st =>
          mkDDS started zi zi cur_val cur_val
            (ds_recs s ++ [mkDD (List.length (ds_recs s)) col peak_idx (peak_idx + 1) valley_idx zi
                              peak_val valley_val cur_val st])
      | None => mkDDS started peak_idx valley_idx peak_val valley_val (ds_recs s)
      end.

  (** nb.py:1849-1915, one column *)
  Definition drawdowns_col (recs : list DrawdownRec) (col : nat) (ts : list T) : list DrawdownRec :=
    ds_recs (fold_left (drawdown_step (List.length ts) col) (enumerate ts)
               (mkDDS false (-1) (-1) (hd nan ts) (hd nan ts) recs)).

  (** nb.py:1817-1917 get_drawdowns_nb; the array is the list of its columns *)
  Definition get_drawdowns_nb (ts : list (list T)) : list DrawdownRec :=
    fold_left (fun recs '(col, c) => drawdowns_col recs col c) (enumerate ts) [].

  (** nb.py:1920-1957: dd_drawdown_nb, dd_decline_duration_nb, dd_recovery_duration_nb *)
  Definition dd_drawdown_nb (r : DrawdownRec) : T := div (sub (dd_valley_val r) (dd_peak_val r)) (dd_peak_val r).
  Definition dd_decline_duration_nb (r : DrawdownRec) : Z := (dd_valley_idx r - dd_start_idx r + 1)%Z.
  Definition dd_recovery_duration_nb (r : DrawdownRec) : Z := (dd_end_idx r - dd_valley_idx r)%Z.

  (** ** Crossovers *)

  (** nb.py:1966-1984, one bar of crossed_above_1d_nb. State: was_below, crossed_ago. *)
  Definition crossed_step (wait : nat) (_ : nat) (s : bool * Z) (x : T * T) : (bool * Z) * bool :=
    let (was_below, crossed_ago) := s in
    let (x1, x2) := x in
    if isnan x1 || isnan x2 then ((false, (-1)%Z), false)
    else if gtb x1 x2 then
      if was_below then ((was_below, (crossed_ago + 1)%Z), (crossed_ago + 1 =? Z.of_nat wait)%Z)
      else ((was_below, crossed_ago), false)
    else if eqb x1 x2 then ((was_below, (-1)%Z), false)
    else ((true, (-1)%Z), false).

  (** nb.py:1960-1985 crossed_above_1d_nb; arrays of equal length *)
  Definition crossed_above_1d_nb (arr1 arr2 : list T) (wait : nat) : list bool :=
    scan (crossed_step wait) 0 (false, (-1)%Z) (combine arr1 arr2).
End GenericNb.
Arguments Var T : clear implicits.
Arguments DrawdownRec T : clear implicits.
Arguments DDState T : clear implicits.
