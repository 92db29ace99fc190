(** * C87-C89: data sets of several symbols *)
From Coq Require Import String ZArith QArith Bool List Arith.
From Verif Require Import Base Num Dicts Data DataSpec DataLemmas DataLemmas2 DataLemmas3 DataLemmas4 DataLemmas5 DataLemmas6.
Import ListNotations.
Local Open Scope string_scope.
Local Open Scope list_scope.
Local Open Scope nat_scope.

(** ** C87 *)
Theorem C87_symbols_share_rows_and_columns : forall (T : Type) (N : Num T) (sources : list (string * raw)) loc conv mi mc d,
  NoDup (map fst sources) -> from_data sources loc conv mi mc = Ok d ->
  exists objs, map fst objs = map fst sources /\
    (forall s r o, In (s, r) sources -> In (s, o) objs -> read_as loc conv 0 r o) /\
    (all_proper objs -> lossless mc (map snd objs) ->
     exists rs cs, joined mi (map (fun kv => rows (snd kv)) objs) rs /\ joined mc (map (fun kv => columns (snd kv)) objs) cs /\
       consistent d /\ d_index d = rs /\ map fst (d_data d) = map fst sources /\
       forall s o p, In (s, o) objs -> In (s, p) (d_data d) -> shows o p rs cs).
Proof. exact (fun T N => @from_data_by_symbol T N). Qed.
Print Assumptions C87_symbols_share_rows_and_columns.

Theorem C87_nothing_refused_without_need : forall (T : Type) (N : Num T) (objs : list (string * obj)) mi mc,
  objs <> [] -> NoDup (map fst objs) -> all_proper objs -> lossless mc (map snd objs) ->
  (mi = MNan \/ mi = MDrop) \/
    (forall x y, In x (map (fun kv => rows (snd kv)) objs) -> In y (map (fun kv => rows (snd kv)) objs) -> same_set x y) ->
  (mc = MNan \/ (mc = MDrop /\ exists s o, In (s, o) objs /\ ~ series o)) \/
    (forall x y, In x (map (fun kv => columns (snd kv)) objs) -> In y (map (fun kv => columns (snd kv)) objs) -> same_set x y) ->
  exists d, from_data (map (fun kv => (fst kv, Pandas (snd kv))) objs) None None mi mc = Ok d.
Proof. exact (fun T N => @from_data_total T N). Qed.
Print Assumptions C87_nothing_refused_without_need.

Theorem C87_download : forall (T : Type) (N : Num T) (V : Type) (download_symbol : string -> list (string * V) -> res raw)
    symbols kwargs loc conv mi mc d,
  download download_symbol symbols kwargs loc conv mi mc = Ok d ->
  exists sources, NoDup (map fst sources) /\ (forall s, In s (map fst sources) <-> In s symbols) /\
    (forall s r, In (s, r) sources -> download_symbol s (select_symbol_kwargs s kwargs) = Ok r) /\
    from_data sources loc conv mi mc = Ok d.
Proof. exact (fun T N V => @download_sources T N V). Qed.
Print Assumptions C87_download.

Theorem C87_keyword_arguments : forall (V : Type) (symbol k : string) (v : V) (kwargs : list (string * kwarg V)),
  In (k, v) (select_symbol_kwargs symbol kwargs) <->
  In (k, ForAll v) kwargs \/ exists d, In (k, PerSymbol d) kwargs /\ dict_get d symbol = Some v.
Proof. exact (fun V s k v kw => @selected V s k v kw). Qed.
Print Assumptions C87_keyword_arguments.

(** two Series under different names, differing columns to be filled with NaN: the second symbol
    keeps none of its values *)
Theorem C87_values_under_another_name_refuted :
  exists (a b : @obj XQ) d p,
    proper a /\ proper b /\ entry b (Name "y") (Number 0) (Fin 2) /\
    from_data (N := XQnum) [("A", Pandas a); ("B", Pandas b)] None None MNan MNan = Ok d /\
    In ("B", p) (d_data d) /\ forall c r v, entry p c r v -> v = NaN.
Proof.
  exists (Series (Some (Name "x")) [Number 0] [Fin 1]), (Series (Some (Name "y")) [Number 0] [Fin 2]). eexists. eexists.
  split; [cbn; repeat constructor; easy|]. split; [cbn; repeat constructor; easy|].
  split; [cbn; split; [reflexivity|exists 0; auto]|]. split; [vm_compute; reflexivity|]. split; [right; left; reflexivity|].
  cbn. intros c r v (_ & [|[|k]] & H1 & H2); cbn in *; congruence.
Qed.
Print Assumptions C87_values_under_another_name_refuted.

Definition sample_a : @obj XQ := DataFrame [Clock 10; Clock 20; Clock 30] [(Name "close", [Fin 1; Fin 2; Fin 3]); (Name "open", [Fin 4; Fin 5; Fin 6])].
Definition sample_b : @obj XQ := DataFrame [Clock 15; Clock 20; Clock 30] [(Name "open", [Fin 7; Fin 8; Fin 9]); (Name "close", [Fin 10; Fin 11; Fin 12])].
Example C87_nonvacuous :
  proper sample_a /\ proper sample_b /\
  from_data (N := XQnum) [("A", Pandas sample_a); ("B", Pandas sample_b)] (Some (fun t => Ok (t - 5)%Z)) None MNan MRaise =
    Ok (mkData [("A", DataFrame [Instant 5; Instant 10; Instant 15; Instant 25]
                        [(Name "close", [Fin 1; NaN; Fin 2; Fin 3]); (Name "open", [Fin 4; NaN; Fin 5; Fin 6])]);
                ("B", DataFrame [Instant 5; Instant 10; Instant 15; Instant 25]
                        [(Name "close", [NaN; Fin 10; Fin 11; Fin 12]); (Name "open", [NaN; Fin 7; Fin 8; Fin 9])])]
          [Instant 5; Instant 10; Instant 15; Instant 25] (Some (fun t => Ok (t - 5)%Z)) None MNan MRaise) /\
  option_map index_of (match from_data (N := XQnum) [("A", Pandas sample_a); ("B", Pandas sample_b)] None None MDrop MRaise with
                       | Ok d => option_map snd (hd_error (d_data d)) | Err _ => None end) = Some [Clock 20; Clock 30] /\
  from_data (N := XQnum) [("A", Pandas sample_a); ("B", Pandas sample_b)] None None MRaise MRaise = Err (ValueError "Symbols have mismatching index").
Proof.
  assert (P : forall o : @obj XQ, match o with DataFrame i cols => has_dups i || has_dups (map fst cols) || negb (forallb (fun c => Nat.eqb (List.length (snd c)) (List.length i)) cols) | _ => true end = false -> proper o).
  { intros [n i vs|i cols] H; [discriminate|]. apply orb_false_iff in H. destruct H as [H H3]. apply orb_false_iff in H. destruct H as [H1 H2].
    cbn. split; [now apply has_dups_NoDup|]. split; [now apply has_dups_NoDup|]. intros c vs Hi. apply negb_false_iff in H3. rewrite forallb_forall in H3.
    specialize (H3 _ Hi). now apply Nat.eqb_eq in H3. }
  split; [now apply P|]. split; [now apply P|]. split; [vm_compute; reflexivity|]. split; vm_compute; reflexivity.
Qed.

(** ** C88 *)
Theorem C88_update : forall (T : Type) (N : Num T) (V : Type) (d d' : data) (update_symbol : string -> list (string * V) -> res raw) kwargs,
  consistent d -> update d update_symbol kwargs = Ok d' ->
  exists news, map fst news = map fst (d_data d) /\
    (forall s o n, In (s, o) (d_data d) -> In (s, n) news ->
       exists r, update_symbol s (select_symbol_kwargs s kwargs) = Ok r /\ received (d_localize d) (d_convert d) o r n) /\
    (all_proper news -> lossless (d_missing_columns d) (map snd news) ->
     (forall s o n, In (s, o) (d_data d) -> In (s, n) news -> series o -> incl (columns o) (columns n)) ->
     exists rs, joined (d_missing_index d) (map (fun kv => rows (snd kv)) news) rs /\ consistent d' /\
       map fst (d_data d') = map fst (d_data d) /\
       forall s o n p, In (s, o) (d_data d) -> In (s, n) news -> In (s, p) (d_data d') -> after_update o n rs p).
Proof. exact (fun T N V => @update_ok T N V). Qed.
Print Assumptions C88_update.

(** an old value stays, or the symbol's own new value takes its place, unless rows missing from some
    symbols are filled with NaN *)
Theorem C88_no_value_lost : forall (T : Type) (N : Num T) missing (old new p : obj) rs ls,
  joined missing ls rs -> In (rows new) ls -> (missing <> MNan \/ ls = [rows new]) ->
  incl (columns old) (columns new) -> after_update old new rs p -> proper new ->
  forall c r v, entry old c r v -> entry p c r v \/ exists w, entry new c r w /\ entry p c r w.
Proof. exact (fun T N => @no_value_lost T N). Qed.
Print Assumptions C88_no_value_lost.

Definition ones : @obj XQ := Series None [Number 0; Number 1; Number 2] [Fin 1; Fin 1; Fin 1].
Definition held_data : @data XQ := mkData [("A", ones); ("B", ones)] [Number 0; Number 1; Number 2] None None MNan MRaise.
Definition news_of (s : string) (_ : list (string * nat)) : res (@raw XQ) :=
  if String.eqb s "A" then Ok (Pandas (Series None [Number 1; Number 2; Number 3] [Fin 2; Fin 2; Fin 2])) else Ok (Pandas (Series None [Number 3] [Fin 5])).
(** with NaN-filling, the default: updating "B" brings only bar 3, yet its known values of bars 1 and 2 are gone *)
Theorem C88_known_values_overwritten_refuted :
  consistent held_data /\ entry ones (Number 0) (Number 1) (Fin 1) /\
  exists d' p, update (N := XQnum) held_data news_of [] = Ok d' /\ In ("B", p) (d_data d') /\
    rows p = [Number 0; Number 1; Number 2; Number 3] /\ entry p (Number 0) (Number 1) NaN /\
    ~ exists v, In v [Fin 1; Fin 5] /\ entry p (Number 0) (Number 1) v.
Proof.
  split; [|split].
  - split; [discriminate|]. cbn. split; [apply (NoDup_cons _ (l := ["B"])); [intros [H|[]]; discriminate|repeat constructor; easy]|]. split.
    + intros s o [H|[H|[]]]; injection H as <- <-; (split; [|reflexivity]); (split; [now apply has_dups_NoDup|reflexivity]).
    + intros s o t p [H|[H|[]]] [H'|[H'|[]]]; injection H as <- <-; injection H' as <- <-; (split; [reflexivity|cbn; tauto]).
  - split; [reflexivity|]. exists 1. auto.
  - eexists. eexists. split; [vm_compute; reflexivity|]. split; [right; left; reflexivity|]. split; [reflexivity|]. split.
    + split; [reflexivity|]. exists 1. auto.
    + intros (v & [<-|[<-|[]]] & _ & k & H1 & H2); do 4 (destruct k as [|k]; [cbn in *; congruence|]); destruct k; discriminate.
Qed.
Print Assumptions C88_known_values_overwritten_refuted.

Definition three : @data XQ := mkData [("A", Series None [Number 0; Number 1] [Fin 1; Fin 2])] [Number 0; Number 1] None None MNan MRaise.
Example C88_nonvacuous :
  (* an array replaces the last row and goes on *)
  update (N := XQnum) three (fun _ (_ : list (string * nat)) => Ok (Array1 [Fin 3; Fin 4])) [] =
    Ok (mkData [("A", Series None [Number 0; Number 1; Number 2] [Fin 1; Fin 3; Fin 4])] [Number 0; Number 1; Number 2] None None MNan MRaise) /\
  (* frames, dropping what one symbol lacks; columns in the old order *)
  (match from_data (N := XQnum) [("A", Pandas sample_a); ("B", Pandas sample_b)] None None MDrop MRaise with
   | Ok d => update (N := XQnum) d (fun s (_ : list (string * nat)) =>
       if String.eqb s "A" then Ok (Pandas (DataFrame [Clock 30; Clock 40] [(Name "open", [Fin 20; Fin 21]); (Name "close", [Fin 22; Fin 23])]))
       else Ok (Pandas (DataFrame [Clock 40; Clock 50] [(Name "close", [Fin 30; Fin 31]); (Name "open", [Fin 32; Fin 33])]))) []
   | Err e => Err e end) =
    Ok (mkData [("A", DataFrame [Clock 20; Clock 30; Clock 40] [(Name "close", [Fin 2; Fin 3; Fin 23]); (Name "open", [Fin 5; Fin 6; Fin 21])]);
                ("B", DataFrame [Clock 20; Clock 30; Clock 40] [(Name "close", [Fin 11; Fin 12; Fin 30]); (Name "open", [Fin 8; Fin 9; Fin 32])])]
          [Clock 20; Clock 30; Clock 40] None None MDrop MRaise).
Proof. split; vm_compute; reflexivity. Qed.

(** ** C89 *)
Theorem C89_one_frame_per_column : forall (T : Type) (N : Num T) (d : data), consistent d ->
  exists frames, concat d = Ok frames /\
    (forall s o, In (s, o) (d_data d) -> map (fun x => key (fst x)) frames = columns o) /\
    forall c f, In (c, f) frames -> side_by_side d (key c) f /\ (series f <-> List.length (d_data d) = 1).
Proof. exact (fun T N => @concat_ok T N). Qed.
Print Assumptions C89_one_frame_per_column.

Theorem C89_get_a_column : forall (T : Type) (N : Num T) (d : data) c, consistent d -> List.length (d_data d) >= 2 ->
  (forall s o, In (s, o) (d_data d) -> ~ series o /\ List.length (columns o) >= 2) ->
  (forall s o, In (s, o) (d_data d) -> In c (columns o)) ->
  exists f, get d (Some c) = Ok (One f) /\ side_by_side d c f.
Proof. exact (fun T N => @get_column T N). Qed.
Print Assumptions C89_get_a_column.

(** symbols of one column: that column of all symbols, whatever column is asked for, unless it is the
    name of a symbol *)
Theorem C89_get_the_only_column : forall (T : Type) (N : Num T) (d : data) c0, consistent d -> List.length (d_data d) >= 2 ->
  (forall s o, In (s, o) (d_data d) -> columns o = [c0]) ->
  exists f, get d None = Ok (One f) /\ side_by_side d c0 f /\
    (forall c, (forall s, c = Name s -> ~ In s (map fst (d_data d))) -> get d (Some c) = Ok (One f)) /\
    forall s o, In (s, o) (d_data d) ->
      exists g, get d (Some (Name s)) = Ok (One g) /\ rows g = d_index d /\ forall r v, entry g (Name s) r v <-> entry o c0 r v.
Proof. exact (fun T N => @get_only_column T N). Qed.
Print Assumptions C89_get_the_only_column.

Example C89_nonvacuous :
  (match from_data (N := XQnum) [("A", Pandas sample_a); ("B", Pandas sample_b)] None None MDrop MRaise with
   | Ok d => get (N := XQnum) d (Some (Name "open"))
   | Err e => Err e end) = Ok (One (DataFrame [Clock 20; Clock 30] [(Name "A", [Fin 5; Fin 6]); (Name "B", [Fin 8; Fin 9])])) /\
  get (N := XQnum) held_data None = Ok (One (DataFrame [Number 0; Number 1; Number 2] [(Name "A", [Fin 1; Fin 1; Fin 1]); (Name "B", [Fin 1; Fin 1; Fin 1])])) /\
  (* one symbol: its own object, or one of its columns *)
  get (N := XQnum) three None = Ok (One (Series None [Number 0; Number 1] [Fin 1; Fin 2])) /\
  get (N := XQnum) (mkData [("A", sample_a)] [Clock 10; Clock 20; Clock 30] None None MNan MRaise) (Some (Name "close")) =
    Ok (One (Series (Some (Name "close")) [Clock 10; Clock 20; Clock 30] [Fin 1; Fin 2; Fin 3])) /\
  get (N := XQnum) (mkData [("A", sample_a); ("B", sample_a)] [Clock 10; Clock 20; Clock 30] None None MNan MRaise) (Some (Name "high")) = Err (KeyError "column").
Proof. repeat split; vm_compute; reflexivity. Qed.
