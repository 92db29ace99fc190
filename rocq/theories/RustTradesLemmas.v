(** * Trade and position records of the two engines *)
From Coq Require Import ZArith Bool List String Lia.
From Verif Require Import Base Num MathNb Order OrdLaws RustOrder RustLemmas Account Replay Trades
  RustTrades RustTradesSpec.
Import ListNotations.
Open Scope list_scope.

(** Numba divides by zero, or both give related results or the same error. *)
Definition sim {A B} (Rel : A -> B -> Prop) (nb : res A) (rs : res B) : Prop :=
  nb = Err ZeroDivision \/
  match nb, rs with
  | Ok a, Ok b => Rel a b
  | Err e, Err e' => e' = trade_error e
  | _, _ => False
  end.

Lemma sim_ok : forall A B (Rel : A -> B -> Prop) a b, Rel a b -> sim Rel (Ok a) (Ok b).
Proof. intros. right. auto. Qed.

Lemma sim_bind : forall A B A' B' (Rel : A -> B -> Prop) (Rel' : A' -> B' -> Prop) nb rs f g,
  sim Rel nb rs -> (forall a b, Rel a b -> sim Rel' (f a) (g b)) ->
  sim Rel' (let! a := nb in f a) (let! b := rs in g b).
Proof.
  intros A B A' B' Rel Rel' nb rs f g [H|H] Hf.
  - left. rewrite H. reflexivity.
  - destruct nb, rs; cbn [bind] in *; try contradiction; auto. right. auto.
Qed.

Lemma sim_foldM : forall A B X (Rel : A -> B -> Prop) (f : A -> X -> res A) (g : B -> X -> res B) l,
  (forall a b x, In x l -> Rel a b -> sim Rel (f a x) (g b x)) ->
  forall a b, Rel a b -> sim Rel (foldM f a l) (foldM g b l).
Proof.
  intros A B X Rel f g l. induction l as [|x l IH]; intros H a b Hab; cbn [foldM].
  - apply sim_ok. auto.
  - apply (sim_bind _ _ _ _ Rel).
    + apply H; [left; auto|auto].
    + intros. apply IH; auto. intros. apply H; [right; auto|auto].
Qed.

Lemma sim_outcome : forall A (nb rs : res A), sim eq nb rs -> nb <> Err ZeroDivision -> rs = trade_outcome nb.
Proof.
  intros A nb rs [H|H] Hz; [contradiction|].
  destruct nb, rs; try contradiction; subst; auto.
Qed.

Section Agree.
  Context {T : Type} {N : Num T} {R : RustOps T} {L : RustLaws N R}.

  Lemma sim_sdiv : forall A B (Rel : A -> B -> Prop) (a b : T) (f : T -> res A) rs,
    sim Rel (f (div a b)) rs -> sim Rel (let! x := sdiv a b in f x) rs.
  Proof.
    intros A B Rel a b f rs H. unfold sdiv. destruct (eqb b zero).
    - left. reflexivity.
    - exact H.
  Qed.

  Lemma trade_stats_sim : forall A B (Rel : A -> B -> Prop) (size ep ef xp xf : T) dir (f : T * T -> res A) rs,
    sim Rel (f (rs_get_trade_stats size ep ef xp xf dir)) rs ->
    sim Rel (let! x := get_trade_stats_nb size ep ef xp xf dir in f x) rs.
  Proof.
    intros A B Rel size ep ef xp xf dir f rs H. unfold get_trade_stats_nb.
    unfold rs_get_trade_stats in H. rewrite rs_add_eq in H. cbv zeta in *.
    unfold sdiv. destruct (eqb (mul size ep) zero) eqn:E; [left; reflexivity|]. cbn [bind].
    destruct dir; destruct (neb _ zero); cbn [andb] in *; exact H.
  Qed.

  Lemma fill_sim : forall A B (Rel : A -> B -> Prop) id col (size : T) ei ep ef xi xp xf dir st par
      (f : TradeRec T -> res A) rs,
    (forall pnl ret, rs_get_trade_stats size ep ef xp xf dir = (pnl, ret) ->
       sim Rel (f (mkTradeRec id col size ei ep ef xi xp xf pnl ret dir st par)) rs) ->
    sim Rel (let! x := fill_trade_record_nb id col size ei ep ef xi xp xf dir st par in f x) rs.
  Proof.
    intros A B Rel id col size ei ep ef xi xp xf dir st par f rs H. unfold fill_trade_record_nb.
    pose proof (trade_stats_sim A B Rel size ep ef xp xf dir
      (fun x => let '(pnl, ret) := x in f (mkTradeRec id col size ei ep ef xi xp xf pnl ret dir st par)) rs) as K.
    destruct (get_trade_stats_nb size ep ef xp xf dir) as [[pnl ret]|e]; cbn [bind] in *;
      apply K; destruct (rs_get_trade_stats size ep ef xp xf dir) as [pnl' ret'] eqn:E; apply H; auto.
  Qed.

  Lemma push_eq : forall records col (size : T) ei ep ef xi xp xf dir st par pnl ret,
    rs_get_trade_stats size ep ef xp xf dir = (pnl, ret) ->
    rs_push records col size ei ep ef xi xp xf dir st par =
    records ++ [mkTradeRec (List.length records) col size ei ep ef xi xp xf pnl ret dir st par].
  Proof. intros. unfold rs_push. rewrite H. reflexivity. Qed.

  Lemma check_sim : forall A B (Rel : A -> B -> Prop) last (r : OrderRec T) (k : res A) (k' : res B),
    sim Rel k k' -> sim Rel (check_record last r k) (rs_check_record last r k').
  Proof.
    intros. unfold check_record, rs_check_record, check_id, raise_if.
    destruct (Z.ltb _ _); [right; reflexivity|].
    destruct (leb (or_size r) zero); [right; reflexivity|].
    destruct (leb (or_price r) zero); [right; reflexivity|]. auto.
  Qed.

  (** ** Exit trades *)

  Definition xrel (a : XState T) (b : RX T) : Prop :=
    xs_last a = rx_last b /\ xs_parent a = rx_parent b /\ xs_out a = rx_out b /\
    xs_tidx a = List.length (rx_out b) /\
    xs_pos a = if rx_in b then Some (mkXPos (rx_entry_idx b) (rx_dir b) (rx_size b) (rx_gross b) (rx_fees b))
               else None.

  Lemma exit_trade_sim : forall A B (Rel : A -> B -> Prop) tidx col (p : XPos T) size xi xp xf st par
      (f : TradeRec T -> res A) rs,
    (forall pnl ret,
       rs_get_trade_stats size (div (xp_gross p) (xp_size p)) (mul (div size (xp_size p)) (xp_fees p)) xp xf (xp_dir p)
         = (pnl, ret) ->
       sim Rel (f (mkTradeRec tidx col size (xp_entry_idx p) (div (xp_gross p) (xp_size p))
                     (mul (div size (xp_size p)) (xp_fees p)) xi xp xf pnl ret (xp_dir p) st par)) rs) ->
    sim Rel (let! x := exit_trade tidx col p size xi xp xf st par in f x) rs.
  Proof.
    intros A B Rel tidx col p size xi xp xf st par f rs H. unfold exit_trade, sdiv.
    destruct (eqb (xp_size p) zero); [left; reflexivity|]. cbn [bind].
    apply fill_sim. auto.
  Qed.

  Lemma exit_step_sim : forall col a b (r : OrderRec T), xrel a b ->
    sim xrel (exit_step col a r) (rs_exit_step col b r).
  Proof.
    intros col a b r (H1 & H2 & H3 & H4 & H5).
    unfold exit_step, rs_exit_step. rewrite H1. apply check_sim.
    rewrite H5, H2, H3, H4. clear H1 H2 H3 H4 H5 a.
    assert (K : exists e d sz gr fe par,
      (if rx_in b
       then mkRX (Z.of_nat (or_id r)) true (rx_dir b) (rx_entry_idx b) (rx_size b) (rx_gross b)
              (rx_fees b) (rx_parent b) (rx_out b)
       else mkRX (Z.of_nat (or_id r)) true (opened_dir r) (or_idx r) zero zero zero (rx_parent b + 1)%Z (rx_out b))
      = mkRX (Z.of_nat (or_id r)) true d e sz gr fe par (rx_out b) /\
      match (if rx_in b then Some (mkXPos (rx_entry_idx b) (rx_dir b) (rx_size b) (rx_gross b) (rx_fees b)) else None)
      with Some p => (p, rx_parent b)
         | None => (mkXPos (or_idx r) (opened_dir r) zero zero zero, (rx_parent b + 1)%Z) end
      = (mkXPos e d sz gr fe, par)).
    { destruct (rx_in b); repeat eexists. }
    destruct K as (e & d & sz & gr & fe & par & -> & ->).
    cbn [xp_entry_idx xp_dir xp_size xp_gross xp_fees rx_last rx_in rx_dir rx_entry_idx rx_size rx_gross rx_fees
         rx_parent rx_out].
    cbv zeta.
    destruct (is_entry d r).
    { apply sim_ok. repeat split. }
    destruct (is_exit d r).
    2:{ apply sim_ok. repeat split. }
    rewrite rs_is_close_or_less_eq, !rs_is_close_eq.
    destruct (is_close_or_less_nb (or_size r) sz).
    - apply exit_trade_sim. cbn [xp_entry_idx xp_dir xp_size xp_gross xp_fees]. intros pnl ret E.
      rewrite (push_eq _ _ _ _ _ _ _ _ _ _ _ _ _ _ E).
      destruct (is_close_nb (or_size r) sz).
      + apply sim_ok. repeat split; cbn. rewrite app_length; cbn; lia.
      + apply sim_sdiv. apply sim_ok. repeat split; cbn. rewrite app_length; cbn; lia.
    - apply sim_sdiv. apply exit_trade_sim. cbn [xp_entry_idx xp_dir xp_size xp_gross xp_fees]. intros pnl ret E.
      rewrite (push_eq _ _ _ _ _ _ _ _ _ _ _ _ _ _ E).
      apply sim_ok. repeat split; cbn. rewrite app_length; cbn; lia.
  Qed.

  Lemma exit_finish_sim : forall nrows (lc : T) col a b, xrel a b ->
    sim xrel (exit_finish nrows lc col a) (Ok (rs_exit_finish nrows lc col b)).
  Proof.
    intros nrows lc col a b H. pose proof H as (H1 & H2 & H3 & H4 & H5).
    unfold exit_finish, rs_exit_finish. rewrite H5. destruct (rx_in b) eqn:Eb; cbn [andb].
    2:{ apply sim_ok. auto. }
    cbn [xp_entry_idx xp_dir xp_size xp_gross xp_fees].
    rewrite rs_is_less_eq. destruct (is_less_nb (neg (rx_size b)) zero).
    2:{ apply sim_ok. auto. }
    apply exit_trade_sim. cbn [xp_entry_idx xp_dir xp_size xp_gross xp_fees]. intros pnl ret E.
    rewrite (push_eq _ _ _ _ _ _ _ _ _ _ _ _ _ _ E).
    rewrite H1, H2, H3, H4.
    apply sim_ok. repeat split; cbn. rewrite app_length; cbn; lia.
  Qed.

  (** What runs on from column to column *)
  Definition xrel0 (a : XState T) (b : RX T) : Prop :=
    xs_parent a = rx_parent b /\ xs_out a = rx_out b /\ xs_tidx a = List.length (rx_out b).

  Lemma exit_column_sim : forall nrows lc (recs : list (OrderRec T)) a b col, xrel0 a b ->
    sim xrel0 (exit_column nrows lc recs a col) (rs_exit_column nrows lc recs b col).
  Proof.
    intros nrows lc recs a b col H. unfold exit_column, rs_exit_column.
    destruct (column_records col recs) as [|r l].
    { apply sim_ok. auto. }
    destruct H as (H1 & H2 & H3).
    apply (sim_bind _ _ _ _ xrel).
    - apply sim_foldM. { intros. apply exit_step_sim. auto. }
      rewrite H1, H2, H3. repeat split.
    - intros a' b' K. pose proof (exit_finish_sim nrows (lc col) col a' b' K) as [Z|Z]; [left; auto|right].
      destruct (exit_finish nrows (lc col) col a'); auto.
      destruct Z as (Z1 & Z2 & Z3 & Z4 & Z5). repeat split; auto.
  Qed.

  Lemma exit_trades_sim : forall nrows ncols lc (recs : list (OrderRec T)),
    sim eq (get_exit_trades_nb nrows ncols lc recs) (get_exit_trades_rs nrows ncols lc recs).
  Proof.
    intros. unfold get_exit_trades_nb, get_exit_trades_rs.
    apply (sim_bind _ _ _ _ xrel0).
    - apply sim_foldM; [intros; apply exit_column_sim; auto|]. repeat split.
    - intros a b (H1 & H2 & H3). apply sim_ok. auto.
  Qed.

  (** ** Entry trades *)

  Definition erel (a : EState T) (b : RE T) : Prop :=
    es_last a = re_last b /\ es_parent a = re_parent b /\ es_trades a = re_out b /\
    es_tidx a = List.length (re_out b) /\
    match es_pos a with
    | Some p => re_in b = true /\ ep_first p = re_first b /\ ep_dir p = re_dir b /\ ep_esize p = re_esize b /\
                ep_xsize p = re_xsize b /\ ep_xgross p = re_xgross b /\ ep_xfees p = re_xfees b /\
                ep_fsize p = re_fsize b /\ ep_ffees p = re_ffees b
    | None => re_in b = false
    end.

  Lemma fill_entry_sim : forall (fsize ffees : T) col xi xs xg xf dir st par first_c l c records,
    sim (fun a b => fst a = List.length b /\ records ++ snd a = b)
      (fill_entry_trades first_c c l col fsize ffees xi xs xg xf dir st par (List.length records))
      (Ok (fold_left (rs_fill_entry_one first_c col fsize ffees xi (div xg xs) xs xf dir st par)
             (combine (seq c (List.length l)) l) records)).
  Proof.
    intros fsize ffees col xi xs xg xf dir st par first_c l.
    induction l as [|r l IH]; intros c records.
    { cbn. apply sim_ok. cbn. rewrite app_nil_r. auto. }
    cbn [fill_entry_trades List.length seq combine fold_left].
    unfold rs_fill_entry_one at 2. destruct (is_exit dir r).
    { apply IH. }
    apply sim_sdiv. apply sim_sdiv. apply fill_sim. intros pnl ret E.
    assert (K : (let '(entry_size, entry_fees) := if Nat.eqb c first_c then (fsize, ffees) else (or_size r, or_fees r) in
       rs_push records col entry_size (or_idx r) (or_price r) entry_fees xi (div xg xs)
         (mul (div entry_size xs) xf) dir st par) =
       records ++ [mkTradeRec (List.length records) col (if Nat.eqb c first_c then fsize else or_size r) (or_idx r)
         (or_price r) (if Nat.eqb c first_c then ffees else or_fees r) xi (div xg xs)
         (mul (div (if Nat.eqb c first_c then fsize else or_size r) xs) xf) pnl ret dir st par]).
    { destruct (Nat.eqb c first_c); apply push_eq; auto. }
    cbv zeta. rewrite K. clear K.
    match goal with |- context [records ++ [?t]] => set (t0 := t) end.
    specialize (IH (S c) (records ++ [t0])).
    rewrite app_length in IH. cbn [List.length] in IH. rewrite Nat.add_1_r in IH.
    destruct IH as [Z|Z].
    { left. rewrite Z. reflexivity. }
    destruct (fill_entry_trades first_c (S c) l col fsize ffees xi xs xg xf dir st par (S (List.length records)))
      as [[tidx ts]|e]; [|contradiction].
    cbn [bind fst snd] in *. apply sim_ok. cbn [fst snd].
    destruct Z as (Z1 & Z2). split; auto. rewrite <- Z2, <- app_assoc. reflexivity.
  Qed.

  Lemma firstn_skipn_length : forall A (l : list A) n m, List.length (firstn n (skipn m l)) = Nat.min n (List.length l - m).
  Proof. intros. rewrite firstn_length, skipn_length. auto. Qed.

  Lemma combine_seq_firstn : forall A (l : list A) n m k,
    combine (seq k n) (firstn n (skipn m l)) =
    combine (seq k (List.length (firstn n (skipn m l)))) (firstn n (skipn m l)).
  Proof.
    intros A l n m. generalize (skipn m l). clear l m. induction n; intros l k; cbn; auto.
    destruct l; cbn; auto. f_equal. apply IHn.
  Qed.

  Lemma entry_of_sim : forall A B (Rel : A -> B -> Prop) (crecs : list (OrderRec T)) last_c col (p : EPos T)
      xi xs xg xf st par records (f : nat * list (TradeRec T) -> res A) rs,
    (forall tidx ts,
       rs_fill_entry_trades crecs col (ep_first p) last_c (ep_fsize p) (ep_ffees p) xi xs xg xf (ep_dir p) st par records
         = records ++ ts ->
       tidx = List.length (records ++ ts) ->
       sim Rel (f (tidx, ts)) rs) ->
    sim Rel (let! x := entry_trades_of crecs last_c col p xi xs xg xf st par (List.length records) in f x) rs.
  Proof.
    intros A B Rel crecs last_c col p xi xs xg xf st par records f rs H. unfold entry_trades_of.
    unfold rs_fill_entry_trades in H. rewrite combine_seq_firstn in H.
    pose proof (fill_entry_sim (ep_fsize p) (ep_ffees p) col xi xs xg xf (ep_dir p) st par (ep_first p)
      (firstn (S last_c - ep_first p) (skipn (ep_first p) crecs)) (ep_first p) records) as [Z|Z].
    { left. rewrite Z. reflexivity. }
    destruct (fill_entry_trades _ _ _ _ _ _ _ _ _ _ _ _ _ _) as [[tidx ts]|e]; [|contradiction].
    cbn [bind fst snd] in *. destruct Z as (Z1 & Z2).
    apply H; [symmetry; exact Z2|]. rewrite Z1, Z2. auto.
  Qed.

  Lemma entry_step_sim : forall crecs col a b (cr : nat * OrderRec T), erel a b ->
    sim erel (entry_step crecs col a cr) (rs_entry_step crecs col b cr).
  Proof.
    intros crecs col a b [c r] (H1 & H2 & H3 & H4 & H5).
    unfold entry_step, rs_entry_step. rewrite H1. apply check_sim.
    rewrite H2, H3, H4.
    assert (K : exists fst0 d es xs xg xf fs ff par eg ef,
      (if re_in b
       then mkRE (Z.of_nat (or_id r)) true (re_dir b) (re_esize b) (re_xsize b) (re_xgross b) (re_xfees b)
              (re_first b) (re_fsize b) (re_ffees b) (re_parent b) (re_out b)
       else mkRE (Z.of_nat (or_id r)) true (opened_dir r) zero zero zero zero c (or_size r) (or_fees r)
              (re_parent b + 1)%Z (re_out b))
      = mkRE (Z.of_nat (or_id r)) true d es xs xg xf fst0 fs ff par (re_out b) /\
      match es_pos a with Some p => (p, re_parent b)
         | None => (mkEPos c (opened_dir r) zero zero zero zero zero zero (or_size r) (or_fees r), (re_parent b + 1)%Z)
      end = (mkEPos fst0 d es eg ef xs xg xf fs ff, par)).
    { destruct (es_pos a) as [p|].
      - destruct H5 as (-> & <- & <- & <- & <- & <- & <- & <- & <-). destruct p as [q1 q2 q3 q4 q5 q6 q7 q8 q9 q10].
        cbn [ep_first ep_dir ep_esize ep_xsize ep_xgross ep_xfees ep_fsize ep_ffees]. repeat eexists.
      - rewrite H5. repeat eexists. }
    clear H1 H2 H3 H4 H5.
    destruct K as (fst0 & d & es & xs & xg & xf & fs & ff & par & eg & ef & -> & ->).
    cbn [ep_first ep_dir ep_esize ep_egross ep_efees ep_xsize ep_xgross ep_xfees ep_fsize ep_ffees
         re_last re_in re_dir re_esize re_xsize re_xgross re_xfees re_first re_fsize re_ffees re_parent re_out].
    cbv zeta.
    destruct (is_entry d r).
    { apply sim_ok. repeat split. }
    destruct (is_exit d r).
    2:{ apply sim_ok. repeat split. }
    rewrite rs_is_close_eq, rs_is_less_eq, !rs_add_eq.
    destruct (is_close_nb (add xs (or_size r)) es).
    - apply entry_of_sim. cbn [ep_first ep_dir ep_fsize ep_ffees]. intros tidx ts E ->. rewrite E.
      apply sim_ok. repeat split.
    - destruct (is_less_nb (add xs (or_size r)) es).
      + apply sim_ok. repeat split.
      + apply sim_sdiv. apply entry_of_sim. cbn [ep_first ep_dir ep_fsize ep_ffees]. intros tidx ts E ->. rewrite E.
        apply sim_sdiv. apply sim_ok. repeat split.
  Qed.

  Definition erel0 (a : EState T) (b : RE T) : Prop :=
    es_parent a = re_parent b /\ es_trades a = re_out b /\ es_tidx a = List.length (re_out b).

  Lemma entry_finish_sim : forall nrows (lc : T) crecs col a b, erel a b ->
    sim erel0 (entry_finish nrows lc crecs col a) (Ok (rs_entry_finish nrows lc crecs col b)).
  Proof.
    intros nrows lc crecs col a b (H1 & H2 & H3 & H4 & H5).
    assert (H0 : erel0 a b) by (repeat split; auto).
    unfold entry_finish, rs_entry_finish. destruct (es_pos a) as [p|] eqn:Ep.
    2:{ rewrite H5. cbn [andb]. apply sim_ok. auto. }
    destruct H5 as (I0 & I1 & I2 & I3 & I4 & I5 & I6 & I7 & I8).
    rewrite I0, rs_is_less_eq, <- I3, <- I4. cbn [andb].
    destruct (is_less_nb (ep_xsize p) (ep_esize p)).
    2:{ apply sim_ok. auto. }
    cbv zeta. rewrite rs_add_eq, H4. apply entry_of_sim. intros tidx ts E ->.
    rewrite <- I1, <- I2, <- I5, <- I6, <- I7, <- I8, <- H2, E.
    apply sim_ok. rewrite H3. repeat split; auto.
  Qed.

  Lemma entry_column_sim : forall nrows lc (recs : list (OrderRec T)) a b col, erel0 a b ->
    sim erel0 (entry_column nrows lc recs a col) (rs_entry_column nrows lc recs b col).
  Proof.
    intros nrows lc recs a b col H. unfold entry_column, rs_entry_column.
    destruct (column_records col recs) as [|r l].
    { apply sim_ok. auto. }
    destruct H as (H1 & H2 & H3).
    apply (sim_bind _ _ _ _ erel).
    - apply sim_foldM. { intros. apply entry_step_sim. auto. }
      rewrite H1, H2, H3. repeat split.
    - intros a' b' K. apply entry_finish_sim. auto.
  Qed.

  Lemma entry_trades_sim : forall nrows ncols lc (recs : list (OrderRec T)),
    sim eq (get_entry_trades_nb nrows ncols lc recs) (get_entry_trades_rs nrows ncols lc recs).
  Proof.
    intros. unfold get_entry_trades_nb, get_entry_trades_rs.
    apply (sim_bind _ _ _ _ erel0).
    - apply sim_foldM; [intros; apply entry_column_sim; auto|]. repeat split.
    - intros a b (H1 & H2 & H3). apply sim_ok. auto.
  Qed.

  (** ** Streaks *)

  Lemma streak_eq : forall (f : T -> bool) recs rank out,
    snd (fold_left (fun s r => let '(rank, out) := s in
           let rank := if f (tr_pnl r) then S rank else 0 in (rank, out ++ [rank])) recs (rank, out))
    = out ++ streak_from f rank recs.
  Proof.
    induction recs as [|r recs IH]; intros rank out; cbn [fold_left streak_from snd].
    - rewrite app_nil_r. auto.
    - cbv zeta. rewrite IH, <- app_assoc. auto.
  Qed.

  Lemma streaks_eq : forall recs : list (TradeRec T),
    trade_winning_streak_rs recs = trade_winning_streak_nb recs /\
    trade_losing_streak_rs recs = trade_losing_streak_nb recs.
  Proof.
    intros. split.
    - exact (streak_eq (fun x => gtb x zero) recs 0 []).
    - exact (streak_eq (fun x => ltb x zero) recs 0 []).
  Qed.

  (** ** Positions *)

  Lemma agg_sums : forall (ts : list (TradeRec T)) a b c d e,
    fold_left rs_agg_step ts (a, b, c, d, e) =
    (fold_left (fun a t => add a (tr_size t)) ts a,
     fold_left (fun a t => add a (mul (tr_size t) (tr_entry_price t))) ts b,
     fold_left (fun a t => add a (mul (tr_size t) (tr_exit_price t))) ts c,
     fold_left (fun a t => add a (tr_entry_fees t)) ts d,
     fold_left (fun a t => add a (tr_exit_fees t)) ts e).
  Proof.
    induction ts as [|t ts IH]; intros; cbn [fold_left]; auto.
    unfold rs_agg_step at 2. rewrite IH. auto.
  Qed.

  Lemma flat_nth_seq : forall (trades : list (TradeRec T)) s n, s + n <= List.length trades ->
    flat_map (fun k => match nth_error trades k with Some t => [t] | None => [] end) (seq s n) =
    firstn n (skipn s trades).
  Proof.
    intros trades s n. revert s. induction n; intros s H; cbn [seq flat_map]; auto.
    destruct (nth_error trades s) eqn:E.
    2:{ apply nth_error_None in E. lia. }
    rewrite IHn by lia.
    apply nth_error_split in E. destruct E as (l1 & l2 & -> & <-).
    rewrite (skipn_app (List.length l1)), skipn_all, Nat.sub_diag.
    rewrite (skipn_app (S (List.length l1))). replace (S (List.length l1) - List.length l1) with 1 by lia.
    rewrite (skipn_all2 l1) by lia. reflexivity.
  Qed.

  Lemma position_sim : forall (trades : list (TradeRec T)) s n from_c to_c col pidx,
    s + n <= List.length trades ->
    (forall k t, s <= k < s + n -> nth_error trades k = Some t -> tr_col t = col) ->
    from_c < to_c <= n ->
    sim eq (position_of trades pidx (s + from_c) (s + to_c))
           (rs_aggregate_position trades (seq s n) from_c to_c col pidx).
  Proof.
    intros trades s n from_c to_c col pidx Hlen Hcol Hft.
    unfold position_of, rs_aggregate_position.
    replace (s + to_c - (s + from_c)) with (to_c - from_c) by lia.
    replace (firstn (to_c - from_c) (skipn from_c (seq s n))) with (seq (s + from_c) (to_c - from_c)).
    2:{ replace n with (from_c + (n - from_c)) by lia. rewrite seq_app, skipn_app, seq_length, Nat.sub_diag.
        rewrite skipn_all2 by (rewrite seq_length; lia). cbn [skipn app].
        replace (n - from_c) with ((to_c - from_c) + (n - to_c)) by lia.
        rewrite seq_app, firstn_app, seq_length, Nat.sub_diag. cbn [firstn]. rewrite app_nil_r.
        rewrite firstn_all2 by (rewrite seq_length; lia). auto. }
    rewrite flat_nth_seq by lia.
    destruct (Nat.ltb_spec 1 (to_c - from_c)).
    - replace (Nat.eqb (to_c - from_c) 1) with false by (symmetry; apply Nat.eqb_neq; lia).
      unfold fill_position_record_nb.
      destruct (firstn (to_c - from_c) (skipn (s + from_c) trades)) as [|t0 ts] eqn:E.
      { right. reflexivity. }
      assert (C0 : tr_col t0 = col).
      { apply (Hcol (s + from_c)); [lia|].
        destruct (nth_error trades (s + from_c)) as [t1|] eqn:E1.
        2:{ apply nth_error_None in E1. lia. }
        apply nth_error_split in E1. destruct E1 as (l1 & l2 & -> & E2).
        rewrite skipn_app, <- E2, skipn_all, Nat.sub_diag in E. cbn [skipn app] in E.
        destruct (to_c - from_c); [lia|]. cbn [firstn] in E. congruence. }
      rewrite agg_sums. cbv zeta. unfold np_sum.
      apply sim_sdiv. apply sim_sdiv. apply trade_stats_sim.
      destruct (rs_get_trade_stats _ _ _ _ _ _) as [pnl ret].
      apply sim_ok. rewrite C0. auto.
    - replace (to_c - from_c) with 1 by lia. cbn [Nat.eqb].
      destruct (nth_error trades (s + from_c)) as [t1|] eqn:E1.
      2:{ apply nth_error_None in E1. lia. }
      apply nth_error_split in E1. destruct E1 as (l1 & l2 & -> & E2).
      rewrite skipn_app, <- E2, skipn_all, Nat.sub_diag. cbn [skipn app firstn].
      apply sim_ok. reflexivity.
  Qed.

  (** The loops over a column whose trades are [s .. s + n - 1] *)
  Definition prel (s : nat) (a : PState T) (b : RP T) : Prop :=
    ps_last a = rp_last b /\ ps_posid a = rp_posid b /\ ps_out a = rp_out b /\
    (rp_posid b <> (-1)%Z -> ps_from a = s + rp_from b).

  Lemma position_fold_sim : forall (trades : list (TradeRec T)) s n col,
    s + n <= List.length trades ->
    (forall k t, s <= k < s + n -> nth_error trades k = Some t -> tr_col t = col) ->
    forall m c a b, c + m <= n -> prel s a b ->
    (c = 0 -> rp_posid b = (-1)%Z) -> (rp_posid b <> (-1)%Z -> rp_from b < c) ->
    sim (fun a b => prel s a b /\ (rp_posid b <> (-1)%Z -> rp_from b < c + m))
        (foldM (position_step trades) a (seq (s + c) m))
        (foldM (rs_position_step trades (seq s n) col) b (combine (seq c m) (seq (s + c) m))).
  Proof.
    intros trades s n col Hlen Hcol m. induction m as [|m IH]; intros c a b Hm H H0 Hf.
    { apply sim_ok. split; auto. intros. rewrite Nat.add_0_r. auto. }
    cbn [seq combine foldM].
    apply (sim_bind _ _ _ _ (fun a b => prel s a b /\ (rp_posid b <> (-1)%Z -> rp_from b < S c))).
    - unfold position_step, rs_position_step.
      destruct (nth_error trades (s + c)) as [r|]; [|right; reflexivity].
      destruct H as (P1 & P2 & P3 & P4). rewrite P1. unfold raise_if.
      destruct (Z.ltb _ _); [right; reflexivity|].
      rewrite P2, P3. destruct (Z.eqb_spec (tr_parent r) (rp_posid b)); cbn [negb].
      { apply sim_ok. repeat split; cbn; auto. intros. specialize (Hf H). lia. }
      destruct (Z.eqb_spec (rp_posid b) (-1)) as [E|E]; cbn [negb bind].
      { apply sim_ok. repeat split; cbn; auto. }
      rewrite (P4 E).
      apply (sim_bind _ _ _ _ (fun p out => rp_out b ++ [p] = out)).
      + specialize (Hf E).
        assert (Q : sim eq (position_of trades (List.length (rp_out b)) (s + rp_from b) (s + c))
          (rs_aggregate_position trades (seq s n) (rp_from b) c col (List.length (rp_out b)))).
        { apply position_sim; auto. lia. }
        destruct Q as [Q|Q]; [left; auto|right].
        destruct (position_of _ _ _ _), (rs_aggregate_position _ _ _ _ _ _); cbn [bind]; try contradiction; congruence.
      + intros p out <-. apply sim_ok. repeat split; cbn; auto.
    - intros a' b' (H' & Hf'). replace (S (s + c)) with (s + S c) by lia.
      replace (c + S m) with (S c + m) by lia. apply IH; auto; lia.
  Qed.

  (** the number of the position is never -1 again *)
  Lemma posid_given : forall (trades : list (TradeRec T)) l a a', positions_given trades ->
    l <> [] -> foldM (position_step trades) a l = Ok a' -> (0 <= ps_posid a')%Z.
  Proof.
    intros trades l a a' Hp Hl Hf.
    destruct (exists_last Hl) as (l' & k & ->). rewrite foldM_app in Hf.
    destruct (foldM (position_step trades) a l') as [a1|]; cbn [bind] in Hf; [|discriminate].
    cbn [foldM] in Hf. destruct (position_step trades a1 k) as [a2|] eqn:E; cbn [bind] in Hf; [|discriminate].
    assert (a2 = a') by congruence. subst a2. clear Hf.
    unfold position_step in E. destruct (nth_error trades k) as [r|] eqn:En; [|discriminate].
    assert (Hr : (0 <= tr_parent r)%Z) by (apply Hp; eapply nth_error_In; eauto).
    unfold raise_if in E. destruct (Z.ltb _ _); [discriminate|].
    destruct (Z.eqb_spec (tr_parent r) (ps_posid a1)).
    { assert (a' = mkPState (Z.of_nat (tr_id r)) (ps_posid a1) (ps_from a1) (ps_out a1)) by congruence.
      subst a'. cbn. lia. }
    destruct (Z.eqb (ps_posid a1) (-1)).
    { assert (a' = mkPState (Z.of_nat (tr_id r)) (tr_parent r) k (ps_out a1)) by congruence.
      subst a'. cbn. auto. }
    destruct (position_of _ _ _ _) as [p|]; cbn [bind] in E; [|discriminate].
    assert (a' = mkPState (Z.of_nat (tr_id r)) (tr_parent r) k (ps_out a1 ++ [p])) by congruence.
    subst a'. cbn. auto.
  Qed.

  Lemma filter_seq_together : forall (f : nat -> bool) n,
    (forall i j k, i < j -> j < k -> k < n -> f i = true -> f k = true -> f j = true) ->
    exists s m, filter f (seq 0 n) = seq s m /\ s + m <= n.
  Proof.
    intros f n. induction n; intros H.
    { exists 0, 0. auto. }
    destruct IHn as (s & m & E & Hm). { intros. apply (H i j k); auto. }
    rewrite seq_S, filter_app, E. cbn [filter Nat.add].
    destruct (f n) eqn:Fn.
    2:{ exists s, m. rewrite app_nil_r. split; auto. }
    destruct m as [|m].
    { exists n, 1. cbn. split; auto. lia. }
    assert (s + S m = n).
    { destruct (Nat.eq_dec (s + S m) n); auto. exfalso.
      assert (Fs : f s = true).
      { assert (In s (filter f (seq 0 n))) by (rewrite E; left; auto). apply filter_In in H0. tauto. }
      assert (Fj : f (s + S m) = true) by (apply (H s (s + S m) n); auto; lia).
      assert (Q : In (s + S m) (filter f (seq 0 n))).
      { apply filter_In. split; auto. apply in_seq. lia. }
      rewrite E in Q. apply in_seq in Q. lia. }
    exists s, (S (S m)). split; [|lia].
    rewrite (seq_S (S m) s). rewrite H0. auto.
  Qed.

  Lemma column_trades_together : forall (trades : list (TradeRec T)) col, columns_together trades ->
    exists s m, column_trades trades col = seq s m /\ s + m <= List.length trades /\
      (forall k t, s <= k < s + m -> nth_error trades k = Some t -> tr_col t = col).
  Proof.
    intros trades col H. unfold column_trades.
    destruct (filter_seq_together
      (fun k => match nth_error trades k with Some t => Nat.eqb (tr_col t) col | None => false end)
      (List.length trades)) as (s & m & E & Hm).
    - intros i j k Hij Hjk Hk Fi Fk.
      destruct (nth_error trades i) as [a|] eqn:Ea; [|discriminate].
      destruct (nth_error trades k) as [c|] eqn:Ec; [|discriminate].
      destruct (nth_error trades j) as [b|] eqn:Eb.
      2:{ apply nth_error_None in Eb. lia. }
      apply Nat.eqb_eq in Fi, Fk. apply Nat.eqb_eq.
      rewrite (H i j k a b c); auto. congruence.
    - exists s, m. split; auto. split; auto. intros k t Hk Et.
      assert (Q : In k (seq s m)) by (apply in_seq; auto).
      rewrite <- E in Q. apply filter_In in Q. destruct Q as (_ & Q). rewrite Et in Q.
      apply Nat.eqb_eq in Q. auto.
  Qed.

  Lemma position_column_sim : forall (trades out : list (TradeRec T)) col,
    columns_together trades -> positions_given trades ->
    sim eq (position_column trades out col) (rs_position_column trades out col).
  Proof.
    intros trades out col Ht Hp. unfold position_column, rs_position_column.
    destruct (column_trades_together trades col Ht) as (s & m & -> & Hm & Hcol).
    destruct m as [|m]. { apply sim_ok. auto. }
    cbn [seq]. change (s :: seq (S s) m) with (seq s (S m)).
    rewrite seq_length.
    pose proof (position_fold_sim trades s (S m) col Hm Hcol (S m) 0 (mkPState (-1) (-1) 0 out) (mkRP (-1) (-1) 0 out)) as F.
    rewrite Nat.add_0_r in F.
    destruct F as [F|F]; auto.
    { repeat split; cbn; auto. intros; contradiction. }
    { cbn. intros; contradiction. }
    { left. rewrite F. reflexivity. }
    destruct (foldM (position_step trades) (mkPState (-1) (-1) 0 out) (seq s (S m))) as [a|e] eqn:Ea;
    destruct (foldM (rs_position_step trades (seq s (S m)) col) (mkRP (-1) (-1) 0 out)
      (combine (seq 0 (S m)) (seq s (S m)))) as [b|e'] eqn:Eb; try contradiction; cbn [bind].
    2:{ right. auto. }
    destruct F as ((P1 & P2 & P3 & P4) & F).
    assert (Hpos : (0 <= ps_posid a)%Z).
    { eapply posid_given; [exact Hp| |exact Ea]. cbn. discriminate. }
    assert (E : rp_posid b <> (-1)%Z) by (rewrite <- P2; lia).
    rewrite (P4 E), P3.
    replace (S (last (seq s (S m)) 0)) with (s + S m).
    2:{ rewrite seq_S, last_last. lia. }
    apply (sim_bind _ _ _ _ eq).
    - apply position_sim; auto.
    - intros p q ->. apply sim_ok. auto.
  Qed.

  Lemma positions_sim : forall ncols (trades : list (TradeRec T)),
    columns_together trades -> positions_given trades ->
    sim eq (get_positions_nb ncols trades) (get_positions_rs ncols trades).
  Proof.
    intros. unfold get_positions_nb, get_positions_rs.
    apply sim_foldM; auto. intros a b x _ ->. apply position_column_sim; auto.
  Qed.
End Agree.
