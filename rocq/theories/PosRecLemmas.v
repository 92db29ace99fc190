(** * The position record of callbacks describes what is held *)
From Coq Require Import ZArith QArith Qabs Bool List Lia Lqa.
From Verif Require Import Base Num MathNb XQFacts TolSpec Order GenericLemmas2 Trades TradesSpec TradesLemmas OrderFunc PosRecSpec.
Import ListNotations.

(** Everything but profit and loss *)
Definition numbers (r : PosRec XQ) (h : Held) (size price fees xfees : Q) : Prop :=
  pr_size r = Fin size /\ pr_entry_price r = Fin price /\ pr_entry_fees r = Fin fees /\ pr_exit_fees r = Fin xfees /\
  size == parts p_size (h_in h) /\ price * size == parts worth (h_in h) /\ fees == parts p_fees (h_in h) /\
  xfees == parts p_fees (h_out h) /\
  match h_out h with
  | [] => pr_exit_price r = NaN
  | _ => exists xp, pr_exit_price r = Fin xp /\ xp * parts p_size (h_out h) == parts worth (h_out h)
  end.
Definition labels (r : PosRec XQ) (col : nat) (h : Held) : Prop :=
  pr_id r = h_number h /\ pr_col r = col /\ pr_parent r = h_number h /\ pr_entry_idx r = h_since h /\
  pr_dir r = (if h_long h then TLong else TShort) /\ (0 <= h_number h)%Z.
Definition ending (r : PosRec XQ) (h : Held) : Prop :=
  match h_until h with
  | None => pr_status r = TOpen /\ pr_exit_idx r = (-1)%Z
  | Some i => pr_status r = TClosed /\ pr_exit_idx r = Z.of_nat i
  end.

Definition good_part (p : Part) : Prop := 0 < p_size p /\ 0 < p_price p.

Lemma parts_app : forall f a b, parts f (a ++ b) == parts f a + parts f b.
Proof. induction a as [|p a IH]; intros b; cbn; [ring|]. rewrite IH. ring. Qed.
Lemma parts_snoc : forall f a x, parts f (a ++ [x]) == parts f a + f x.
Proof. intros. rewrite parts_app. cbn. ring. Qed.
Lemma parts_size_pos : forall l, Forall good_part l -> 0 <= parts p_size l /\ 0 <= parts worth l.
Proof.
  induction 1 as [|p l [H1 H2] _ [IH1 IH2]]; cbn; [split; lra|]. unfold worth at 1.
  assert (0 < p_size p * p_price p) by (apply Qmult_lt_0_compat; auto). split; lra.
Qed.
Lemma parts_pos : forall l, l <> [] -> Forall good_part l -> 0 < parts p_size l /\ 0 < parts worth l.
Proof.
  intros [|p l] Hn H; [congruence|]. inversion H as [|? ? [H1 H2] Hl]; subst. cbn.
  destruct (parts_size_pos l Hl). unfold worth at 1.
  assert (0 < p_size p * p_price p) by (apply Qmult_lt_0_compat; auto). split; lra.
Qed.

(** ** Statistics of an open position *)
Definition profits (r : PosRec XQ) (h : Held) (pos price : Q) : Prop :=
  exists pnl ret, pr_pnl r = Fin pnl /\ pr_return r = Fin ret /\
      let received := parts worth (h_out h) + Qabs pos * price in
      let paid := parts worth (h_in h) in
      Qabs (pnl - (dir_sign (pr_dir r) * (received - paid) - parts p_fees (h_in h) - parts p_fees (h_out h)))
        <= tolq received paid /\
      ret * paid == pnl.

Lemma tolq_comp : forall a a' b b', a == a' -> b == b' -> tolq a b == tolq a' b'.
Proof. intros a a' b b' H1 H2. unfold tolq. rewrite H1, H2. reflexivity. Qed.

(** The statistics for an exit price which is the average of what was and
    what would be received *)
Lemma stats_from_parts : forall h size price fees xfees xp received d,
  size == parts p_size (h_in h) -> price * size == parts worth (h_in h) -> fees == parts p_fees (h_in h) ->
  xfees == parts p_fees (h_out h) -> 0 < parts p_size (h_in h) -> 0 < parts worth (h_in h) ->
  xp * size == received ->
  exists pnl ret, get_trade_stats_nb (Fin size) (Fin price) (Fin fees) (Fin xp) (Fin xfees) d = Ok (Fin pnl, Fin ret) /\
    Qabs (pnl - (dir_sign d * (received - parts worth (h_in h)) - parts p_fees (h_in h) - parts p_fees (h_out h)))
      <= tolq received (parts worth (h_in h)) /\
    ret * parts worth (h_in h) == pnl.
Proof.
  intros h size price fees xfees xp received d Hs Hp Hf Hx Hpos Hw Hr.
  assert (Esp : size * price == parts worth (h_in h)) by (rewrite <- Hp; ring).
  assert (Esx : size * xp == received) by (rewrite <- Hr; ring).
  destruct (trade_stats_spec size price fees xp xfees d) as (pnl & ret & E & H1 & H2); [rewrite Esp; lra|].
  exists pnl, ret. split; [exact E|]. rewrite (tolq_comp _ _ _ _ Esx Esp) in H1. split; [|rewrite <- Esp; exact H2].
  eapply Qle_trans; [|exact H1]. apply Qle_lteq. right. apply Qabs_wd. rewrite Hf, Hx, Esx, Esp. ring.
Qed.

Lemma open_stats_describe : forall r col h pos price size ep fees xfees,
  labels r col h -> ending r h -> h_until h = None -> numbers r h size ep fees xfees ->
  h_in h <> [] -> Forall good_part (h_in h) -> Forall good_part (h_out h) ->
  parts p_size (h_in h) - parts p_size (h_out h) == Qabs pos ->
  exists r', update_open_pos_stats_nb r (Fin pos) (Fin price) = Ok r' /\
    labels r' col h /\ ending r' h /\ numbers r' h size ep fees xfees /\ profits r' h pos price.
Proof.
  intros r col h pos price size ep fees xfees HL HE Hu HN Hin Hgi Hgo Hpos.
  destruct (parts_pos _ Hin Hgi) as [Psi Pwi].
  pose proof HL as (L1 & L2 & L3 & L4 & L5 & L6). pose proof HE as HE'. unfold ending in HE'. rewrite Hu in HE'.
  destruct HE' as [E1 E2]. pose proof HN as (N1 & N2 & N3 & N4 & N5 & N6 & N7 & N8 & N9).
  unfold update_open_pos_stats_nb. rewrite L1, E1. replace (Z.leb 0 (h_number h)) with true by lia. cbn [andb].
  assert (X : exists xp, (if isnan (pr_exit_price r) then Ok (Fin price)
              else let exit_size_sum := sub (pr_size r) (abs (Fin pos)) in
                   let exit_gross_sum := add (mul exit_size_sum (pr_exit_price r)) (mul (abs (Fin pos)) (Fin price)) in
                   sdiv exit_gross_sum (pr_size r)) = Ok (Fin xp) /\
              xp * size == parts worth (h_out h) + Qabs pos * price).
  { destruct (h_out h) as [|p l] eqn:Eo.
    - rewrite N9. exists price. split; [reflexivity|]. cbn [parts] in *. rewrite N5.
      assert (parts p_size (h_in h) == Qabs pos) as -> by lra. ring.
    - destruct N9 as (xp & -> & Hxp). rewrite N1. change (abs (Fin pos)) with (xq_abs (Fin pos)). destruct (xq_abs_fin pos) as (ap & -> & Hap).
      change (isnan (Fin xp)) with false. cbn iota zeta.
      change (sub (Fin size) (Fin ap)) with (Fin (Qred (size - ap))). rewrite !mul_fin, add_fin.
      rewrite sdiv_ok by (rewrite N5; lra). eexists. split; [reflexivity|]. rewrite !Qred_correct.
      assert (E : (((size - ap) * xp + ap * price) / size) * size == (size - ap) * xp + ap * price).
      { field. rewrite N5. lra. }
      rewrite E, Hap, N5. rewrite <- Hxp.
      assert (parts p_size (h_in h) - Qabs pos == parts p_size (p :: l)) as -> by lra. ring. }
  destruct X as (xp & Ex & Hxp). cbv zeta in Ex |- *. rewrite Ex. cbn [bind].
  rewrite N1, N2, N3, N4.
  destruct (stats_from_parts h size ep fees xfees xp _ (pr_dir r) N5 N6 N7 N8 Psi Pwi Hxp) as (pnl & ret & -> & H1 & H2).
  cbn [bind]. eexists. split; [reflexivity|]. split; [exact HL|]. split; [exact HE|]. split; [exact HN|].
  exists pnl, ret. split; [reflexivity|]. split; [reflexivity|]. split; [exact H1|exact H2].
Qed.

(** ** One fill *)
Definition inv (r : PosRec XQ) (col : nat) (h : Held) (pos : Q) : Prop :=
  (h = nothing_held /\ pr_id r = (-1)%Z /\ pos == 0) \/
  (exists size ep fees xfees,
    labels r col h /\ ending r h /\ numbers r h size ep fees xfees /\ h_in h <> [] /\
    Forall good_part (h_in h) /\ Forall good_part (h_out h) /\
    parts p_size (h_in h) - parts p_size (h_out h) == Qabs pos /\
    (pos == 0 -> h_until h <> None) /\
    (~ pos == 0 -> h_until h = None /\ h_long h = qlt_bool 0 pos)).

Lemma sign_differs : forall a b, neb (sign (Fin a)) (sign (Fin b)) =
  negb (match a ?= 0, b ?= 0 with Eq, Eq | Gt, Gt | Lt, Lt => true | _, _ => false end).
Proof.
  intros a b. rewrite !sign_fin.
  assert (Ha : forall x, (qlt_bool 0 x = true /\ (x ?= 0) = Gt) \/ (qlt_bool 0 x = false /\ qlt_bool x 0 = true /\ (x ?= 0) = Lt) \/
    (qlt_bool 0 x = false /\ qlt_bool x 0 = false /\ (x ?= 0) = Eq)).
  { intros x. destruct (Qcompare_spec x 0) as [H|H|H].
    - right. right. repeat split; qbg; lra.
    - right. left. repeat split; qbg; lra.
    - left. repeat split; qbg; lra. }
  destruct (Ha a) as [(-> & ->)|[(-> & -> & ->)|(-> & -> & ->)]]; destruct (Ha b) as [(-> & ->)|[(-> & -> & ->)|(-> & -> & ->)]]; reflexivity.
Qed.

Lemma zero_test : forall x, eqb (Fin x) zero = Qeq_bool x 0.
Proof. reflexivity. Qed.

Lemma new_record_ok : forall old col i size fees f h n,
  0 < size -> 0 < f_price f -> pr_id old = n -> (-1 <= n)%Z ->
  let h' := mkHeld (n + 1) i (f_buy f) [mkPart h (f_price f) fees] [] None in
  size == h -> forall fe, fe == fees ->
  let r := new_pos_record old col i (Fin size) (Fin fe) (fill_result f) in
  labels r col h' /\ ending r h' /\ numbers r h' size (f_price f) fe 0.
Proof.
  intros old col i size fees f h n Hs Hp Hid Hn h' Hh fe Hfe r. subst h' r.
  unfold labels, ending, numbers, new_pos_record, worth. cbn. rewrite Hid.
  repeat split; try reflexivity; try lia; try lra.
  - destruct (f_buy f); reflexivity.
  - rewrite Hh. ring.
Qed.

Definition held_in (h : Held) (f : Fill) : Held :=
  mkHeld (h_number h) (h_since h) (h_long h) (h_in h ++ [whole f]) (h_out h) (h_until h).
Definition held_out (h : Held) (f : Fill) (u : option nat) : Held :=
  mkHeld (h_number h) (h_since h) (h_long h) (h_in h) (h_out h ++ [whole f]) u.

Lemma good_whole : forall f, good_fill f -> good_part (whole f).
Proof. intros f H. exact H. Qed.
Lemma Forall_snoc : forall l p, Forall good_part l -> good_part p -> Forall good_part (l ++ [p]).
Proof. intros. apply Forall_app. auto. Qed.
Lemma app_not_nil : forall A (l : list A) x, l ++ [x] <> [].
Proof. intros A [|a l] x; discriminate. Qed.

Ltac absfin p ap H := change (abs (Fin p)) with (xq_abs (Fin p)) in *; destruct (xq_abs_fin p) as (ap & -> & H).

(** The exit price after leaving part of the position *)
Lemma exit_average : forall r h f pos size ep fees xfees,
  numbers r h size ep fees xfees -> good_fill f -> Forall good_part (h_out h) ->
  parts p_size (h_in h) - parts p_size (h_out h) == Qabs pos ->
  exists xp, (if isnan (pr_exit_price r) then Ok (Fin (f_price f))
              else let exit_size_sum := sub (pr_size r) (abs (Fin pos)) in
                   let exit_gross_sum := add (mul exit_size_sum (pr_exit_price r)) (mul (Fin (f_size f)) (Fin (f_price f))) in
                   sdiv exit_gross_sum (add exit_size_sum (Fin (f_size f)))) = Ok (Fin xp) /\
    xp * parts p_size (h_out h ++ [whole f]) == parts worth (h_out h ++ [whole f]).
Proof.
  intros r h f pos size ep fees xfees HN [Hs Hp] Hgo Hpos.
  pose proof HN as (N1 & N2 & N3 & N4 & N5 & N6 & N7 & N8 & N9).
  destruct (h_out h) as [|p l] eqn:Eo.
  - rewrite N9. exists (f_price f). split; [reflexivity|]. cbn. unfold worth, whole. cbn. ring.
  - destruct N9 as (xp & -> & Hxp). rewrite N1. absfin pos ap Hap. change (isnan (Fin xp)) with false. cbn iota zeta.
    change (sub (Fin size) (Fin ap)) with (Fin (Qred (size - ap))). rewrite !mul_fin, !add_fin.
    destruct (parts_pos (p :: l)) as [Po _]; [discriminate|exact Hgo|].
    assert (Eo' : Qred (size - ap) == parts p_size (p :: l)) by (rewrite Qred_correct, Hap, N5; lra).
    rewrite sdiv_ok by (rewrite Qred_correct, Eo'; lra).
    eexists. split; [reflexivity|]. rewrite !parts_snoc. change (worth (whole f)) with (f_size f * f_price f). change (p_size (whole f)) with (f_size f).
    rewrite !Qred_correct. rewrite !Qred_correct in Eo'. rewrite Eo'.
    rewrite <- Hxp. field. lra.
Qed.

Lemma step_in : forall r col h f pos now size ep fees xfees,
  labels r col h -> ending r h -> numbers r h size ep fees xfees -> h_in h <> [] ->
  Forall good_part (h_in h) -> Forall good_part (h_out h) ->
  parts p_size (h_in h) - parts p_size (h_out h) == Qabs pos -> h_until h = None ->
  good_fill f -> ~ pos == 0 -> ~ now == 0 -> neb (sign (Fin pos)) (sign (Fin now)) = false ->
  Qabs now == Qabs pos + f_size f ->
  exists r', update_pos_record_nb r (f_bar f) col (Fin pos) (Fin now) (fill_result f) = Ok r' /\
    profits r' (held_in h f) now (f_price f) /\
    exists size' ep' fees' xfees', labels r' col (held_in h f) /\ ending r' (held_in h f) /\
      numbers r' (held_in h f) size' ep' fees' xfees' /\
      parts p_size (h_in (held_in h f)) - parts p_size (h_out (held_in h f)) == Qabs now.
Proof.
  intros r col h f pos now size ep fees xfees HL HE HN Hin Hgi Hgo Hpos Hu Hf H0 H1 Hs Hn.
  pose proof HN as (N1 & N2 & N3 & N4 & N5 & N6 & N7 & N8 & N9). pose proof Hf as [Fs Fp].
  destruct (parts_pos _ Hin Hgi) as [Psi Pwi].
  unfold update_pos_record_nb. cbn [fill_result is_filled r_status r_size r_price r_fees].
  rewrite !zero_test. unfold neb at 1 2. rewrite !zero_test.
  replace (Qeq_bool pos 0) with false by (symmetry; qbg; exact H0). replace (Qeq_bool now 0) with false by (symmetry; qbg; exact H1).
  cbn [negb andb]. rewrite Hs.
  assert (Hle : leb (abs (Fin pos)) (abs (Fin now)) = true).
  { absfin pos ap Hap. absfin now an Han. change (Qle_bool ap an = true). qbg. rewrite Hap, Han. lra. }
  rewrite Hle. rewrite N1, N2, N3. rewrite !mul_fin, !add_fin.
  rewrite sdiv_ok by (rewrite Qred_correct, N5; lra). cbn [bind].
  match goal with |- context [update_open_pos_stats_nb ?x _ _] => set (r1 := x) end.
  assert (Hsum : parts p_size (h_in (held_in h f)) - parts p_size (h_out (held_in h f)) == Qabs now).
  { cbn [held_in h_in h_out]. rewrite parts_snoc. change (p_size (whole f)) with (f_size f). rewrite Hn. lra. }
  assert (HN1 : exists a b c d, numbers r1 (held_in h f) a b c d).
  { do 4 eexists. unfold numbers, r1. cbn [pr_size pr_entry_price pr_entry_fees pr_exit_fees pr_exit_price held_in h_in h_out].
    split; [reflexivity|]. split; [reflexivity|]. split; [reflexivity|]. split; [exact N4|].
    rewrite !parts_snoc, !Qred_correct. change (worth (whole f)) with (f_size f * f_price f). change (p_size (whole f)) with (f_size f). change (p_fees (whole f)) with (f_fees f).
    repeat split.
    - rewrite N5. ring.
    - rewrite <- N6. field. rewrite N5. lra.
    - rewrite N7. ring.
    - exact N8.
    - exact N9. }
  destruct HN1 as (a & b & c & d & HN1).
  assert (HL1 : labels r1 col (held_in h f)) by exact HL.
  assert (HE1 : ending r1 (held_in h f)) by exact HE.
  destruct (open_stats_describe r1 col (held_in h f) now (f_price f) a b c d HL1 HE1 Hu HN1) as (r' & E & L & En & Nn & P).
  - apply app_not_nil.
  - apply Forall_snoc; [exact Hgi|apply good_whole, Hf].
  - exact Hgo.
  - exact Hsum.
  - exists r'. split; [exact E|]. split; [exact P|]. exists a, b, c, d. auto.
Qed.

Lemma step_out : forall r col h f pos now size ep fees xfees,
  labels r col h -> ending r h -> numbers r h size ep fees xfees -> h_in h <> [] ->
  Forall good_part (h_in h) -> Forall good_part (h_out h) ->
  parts p_size (h_in h) - parts p_size (h_out h) == Qabs pos -> h_until h = None ->
  good_fill f -> ~ pos == 0 -> ~ now == 0 -> neb (sign (Fin pos)) (sign (Fin now)) = false ->
  Qabs now == Qabs pos - f_size f ->
  exists r', update_pos_record_nb r (f_bar f) col (Fin pos) (Fin now) (fill_result f) = Ok r' /\
    profits r' (held_out h f (h_until h)) now (f_price f) /\
    exists size' ep' fees' xfees', labels r' col (held_out h f (h_until h)) /\ ending r' (held_out h f (h_until h)) /\
      numbers r' (held_out h f (h_until h)) size' ep' fees' xfees' /\
      parts p_size (h_in (held_out h f (h_until h))) - parts p_size (h_out (held_out h f (h_until h))) == Qabs now.
Proof.
  intros r col h f pos now size ep fees xfees HL HE HN Hin Hgi Hgo Hpos Hu Hf H0 H1 Hs Hn.
  pose proof HN as (N1 & N2 & N3 & N4 & N5 & N6 & N7 & N8 & N9). pose proof Hf as [Fs Fp].
  unfold update_pos_record_nb. cbn [fill_result is_filled r_status r_size r_price r_fees].
  rewrite !zero_test. unfold neb at 1 2. rewrite !zero_test.
  replace (Qeq_bool pos 0) with false by (symmetry; qbg; exact H0). replace (Qeq_bool now 0) with false by (symmetry; qbg; exact H1).
  cbn [negb andb]. rewrite Hs.
  assert (Hle : leb (abs (Fin pos)) (abs (Fin now)) = false).
  { absfin pos ap Hap. absfin now an Han. change (Qle_bool ap an = false). qbg. rewrite Hap, Han. lra. }
  rewrite Hle.
  destruct (exit_average r h f pos size ep fees xfees HN Hf Hgo Hpos) as (xp & Exp & Hxp).
  cbv zeta in Exp |- *. rewrite Exp. cbn [bind]. rewrite N4, add_fin.
  match goal with |- context [update_open_pos_stats_nb ?x _ _] => set (r1 := x) end.
  set (h' := held_out h f (h_until h)).
  assert (Hsum : parts p_size (h_in h') - parts p_size (h_out h') == Qabs now).
  { unfold h', held_out; cbn [h_in h_out]. rewrite parts_snoc. change (p_size (whole f)) with (f_size f). rewrite Hn. lra. }
  assert (HN1 : exists a b c d, numbers r1 h' a b c d).
  { do 4 eexists. unfold numbers, r1, h'. cbn [pr_size pr_entry_price pr_entry_fees pr_exit_fees pr_exit_price held_out h_in h_out].
    split; [exact N1|]. split; [exact N2|]. split; [exact N3|]. split; [reflexivity|].
    split; [exact N5|]. split; [exact N6|]. split; [exact N7|]. split.
    - rewrite !parts_snoc, !Qred_correct. change (p_fees (whole f)) with (f_fees f). rewrite N8. ring.
    - destruct (h_out h ++ [whole f]) as [|p l] eqn:E; [now apply app_not_nil in E|]. exists xp. split; [reflexivity|exact Hxp]. }
  destruct HN1 as (a & b & c & d & HN1).
  destruct (open_stats_describe r1 col h' now (f_price f) a b c d HL HE Hu HN1) as (r' & E & L & En & Nn & P).
  - exact Hin.
  - exact Hgi.
  - apply Forall_snoc; [exact Hgo|apply good_whole, Hf].
  - exact Hsum.
  - exists r'. split; [exact E|]. split; [exact P|]. exists a, b, c, d. auto.
Qed.

Lemma step_close : forall r col h f pos now size ep fees xfees,
  labels r col h -> ending r h -> numbers r h size ep fees xfees -> h_in h <> [] ->
  Forall good_part (h_in h) -> Forall good_part (h_out h) ->
  parts p_size (h_in h) - parts p_size (h_out h) == Qabs pos -> h_until h = None ->
  good_fill f -> ~ pos == 0 -> now == 0 -> f_size f == Qabs pos ->
  let h' := held_out h f (Some (f_bar f)) in
  exists r', update_pos_record_nb r (f_bar f) col (Fin pos) (Fin now) (fill_result f) = Ok r' /\
    profits r' h' now (f_price f) /\
    exists size' ep' fees' xfees', labels r' col h' /\ ending r' h' /\
      numbers r' h' size' ep' fees' xfees' /\
      parts p_size (h_in h') - parts p_size (h_out h') == Qabs now.
Proof.
  intros r col h f pos now size ep fees xfees HL HE HN Hin Hgi Hgo Hpos Hu Hf H0 H1 Hs h'.
  pose proof HN as (N1 & N2 & N3 & N4 & N5 & N6 & N7 & N8 & N9). pose proof Hf as [Fs Fp].
  destruct (parts_pos _ Hin Hgi) as [Psi Pwi].
  unfold update_pos_record_nb. cbn [fill_result is_filled r_status r_size r_price r_fees].
  rewrite !zero_test. unfold neb at 1 2. rewrite !zero_test.
  replace (Qeq_bool pos 0) with false by (symmetry; qbg; exact H0). replace (Qeq_bool now 0) with true by (symmetry; qbg; exact H1).
  cbn [negb andb].
  assert (Hsum : parts p_size (h_in h') - parts p_size (h_out h') == Qabs now).
  { unfold h', held_out; cbn [h_in h_out]. rewrite parts_snoc. change (p_size (whole f)) with (f_size f). rewrite H1. change (Qabs 0) with 0. lra. }
  assert (X : exists xp, (if isnan (pr_exit_price r) then Ok (Fin (f_price f))
              else let exit_size_sum := sub (pr_size r) (abs (Fin pos)) in
                   let exit_gross_sum := add (mul exit_size_sum (pr_exit_price r)) (mul (abs (Fin pos)) (Fin (f_price f))) in
                   sdiv exit_gross_sum (pr_size r)) = Ok (Fin xp) /\
              xp * size == parts worth (h_out h')).
  { assert (Eh : parts worth (h_out h') == parts worth (h_out h) + f_size f * f_price f).
    { unfold h', held_out; cbn [h_out]. rewrite parts_snoc. reflexivity. }
    destruct (h_out h) as [|p l] eqn:Eo.
    - rewrite N9. exists (f_price f). split; [reflexivity|]. rewrite Eh. cbn [parts] in *. rewrite N5, Hs.
      assert (parts p_size (h_in h) == Qabs pos) as -> by lra. ring.
    - destruct N9 as (xp & -> & Hxp). rewrite N1. absfin pos ap Hap. change (isnan (Fin xp)) with false. cbn iota zeta.
      change (sub (Fin size) (Fin ap)) with (Fin (Qred (size - ap))). rewrite !mul_fin, add_fin.
      rewrite sdiv_ok by (rewrite N5; lra). eexists. split; [reflexivity|]. rewrite !Qred_correct.
      assert (E : (((size - ap) * xp + ap * f_price f) / size) * size == (size - ap) * xp + ap * f_price f).
      { field. rewrite N5. lra. }
      rewrite Eh, E, Hap, N5, Hs. rewrite <- Hxp.
      assert (parts p_size (h_in h) - Qabs pos == parts p_size (p :: l)) as -> by lra. ring. }
  destruct X as (xp & Ex & Hxp). cbv zeta in Ex |- *. rewrite Ex. cbn [bind].
  rewrite N1, N2, N3, N4, add_fin.
  assert (Hxf : Qred (xfees + f_fees f) == parts p_fees (h_out h')).
  { unfold h', held_out; cbn [h_out]. rewrite parts_snoc, Qred_correct, N8. reflexivity. }
  destruct (stats_from_parts h' size ep fees _ xp (parts worth (h_out h')) (pr_dir r) N5 N6 N7 Hxf Psi Pwi Hxp)
    as (pnl & ret & -> & P1 & P2).
  cbn [bind]. unfold update_open_pos_stats_nb. cbn [pr_status]. rewrite andb_false_r.
  eexists. split; [reflexivity|]. split.
  - exists pnl, ret. split; [reflexivity|]. split; [reflexivity|]. cbn [pr_dir].
    assert (E0 : parts worth (h_out h') + Qabs now * f_price f == parts worth (h_out h')).
    { rewrite H1. change (Qabs 0) with 0. ring. }
    cbv zeta. split; [|exact P2]. rewrite (tolq_comp _ _ _ _ E0 (Qeq_refl _)). rewrite E0. exact P1.
  - exists size, ep, fees, (Qred (xfees + f_fees f)).
    destruct HL as (L1 & L2 & L3 & L4 & L5 & L6).
    split; [repeat split; auto|]. split; [split; reflexivity|]. split; [|exact Hsum].
    unfold numbers. cbn [pr_size pr_entry_price pr_entry_fees pr_exit_fees pr_exit_price]; unfold h', held_out; cbn [h_in h_out].
    split; [reflexivity|]. split; [reflexivity|]. split; [reflexivity|]. split; [reflexivity|].
    split; [exact N5|]. split; [exact N6|]. split; [exact N7|]. split; [exact Hxf|].
    destruct (h_out h ++ [whole f]) as [|p l] eqn:E; [now apply app_not_nil in E|]. exists xp. split; [reflexivity|].
    assert (Eq : parts p_size (p :: l) == size).
    { rewrite <- E. unfold h', held_out in Hsum; cbn [h_in h_out] in Hsum. rewrite N5. rewrite H1 in Hsum. change (Qabs 0) with 0 in Hsum. lra. }
    rewrite Eq. unfold h', held_out in Hxp. cbn [h_out] in Hxp. rewrite E in Hxp. exact Hxp.
Qed.

(** Opening, by any fill or by the rest of one *)
Lemma step_open : forall old col f now n size rest fe fees,
  good_fill f -> pr_id old = n -> (-1 <= n)%Z -> size == rest -> 0 < rest -> fe == fees -> Qabs now == rest ->
  let h' := mkHeld (n + 1) (f_bar f) (f_buy f) [mkPart rest (f_price f) fees] [] None in
  let r := new_pos_record old col (f_bar f) (Fin size) (Fin fe) (fill_result f) in
  exists r', update_open_pos_stats_nb r (Fin now) (Fin (f_price f)) = Ok r' /\
    profits r' h' now (f_price f) /\
    exists size' ep' fees' xfees', labels r' col h' /\ ending r' h' /\ numbers r' h' size' ep' fees' xfees' /\
      h_in h' <> [] /\ Forall good_part (h_in h') /\ Forall good_part (h_out h') /\
      parts p_size (h_in h') - parts p_size (h_out h') == Qabs now.
Proof.
  intros old col f now n size rest fe fees [Fs Fp] Hid Hn Hs Hr Hfe Hnow h' r.
  assert (Hs0 : 0 < size) by lra.
  destruct (new_record_ok old col (f_bar f) size fees f rest n Hs0 Fp Hid Hn Hs fe Hfe) as (HL & HE & HN).
  assert (Hg : Forall good_part (h_in h')) by (constructor; [split; auto|constructor]).
  assert (Hsum : parts p_size (h_in h') - parts p_size (h_out h') == Qabs now) by (cbn; lra).
  destruct (open_stats_describe r col h' now (f_price f) _ _ _ _ HL HE eq_refl HN) as (r' & E & L & En & Nn & P);
    [discriminate|exact Hg|constructor|exact Hsum|].
  exists r'. split; [exact E|]. split; [exact P|]. do 4 eexists. split; [exact L|]. split; [exact En|].
  split; [exact Nn|]. split; [discriminate|]. split; [exact Hg|]. split; [constructor|exact Hsum].
Qed.

(** What one fill establishes *)
Definition established (r : PosRec XQ) (col : nat) (h : Held) (pos price : Q) : Prop :=
  inv r col h pos /\ profits r h pos price /\
  exists size ep fees xfees, labels r col h /\ ending r h /\ numbers r h size ep fees xfees.

Lemma step_reverse : forall r col h f pos now,
  labels r col h -> good_fill f -> ~ pos == 0 -> ~ now == 0 -> neb (sign (Fin pos)) (sign (Fin now)) = true ->
  Qabs now == f_size f - Qabs pos -> Qabs (now - pos) == f_size f -> f_buy f = qlt_bool 0 now ->
  let rest := f_size f - Qabs pos in
  let h' := mkHeld (h_number h + 1) (f_bar f) (f_buy f) [mkPart rest (f_price f) (rest / f_size f * f_fees f)] [] None in
  exists r', update_pos_record_nb r (f_bar f) col (Fin pos) (Fin now) (fill_result f) = Ok r' /\
    established r' col h' now (f_price f).
Proof.
  intros r col h f pos now (L1 & L2 & L3 & L4 & L5 & L6) Hf H0 H1 Hs Hn Hd Hb rest h'. pose proof Hf as [Fs Fp].
  unfold update_pos_record_nb. cbn [fill_result is_filled r_status r_size r_price r_fees].
  rewrite !zero_test. unfold neb at 1 2. rewrite !zero_test.
  replace (Qeq_bool pos 0) with false by (symmetry; qbg; exact H0). replace (Qeq_bool now 0) with false by (symmetry; qbg; exact H1).
  cbn [negb andb]. rewrite Hs.
  assert (Hrest : 0 < rest).
  { unfold rest. rewrite <- Hn. clear - H1. destruct (Qlt_le_dec 0 (Qabs now)); [auto|]. exfalso. apply H1.
    pose proof (Qabs_nonneg now). pose proof (Qle_Qabs now). pose proof (Qle_Qabs (- now)) as C. rewrite Qabs_opp in C. lra. }
  absfin now an Han. change (sub (Fin now) (Fin pos)) with (Fin (Qred (now - pos))). absfin (Qred (now - pos)) ad Had.
  rewrite Qred_correct in Had.
  rewrite sdiv_ok by (rewrite Had, Hd; lra). cbn [bind]. rewrite mul_fin, L2.
  destruct (step_open r col f now (h_number h) an rest (Qred (Qred (an / ad) * f_fees f)) (rest / f_size f * f_fees f))
    as (r' & E & P & a & b & c & d & L & En & Nn & X1 & X2 & X3 & X4); auto.
  - lia.
  - rewrite Han. exact Hn.
  - rewrite !Qred_correct. rewrite Had, Han, Hn, Hd. reflexivity.
  - exists r'. split; [exact E|]. split; [|split; [exact P|do 4 eexists; eauto]].
    right. exists a, b, c, d. repeat (split; [assumption|]). split; [intros C; contradiction|].
    intros _. split; [reflexivity|exact Hb].
Qed.

Ltac qabs_known := repeat match goal with
  | H : context [Qabs ?x] |- _ => first [rewrite (Qabs_pos x) in H by lra | rewrite (Qabs_neg x) in H by lra]
  | |- context [Qabs ?x] => first [rewrite (Qabs_pos x) by lra | rewrite (Qabs_neg x) by lra] end.

Ltac same_sign := rewrite sign_differs; repeat match goal with |- context [?a ?= 0] => destruct (Qcompare_spec a 0); try lra end; reflexivity.

Lemma fill_step : forall r col h pos f, inv r col h pos -> good_fill f ->
  exists r', update_pos_record_nb r (f_bar f) col (Fin pos) (Fin (pos + signed f)) (fill_result f) = Ok r' /\
    established r' col (next_held pos h f) (pos + signed f) (f_price f).
Proof.
  intros r col h pos f Hinv Hf. pose proof Hf as [Fs Fp].
  assert (Hsg : (f_buy f = true /\ signed f = f_size f) \/ (f_buy f = false /\ signed f = - f_size f)).
  { unfold signed. destruct (f_buy f); auto. }
  set (now := pos + signed f).
  destruct (Qeq_dec pos 0) as [Hp|Hp].
  - (* opening *)
    assert (Hn0 : ~ now == 0) by (unfold now; destruct Hsg as [[_ ->]|[_ ->]]; lra).
    assert (Habs : Qabs now == f_size f).
    { unfold now. destruct Hsg as [[_ ->]|[_ ->]]; qabs_known; lra. }
    assert (Hnum : pr_id r = h_number h /\ (-1 <= h_number h)%Z).
    { destruct Hinv as [(-> & H & _)|(a & b & c & d & (L1 & _ & _ & _ & _ & L6) & _)].
      - split; [exact H|cbn; lia].
      - split; [exact L1|lia]. }
    destruct Hnum as [Hid Hle].
    unfold update_pos_record_nb. cbn [fill_result is_filled r_status r_size r_price r_fees].
    rewrite !zero_test. unfold neb at 1. rewrite !zero_test.
    replace (Qeq_bool pos 0) with true by (symmetry; qbg; exact Hp). replace (Qeq_bool now 0) with false by (symmetry; qbg; exact Hn0).
    cbn [negb andb bind].
    assert (En : next_held pos h f = mkHeld (h_number h + 1) (f_bar f) (f_buy f) [mkPart (f_size f) (f_price f) (f_fees f)] [] None).
    { unfold next_held. destruct (Qcompare_spec pos 0); try lra. reflexivity. }
    rewrite En.
    destruct (step_open r col f now (h_number h) (f_size f) (f_size f) (f_fees f) (f_fees f))
      as (r' & E & P & a & b & c & d & L & En' & Nn & H1 & H2 & H3 & H4); auto; try reflexivity.
    exists r'. split; [exact E|]. split; [|split; [exact P|do 4 eexists; eauto]].
    right. exists a, b, c, d. repeat (split; [assumption|]). split; [intros C; contradiction|].
    intros _. split; [reflexivity|]. cbn [h_long]. unfold now. destruct Hsg as [[-> ->]|[-> ->]]; symmetry; qbg; lra.
  - destruct Hinv as [(_ & _ & C)|(a & b & c & d & L & En & Nn & H1 & H2 & H3 & H4 & H5 & H6)]; [contradiction|].
    destruct (H6 Hp) as [Hu Hl].
    assert (Hw : h_long h = match pos ?= 0 with Gt => true | _ => false end).
    { rewrite Hl. destruct (Qcompare_spec pos 0); [contradiction| |]; qbg; lra. }
    destruct (Bool.bool_dec (h_long h) (f_buy f)) as [Hd|Hd].
    + (* increased *)
      assert (En2 : next_held pos h f = held_in h f).
      { unfold next_held. destruct (Qcompare_spec pos 0); [contradiction| |]; (destruct (f_buy f); [|]; try congruence); reflexivity. }
      rewrite En2.
      assert (Hk : ~ now == 0 /\ neb (sign (Fin pos)) (sign (Fin now)) = false /\ Qabs now == Qabs pos + f_size f /\ h_long h = qlt_bool 0 now).
      { rewrite Hw. rewrite Hw in Hd. unfold now.
        destruct (Qcompare_spec pos 0); [contradiction| |]; destruct Hsg as [[Hb ->]|[Hb ->]]; try congruence.
        - repeat split; [lra|same_sign|qabs_known; lra|symmetry; qbg; lra].
        - repeat split; [lra|same_sign|qabs_known; lra|symmetry; qbg; lra]. }
      destruct Hk as (K1 & K2 & K3 & K4).
      destruct (step_in r col h f pos now a b c d) as (r' & E & P & a' & b' & c' & d' & L' & En' & Nn' & H7); auto.
      exists r'. split; [exact E|]. split; [|split; [exact P|do 4 eexists; eauto]].
      right. exists a', b', c', d'. split; [exact L'|]. split; [exact En'|]. split; [exact Nn'|]. split; [apply app_not_nil|].
      split; [apply Forall_snoc; [exact H2|apply good_whole, Hf]|]. split; [exact H3|]. split; [exact H7|].
      split; [intros C; contradiction|]. intros _. split; [exact Hu|exact K4].
    + destruct (Qcompare_spec (f_size f) (Qabs pos)) as [Hc|Hc|Hc].
      * (* closed *)
        assert (En2 : next_held pos h f = held_out h f (Some (f_bar f))).
        { unfold next_held. destruct (Qcompare_spec (f_size f) (Qabs pos)); try lra.
          destruct (Qcompare_spec pos 0); [contradiction| |]; (destruct (f_buy f); [|]; try congruence); reflexivity. }
        rewrite En2.
        assert (Hk : now == 0).
        { rewrite Hw in Hd. unfold now.
          destruct (Qcompare_spec pos 0); [contradiction| |]; destruct Hsg as [[Hb ->]|[Hb ->]]; try (rewrite Hb in Hd; congruence); qabs_known; lra. }
        destruct (step_close r col h f pos now a b c d) as (r' & E & P & a' & b' & c' & d' & L' & En' & Nn' & H7); auto.
        exists r'. split; [exact E|]. split; [|split; [exact P|do 4 eexists; eauto]].
        right. exists a', b', c', d'. split; [exact L'|]. split; [exact En'|]. split; [exact Nn'|]. split; [exact H1|].
        split; [exact H2|]. split; [apply Forall_snoc; [exact H3|apply good_whole, Hf]|]. split; [exact H7|].
        split; [discriminate|]. intros C. contradiction.
      * (* decreased *)
        assert (En2 : next_held pos h f = held_out h f (h_until h)).
        { unfold next_held. destruct (Qcompare_spec (f_size f) (Qabs pos)); try lra.
          destruct (Qcompare_spec pos 0); [contradiction| |]; (destruct (f_buy f); [|]; try congruence); reflexivity. }
        rewrite En2.
        assert (Hk : ~ now == 0 /\ neb (sign (Fin pos)) (sign (Fin now)) = false /\ Qabs now == Qabs pos - f_size f /\ h_long h = qlt_bool 0 now).
        { rewrite Hw. rewrite Hw in Hd. unfold now.
          destruct (Qcompare_spec pos 0); [contradiction| |]; destruct Hsg as [[Hb ->]|[Hb ->]]; try (rewrite Hb in Hd; congruence).
          - rewrite (Qabs_neg pos) in Hc by lra. repeat split; [lra|same_sign|qabs_known; lra|symmetry; qbg; lra].
          - rewrite (Qabs_pos pos) in Hc by lra. repeat split; [lra|same_sign|qabs_known; lra|symmetry; qbg; lra]. }
        destruct Hk as (K1 & K2 & K3 & K4).
        destruct (step_out r col h f pos now a b c d) as (r' & E & P & a' & b' & c' & d' & L' & En' & Nn' & H7); auto.
        exists r'. split; [exact E|]. split; [|split; [exact P|do 4 eexists; eauto]].
        right. exists a', b', c', d'. split; [exact L'|]. split; [exact En'|]. split; [exact Nn'|]. split; [exact H1|].
        split; [exact H2|]. split; [apply Forall_snoc; [exact H3|apply good_whole, Hf]|]. split; [exact H7|].
        split; [intros C; contradiction|]. intros _. split; [exact Hu|exact K4].
      * (* reversed *)
        assert (En2 : next_held pos h f = mkHeld (h_number h + 1) (f_bar f) (f_buy f)
                        [mkPart (f_size f - Qabs pos) (f_price f) ((f_size f - Qabs pos) / f_size f * f_fees f)] [] None).
        { unfold next_held. destruct (Qcompare_spec (f_size f) (Qabs pos)); try lra.
          destruct (Qcompare_spec pos 0); [contradiction| |]; (destruct (f_buy f); [|]; try congruence); reflexivity. }
        rewrite En2.
        apply step_reverse; auto; rewrite Hw in Hd; unfold now;
          (destruct (Qcompare_spec pos 0); [contradiction| |]); destruct Hsg as [[Hb Hs]|[Hb Hs]]; try (rewrite Hb in Hd; congruence); rewrite Hs;
          (first [rewrite (Qabs_neg pos) in * by lra | rewrite (Qabs_pos pos) in * by lra]);
          first [lra | same_sign | qabs_known; lra | rewrite Hb; symmetry; qbg; lra].
Qed.

Lemma established_describes : forall r col h pos price, established r col h pos price -> describes r col h pos price.
Proof.
  intros r col h pos price (_ & HP & a & b & c & d & (L1 & L2 & L3 & L4 & L5 & L6) & HE & (N1 & N2 & N3 & N4 & N5 & N6 & N7 & N8 & N9)).
  constructor; auto.
  - exists a, b, c. auto 10.
  - exists d. auto.
Qed.

Lemma last_cons2 : forall A (d x y : A) l, last (x :: y :: l) d = last (y :: l) d.
Proof. reflexivity. Qed.

Lemma record_after_ok : forall fills col r h pos, inv r col h pos -> Forall good_fill fills ->
  exists r', record_after col r pos fills = Ok r' /\
    inv r' col (held_after pos h fills) (position_after pos fills) /\
    (forall f l, fills = l ++ [f] -> established r' col (held_after pos h fills) (position_after pos fills) (f_price f)).
Proof.
  induction fills as [|f fs IH]; intros col r h pos Hi Hg.
  - exists r. split; [reflexivity|]. split; [exact Hi|]. intros f l C. now apply (eq_sym) in C; apply app_not_nil in C.
  - inversion Hg as [|? ? Gf Gs]; subst.
    destruct (fill_step r col h pos f Hi Gf) as (r1 & E & He).
    cbn [record_after held_after position_after]. rewrite E. cbn [bind].
    destruct (IH col r1 (next_held pos h f) (pos + signed f)) as (r' & E' & Hi' & Hl); [apply He|exact Gs|].
    exists r'. split; [exact E'|]. split; [exact Hi'|].
    intros g l Hgl. destruct fs as [|f' fs'].
    + destruct l as [|x l]; [|destruct l; discriminate]. inversion Hgl; subst. cbn in E'. inversion E'; subst. exact He.
    + destruct l as [|x l]; [discriminate|]. inversion Hgl; subst. eapply Hl. eassumption.
Qed.

(** Revaluation at any other price *)
Lemma revalued : forall r col h pos price, inv r col h pos -> ~ pos == 0 ->
  exists r', update_open_pos_stats_nb r (Fin pos) (Fin price) = Ok r' /\ describes r' col h pos price.
Proof.
  intros r col h pos price [(_ & _ & C)|(a & b & c & d & L & En & Nn & H1 & H2 & H3 & H4 & H5 & H6)] Hp; [contradiction|].
  destruct (H6 Hp) as [Hu Hl].
  destruct (open_stats_describe r col h pos price a b c d L En Hu Nn H1 H2 H3 H4) as (r' & E & L' & En' & Nn' & P).
  exists r'. split; [exact E|]. apply established_describes. split; [|split; [exact P|eauto 10]].
  right. exists a, b, c, d. auto 12.
Qed.

Lemma inv_start : forall r col, pr_id r = (-1)%Z -> inv r col nothing_held 0.
Proof. intros r col H. left. auto with qarith. Qed.

(** A closed position is left alone *)
Lemma closed_frozen : forall r col h pos now price, inv r col h pos -> pos == 0 ->
  update_open_pos_stats_nb r now price = Ok r.
Proof.
  intros r col h pos now price Hi H0. unfold update_open_pos_stats_nb.
  destruct Hi as [(_ & -> & _)|(a & b & c & d & L & En & _ & _ & _ & _ & _ & H5 & _)]; [reflexivity|].
  unfold ending in En. destruct (h_until h) as [u|]; [|now destruct (H5 H0)].
  destruct En as [-> _]. now rewrite andb_false_r.
Qed.
