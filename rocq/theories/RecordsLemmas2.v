(** * Column ranges and selection of columns *)
From Coq Require Import String ZArith Bool List Arith Lia.
From Verif Require Import Base Num GenericNb RecordsNb RecordsSpec RecordsLemmas.
Import ListNotations.
Open Scope list_scope.

(** ** Column ranges *)
Definition last_of (l : list nat) : Z := match rev l with [] => (-1)%Z | x :: _ => Z.of_nat x end.

(** The row of a column once the records [l] out of [tot] have been seen *)
Definition range_row (tot : nat) (l : list nat) (c : nat) : Z * Z :=
  match rows_of c l with
  | [] => (-1, -1)%Z
  | r0 :: _ => (Z.of_nat r0, if Z.eqb (Z.of_nat c) (last_of l) && negb (Nat.eqb (List.length l) tot) then (-1)%Z
                             else Z.of_nat (r0 + List.length (rows_of c l)))
  end.

Definition blocks (l : list nat) : Prop :=
  (forall c, (last_of l < Z.of_nat c)%Z -> rows_of c l = []) /\
  (forall c r0 t, rows_of c l = r0 :: t -> rows_of c l = seq r0 (S (List.length t)) /\
     (Z.of_nat c = last_of l -> r0 + S (List.length t) = List.length l)).

Lemma last_of_snoc : forall l x, last_of (l ++ [x]) = Z.of_nat x.
Proof. intros. unfold last_of. rewrite rev_app_distr. reflexivity. Qed.

Lemma last_of_ge : forall l, (-1 <= last_of l)%Z.
Proof. intros. unfold last_of. destruct (rev l); lia. Qed.

Lemma last_of_nat : forall l, (last_of l = -1)%Z /\ l = [] \/ exists l' x, l = l' ++ [x] /\ last_of l = Z.of_nat x.
Proof.
  intros l. destruct l as [|x l] using rev_ind; [left; auto|]. right. exists l, x. rewrite last_of_snoc. auto.
Qed.

Lemma blocks_snoc : forall l x, blocks l -> (last_of l <= Z.of_nat x)%Z -> blocks (l ++ [x]).
Proof.
  intros l x (B1 & B2) H. split.
  - intros c Hc. rewrite last_of_snoc in Hc. rewrite rows_of_snoc, B1 by lia. destruct (Nat.eqb_spec x c); [lia|]. reflexivity.
  - intros c r0 t. rewrite rows_of_snoc, last_of_snoc, app_length. cbn [List.length]. destruct (Nat.eqb_spec x c) as [->|Hn].
    + destruct (rows_of c l) as [|r1 t1] eqn:E.
      * cbn [app]. intros H1. injection H1 as <- <-. cbn. split; auto; lia.
      * destruct (B2 c r1 t1 E) as (S1 & S2).
        assert (El : Z.of_nat c = last_of l). { destruct (Z_le_gt_dec (Z.of_nat c) (last_of l)); [lia|]. rewrite B1 in E by lia. discriminate. }
        specialize (S2 El). intros H1. cbn [app] in H1. injection H1 as <- <-. rewrite app_length. cbn [List.length]. split; [|lia].
        change (r1 :: t1 ++ [List.length l]) with ((r1 :: t1) ++ [List.length l]). rewrite <- E, S1. replace (S (List.length t1 + 1)) with (S (List.length t1) + 1) by lia. rewrite seq_app. f_equal. cbn. f_equal. lia.
    + rewrite app_nil_r. intros H1. destruct (B2 c r0 t H1) as (S1 & S2). split; auto. intros Hc. exfalso. lia.
Qed.

Lemma blocks_nil : blocks [].
Proof. split; [reflexivity|]. intros c r0 t H. discriminate. Qed.

Lemma col_range_step_ok : forall tot n l x rest, tot = List.length (l ++ x :: rest) -> x < n -> cols_below n l -> blocks l ->
  col_range_step tot (last_of l, map (range_row tot l) (seq 0 n)) (List.length l, x) =
  if (Z.of_nat x <? last_of l)%Z then Err (ValueError "col_arr must be in ascending order"%string)
  else Ok (last_of (l ++ [x]), map (range_row tot (l ++ [x])) (seq 0 n)).
Proof.
  intros tot n l x rest Ht Hx Hb (B1 & B2). unfold col_range_step, raise_if.
  destruct (Z.ltb_spec (Z.of_nat x) (last_of l)) as [Hlt|Hge]; [reflexivity|].
  rewrite app_length in Ht. cbn [List.length] in Ht.
  assert (Hln : Nat.eqb (List.length l) tot = false) by (apply Nat.eqb_neq; lia).
  assert (Hll : List.length (l ++ [x]) = S (List.length l)) by (rewrite app_length; cbn; lia).
  rewrite last_of_snoc.
  assert (Hend : (Nat.eqb (List.length l) (tot - 1)) = Nat.eqb (S (List.length l)) tot).
  { destruct (Nat.eqb_spec (List.length l) (tot - 1)), (Nat.eqb_spec (S (List.length l)) tot); auto; lia. }
  (* rows of columns other than x and the last one stay *)
  assert (Hother : forall c, c <> x -> Z.of_nat c <> last_of l -> range_row tot (l ++ [x]) c = range_row tot l c).
  { intros c Hcx Hcl. unfold range_row. rewrite rows_of_snoc, last_of_snoc. destruct (Nat.eqb_spec x c); [congruence|]. rewrite app_nil_r.
    destruct (rows_of c l); auto. f_equal.
    destruct (Z.eqb_spec (Z.of_nat c) (Z.of_nat x)); [lia|]. destruct (Z.eqb_spec (Z.of_nat c) (last_of l)); [lia|]. reflexivity. }
  destruct (Z.eqb_spec (Z.of_nat x) (last_of l)) as [El|Nl]; cbn [negb].
  - (* same column *)
    destruct (last_of_nat l) as [(E1 & E2)|(l' & y & E1 & E2)]; [lia|].
    assert (y = x) by lia. subst y.
    destruct (rows_of x l) as [|r0 t] eqn:Er.
    { rewrite E1, rows_of_snoc, Nat.eqb_refl in Er. destruct (rows_of x l'); discriminate. }
    destruct (B2 x r0 t Er) as (S1 & S2). specialize (S2 El).
    assert (Hrow : forall c, c < n -> c <> x -> range_row tot (l ++ [x]) c = range_row tot l c) by (intros c Hc Hn; apply Hother; auto; lia).
    assert (Hx' : range_row tot (l ++ [x]) x = (Z.of_nat r0, if Nat.eqb (S (List.length l)) tot then Z.of_nat (List.length l + 1) else (-1)%Z)).
    { unfold range_row. rewrite rows_of_snoc, Er, Nat.eqb_refl, last_of_snoc, Z.eqb_refl, Hll. cbn [app andb]. f_equal.
      destruct (Nat.eqb (S (List.length l)) tot); cbn [negb]; auto. cbn [List.length]. rewrite app_length. cbn [List.length]. f_equal. lia. }
    assert (Hx0 : range_row tot l x = (Z.of_nat r0, (-1)%Z)).
    { unfold range_row. rewrite Er, El, Z.eqb_refl, Hln. reflexivity. }
    f_equal. f_equal; [lia|]. rewrite Hend. destruct (Nat.eqb (S (List.length l)) tot) eqn:Ee.
    + rewrite (nth_map_seq _ (range_row tot l)) by auto. rewrite Hx0, upd_map_seq. apply map_ext_in. intros c Hc. apply in_seq in Hc.
      destruct (Nat.eqb_spec c x) as [->|Hn]; [rewrite Hx'; reflexivity|symmetry; apply Hrow; auto; lia].
    + apply map_ext_in. intros c Hc. apply in_seq in Hc. destruct (Nat.eq_dec c x) as [->|Hn]; [rewrite Hx', Hx0; reflexivity|symmetry; apply Hrow; auto; lia].
  - (* next column *)
    assert (Hgt : (last_of l < Z.of_nat x)%Z) by lia. pose proof (B1 x Hgt) as Er.
    assert (Hx' : range_row tot (l ++ [x]) x = (Z.of_nat (List.length l), if Nat.eqb (S (List.length l)) tot then Z.of_nat (List.length l + 1) else (-1)%Z)).
    { unfold range_row. rewrite rows_of_snoc, Er, Nat.eqb_refl, last_of_snoc, Z.eqb_refl, Hll. cbn [app andb]. f_equal.
      destruct (Nat.eqb (S (List.length l)) tot); reflexivity. }
    set (rg1 := if negb (last_of l =? -1)%Z then _ else _).
    assert (Hrg1 : rg1 = map (fun c => if Nat.eqb c x then (-1, -1)%Z else range_row tot (l ++ [x]) c) (seq 0 n)).
    { unfold rg1. destruct (last_of_nat l) as [(E1 & E2)|(l' & y & E1 & E2)].
      - rewrite E1. cbn [Z.eqb negb]. apply map_ext_in. intros c Hc. destruct (Nat.eqb_spec c x) as [->|Hn].
        + unfold range_row. rewrite Er. reflexivity.
        + symmetry. apply Hother; auto. lia.
      - rewrite E2. destruct (Z.eqb_spec (Z.of_nat y) (-1)); [lia|]. cbn [negb]. rewrite Nat2Z.id.
        assert (Hy : y < n). { unfold cols_below in Hb. rewrite E1 in Hb. apply Forall_app in Hb as (_ & Hb). inversion Hb; auto. }
        rewrite upd_map_seq. apply map_ext_in. intros c Hc. apply in_seq in Hc. rewrite (nth_map_seq _ (range_row tot l)) by auto.
        destruct (Nat.eqb_spec c y) as [->|Hn].
        + destruct (Nat.eqb_spec y x); [lia|].
          destruct (rows_of y l) as [|r0 t] eqn:Ey. { rewrite E1, rows_of_snoc, Nat.eqb_refl in Ey. destruct (rows_of y l'); discriminate. }
          destruct (B2 y r0 t Ey) as (S1 & S2). specialize (S2 (eq_sym E2)).
          unfold range_row. rewrite rows_of_snoc, last_of_snoc, Ey. destruct (Nat.eqb_spec x y); [lia|]. rewrite app_nil_r. cbn [fst].
          destruct (Z.eqb_spec (Z.of_nat y) (Z.of_nat x)); [lia|]. cbn [andb]. f_equal. cbn [List.length]. rewrite S2. reflexivity.
        + destruct (Nat.eqb_spec c x) as [->|Hn']; [unfold range_row; rewrite Er; reflexivity|]. symmetry. apply Hother; auto. lia. }
    clearbody rg1. subst rg1. rewrite (nth_map_seq _ (fun c => if Nat.eqb c x then (-1, -1)%Z else range_row tot (l ++ [x]) c)) by auto.
    rewrite Nat.eqb_refl. cbn [snd]. rewrite upd_map_seq. rewrite Hend. f_equal. f_equal.
    destruct (Nat.eqb (S (List.length l)) tot) eqn:Ee.
    + rewrite (nth_map_seq _ (fun k => if Nat.eqb k x then (Z.of_nat (List.length l), (-1)%Z) else if Nat.eqb k x then (-1, -1)%Z else range_row tot (l ++ [x]) k)) by auto.
      rewrite Nat.eqb_refl. cbn [fst]. rewrite upd_map_seq. apply map_ext. intros c. destruct (Nat.eqb_spec c x) as [->|Hn]; [rewrite Hx'|]; reflexivity.
    + apply map_ext. intros c. destruct (Nat.eqb_spec c x) as [->|Hn]; [rewrite Hx'|]; reflexivity.
Qed.

Lemma combine_from : forall (l : list nat) x rest, combine (seq 0 (List.length (l ++ x :: rest))) (l ++ x :: rest) =
  combine (seq 0 (List.length l)) l ++ (List.length l, x) :: combine (seq (S (List.length l)) (List.length rest)) rest.
Proof.
  intros l x rest. rewrite app_length, seq_app. cbn [List.length seq Nat.add].
  assert (G : forall (a b : list nat) c e, List.length a = List.length b -> combine (a ++ c) (b ++ e) = combine a b ++ combine c e).
  { induction a as [|y a IH]; intros [|z b] c e H; cbn in *; try lia; auto. f_equal. apply IH. lia. }
  rewrite G by (rewrite seq_length; auto). reflexivity.
Qed.

Lemma ascending_tl : forall x l, ascending (x :: l) -> ascending l.
Proof. intros x l H i j Hij. apply (H (S i) (S j)). cbn. lia. Qed.

Lemma range_run : forall n rest l, cols_below n (l ++ rest) -> blocks l ->
  let tot := List.length (l ++ rest) in
  (forall x, In x rest -> (last_of l <= Z.of_nat x)%Z) -> ascending rest ->
  foldM (col_range_step tot) (last_of l, map (range_row tot l) (seq 0 n)) (combine (seq (List.length l) (List.length rest)) rest)
    = Ok (last_of (l ++ rest), map (range_row tot (l ++ rest)) (seq 0 n)) /\ blocks (l ++ rest).
Proof.
  intros n rest. induction rest as [|x rest IH]; intros l Hb HB tot Hge Ha.
  - cbn. rewrite app_nil_r in *. auto.
  - pose proof Hb as Hb'. apply Forall_app in Hb' as (Hbl & Hbr). inversion Hbr; subst.
    cbn [List.length seq combine foldM]. rewrite (col_range_step_ok tot n l x rest); auto.
    assert (Hx : (last_of l <= Z.of_nat x)%Z) by (apply Hge; left; auto).
    destruct (Z.ltb_spec (Z.of_nat x) (last_of l)); [lia|]. cbn [bind].
    assert (E : l ++ x :: rest = (l ++ [x]) ++ rest) by (rewrite <- app_assoc; auto).
    destruct (IH (l ++ [x])) as (A & B).
    + rewrite <- E. auto.
    + apply blocks_snoc; auto.
    + intros y Hy. rewrite last_of_snoc. apply In_nth with (d := 0) in Hy as (k & Hk & <-). specialize (Ha 0 (S k)). cbn in Ha. lia.
    + eapply ascending_tl; eauto.
    + rewrite <- E in A, B. replace (List.length (l ++ [x])) with (S (List.length l)) in A by (rewrite app_length; cbn; lia). fold tot in A. split; auto.
Qed.

Lemma range_row_all : forall l c, blocks l -> range_says l c (range_row (List.length l) l c).
Proof.
  intros l c (B1 & B2). unfold range_says, range_row. destruct (rows_of c l) as [|r0 t] eqn:E; cbn [List.length Nat.eqb]; auto.
  destruct (B2 c r0 t E) as (S1 & S2). rewrite Nat.eqb_refl, andb_false_r. exists r0, (r0 + S (List.length t)).
  split; [reflexivity|]. split; [lia|]. rewrite <- E, S1. f_equal. lia.
Qed.

Lemma col_range_ok : forall n l, cols_below n l -> ascending l ->
  exists rg, col_range_nb l n = Ok rg /\ List.length rg = n /\ forall c, c < n -> range_says l c (nth c rg (-1, -1)%Z).
Proof.
  intros n l Hb Ha. destruct (range_run n l [] Hb blocks_nil) as (A & B); auto.
  { intros. unfold last_of. cbn. lia. }
  cbn [app] in *. unfold col_range_nb. rewrite repeat_map_seq.
  change (List.length (@nil nat)) with 0 in A. change (last_of []) with (-1)%Z in A.
  assert (E : map (range_row (List.length l) []) (seq 0 n) = map (fun _ => (-1, -1)%Z) (seq 0 n)) by (apply map_ext; reflexivity).
  rewrite E in A. rewrite A. cbn [bind snd]. eexists. split; [reflexivity|]. split; [rewrite map_length, seq_length; auto|].
  intros c Hc. rewrite (nth_map_seq _ (range_row (List.length l) l)) by auto. apply range_row_all; auto.
Qed.

(** Unsorted columns are refused. *)
Lemma range_refuses : forall n rest l, cols_below n (l ++ rest) -> blocks l ->
  let tot := List.length (l ++ rest) in
  ~ ((forall x, In x rest -> (last_of l <= Z.of_nat x)%Z) /\ ascending rest) ->
  foldM (col_range_step tot) (last_of l, map (range_row tot l) (seq 0 n)) (combine (seq (List.length l) (List.length rest)) rest)
    = Err (ValueError "col_arr must be in ascending order"%string).
Proof.
  intros n rest. induction rest as [|x rest IH]; intros l Hb HB tot Hn.
  - exfalso. apply Hn. split; [intros x []|]. intros i j Hij. cbn in Hij. lia.
  - pose proof Hb as Hb'. apply Forall_app in Hb' as (Hbl & Hbr). inversion Hbr; subst.
    cbn [List.length seq combine foldM]. rewrite (col_range_step_ok tot n l x rest); auto.
    destruct (Z.ltb_spec (Z.of_nat x) (last_of l)) as [|Hx]; [reflexivity|]. cbn [bind].
    assert (E : l ++ x :: rest = (l ++ [x]) ++ rest) by (rewrite <- app_assoc; auto).
    pose proof (IH (l ++ [x])) as A. rewrite <- E in A. replace (List.length (l ++ [x])) with (S (List.length l)) in A by (rewrite app_length; cbn; lia). fold tot in A.
    apply A; auto.
    + apply blocks_snoc; auto.
    + intros (H3 & H4). apply Hn. split.
      * intros y [<-|Hy]; auto. specialize (H3 y Hy). rewrite last_of_snoc in H3. lia.
      * intros i j Hij. cbn [List.length] in Hij. destruct j as [|j]; [lia|]. destruct i as [|i]; cbn.
        -- assert (Hy : In (nth j rest 0) rest) by (apply nth_In; lia). specialize (H3 _ Hy). rewrite last_of_snoc in H3. lia.
        -- apply H4. lia.
Qed.

Lemma col_range_err : forall n l, cols_below n l -> ~ ascending l ->
  col_range_nb l n = Err (ValueError "col_arr must be in ascending order"%string).
Proof.
  intros n l Hb Ha. pose proof (range_refuses n l [] Hb blocks_nil) as A. cbn [app List.length] in A. cbn zeta in A.
  change (last_of []) with (-1)%Z in A.
  assert (E : map (range_row (List.length l) []) (seq 0 n) = map (fun _ => (-1, -1)%Z) (seq 0 n)) by (apply map_ext; reflexivity).
  rewrite E in A. unfold col_range_nb. rewrite repeat_map_seq, A; auto. intros (_ & H). auto.
Qed.

(** ** Writing pieces one after the other *)
Lemma put_nil : forall A (out : list A) j, put out j [] = out.
Proof. intros. unfold put. cbn. rewrite Nat.add_0_r. apply firstn_skipn. Qed.

Lemma put_run : forall A (pieces : list (list A)) out j, List.length out = j + list_sum (map (@List.length A) pieces) ->
  fold_left (fun s p => let '(o, j) := s in (put o j p, j + List.length p)) pieces (out, j) =
  (firstn j out ++ concat pieces, j + list_sum (map (@List.length A) pieces)).
Proof.
  intros A pieces. induction pieces as [|p ps IH]; intros out j H; cbn [fold_left map list_sum fold_right concat].
  - cbn in H. rewrite Nat.add_0_r in *. rewrite app_nil_r, <- H, firstn_all. reflexivity.
  - cbn [map list_sum fold_right] in H. change (fold_right Nat.add 0) with list_sum in *.
    assert (Hl : List.length (put out j p) = List.length out).
    { unfold put. rewrite !app_length, firstn_length, skipn_length. lia. }
    rewrite IH by (rewrite Hl; lia). f_equal; [|lia]. unfold put.
    rewrite firstn_app, firstn_firstn, firstn_length. rewrite Nat.min_r by lia.
    replace (j + List.length p - Nat.min j (List.length out)) with (List.length p) by lia.
    rewrite firstn_app, firstn_all, Nat.sub_diag. cbn [firstn]. rewrite app_nil_r, <- app_assoc. reflexivity.
Qed.

Lemma fold_sum : forall l a, fold_left Nat.add l a = a + list_sum l.
Proof. induction l as [|x l IH]; intros a; cbn [fold_left list_sum fold_right]; [lia|]. change (fold_right Nat.add 0) with list_sum. rewrite IH. lia. Qed.

Lemma np_empty_length : forall A (mem : nat -> A) n, List.length (np_empty mem n) = n.
Proof. intros. unfold np_empty. rewrite map_length, seq_length. auto. Qed.

(** ** Selection through the map *)
Lemma in_numbered : forall l i c, In (i, c) (numbered_cols l) -> In c l.
Proof. intros l i c H. apply in_combine_r in H. auto. Qed.

Lemma map_snd_numbered : forall A (f : nat -> A) l, map (fun ic : nat * nat => f (snd ic)) (numbered_cols l) = map f l.
Proof.
  intros A f l. unfold numbered_cols. generalize 0. induction l as [|x l IH]; intros s; cbn; auto. f_equal. apply IH.
Qed.

Lemma select_total : forall mem col_arr n new_cols, cols_below n col_arr -> cols_below n new_cols ->
  np_sum_nat (take 0 (snd (col_map_nb mem col_arr n)) new_cols) = list_sum (map (fun c => List.length (rows_of c col_arr)) new_cols).
Proof.
  intros mem col_arr n new_cols H Hn. unfold np_sum_nat. rewrite fold_sum. cbn. f_equal. unfold take.
  rewrite (proj1 (col_map_props mem col_arr n H)). apply map_ext_in. intros c Hc. unfold cols_below in Hn. rewrite Forall_forall in Hn.
  apply (nth_map_seq _ (fun c => List.length (rows_of c col_arr))). auto.
Qed.

Lemma fold_left_ext_in : forall A B (f g : A -> B -> A) l a, (forall a b, In b l -> f a b = g a b) -> fold_left f l a = fold_left g l a.
Proof.
  intros A B f g l. induction l as [|x l IH]; intros a H; cbn; auto. rewrite H by (left; auto). apply IH. intros; apply H; right; auto.
Qed.

(** Two outputs filled side by side *)
Lemma put_run2 : forall A B C (pa : C -> list A) (pb : C -> list B) cs oa ob j,
  (forall c, In c cs -> List.length (pa c) = List.length (pb c)) ->
  List.length oa = j + list_sum (map (fun c => List.length (pa c)) cs) -> List.length ob = j + list_sum (map (fun c => List.length (pa c)) cs) ->
  fold_left (fun s c => let '(o, o', j) := s in (put o j (pa c), put o' j (pb c), j + List.length (pa c))) cs (oa, ob, j) =
  (firstn j oa ++ concat (map pa cs), firstn j ob ++ concat (map pb cs), j + list_sum (map (fun c => List.length (pa c)) cs)).
Proof.
  intros A B C pa pb cs oa ob j Hab Ha Hb.
  assert (G : forall cs oa ob j, (forall c, In c cs -> List.length (pa c) = List.length (pb c)) ->
    fold_left (fun s c => let '(o, o', j) := s in (put o j (pa c), put o' j (pb c), j + List.length (pa c))) cs (oa, ob, j) =
    (fst (fold_left (fun s p => let '(o, j) := s in (put o j p, j + List.length p)) (map pa cs) (oa, j)),
     fst (fold_left (fun s p => let '(o, j) := s in (put o j p, j + List.length p)) (map pb cs) (ob, j)),
     snd (fold_left (fun s p => let '(o, j) := s in (put o j p, j + List.length p)) (map pa cs) (oa, j)))).
  { clear. induction cs as [|c cs IH]; intros oa ob j H; cbn; auto. rewrite IH by (intros; apply H; right; auto). rewrite (H c) by (left; auto). reflexivity. }
  rewrite G by auto. rewrite !put_run; [|rewrite map_map, Hb|rewrite map_map; auto].
  - cbn [fst snd]. rewrite map_map. reflexivity.
  - f_equal. f_equal. apply map_ext_in. auto.
Qed.

Lemma map_select_spec : forall mem mem' col_arr n new_cols, cols_below n col_arr -> cols_below n new_cols ->
  col_map_select_nb mem' (col_map_nb mem col_arr n) new_cols =
  (concat (map (fun c => rows_of c col_arr) new_cols),
   concat (map (fun ic => repeat (fst ic) (List.length (rows_of (snd ic) col_arr))) (numbered_cols new_cols))).
Proof.
  intros mem mem' col_arr n new_cols H Hn. unfold col_map_select_nb. fold (numbered_cols new_cols).
  pose proof (select_total mem col_arr n new_cols H Hn) as Ht.
  rewrite (fold_left_ext_in _ _ _ (fun s (ic : nat * nat) => let '(o, o', j) := s in
     (put o j (rows_of (snd ic) col_arr), put o' j (repeat (fst ic) (List.length (rows_of (snd ic) col_arr))), j + List.length (rows_of (snd ic) col_arr)))).
  - rewrite (put_run2 _ _ _ (fun ic => rows_of (snd ic) col_arr) (fun ic => repeat (fst ic) (List.length (rows_of (snd ic) col_arr)))).
    + cbn [firstn app]. rewrite (map_snd_numbered _ (fun c => rows_of c col_arr)). reflexivity.
    + intros. rewrite repeat_length. auto.
    + rewrite np_empty_length, Ht. cbn. f_equal. symmetry. apply (map_snd_numbered _ (fun c => List.length (rows_of c col_arr))).
    + rewrite np_empty_length, Ht. cbn. f_equal. symmetry. apply (map_snd_numbered _ (fun c => List.length (rows_of c col_arr))).
  - intros [[o o'] j] [i c] Hic. apply in_numbered in Hic. unfold cols_below in Hn. rewrite Forall_forall in Hn. specialize (Hn c Hic).
    rewrite col_map_len, col_map_seg by auto. cbn [fst snd].
    destruct (Nat.eqb_spec (List.length (rows_of c col_arr)) 0) as [E|_]; auto.
    apply length_zero_iff_nil in E. rewrite E. cbn [List.length repeat]. rewrite !put_nil, Nat.add_0_r. reflexivity.
Qed.

(** ** Selection through the range *)
Lemma arange_says : forall l c p, range_says l c p ->
  ((fst p =? -1)%Z || (snd p =? -1)%Z = Nat.eqb (List.length (rows_of c l)) 0) /\
  (snd p - fst p)%Z = Z.of_nat (List.length (rows_of c l)) /\
  (List.length (rows_of c l) <> 0 -> arange (fst p) (snd p) = rows_of c l).
Proof.
  intros l c p H. unfold range_says in H. destruct (Nat.eqb_spec (List.length (rows_of c l)) 0) as [E|E].
  - subst p. cbn. rewrite E. split; auto. split; auto. congruence.
  - destruct H as (a & b & -> & Hab & Hs). cbn [fst snd]. rewrite Hs, seq_length. split.
    + destruct (Z.eqb_spec (Z.of_nat a) (-1)), (Z.eqb_spec (Z.of_nat b) (-1)); auto; lia.
    + split; [lia|]. intros _. unfold arange. rewrite Nat2Z.id. f_equal. lia.
Qed.

Lemma range_total_says : forall l rg new_cols n, List.length rg = n -> (forall c, c < n -> range_says l c (nth c rg (-1, -1)%Z)) -> cols_below n new_cols ->
  range_total (range_rows rg new_cols) = list_sum (map (fun c => List.length (rows_of c l)) new_cols).
Proof.
  intros l rg new_cols n Hl Hs Hn. unfold range_total, range_rows, take.
  assert (G : forall a, fold_left (fun a r => (a + (snd r - fst r))%Z) (map (fun i => nth i rg (-1, -1)%Z) new_cols) a =
    (a + Z.of_nat (list_sum (map (fun c => List.length (rows_of c l)) new_cols)))%Z).
  { induction Hn as [|c cs Hc Hcs IH]; intros a; cbn [map fold_left list_sum fold_right]; [lia|].
    change (fold_right Nat.add 0) with list_sum. rewrite IH. destruct (arange_says l c _ (Hs c Hc)) as (_ & E & _). rewrite E. lia. }
  rewrite G. lia.
Qed.

Lemma combine_rows : forall (rg : list (Z * Z)) new_cols,
  combine (seq 0 (List.length new_cols)) (range_rows rg new_cols) = map (fun ic => (fst ic, nth (snd ic) rg (-1, -1)%Z)) (numbered_cols new_cols).
Proof.
  intros rg l. unfold numbered_cols, range_rows, take. generalize 0. induction l as [|x l IH]; intros s; cbn; auto. f_equal. apply IH.
Qed.

Lemma fold_left_map : forall A B C (f : A -> C -> A) (g : B -> C) l a, fold_left f (map g l) a = fold_left (fun a b => f a (g b)) l a.
Proof. induction l as [|x l IH]; intros; cbn; auto. Qed.

Lemma range_select_spec : forall mem col_arr n rg new_cols, List.length rg = n -> (forall c, c < n -> range_says col_arr c (nth c rg (-1, -1)%Z)) -> cols_below n new_cols ->
  col_range_select_nb mem rg new_cols =
  (concat (map (fun c => rows_of c col_arr) new_cols),
   concat (map (fun ic => repeat (fst ic) (List.length (rows_of (snd ic) col_arr))) (numbered_cols new_cols))).
Proof.
  intros mem col_arr n rg new_cols Hl Hs Hn. unfold col_range_select_nb. rewrite combine_rows, fold_left_map.
  pose proof (range_total_says col_arr rg new_cols n Hl Hs Hn) as Ht.
  rewrite (fold_left_ext_in _ _ _ (fun s (ic : nat * nat) => let '(o, o', j) := s in
     (put o j (rows_of (snd ic) col_arr), put o' j (repeat (fst ic) (List.length (rows_of (snd ic) col_arr))), j + List.length (rows_of (snd ic) col_arr)))).
  - rewrite (put_run2 _ _ _ (fun ic => rows_of (snd ic) col_arr) (fun ic => repeat (fst ic) (List.length (rows_of (snd ic) col_arr)))).
    + cbn [firstn app]. rewrite (map_snd_numbered _ (fun c => rows_of c col_arr)). reflexivity.
    + intros. rewrite repeat_length. auto.
    + rewrite np_empty_length, Ht. cbn. f_equal. symmetry. apply (map_snd_numbered _ (fun c => List.length (rows_of c col_arr))).
    + rewrite np_empty_length, Ht. cbn. f_equal. symmetry. apply (map_snd_numbered _ (fun c => List.length (rows_of c col_arr))).
  - intros [[o o'] j] [i c] Hic. apply in_numbered in Hic. unfold cols_below in Hn. rewrite Forall_forall in Hn. specialize (Hn c Hic).
    cbn [fst snd]. destruct (nth c rg (-1, -1)%Z) as [a b] eqn:E. destruct (arange_says col_arr c (a, b)) as (A1 & A2 & A3); [rewrite <- E; auto|].
    cbn [fst snd] in *. rewrite A1. destruct (Nat.eqb_spec (List.length (rows_of c col_arr)) 0) as [E0|E0].
    + apply length_zero_iff_nil in E0. rewrite E0. cbn [List.length repeat]. rewrite !put_nil, Nat.add_0_r. reflexivity.
    + rewrite A3 by auto. reflexivity.
Qed.

(** ** Records *)
Section Recs.
  Context {A : Type} (set_col : nat -> A -> A) (d : A).

  Lemma put_run1 : forall C (pa : C -> list A) cs oa, List.length oa = list_sum (map (fun c => List.length (pa c)) cs) ->
    fst (fold_left (fun s c => let '(o, j) := s in (put o j (pa c), j + List.length (pa c))) cs (oa, 0)) = concat (map pa cs).
  Proof.
    intros C pa cs oa H. rewrite <- (fold_left_map _ _ _ (fun s p => let '(o, j) := s in (put o j p, j + List.length p)) pa).
    rewrite put_run by (rewrite map_map; auto). reflexivity.
  Qed.

  Lemma values_of_length : forall B (e : B) c col_arr vals, List.length (values_of e c col_arr vals) = List.length (rows_of c col_arr).
  Proof. intros. unfold values_of. rewrite map_length. auto. Qed.

  Lemma record_map_select : forall mem mem' col_arr n records new_cols, cols_below n col_arr -> cols_below n new_cols ->
    record_col_map_select_nb set_col d mem' records (col_map_nb mem col_arr n) new_cols = selected set_col d col_arr records new_cols.
  Proof.
    intros mem mem' col_arr n records new_cols H Hn. unfold record_col_map_select_nb. fold (numbered_cols new_cols).
    pose proof (select_total mem col_arr n new_cols H Hn) as Ht.
    rewrite (fold_left_ext_in _ _ _ (fun s (ic : nat * nat) => let '(o, j) := s in
       (put o j (map (set_col (fst ic)) (values_of d (snd ic) col_arr records)), j + List.length (map (set_col (fst ic)) (values_of d (snd ic) col_arr records))))).
    - rewrite (put_run1 _ (fun ic => map (set_col (fst ic)) (values_of d (snd ic) col_arr records))); auto.
      rewrite np_empty_length, Ht. f_equal. rewrite <- (map_snd_numbered _ (fun c => List.length (rows_of c col_arr))).
      apply map_ext. intros. rewrite map_length, values_of_length. auto.
    - intros [o j] [i c] Hic. apply in_numbered in Hic. unfold cols_below in Hn. rewrite Forall_forall in Hn. specialize (Hn c Hic).
      rewrite col_map_len, col_map_seg by auto. cbn [fst snd]. rewrite map_length, values_of_length. unfold take.
      destruct (Nat.eqb_spec (List.length (rows_of c col_arr)) 0) as [E|_]; auto.
      unfold values_of. apply length_zero_iff_nil in E. rewrite E. cbn [List.length map]. rewrite put_nil, Nat.add_0_r. reflexivity.
  Qed.

  Lemma slice_rows : forall a b (records : list A), b <= List.length records -> slice a b records = map (fun r => nth r records d) (seq a (b - a)).
  Proof.
    intros a b records Hb. apply (nth_ext _ _ d d).
    - rewrite slice_length, map_length, seq_length; auto.
    - intros k Hk. rewrite slice_length in Hk by auto. rewrite slice_nth by auto.
      rewrite (nth_indep (map _ _) d (nth 0 records d)) by (rewrite map_length, seq_length; auto).
      rewrite (map_nth (fun r => nth r records d)), seq_nth by auto. reflexivity.
  Qed.

  Lemma record_range_select : forall mem col_arr n rg records new_cols, List.length rg = n -> List.length records = List.length col_arr ->
    (forall c, c < n -> range_says col_arr c (nth c rg (-1, -1)%Z)) -> cols_below n new_cols ->
    record_col_range_select_nb set_col mem records rg new_cols = selected set_col d col_arr records new_cols.
  Proof.
    intros mem col_arr n rg records new_cols Hl Hlen Hs Hn. unfold record_col_range_select_nb. rewrite combine_rows, fold_left_map.
    pose proof (range_total_says col_arr rg new_cols n Hl Hs Hn) as Ht.
    rewrite (fold_left_ext_in _ _ _ (fun s (ic : nat * nat) => let '(o, j) := s in
       (put o j (map (set_col (fst ic)) (values_of d (snd ic) col_arr records)), j + List.length (map (set_col (fst ic)) (values_of d (snd ic) col_arr records))))).
    - rewrite (put_run1 _ (fun ic => map (set_col (fst ic)) (values_of d (snd ic) col_arr records))); auto.
      rewrite np_empty_length, Ht. f_equal. rewrite <- (map_snd_numbered _ (fun c => List.length (rows_of c col_arr))).
      apply map_ext. intros. rewrite map_length, values_of_length. auto.
    - intros [o j] [i c] Hic. apply in_numbered in Hic. unfold cols_below in Hn. rewrite Forall_forall in Hn. specialize (Hn c Hic).
      cbn [fst snd]. specialize (Hs c Hn). destruct (nth c rg (-1, -1)%Z) as [a b] eqn:E. destruct (arange_says col_arr c (a, b) Hs) as (A1 & A2 & A3).
      cbn [fst snd] in *. rewrite A1. unfold range_says in Hs. destruct (Nat.eqb_spec (List.length (rows_of c col_arr)) 0) as [E0|E0].
      + unfold values_of. apply length_zero_iff_nil in E0. rewrite E0. cbn [List.length map]. rewrite put_nil, Nat.add_0_r. reflexivity.
      + destruct Hs as (a' & b' & Eab & Hab & Hseq). injection Eab as -> ->. rewrite !Nat2Z.id.
        assert (Hb : b' <= List.length records).
        { rewrite Hlen. assert (Hin : In (b' - 1) (rows_of c col_arr)) by (rewrite Hseq; apply in_seq; lia). apply rows_of_in in Hin. lia. }
        rewrite slice_rows by auto. unfold values_of. rewrite Hseq. reflexivity.
  Qed.
End Recs.

(** ** Sortedness *)
Lemma sorted_iff : forall l, is_col_sorted_nb l = true <-> ascending l.
Proof.
  induction l as [|a [|b l] IH].
  - cbn. split; auto. intros _ i j H. cbn in H. lia.
  - cbn. split; auto. intros _ i j H. cbn in H. lia.
  - cbn [is_col_sorted_nb]. destruct (Nat.ltb_spec b a) as [Hlt|Hge].
    + split; [discriminate|]. intros H. specialize (H 0 1). cbn in H. lia.
    + rewrite IH. split; intros H i j Hij.
      * cbn [List.length] in Hij. destruct j as [|j]; [lia|]. destruct i as [|i]; [|apply (H i j); cbn; lia].
        cbn [nth]. destruct j as [|j]; [auto|]. specialize (H 0 (S j)). cbn in H |- *. lia.
      * apply (H (S i) (S j)). cbn in *. lia.
Qed.

Lemma lex_sorted_iff : forall l, is_col_idx_sorted_nb l = true <-> lex_ascending l.
Proof.
  induction l as [|[c i] [|[c' i'] l] IH].
  - cbn. split; auto. intros _ a b H. cbn in H. lia.
  - cbn. split; auto. intros _ a b H. cbn in H. lia.
  - cbn [is_col_idx_sorted_nb]. destruct (Nat.ltb_spec c' c) as [H1|H1].
    { split; [discriminate|]. intros H. specialize (H 0 1). cbn in H. lia. }
    destruct (Nat.eqb_spec c' c) as [H2|H2], (Nat.ltb_spec i' i) as [H3|H3]; cbn [andb].
    { split; [discriminate|]. intros H. specialize (H 0 1). cbn in H. lia. }
    all: rewrite IH; split; intros H a b Hab.
    all: try (apply (H (S a) (S b)); cbn in *; lia).
    all: cbn [List.length] in Hab; destruct b as [|b]; [lia|]; destruct a as [|a]; [|apply (H a b); cbn; lia].
    all: cbn [nth fst snd]; destruct b as [|b]; [cbn; lia|]; specialize (H 0 (S b)); cbn in H |- *; lia.
Qed.
