(** * Parameter products and combined indexes: proofs *)
From Coq Require Import String ZArith Bool List Arith Lia.
From Verif Require Import Base Grouper IndexFns IndexSpec BaseFnsSpec BaseFnsLemmas.
Import ListNotations.
Local Open Scope list_scope.
Local Open Scope nat_scope.

(** ** Rows of the product *)
Lemma product_row_length : forall {A} (ls : list (list A)) r, In r (product ls) -> length r = length ls.
Proof.
  induction ls as [|l ls IH]; intros r H; cbn in H.
  - destruct H as [<-|[]]. reflexivity.
  - apply in_flat_map in H. destruct H as [x [_ H]]. apply in_map_iff in H. destruct H as [r' [<- H]]. cbn. f_equal. auto.
Qed.
Lemma product_in : forall {A} (ls : list (list A)) c, In c (product ls) <-> Forall2 (fun x l => In x l) c ls.
Proof.
  induction ls as [|l ls IH]; intros c; cbn [product].
  - split; [intros [<-|[]]; constructor|]. intros H. inversion H. now left.
  - rewrite in_flat_map. split.
    + intros [x [Hx H]]. apply in_map_iff in H. destruct H as [r [<- Hr]]. constructor; [exact Hx|]. now apply IH.
    + intros H. inversion H as [|x ? r ? Hx Hr]; subst. exists x. split; [exact Hx|]. apply in_map. now apply IH.
Qed.
Lemma flat_map_length_const : forall {A B} (f : A -> list B) p l, (forall x, length (f x) = p) -> length (flat_map f l) = length l * p.
Proof. induction l as [|x l IH]; intros H; cbn; [reflexivity|]. rewrite app_length, H, IH by exact H. reflexivity. Qed.
Lemma product_length : forall {A} (ls : list (list A)), length (product ls) = combinations ls.
Proof.
  induction ls as [|l ls IH]; cbn; [reflexivity|]. rewrite (flat_map_length_const _ (combinations ls)); [reflexivity|].
  intros x. rewrite map_length. exact IH.
Qed.

Lemma nth_error_flat_map : forall {A B} (f : A -> list B) p l k, (forall x, length (f x) = p) -> p <> 0 -> 
  nth_error (flat_map f l) k = match nth_error l (k / p) with Some x => nth_error (f x) (k mod p) | None => None end.
Proof.
  intros A B f p l k Hf Hp. revert k. induction l as [|x l IH]; intros k; cbn [flat_map].
  - destruct k; destruct (_ / p); reflexivity.
  - destruct (Nat.lt_ge_cases k p) as [Hk|Hk].
    + rewrite nth_error_app1 by (rewrite Hf; exact Hk). rewrite Nat.div_small, Nat.mod_small by exact Hk. reflexivity.
    + rewrite nth_error_app2 by (rewrite Hf; exact Hk). rewrite Hf, IH.
      assert (Hd : k / p = S ((k - p) / p)).
      { replace k with ((k - p) + 1 * p) at 1 by lia. rewrite Nat.div_add by exact Hp. lia. }
      assert (Hm : k mod p = (k - p) mod p).
      { replace k with ((k - p) + 1 * p) at 1 by lia. rewrite Nat.mod_add by exact Hp. reflexivity. }
      rewrite Hd, Hm. reflexivity.
Qed.

Lemma product_nth : forall {A} (ls : list (list A)) k r j l x, nth_error (product ls) k = Some r ->
  nth_error ls j = Some l -> nth_error r j = Some x ->
  nth_error l ((k / combinations (skipn (S j) ls)) mod length l) = Some x.
Proof.
  induction ls as [|l0 ls IH]; intros k r j l x Hr Hl Hx; [destruct j; discriminate|].
  destruct (Nat.eq_dec (combinations ls) 0) as [Hz|Hz].
  { exfalso. assert (Hlen : k < length (product (l0 :: ls))) by (apply nth_error_Some; congruence). rewrite product_length in Hlen. cbn in Hlen. rewrite Hz in Hlen. lia. }
  assert (Hlen : k < length (product (l0 :: ls))) by (apply nth_error_Some; congruence). rewrite product_length in Hlen. cbn [combinations] in Hlen.
  cbn [product] in Hr. rewrite (nth_error_flat_map _ (combinations ls)) in Hr; [|intros; rewrite map_length; apply product_length|exact Hz].
  destruct (nth_error l0 (k / combinations ls)) as [y|] eqn:Ey; [|discriminate]. rewrite nth_error_map in Hr.
  destruct (nth_error (product ls) (k mod combinations ls)) as [r'|] eqn:Er; [|discriminate]. cbn in Hr. injection Hr as <-.
  destruct j as [|j]; cbn [nth_error skipn] in *.
  - injection Hl as <-. injection Hx as <-. rewrite Nat.mod_small; [exact Ey|]. apply Nat.div_lt_upper_bound; lia.
  - specialize (IH _ _ _ _ _ Er Hl Hx). change (match ls with [] => [] | _ :: l1 => skipn j l1 end) with (skipn (S j) ls).
    rewrite <- IH. f_equal.
    assert (Hdiv : exists q, combinations ls = q * length l * combinations (skipn (S j) ls)).
    { clear - Hl. revert j Hl. induction ls as [|m ls IHs]; intros [|j] Hl; cbn in Hl; try discriminate.
      - injection Hl as ->. exists 1. cbn [combinations skipn]. lia.
      - destruct (IHs _ Hl) as [q Hq]. exists (length m * q). cbn [combinations]. rewrite Hq. cbn [skipn]. lia. }
    destruct Hdiv as [q Hq]. set (s := combinations (skipn (S j) ls)) in *. set (n := length l) in *.
    assert (Hs : s <> 0) by (intros H; rewrite H in Hq; lia). assert (Hn : n <> 0) by (intros H; rewrite H in Hq; lia).
    set (p := combinations ls) in *. rewrite (Nat.div_mod k p) at 1 by exact Hz.
    replace (p * (k / p) + k mod p) with (k mod p + (k / p * q * n) * s) by (rewrite Hq; ring).
    rewrite Nat.div_add by exact Hs. rewrite Nat.mod_add by exact Hn. reflexivity.
Qed.

Lemma product_nodup : forall {A} (ls : list (list A)), Forall (@NoDup A) ls -> NoDup (product ls).
Proof.
  induction ls as [|l ls IH]; intros H; cbn; [repeat constructor; intros []|]. inversion H as [|? ? Hl Hls]; subst. specialize (IH Hls).
  clear H Hls. induction Hl as [|x l Hx Hl IHl]; cbn; [constructor|].
  assert (Hd : forall r, In r (map (cons x) (product ls)) -> ~ In r (flat_map (fun y => map (cons y) (product ls)) l)).
  { intros r Hr Hin. apply in_map_iff in Hr. destruct Hr as [r' [<- _]]. apply in_flat_map in Hin. destruct Hin as [y [Hy Hin]].
    apply in_map_iff in Hin. destruct Hin as [r'' [He _]]. injection He as -> _. contradiction. }
  assert (Hm : NoDup (map (cons x) (product ls))).
  { clear - IH. induction IH; cbn; constructor; auto. rewrite in_map_iff. intros [y [Hy Hin]]. injection Hy as ->. contradiction. }
  induction Hm as [|r rs Hr Hm IHm]; cbn; [exact IHl|]. constructor.
  - rewrite in_app_iff. intros [Hi|Hi]; [contradiction|]. eapply Hd; [now left|exact Hi].
  - apply IHm. intros r' Hr'. apply Hd. now right.
Qed.

(** ** Columns of the product *)
Lemma zip_cons_spec : forall {A} (d : A) r cols, length r = length cols ->
  zip_cons r cols = map (fun j => nth j r d :: nth j cols []) (seq 0 (length r)).
Proof.
  intros A d r. induction r as [|x r IH]; intros [|c cols] H; cbn [length] in H; try lia; [reflexivity|].
  cbn [zip_cons length seq map nth]. f_equal. rewrite IH by lia. rewrite <- seq_shift, map_map. reflexivity.
Qed.
Lemma map_nth_map_seq : forall {B} (f : nat -> B) n d, forall j, j < n -> nth j (map f (seq 0 n)) d = f j.
Proof.
  intros B f n d j Hj. rewrite (nth_indep _ d (f 0)) by (rewrite map_length, seq_length; exact Hj).
  rewrite (map_nth f (seq 0 n) 0 j). rewrite seq_nth by exact Hj. reflexivity.
Qed.

Lemma zip_star_spec : forall {A} (d : A) rows w, rows <> [] -> (forall r, In r rows -> length r = w) ->
  zip_star rows = map (fun j => map (fun r => nth j r d) rows) (seq 0 w).
Proof.
  intros A d rows w Hne Hw. induction rows as [|r rows IH]; [congruence|]. destruct rows as [|r' rows].
  - cbn [zip_star map]. rewrite <- (Hw r) by now left. clear. induction r as [|x r IH]; [reflexivity|].
    cbn [length seq map nth]. f_equal. rewrite <- seq_shift, map_map. exact IH.
  - change (zip_star (r :: r' :: rows)) with (zip_cons r (zip_star (r' :: rows))). rewrite IH; [|discriminate|intros q Hq; apply Hw; now right].
    rewrite (zip_cons_spec d) by (rewrite map_length, seq_length; apply Hw; now left). rewrite (Hw r) by now left.
    apply map_ext_in. intros j Hj. apply in_seq in Hj. rewrite map_nth_map_seq by lia. reflexivity.
Qed.

Lemma product_nonempty : forall {A} (ls : list (list A)), Forall (fun l => l <> []) ls -> product ls <> [].
Proof.
  intros A ls H. assert (Hc : combinations ls <> 0).
  { induction H as [|l ls Hl _ IH]; cbn; [lia|]. destruct l; [congruence|]. cbn. lia. }
  rewrite <- product_length in Hc. destruct (product ls); [cbn in Hc; congruence|discriminate].
Qed.

Lemma cpp_spec : forall {A} (d : A) ls, Forall (fun l => l <> []) ls ->
  create_param_product ls = map (fun j => map (fun r => nth j r d) (product ls)) (seq 0 (length ls)).
Proof. intros A d ls H. apply zip_star_spec; [now apply product_nonempty|]. apply product_row_length. Qed.

Lemma some_default : forall {A} (ls : list (list A)), Forall (fun l => l <> []) ls -> ls <> [] -> A.
Proof. intros A [|[|x l] ls] H Hne; [congruence|exfalso; inversion H; congruence|exact x]. Qed.

Lemma cpp_shape : forall {A} (ls : list (list A)), Forall (fun l => l <> []) ls ->
  length (create_param_product ls) = length ls /\ Forall (fun c => length c = combinations ls) (create_param_product ls).
Proof.
  intros A ls H. destruct ls as [|l ls]; [cbn; split; constructor|]. pose proof (some_default _ H ltac:(discriminate)) as d.
  rewrite (cpp_spec d) by exact H. rewrite map_length, seq_length. split; [reflexivity|]. rewrite Forall_forall. intros c Hc.
  apply in_map_iff in Hc. destruct Hc as [j [<- _]]. rewrite map_length. apply product_length.
Qed.

Lemma cpp_combination : forall {A} (ls : list (list A)) k r, Forall (fun l => l <> []) ls -> nth_error (product ls) k = Some r ->
  combination (create_param_product ls) k = map Some r.
Proof.
  intros A ls k r H Hr. destruct ls as [|l ls].
  { cbn in Hr. destruct k as [|k]; [injection Hr as <-; reflexivity|destruct k; discriminate]. }
  pose proof (some_default _ H ltac:(discriminate)) as d. rewrite (cpp_spec d) by exact H. unfold combination. rewrite map_map.
  assert (Hl := product_row_length (l :: ls) r ltac:(eapply nth_error_In; eauto)).
  apply nth_ext with (d := None) (d' := None); [rewrite !map_length, seq_length; congruence|].
  rewrite map_length, seq_length. intros j Hj. rewrite (map_nth_map_seq (fun x => nth_error (map (fun r => nth x r d) (product (l :: ls))) k)) by exact Hj.
  rewrite nth_error_map, Hr. cbn [option_map].
  rewrite (nth_indep _ None (Some d)) by (rewrite map_length; lia). symmetry. apply (map_nth Some r d j).
Qed.

Lemma map_some_inj : forall {A} (a b : list A), map Some a = map Some b -> a = b.
Proof. induction a as [|x a IH]; intros [|y b] H; cbn in H; try discriminate; [reflexivity|]. injection H as -> H. f_equal. auto. Qed.

Lemma cpp_every : forall {A} (ls : list (list A)) c, Forall (fun l => l <> []) ls ->
  Forall2 (fun x l => In x l) c ls <-> exists k, k < combinations ls /\ combination (create_param_product ls) k = map Some c.
Proof.
  intros A ls c H. rewrite <- product_in. split.
  - intros Hin. apply In_nth_error in Hin. destruct Hin as [k Hk]. exists k. split.
    + rewrite <- product_length. apply nth_error_Some. congruence.
    + now apply cpp_combination.
  - intros [k [Hk Hc]]. rewrite <- product_length in Hk. destruct (nth_error_lt' _ _ Hk) as [r Hr].
    rewrite (cpp_combination _ _ _ H Hr) in Hc. apply map_some_inj in Hc. subst. eapply nth_error_In; eauto.
Qed.

Lemma cpp_once : forall {A} (ls : list (list A)) k k', Forall (fun l => l <> []) ls -> Forall (@NoDup A) ls ->
  k < combinations ls -> k' < combinations ls ->
  combination (create_param_product ls) k = combination (create_param_product ls) k' -> k = k'.
Proof.
  intros A ls k k' H Hnd Hk Hk' He. rewrite <- product_length in Hk, Hk'.
  destruct (nth_error_lt' _ _ Hk) as [r Hr]. destruct (nth_error_lt' _ _ Hk') as [r' Hr'].
  rewrite (cpp_combination _ _ _ H Hr), (cpp_combination _ _ _ H Hr') in He. apply map_some_inj in He. subst.
  apply (proj1 (NoDup_nth_error _) (product_nodup _ Hnd)); [exact Hk|congruence].
Qed.

Lemma cpp_order : forall {A} (ls : list (list A)) k j l c, Forall (fun l => l <> []) ls -> k < combinations ls ->
  nth_error ls j = Some l -> nth_error (create_param_product ls) j = Some c ->
  nth_error c k = nth_error l ((k / combinations (skipn (S j) ls)) mod length l).
Proof.
  intros A ls k j l c H Hk Hl Hc. rewrite <- product_length in Hk. destruct (nth_error_lt' _ _ Hk) as [r Hr].
  pose proof (cpp_combination _ _ _ H Hr) as Hcomb. unfold combination in Hcomb.
  assert (Hj : nth_error (map (fun c => nth_error c k) (create_param_product ls)) j = Some (nth_error c k)) by (rewrite nth_error_map, Hc; reflexivity).
  rewrite Hcomb, nth_error_map in Hj. destruct (nth_error r j) as [x|] eqn:Ex; [|discriminate]. cbn in Hj. injection Hj as Hj.
  rewrite <- Hj. symmetry. eapply product_nth; eauto.
Qed.

(** ** Broadcasting parameters *)

Lemma concat_repeat_one : forall {A} (x : A) n, List.concat (repeat [x] n) = repeat x n.
Proof. induction n; cbn; congruence. Qed.

Lemma broadcast_one_spec : forall {A} n (ps qs : list A), 1 <= n -> broadcast_one n ps = Ok qs -> stretched n ps qs.
Proof.
  intros A n ps qs Hn H. unfold broadcast_one in H. destruct (Nat.eqb_spec (length ps) 1) as [E|E]; cbn [orb] in H.
  - destruct ps as [|x [|y ps]]; cbn in E; try lia. destruct (Nat.ltb_spec (length [x]) n) as [L|L]; injection H as <-; cbn [length] in L.
    + rewrite concat_repeat_one. split; [apply repeat_length|]. right. eauto.
    + split; [cbn; lia|]. left. reflexivity.
  - destruct (Nat.eqb_spec (length ps) n) as [E'|E']; [|discriminate].
    destruct (Nat.ltb_spec (length ps) n); [lia|]. injection H as <-. split; [exact E'|]. left. reflexivity.
Qed.
Lemma broadcast_one_accepts : forall {A} n (ps : list A), (exists qs, broadcast_one n ps = Ok qs) <-> length ps = 1 \/ length ps = n.
Proof.
  intros A n ps. unfold broadcast_one. destruct (Nat.eqb_spec (length ps) 1); destruct (Nat.eqb_spec (length ps) n); cbn [orb].
  1-3: split; [tauto|intros _; destruct (Nat.ltb (length ps) n); eauto].
  split; [intros [qs H]; discriminate|tauto].
Qed.
Lemma broadcast_all_spec : forall {A} n (pl ql : list (list A)), 1 <= n -> broadcast_all n pl = Ok ql -> Forall2 (stretched n) pl ql.
Proof.
  induction pl as [|p pl IH]; intros ql Hn H; cbn in H; [injection H as <-; constructor|].
  destruct (broadcast_one n p) as [q|] eqn:E; [|discriminate]. cbn in H. destruct (broadcast_all n pl) as [qs|]; [|discriminate].
  injection H as <-. constructor; [now apply broadcast_one_spec|]. auto.
Qed.
Lemma broadcast_all_accepts : forall {A} n (pl : list (list A)), (exists ql, broadcast_all n pl = Ok ql) <-> Forall (fun p => length p = 1 \/ length p = n) pl.
Proof.
  induction pl as [|p pl IH]; cbn; [split; [constructor|eauto]|]. split.
  - intros [ql H]. destruct (broadcast_one n p) as [q|] eqn:E; [|discriminate]. cbn in H. destruct (broadcast_all n pl) as [qs|] eqn:E'; [|discriminate].
    constructor; [apply broadcast_one_accepts; eauto|]. apply IH. eauto.
  - intros H. inversion H as [|? ? H1 H2]; subst. apply broadcast_one_accepts in H1. destruct H1 as [q ->]. apply IH in H2. destruct H2 as [qs ->]. cbn. eauto.
Qed.

(** ** Combined indexes *)
Lemma product_snoc : forall {A} (ls : list (list A)) l, product (ls ++ [l]) = flat_map (fun c => map (fun x => c ++ [x]) l) (product ls).
Proof.
  induction ls as [|m ls IH]; intros l; cbn [app product].
  - cbn. rewrite app_nil_r. induction l; cbn; congruence.
  - rewrite flat_map_concat_map. rewrite flat_map_concat_map. induction m as [|x m IHm]; cbn; [reflexivity|].
    rewrite map_app, concat_app. f_equal; [|exact IHm]. rewrite IH. rewrite !flat_map_concat_map, !concat_map, !map_map. f_equal.
    apply map_ext. intros c. rewrite map_map. apply map_ext. reflexivity.
Qed.

Lemma map_flat_map : forall {A B C} (g : B -> C) (f : A -> list B) l, map g (flat_map f l) = flat_map (fun x => map g (f x)) l.
Proof. induction l as [|x l IH]; cbn; [reflexivity|]. rewrite map_app, IH. reflexivity. Qed.
Lemma flat_map_map : forall {A B C} (f : B -> list C) (g : A -> B) l, flat_map f (map g l) = flat_map (fun x => f (g x)) l.
Proof. induction l as [|x l IH]; cbn; congruence. Qed.
Lemma flat_map_ext_in : forall {A B} (f g : A -> list B) l, (forall x, In x l -> f x = g x) -> flat_map f l = flat_map g l.
Proof. induction l as [|x l IH]; intros H; cbn; [reflexivity|]. rewrite H by now left. f_equal. apply IH. intros y Hy. apply H. now right. Qed.
Lemma flat_map_const : forall {A B} (t : list B) (l : list A), flat_map (fun _ => t) l = List.concat (repeat t (length l)).
Proof. induction l as [|x l IH]; cbn; congruence. Qed.
Lemma map_const : forall {A B} (y : B) (l : list A), map (fun _ => y) l = repeat y (length l).
Proof. induction l as [|x l IH]; cbn; congruence. Qed.

Lemma cpp_snoc : forall {A} (ls : list (list A)) l, ls <> [] -> Forall (fun l => l <> []) (ls ++ [l]) ->
  create_param_product (ls ++ [l]) =
  map (fun c => flat_map (fun x => repeat x (length l)) c) (create_param_product ls) ++ [List.concat (repeat l (combinations ls))].
Proof.
  intros A ls l Hne H. pose proof (some_default _ H ltac:(destruct ls; discriminate)) as d.
  assert (Hls : Forall (fun l => l <> []) ls) by (apply Forall_app in H; apply H).
  rewrite !(cpp_spec d) by assumption. rewrite app_length. cbn [length]. rewrite Nat.add_1_r, seq_S, map_app. cbn [Nat.add map]. f_equal.
  - rewrite map_map. apply map_ext_in. intros j Hj. apply in_seq in Hj. rewrite product_snoc, map_flat_map, flat_map_map.
    apply flat_map_ext_in. intros c Hc. apply product_row_length in Hc. rewrite map_map.
    rewrite <- map_const. apply map_ext. intros x. rewrite app_nth1 by lia. reflexivity.
  - f_equal. rewrite product_snoc, map_flat_map, <- product_length, <- flat_map_const.
    apply flat_map_ext_in. intros c Hc. apply product_row_length in Hc. rewrite map_map. rewrite <- (map_id l) at 2. apply map_ext.
    intros x. rewrite app_nth2 by lia. rewrite Hc, Nat.sub_diag. reflexivity.
Qed.

Lemma cpp_single : forall {A} (l : list A), create_param_product [l] = [l] \/ l = [].
Proof.
  intros A [|x l]; [right; reflexivity|]. left. rewrite (cpp_spec x) by (repeat constructor; discriminate). cbn [seq map length]. f_equal.
  cbn [product]. rewrite map_flat_map. rewrite (flat_map_ext_in _ (fun y => [y])) by reflexivity.
  generalize (x :: l). intros m. induction m; cbn; congruence.
Qed.

Definition named (p : option string * list Label) : Level := mkLevel (fst p) (snd p).

Lemma same_lengths_all : forall n ls, Forall (fun l => length (lv_values l) = n) ls -> same_lengths ls = true.
Proof.
  intros n ls H. induction H as [|a ls Ha H IH]; [reflexivity|]. destruct ls as [|b t]; [reflexivity|].
  change (Nat.eqb (length (lv_values a)) (length (lv_values b)) && same_lengths (b :: t) = true). rewrite IH, andb_true_r.
  inversion H; subst. apply Nat.eqb_eq. congruence.
Qed.

Lemma index_len_levels : forall x n, levels_of x <> [] -> Forall (fun l => length (lv_values l) = n) (levels_of x) -> index_len x = n.
Proof. intros [l|[|l ls]] n Hne H; cbn in *; [inversion H; auto|congruence|inversion H; auto]. Qed.

Lemma concat_repeat_length : forall {A} (l : list A) n, length (List.concat (repeat l n)) = n * length l.
Proof. induction n; cbn; [reflexivity|]. rewrite app_length, IHn. reflexivity. Qed.
Lemma flat_repeat_length : forall {A} (l : list A) n, length (flat_map (fun x => repeat x n) l) = length l * n.
Proof. intros. apply flat_map_length_const. intros. apply repeat_length. Qed.

Lemma combine_map_r : forall {A B C} (f : B -> C) (a : list A) b, combine a (map f b) = map (fun p => (fst p, f (snd p))) (combine a b).
Proof. induction a as [|x a IH]; intros [|y b]; cbn; congruence. Qed.
Lemma combine_app_eq : forall {A B} (a a' : list A) (b b' : list B), length a = length b -> combine (a ++ a') (b ++ b') = combine a b ++ combine a' b'.
Proof. induction a as [|x a IH]; intros a' [|y b] b' H; cbn in *; try lia; [reflexivity|]. f_equal. apply IH. lia. Qed.

(** After combining the levels [ls], the values are the product. *)
Lemma combine_step_spec : forall id x (ls : list Level) l, ls <> [] -> 
  Forall (fun l => lv_values l <> []) (ls ++ [l]) -> id && is_default_index x = false -> id && level_is_default l = false ->
  levels_of x = map named (combine (map lv_name ls) (create_param_product (map lv_values ls))) ->
  exists y, combine_step id false true false x (Plain l) = Ok y /\ is_default_index y = false /\
    levels_of y = map named (combine (map lv_name (ls ++ [l])) (create_param_product (map lv_values (ls ++ [l])))).
Proof.
  intros id x ls l Hne Hf Hx Hl Hlev.
  assert (Hf' : Forall (fun v => v <> []) (map lv_values ls ++ [lv_values l])).
  { change [lv_values l] with (map lv_values [l]). rewrite <- (map_app lv_values ls [l]). rewrite Forall_map. exact Hf. }
  assert (Hf1 : Forall (fun v => v <> []) (map lv_values ls)) by (apply Forall_app in Hf'; apply Hf').
  destruct (cpp_shape _ Hf1) as [Hsh Hcl]. rewrite map_length in Hsh.
  assert (Hvals : Forall (fun v => length (lv_values v) = combinations (map lv_values ls)) (levels_of x)).
  { rewrite Hlev, Forall_forall. intros v Hv. apply in_map_iff in Hv. destruct Hv as [[nm c] [<- Hv]]. apply in_combine_r in Hv. cbn.
    rewrite Forall_forall in Hcl. now apply Hcl. }
  assert (Hnl : levels_of x <> []).
  { rewrite Hlev. intros H. apply map_eq_nil in H. assert (length (combine (map lv_name ls) (create_param_product (map lv_values ls))) = 0) by (rewrite H; reflexivity).
    rewrite combine_length, map_length, Hsh in H0. destruct ls; [congruence|cbn in H0; lia]. }
  pose proof (index_len_levels _ _ Hnl Hvals) as Hlen.
  unfold combine_step, repeat_index, tile_index. rewrite (andb_comm (is_default_index x)), Hx. cbn [is_default_index].
  rewrite (andb_comm (level_is_default l)), Hl. unfold stack_indexes. cbn [flat_map]. rewrite app_nil_r. cbn [map_levels levels_of index_len].
  assert (Hml : levels_of (map_levels (repeat_level (length (lv_values l))) x) = map (repeat_level (length (lv_values l))) (levels_of x)) by (destruct x; reflexivity).
  rewrite Hml, Hlen.
  set (M := map (repeat_level (length (lv_values l))) (levels_of x) ++ [tile_level (combinations (map lv_values ls)) l]).
  rewrite (same_lengths_all (combinations (map lv_values ls) * length (lv_values l))).
  2:{ subst M. apply Forall_app. split.
      - rewrite Forall_map. eapply Forall_impl; [|exact Hvals]. intros v Hv. cbn [repeat_level lv_values]. rewrite flat_repeat_length, Hv. reflexivity.
      - constructor; [|constructor]. cbn [tile_level lv_values]. apply concat_repeat_length. }
  cbn [negb raise_if]. exists (Multi M). split; [reflexivity|]. split; [reflexivity|]. cbn [levels_of]. subst M.
  rewrite !map_app. cbn [map]. rewrite cpp_snoc by (exact Hf' || (destruct ls; [congruence|discriminate])).
  rewrite combine_app_eq by (rewrite !map_length; congruence). rewrite map_app. cbn [combine map]. f_equal.
  rewrite Hlev, combine_map_r, !map_map. apply map_ext. intros [nm c]. reflexivity.
Qed.

Lemma combine_indexes_is_product : forall id (ls : list Level), ls <> [] -> Forall (fun l => lv_values l <> []) ls ->
  Forall (fun l => id && level_is_default l = false) ls ->
  exists x, combine_indexes (map Plain ls) id false true false = Ok x /\
    levels_of x = map named (combine (map lv_name ls) (create_param_product (map lv_values ls))).
Proof.
  intros id ls Hne Hv Hd. destruct ls as [|l0 ls]; [congruence|]. cbn [map combine_indexes].
  enough (H : exists x, foldM (combine_step id false true false) (Plain l0) (map Plain ls) = Ok x /\ id && is_default_index x = false /\
     levels_of x = map named (combine (map lv_name (l0 :: ls)) (create_param_product (map lv_values (l0 :: ls))))).
  { destruct H as [x [H1 [_ H2]]]. eauto. }
  revert Hv Hd. induction ls as [|l ls IH] using rev_ind; intros Hv Hd.
  - exists (Plain l0). split; [reflexivity|]. inversion Hd; subst. split; [assumption|]. cbn [map]. inversion Hv; subst.
    destruct (cpp_single (lv_values l0)) as [->|E]; [|contradiction]. destruct l0; reflexivity.
  - change (l0 :: ls ++ [l]) with ((l0 :: ls) ++ [l]) in *. pose proof (proj1 (Forall_app _ _ _) Hv) as [Hv1 _]. pose proof (proj1 (Forall_app _ _ _) Hd) as [Hd1 Hd2].
    destruct (IH ltac:(discriminate) Hv1 Hd1) as [x [Hx [Hdx Hlx]]]. rewrite map_app, foldM_app, Hx. cbn [bind map foldM].
    inversion Hd2; subst. destruct (combine_step_spec id x (l0 :: ls) l ltac:(discriminate) Hv Hdx ltac:(assumption) Hlx) as [y [Hy [Hdy Hly]]].
    rewrite Hy. exists y. split; [reflexivity|]. rewrite Hdy, andb_false_r. auto.
Qed.
