(** * Attributes of configs mirror their items: lemmas *)
From Coq Require Import String ZArith Bool List Arith Lia.
From Verif Require Import Base Dicts DictSpec DictLemmas DictLemmas2 DictLemmas3 DictLemmas4 DictLemmas5.
Import ListNotations.
Local Open Scope list_scope.
Local Open Scope nat_scope.

Lemma filter_filter : forall A (f g : A -> bool) (l : list A), filter f (filter g l) = filter (fun x => g x && f x) l.
Proof. intros A f g. induction l as [|x l IH]; [reflexivity|]. cbn. destruct (g x); cbn; [destruct (f x); now rewrite IH|exact IH]. Qed.
Lemma filter_ext_In : forall A (f g : A -> bool) (l : list A), (forall x, In x l -> f x = g x) -> filter f l = filter g l.
Proof.
  intros A f g. induction l as [|x l IH]; intros H; [reflexivity|]. cbn. rewrite (H x (or_introl eq_refl)), IH; [reflexivity|]. intros y Hy. apply H. now right.
Qed.

Section Lists.
  Context {V : Type}.
  Implicit Types d l : list (string * V).
  Lemma del_filter : forall d k, NoDup (keys d) -> dict_del d k = filter (fun kv => negb (String.eqb k (fst kv))) d.
  Proof.
    induction d as [|[k' v] d IH]; intros k Hn; [reflexivity|]. cbn. cbn in Hn. apply NoDup_cons_iff in Hn. destruct Hn as [Hi Hn].
    destruct (String.eqb_spec k k') as [->|Hd]; cbn.
    - symmetry. assert (forall l, ~ In k' (keys l) -> filter (fun kv => negb (String.eqb k' (fst kv))) l = l) as H.
      { induction l as [|[k2 v2] l IHl]; intros Hl; [reflexivity|]. cbn in *. destruct (String.eqb_spec k' k2); [exfalso; auto|]. cbn. f_equal. auto. }
      now apply H.
    - f_equal. now apply IH.
  Qed.
  Lemma keys_filter : forall (f : string -> bool) d k, In k (keys (filter (fun kv => f (fst kv)) d)) <-> In k (keys d) /\ f k = true.
  Proof.
    intros f. induction d as [|[k' v] d IH]; intros k; cbn; [tauto|]. destruct (f k') eqn:E; cbn; rewrite IH; intuition congruence.
  Qed.
  Lemma nodup_filter : forall (f : string -> bool) d, NoDup (keys d) -> NoDup (keys (filter (fun kv => f (fst kv)) d)).
  Proof.
    intros f. induction d as [|[k' v] d IH]; intros Hn; [constructor|]. cbn in *. apply NoDup_cons_iff in Hn. destruct Hn as [Hi Hn].
    destruct (f k') eqn:E; cbn; [|auto]. constructor; [|auto]. unfold keys in *. intros H. apply (keys_filter f d) in H. tauto.
  Qed.
  Lemma nodup_del : forall d k, NoDup (keys d) -> NoDup (keys (dict_del d k)).
  Proof. intros d k Hn. rewrite del_filter by exact Hn. now apply (nodup_filter (fun k' => negb (String.eqb k k'))). Qed.
  (** deleting all keys of [l] that are not in [items'] *)
  Lemma clear_fold : forall (items' : list (string * V)) l d, NoDup (keys d) ->
    fold_left (fun attrs kv => if has_key items' (fst kv) then attrs else dict_del attrs (fst kv)) l d =
    filter (fun kv => has_key items' (fst kv) || negb (has_key l (fst kv))) d.
  Proof.
    intros items'. induction l as [|[k v] l IH]; intros d Hn.
    - cbn. symmetry. rewrite (filter_ext_In _ _ (fun _ => true)) by (intros; now rewrite orb_true_r). induction d as [|x d IHd]; [reflexivity|].
      cbn. f_equal. apply IHd. now apply NoDup_cons_iff in Hn.
    - cbn [fold_left fst]. destruct (has_key items' k) eqn:E.
      + rewrite IH by exact Hn. apply filter_ext_In. intros [k' v'] _. cbn. unfold has_key at 4. cbn. destruct (String.eqb_spec k' k) as [->|_]; [|reflexivity].
        rewrite E. reflexivity.
      + rewrite IH by now apply nodup_del. rewrite del_filter by exact Hn. rewrite filter_filter. apply filter_ext_In. intros [k' v'] _. cbn.
        unfold has_key at 4. cbn. destruct (String.eqb_spec k' k) as [->|Hd].
        * rewrite String.eqb_refl, E. reflexivity.
        * destruct (String.eqb_spec k k'); [congruence|]. reflexivity.
  Qed.
  Lemma clear_self : forall (items' : list (string * V)) d, NoDup (keys d) ->
    fold_left (fun attrs kv => if has_key items' (fst kv) then attrs else dict_del attrs (fst kv)) d d = filter (fun kv => has_key items' (fst kv)) d.
  Proof.
    intros items' d Hn. rewrite clear_fold by exact Hn. apply filter_ext_In. intros [k v] Hi. cbn.
    assert (has_key d k = true) as -> by (apply has_key_spec; now apply (keys_in _ _ _ v)). now rewrite orb_false_r.
  Qed.
  Lemma has_key_In : forall d k v, In (k, v) d -> has_key d k = true.
  Proof. intros d k v H. apply has_key_spec. now apply (keys_in _ _ _ v). Qed.
  Lemma clear_del : forall d k, NoDup (keys d) -> filter (fun kv => has_key (dict_del d k) (fst kv)) d = dict_del d k.
  Proof.
    intros d k Hn. rewrite !del_filter by exact Hn. apply filter_ext_In. intros [k' v] Hi. cbn.
    apply eq_iff_eq_true. rewrite has_key_spec. rewrite (keys_filter (fun x => negb (String.eqb k x))). split; [tauto|]. intros H. split; [now apply (keys_in _ _ _ v)|exact H].
  Qed.
  Lemma clear_last : forall d, NoDup (keys d) -> filter (fun kv => has_key (removelast d) (fst kv)) d = removelast d.
  Proof.
    intros d Hn. destruct (rev d) as [|[k v] r] eqn:Er.
    - assert (d = []) as -> by (rewrite <- (rev_involutive d), Er; reflexivity). reflexivity.
    - assert (Hd : d = rev r ++ [(k, v)]) by (rewrite <- (rev_involutive d), Er; reflexivity). rewrite Hd in *. rewrite removelast_last.
      rewrite filter_app. cbn. unfold keys in Hn. rewrite map_app in Hn. cbn in Hn. apply NoDup_remove in Hn. rewrite app_nil_r in Hn. destruct Hn as [_ Hn].
      assert (has_key (rev r) k = false) as ->.
      { destruct (has_key (rev r) k) eqn:E; [|reflexivity]. apply has_key_spec in E. contradiction. }
      rewrite app_nil_r. rewrite (filter_ext_In _ _ (fun _ => true)) by (intros [k1 v1] Hi; cbn; now apply (has_key_In _ _ v1)).
      clear. induction (rev r) as [|x l IH]; [reflexivity|]. cbn. now rewrite IH.
  Qed.
  Lemma nodup_removelast : forall d, NoDup (keys d) -> NoDup (keys (removelast d)).
  Proof. intros d Hn. rewrite <- clear_last by exact Hn. now apply (nodup_filter (fun k => has_key (removelast d) k)). Qed.
  Lemma set_same_item : forall d k v, NoDup (keys d) -> In (k, v) d -> dict_set d k v = d.
  Proof.
    induction d as [|[k' v'] d IH]; intros k v Hn Hi; [contradiction|]. cbn in *. apply NoDup_cons_iff in Hn. destruct Hn as [Hk Hn].
    destruct (String.eqb_spec k k') as [->|Hd].
    - destruct Hi as [Hi|Hi]; [now injection Hi as <-|]. exfalso. apply Hk. now apply (keys_in _ _ _ v).
    - f_equal. destruct Hi as [Hi|Hi]; [congruence|]. auto.
  Qed.
  Lemma set_all_same : forall l d, NoDup (keys d) -> (forall k v, In (k, v) l -> In (k, v) d) ->
    fold_left (fun a kv => dict_set a (fst kv) (snd kv)) l d = d.
  Proof.
    induction l as [|[k v] l IH]; intros d Hn Hi; [reflexivity|]. cbn. rewrite set_same_item; auto using in_eq. apply IH; auto. intros; apply Hi. now right.
  Qed.
  Lemma nodup_sets : forall l d, NoDup (keys d) -> NoDup (keys (fold_left (fun a kv => dict_set a (fst kv) (snd kv)) l d)).
  Proof. induction l as [|[k v] l IH]; intros d Hn; [exact Hn|]. cbn. apply IH. now apply nodup_set. Qed.
End Lists.

(** ** The invariant *)
Definition neat (o : Obj) : Prop :=
  NoDup (keys (o_items o)) /\ forall c, o_cfg o = Some c -> c_as_attrs c = true -> o_attrs o = o_items o.
Definition keeps {A} (m : M A) : Prop := forall h, mirrored h -> mirrored (fst (m h)).
Lemma keeps_bind : forall A B (m : M A) (f : A -> M B), keeps m -> (forall a, keeps (f a)) -> keeps (andThen m f).
Proof. intros A B m f Hm Hf h Hh. unfold andThen. specialize (Hm h Hh). destruct (m h) as [h1 [a|e]]; cbn [fst] in *; [now apply Hf|exact Hm]. Qed.
Lemma keeps_load : forall B a (f : Obj -> M B), (forall o h, mirrored h -> nth_error h a = Some o -> neat o -> mirrored (fst (f o h))) -> keeps (andThen (load a) f).
Proof. intros B a f H h Hh. unfold andThen, load. destruct (nth_error h a) as [o|] eqn:E; [|exact Hh]. apply H; auto. exact (Hh a o E). Qed.
Lemma keeps_load' : forall B a (f : Obj -> M B), (forall o, neat o -> keeps (f o)) -> keeps (andThen (load a) f).
Proof. intros B a f H. apply keeps_load. intros o h Hh _ Ho. now apply H. Qed.
Lemma keeps_ret : forall A (a : A), keeps (ret a).
Proof. intros A a h Hh. exact Hh. Qed.
Lemma keeps_raise : forall A e, keeps (@raise A e).
Proof. intros A e h Hh. exact Hh. Qed.
Lemma keeps_alloc : forall o, neat o -> keeps (alloc o).
Proof.
  intros o Ho h Hh a o' Hn. cbn in Hn. destruct (Nat.lt_ge_cases a (List.length h)).
  - rewrite nth_error_app1 in Hn by lia. exact (Hh a o' Hn).
  - rewrite nth_error_app2 in Hn by lia. destruct (a - List.length h) as [|[|j]]; cbn in Hn; try discriminate. injection Hn as <-. exact Ho.
Qed.
Lemma mirrored_upd : forall h a o, mirrored h -> neat o -> mirrored (upd h a o).
Proof.
  intros h a o Hh Ho b o' Hn. destruct (Nat.eq_dec b a) as [->|Hd].
  - rewrite nth_error_upd, Nat.eqb_refl in Hn. cbn [andb] in Hn. destruct (Nat.ltb a (List.length h)) eqn:El; [injection Hn as <-; exact Ho|exact (Hh a o' Hn)].
  - rewrite upd_other in Hn by exact Hd. exact (Hh b o' Hn).
Qed.
Lemma keeps_store : forall a o, neat o -> keeps (store a o).
Proof. intros a o Ho h Hh. now apply mirrored_upd. Qed.
Lemma keeps_each : forall A (f : A -> M unit) l, (forall a, keeps (f a)) -> keeps (each f l).
Proof. intros A f l Hf. induction l as [|a l IH]; cbn [each]; [apply keeps_ret|]. apply keeps_bind; auto. Qed.
Ltac kb := apply keeps_bind; [|intros ?].
Lemma neat_plain : forall items, NoDup (keys items) -> neat (plain items).
Proof. intros items H. split; [exact H|]. intros c Hc. discriminate Hc. Qed.

Lemma keeps_set_raw : forall a k v, keeps (set_raw a k v).
Proof.
  intros a k v. unfold set_raw. apply keeps_load'. intros o [Hn Ha]. apply keeps_store. split; cbn; [now apply nodup_set|].
  intros c Hc Has. rewrite Hc, Has. f_equal. eauto.
Qed.
Lemma keeps_setitem : forall a c k v force, keeps (config_setitem a c k v force).
Proof.
  intros a c k v force. unfold config_setitem. apply keeps_load'. intros o _. destruct (negb force && c_readonly c); [apply keeps_raise|].
  destruct (negb force && c_frozen c && negb (has_key (o_items o) k)); [apply keeps_raise|apply keeps_set_raw].
Qed.
Lemma keeps_set_item : forall a k v force, keeps (set_dict_item a k v force).
Proof. intros a k v force. unfold set_dict_item. apply keeps_load'. intros o _. destruct (o_cfg o); [apply keeps_setitem|apply keeps_set_raw]. Qed.
Lemma keeps_force_items : forall a items, keeps (force_items a items).
Proof. intros a items. apply keeps_each. intros kv. apply keeps_set_item. Qed.
Lemma keeps_dict_of : forall a, keeps (dict_of a).
Proof. intros a. unfold dict_of. apply keeps_load'. intros o [Hn _]. apply keeps_alloc. now apply neat_plain. Qed.
Lemma keeps_set_reset : forall a r, keeps (set_reset a r).
Proof.
  intros a r. unfold set_reset. apply keeps_load'. intros o [Hn Ha]. destruct (o_cfg o) as [c|] eqn:E; [|apply keeps_ret]. apply keeps_store.
  split; [exact Hn|]. cbn. intros c' Hc Has. injection Hc as <-. cbn in Has. eauto.
Qed.
Lemma keeps_copy_object : forall a, keeps (copy_object a).
Proof.
  intros a. unfold copy_object. apply keeps_load'. intros o [Hn Ha]. destruct (o_cfg o) as [c|] eqn:E; apply keeps_alloc.
  - split; [exact Hn|]. cbn. intros c' Hc Has. injection Hc as <-. rewrite Has. rewrite (Ha c eq_refl Has). now apply set_all_same.
  - split; [exact Hn|]. intros c' Hc. congruence.
Qed.
Lemma keeps_copy_dict : forall fuel a kw, keeps (copy_dict fuel a kw).
Proof.
  induction fuel as [|fuel IH]; intros a kw; cbn [copy_dict]; [apply keeps_raise|]. apply keeps_load'. intros o _. destruct (o_cfg o) as [c|].
  - kb; [apply keeps_copy_object|]. kb; [apply keeps_dict_of|]. kb; [apply IH|]. kb; [apply keeps_set_reset|]. kb; [apply keeps_dict_of|]. kb; [apply IH|].
    apply keeps_load'. intros od _. kb; [apply keeps_force_items|]. apply keeps_ret.
  - kb; [apply keeps_copy_object|]. kb; [|apply keeps_ret]. apply keeps_each. intros [k [z|c]]; [apply keeps_set_item|].
    destruct (cp_nested kw); [kb; [apply IH|apply keeps_set_item]|]. destruct (cp_mode kw); [apply keeps_set_item|]. kb; [apply keeps_copy_object|apply keeps_set_item].
Qed.
Lemma keeps_convert : forall fuel a nested, keeps (convert_to_dict fuel a nested).
Proof.
  induction fuel as [|fuel IH]; intros a nested; cbn [convert_to_dict]; [apply keeps_raise|]. apply keeps_load'. intros o [Hn _].
  kb; [apply keeps_alloc; split; [exact Hn|intros c Hc; discriminate Hc]|]. destruct (negb nested); [apply keeps_ret|]. kb; [|apply keeps_ret].
  apply keeps_each. intros [k [z|c]]; [apply keeps_set_raw|]. kb; [apply IH|apply keeps_set_raw].
Qed.
Lemma keeps_update : forall fuel x y nested force sk, keeps (update_dict fuel x y nested force sk).
Proof.
  induction fuel as [|fuel IH]; intros x y nested force sk; cbn [update_dict]; [apply keeps_raise|]. apply keeps_load'. intros oy _. apply keeps_each.
  intros [k v]. apply keeps_load'. intros ox _. cbn zeta.
  assert (Hset : keeps (if sk && negb (has_key (o_items ox) k) then ret tt else set_dict_item x k v force)).
  { destruct (sk && negb (has_key (o_items ox) k)); [apply keeps_ret|apply keeps_set_item]. }
  destruct (dict_get (o_items ox) k) as [[z|xk]|]; try exact Hset. destruct v as [z|c]; [exact Hset|].
  apply keeps_load'. intros oc _. destruct (nested && negb (o_atomic oc)); [apply IH|exact Hset].
Qed.
Lemma keeps_init : forall fuel at_ dct rd ro fr nst conv attrs ck rk, keeps (config_init fuel at_ dct rd ro fr nst conv attrs ck rk).
Proof.
  induction fuel as [|fuel IH]; intros at_ dct rd ro fr nst conv attrs ck rk; cbn [config_init]; [apply keeps_raise|].
  kb; [apply keeps_dict_of|]. kb; [apply keeps_copy_dict|]. apply keeps_load'. intros od _. kb.
  - destruct conv; [|apply keeps_ret]. destruct (negb nst); [apply keeps_raise|]. apply keeps_each. intros [k [z|c]]; [apply keeps_ret|].
    apply keeps_load'. intros oc _. destruct (o_cfg oc); [apply keeps_ret|]. kb; [apply IH|apply keeps_set_raw].
  - kb; [apply keeps_dict_of|]. kb; [apply keeps_copy_dict|]. apply keeps_load'. intros od' [Hn _]. apply keeps_alloc. split; [exact Hn|].
    cbn. intros c Hc Ha. injection Hc as <-. cbn in Ha. now rewrite Ha.
Qed.
Lemma neat_cleared : forall o c items', neat o -> o_cfg o = Some c -> NoDup (keys items') ->
  (NoDup (keys (o_items o)) -> filter (fun kv => has_key items' (fst kv)) (o_items o) = items') ->
  neat (mkObj (o_atomic o) (o_cfg o) items' (clear_attrs o c items')).
Proof.
  intros o c items' [Hn Ha] Ec Hi Hf. split; [exact Hi|]. cbn. intros c' Hc Has. rewrite Ec in Hc. injection Hc as <-.
  unfold clear_attrs. rewrite Has, (Ha c Ec Has). rewrite clear_self by exact Hn. now apply Hf.
Qed.
Lemma keeps_skip : forall A (m : M A), keeps m -> keeps (skip_result m).
Proof. intros A m H. unfold skip_result. kb; [exact H|apply keeps_ret]. Qed.
Lemma filter_none : forall V (d : list (string * V)), filter (fun kv => has_key (V:=V) [] (fst kv)) d = [].
Proof. induction d as [|x d IH]; [reflexivity|exact IH]. Qed.

Lemma keeps_call : forall a op force, overridden (a, op, force) -> keeps (call a op force).
Proof.
  intros a op force Ho. unfold call. apply keeps_load. intros o h Hh E Hneat. pose proof Hneat as [Hn Ha]. destruct (o_cfg o) as [c|] eqn:Ec.
  - assert (Hdel : forall k f, mirrored (fst (config_delitem a c k f h))).
    { intros k f. unfold config_delitem. destruct (negb f && c_readonly c); [exact Hh|]. destruct (negb f && c_frozen c); [exact Hh|].
      unfold andThen, load. rewrite E. destruct (has_key (o_items o) k); [|exact Hh]. cbn. apply mirrored_upd; [exact Hh|]. split; cbn; [now apply nodup_del|].
      intros c' Hc Has. rewrite Ec in Hc. injection Hc as <-. rewrite Has. f_equal. eauto. }
    assert (Hsk : forall A (m : M A), mirrored (fst (m h)) -> mirrored (fst (skip_result m h))).
    { intros A m H. unfold skip_result, andThen. destruct (m h) as [h1 [x|e]]; exact H. }
    assert (Hclear : forall f, mirrored (fst (config_clear a c f h))).
    { intros f. unfold config_clear. destruct (negb f && c_readonly c); [exact Hh|]. destruct (negb f && c_frozen c); [exact Hh|].
      unfold andThen, load. rewrite E. cbn. apply mirrored_upd; [exact Hh|]. apply neat_cleared; auto; [constructor|]. intros _. apply filter_none. }
    destruct op as [k v|k|k v|k|k d| | |other nst| | | |nst|k v|other]; try contradiction.
    + now apply keeps_setitem.
    + apply Hdel.
    + destruct (c_as_attrs c); [now apply keeps_setitem|exact Hh].
    + destruct (c_as_attrs c); [apply Hdel|exact Hh].
    + apply Hsk. unfold config_pop. destruct (negb force && c_readonly c); [exact Hh|]. destruct (negb force && c_frozen c); [exact Hh|].
      unfold andThen, load. rewrite E. destruct (dict_get (o_items o) k); cbn.
      * apply mirrored_upd; [exact Hh|]. apply neat_cleared; auto; [now apply nodup_del|]. intros _. now apply clear_del.
      * destruct d; exact Hh.
    + apply Hsk. unfold config_popitem. destruct (negb force && c_readonly c); [exact Hh|]. destruct (negb force && c_frozen c); [exact Hh|].
      unfold andThen, load. rewrite E. destruct (rev (o_items o)); cbn; [exact Hh|].
      apply mirrored_upd; [exact Hh|]. apply neat_cleared; auto; [now apply nodup_removelast|]. intros _. now apply clear_last.
    + apply Hclear.
    + unfold config_update. apply keeps_bind; [apply keeps_dict_of|intros; apply keeps_update|exact Hh].
    + apply Hsk. revert h Hh E Hsk Hdel Hclear. intros h Hh _ _ _ _. unfold config_copy. revert h Hh. change (keeps (config_copy depth_limit a c)). unfold config_copy.
      kb; [apply keeps_copy_object|]. kb; [apply keeps_dict_of|]. kb; [apply keeps_copy_dict|]. kb; [apply keeps_set_reset|]. kb; [apply keeps_dict_of|].
      kb; [apply keeps_copy_dict|]. apply keeps_load'. intros od _. kb; [apply keeps_force_items|]. apply keeps_ret.
    + clear Hdel Hsk. unfold config_reset. destruct (negb force && c_readonly c); [exact Hh|]. unfold andThen at 1.
      pose proof (keeps_dict_of (c_reset c) h Hh) as H1. pose proof (proj1 (dict_of_new (List.length h) (c_reset c)) h (le_n _)) as G1.
      destruct (dict_of (c_reset c) h) as [h1 [r0|e]]; cbn [fst] in *; [|exact H1]. unfold andThen at 1.
      pose proof (keeps_copy_dict depth_limit r0 (c_reset_copy c) h1 H1) as H2.
      pose proof (proj1 (copy_dict_new depth_limit (List.length h) r0 (c_reset_copy c)) h1 ltac:(destruct G1; lia)) as G2.
      destruct (copy_dict depth_limit r0 (c_reset_copy c) h1) as [h2 [r|e]]; cbn [fst] in *; [|exact H2].
      destruct (frame_trans _ _ _ _ _ utr_trans G1 G2) as [_ G]. destruct (G a o (nth_error_len _ _ _ _ E) E) as [o2 [E2 [K2 _]]].
      unfold andThen at 1. unfold config_clear at 1. cbn [negb andb]. unfold andThen at 1, load at 1. rewrite E2. cbn [store].
      assert (H3 : mirrored (upd h2 a (mkObj (o_atomic o2) (o_cfg o2) [] (clear_attrs o2 c [])))).
      { apply mirrored_upd; [exact H2|]. destruct K2 as [_ K2]. rewrite Ec in K2. destruct (o_cfg o2) as [c2|] eqn:Ec2; [|contradiction].
        destruct K2 as [_ [_ [_ [K2 _]]]]. destruct (H2 a o2 E2) as [Hn2 Ha2].
        split; [constructor|]. cbn. intros c' Hc Has. injection Hc as <-. unfold clear_attrs. rewrite <- K2, Has.
        rewrite (Ha2 c2 Ec2 Has). rewrite clear_self by exact Hn2. apply filter_none. }
      revert H3. generalize (upd h2 a (mkObj (o_atomic o2) (o_cfg o2) [] (clear_attrs o2 c []))). intros h3 H3. revert h3 H3.
      match goal with |- forall h, mirrored h -> mirrored (fst (?m h)) => change (keeps m) end.
      apply keeps_load'. intros ores _. kb; [apply keeps_force_items|]. apply keeps_set_reset.
    + unfold config_make_checkpoint. destruct (negb force && c_readonly c); [exact Hh|]. revert h Hh E Hsk Hdel Hclear. intros h Hh _ _ _ _. revert h Hh.
      match goal with |- forall h, mirrored h -> mirrored (fst (?m h)) => change (keeps m) end.
      kb; [apply keeps_dict_of|]. kb; [apply keeps_copy_dict|]. apply keeps_set_reset.
    + apply keeps_skip; [apply keeps_convert|exact Hh].
  - assert (Hst : forall items, NoDup (keys items) -> mirrored (fst (store a (with_items o items) h))).
    { intros items Hi. cbn. apply mirrored_upd; [exact Hh|]. split; [exact Hi|]. cbn. intros c Hc. congruence. }
    destruct op as [k v|k|k v|k|k d| | |other nst| | | |nst|k v|other]; try contradiction; cbn [dict_call]; try exact Hh.
    + now apply keeps_set_raw.
    + destruct (has_key (o_items o) k); [apply Hst; now apply nodup_del|exact Hh].
    + destruct (has_key (o_items o) k); [apply Hst; now apply nodup_del|]. destruct d; exact Hh.
    + destruct (o_items o) eqn:Ei; [exact Hh|]. apply Hst. rewrite <- Ei in *. now apply nodup_removelast.
    + apply Hst. constructor.
    + unfold andThen, load. destruct (nth_error h other); [|exact Hh]. apply Hst. now apply nodup_sets.
    + apply keeps_skip; [apply keeps_copy_object|exact Hh].
Qed.
Lemma mirrored_history : forall ops h, Forall overridden ops -> mirrored h -> mirrored (calls h ops).
Proof.
  induction ops as [|[[a op] force] ops IH]; intros h Ho Hh; [exact Hh|]. apply Forall_cons_iff in Ho. destruct Ho as [Ho Hos]. cbn [calls].
  apply IH; [exact Hos|]. now apply keeps_call.
Qed.
