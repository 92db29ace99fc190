(** * Indicators over parameters: the theorems on runs *)
From Coq Require Import String ZArith Bool List Arith Lia.
From Verif Require Import Base Grouper IndexFns BaseFnsLemmas4 BroadcastSpec BroadcastLemmas2 Indicator IndicatorSpec
  IndicatorLemmas IndicatorLemmas2 IndicatorLemmas3 IndicatorLemmas4 IndicatorLemmas5 IndicatorLemmas6.
Import ListNotations.
Local Open Scope nat_scope.

Section Pipeline.
Context {V P : Type}.
Variable peq : P -> P -> bool.
Variable hashable : P -> bool.
Variable label_of : P -> Label.
Notation Result := (list (Frame V) * list (Frame V))%type.

Definition whole (q m : nat) (results : list Result) : list (Frame V) := map (blocks fst results) (seq 0 q) ++ map (blocks snd results) (seq 0 m).
Lemma whole_split : forall q m results, firstn q (whole q m results) = map (blocks fst results) (seq 0 q) /\ skipn q (whole q m results) = map (blocks snd results) (seq 0 m).
Proof.
  intros q m results. unfold whole. assert (L : length (map (blocks fst results) (seq 0 q)) = q) by (rewrite map_length; apply seq_length).
  split.
  - rewrite firstn_app, L, Nat.sub_diag, firstn_O, app_nil_r. rewrite <- L at 1. apply firstn_all.
  - rewrite skipn_app, L, Nat.sub_diag, skipn_all2 by lia. reflexivity.
Qed.


Lemma results_shaped : forall m apply new (a : @Args V P) rows cols (results : list Result) n, new_shapes rows new -> given_shapes rows cols a ->
  @keeps_shape V P m apply (a_inputs a) rows cols -> length results = n ->
  (forall p, p < n -> exists n' p' t, p' < n' /\ apply (a_inputs a) (before new a n' cols p') t = Ok (nth p results ([], []))) ->
  Forall (shaped rows cols (length (a_in_outputs a)) m) results.
Proof.
  intros m apply new a rows cols results n Hnew Hgs Hk L Ha. apply Forall_forall. intros r Hin. destruct (In_nth _ _ ([], []) Hin) as (p & Hlt & <-). rewrite L in Hlt.
  destruct (Ha p Hlt) as (n' & p' & t & Hlt' & E). destruct (nth p results ([], [])) as [io os]. apply Hk in E; [|apply before_shape; assumption]. destruct E as (A & B & C & D).
  unfold shaped. cbn [fst snd]. rewrite A. unfold before. rewrite map_length, combine_length, seq_length. repeat split; auto. lia.
Qed.


Lemma run_outputs : forall m apply new nm (a : @Args V P) x rows cols, setting m apply new nm a rows cols ->
  run peq hashable label_of m (from_apply_func m apply) new nm a = Ok x ->
  exists params results, expand_params (a_params a) (a_product a) false cols = Ok params /\ rect params /\
    0 < n_values params /\ 0 < length (a_in_outputs a) + m /\ length results = n_values params /\
    (forall p, p < n_values params -> calculated peq apply new a cols params p (nth p results ([], []))) /\
    finish label_of nm a params (length (a_in_outputs a)) cols (whole (length (a_in_outputs a)) m results) = Ok x.
Proof.
  intros m apply new nm a x rows cols S H. destruct S as [Hnew Hpc Hsh Hin Hg Hgs Hk Hfit]. unfold run in H. apply raise_ok in H. destruct H as [_ H].
  unfold columns_of_shape in H. rewrite Hpc, Hsh in H. destruct (expand_params _ _ false cols) as [params|] eqn:Ee; cbn [bind] in H; [|discriminate].
  assert (Hr : rect params) by (eapply expand_rect; [exact Ee|discriminate]).
  destruct (run_raw _ _ _ _ _ _ _) as [[[raw n_in] used]|] eqn:E; cbn [bind] in H; [|discriminate].
  destruct (unique_params peq hashable (a_unique a) params) as [up used'] eqn:Eu. destruct (unique_rect peq hashable _ _ _ _ Hr Eu) as (Hup & Hnot & _ & Hused).
  apply (run_raw_spec peq hashable m apply new a params rows cols up used' raw n_in used Hpc Hsh Hnew Hgs Hg Hk Eu Hup) in E.
  destruct E as (-> & -> & Hn & Hqm & results & L & Ha & ->). cbn [raw_outputs raw_cols] in H. fold (whole (length (a_in_outputs a)) m results) in H.
  destruct used'; cbn [bind] in H.
  - destruct (Hused eq_refl) as (Eun & Hz & Hne & Hpne). fold (whole (length (a_in_outputs a)) m results) in H.
    destruct (_use_raw peq params _) as [outs|] eqn:F; cbn [bind] in H; [|discriminate].
    assert (Hs : Forall (shaped rows cols (length (a_in_outputs a)) m) results) by (eapply results_shaped; [exact Hnew|exact Hgs|exact Hk|exact L|]; intros p Hp; exists (n_values up), p, (row up p); auto).
    destruct (use_raw_ok peq rows cols _ m results up params Hs Hup L Hne outs F) as (picked & Lp & Hp & ->).
    assert (Lz : length (zip_star params) = n_values params) by (apply zip_star_len; [exact Hpne|exact Hr]).
    exists params, picked. rewrite Lz in Lp, Hp. split; [reflexivity|]. split; [exact Hr|].
    assert (Hpos : 0 < n_values params).
    { destruct (n_values params) eqn:En; [|lia]. exfalso. destruct (zip_star params) as [|? ?] eqn:Ez; [|cbn in Lz; discriminate Lz]. cbn in Hz.
      assert (length (zip_star up) = n_values up) by (apply zip_star_len; [exact Hne|exact Hup]). rewrite Hz in *. cbn in *. lia. }
    split; [exact Hpos|]. split; [exact Hqm|]. split; [exact Lp|]. split; [|exact H].
    intros p Hlt. destruct (Hp p Hlt) as (i & Hi & Hal & _ & ->). exists (n_values up), i, (row up i). split; [exact Hi|]. split; [apply Ha; exact Hi|]. right. split; [exact Eun|].
    rewrite (zip_row params (n_values params) p Hr Hlt) in Hal. exact Hal.
  - rewrite (Hnot eq_refl) in *. exists params, results. split; [reflexivity|]. split; [exact Hr|]. split; [exact Hn|]. split; [exact Hqm|]. split; [exact L|]. split; [|exact H].
    intros p Hp. exists (n_values params), p, (row params p). split; [exact Hp|auto].
Qed.

Lemma blocks_nth : forall rows cols q (g : Result -> list (Frame V)) results p c,
  Forall (fun r => length (g r) = q /\ Forall (has_shape rows cols) (g r)) results -> p < length results -> c < cols ->
  columns_at (map (blocks g results) (seq 0 q)) (p * cols + c) = columns_at (g (nth p results ([], []))) c.
Proof.
  intros rows cols q g results p c H Hp Hc. unfold columns_at. rewrite map_map.
  transitivity (map (fun k => nth c (nth k (g (nth p results ([], []))) []) []) (seq 0 q)).
  - apply map_ext_in. intros k Hk. apply in_seq in Hk. unfold blocks. rewrite (concat_nth _ cols).
    + rewrite (nth_indep _ [] (nth k (g ([], [])) [])) by (rewrite map_length; exact Hp). rewrite (map_nth (fun r => nth k (g r) [])). reflexivity.
    + pose proof (blocks_parts rows cols q g results k H ltac:(lia)) as A. eapply Forall_impl; [|exact A]. intros f [L _]. exact L.
    + rewrite map_length. exact Hp.
    + exact Hc.
  - rewrite <- (map_map (fun k => nth k (g (nth p results ([], []))) []) (fun f => nth c f [])). f_equal.
    assert (Lq : length (g (nth p results ([], []))) = q) by (eapply Forall_forall in H; [apply H|apply nth_In; exact Hp]).
    rewrite <- Lq. generalize (g (nth p results ([], []))). clear. intros l.
    induction l as [|f l IH]; [reflexivity|]. cbn [length seq map nth]. f_equal. rewrite <- seq_shift, map_map. exact IH.
Qed.

Theorem run_columns : forall m apply new nm (a : @Args V P) x rows cols, setting m apply new nm a rows cols ->
  run peq hashable label_of m (from_apply_func m apply) new nm a = Ok x ->
  let params := in_params x in
  expand_params (a_params a) (a_product a) false cols = Ok params /\ number_of_columns x = n_values params * cols /\
  forall p c, p < n_values params -> c < cols -> exists r, calculated peq apply new a cols params p r /\
    let w := view x (p * cols + c) in
    v_in_outputs w = columns_at (fst r) c /\ v_outputs w = columns_at (snd r) c /\
    v_inputs w = columns_at (a_inputs a) c /\ v_params w = map label_of (row params p) /\
    sublist (v_labels w) (param_labels label_of nm params p ++ input_labels nm cols c) /\
    (forall s y, In (Some s, y) (param_labels label_of nm params p) -> In (Some s, y) (v_labels w)).
Proof.
  intros m apply new nm a x rows cols S H. destruct (run_outputs m apply new nm a x rows cols S H) as (params & results & Ee & Hr & Hn & Hqm & L & Ha & Hf).
  destruct S as [Hnew Hpc Hsh Hin Hg Hgs Hk Hfit]. set (q := length (a_in_outputs a)) in *.
  assert (Hs : Forall (shaped rows cols q m) results).
  { eapply results_shaped; [exact Hnew|exact Hgs|exact Hk|exact L|]. intros p Hp. destruct (Ha p Hp) as (n' & p' & t & Hlt & E & _). exists n', p', t. auto. }
  pose proof (all_blocks rows cols q m results Hs) as Hall. fold (whole q m results) in Hall. rewrite L in Hall.
  assert (Lw : length (whole q m results) = q + m) by (unfold whole; rewrite app_length, !map_length, !seq_length; reflexivity).
  destruct (finish_spec label_of nm a params q cols (whole q m results) x rows cols Hpc Hsh Hfit Hr) as (-> & Hnm & EN & Eio & Eo & Ei & Hv).
  - eapply Forall_impl; [|exact Hin]. intros f [Lf _]. exact Lf.
  - intros Hc. rewrite Hc in Lw. cbn in Lw. lia.
  - eapply Forall_impl; [|exact Hall]. intros f [Lf _]. exact Lf.
  - exact Hf.
  - split; [exact Ee|]. split; [exact EN|]. intros p c Hp Hc. exists (nth p results ([], [])). split; [apply Ha; exact Hp|]. cbv zeta.
    destruct (whole_split q m results) as [W1 W2].
    split; [|split; [|apply (Hv p c Hp Hc)]].
    + unfold view. cbn [v_in_outputs]. rewrite Eio, W1. apply (blocks_nth rows cols q fst); [eapply shaped_l; eauto|lia|exact Hc].
    + unfold view. cbn [v_outputs]. rewrite Eo, W2. apply (blocks_nth rows cols m snd); [eapply shaped_r; eauto|lia|exact Hc].
Qed.

(** ** Making combinations unique cannot be seen *)
Lemma before_given : forall new (a : @Args V P) n cols p n' p', all_given a -> before new a n cols p = before new a n' cols p'.
Proof.
  intros new a n cols p n' p' H. unfold before. apply map_ext_in. intros [i x] Hin. cbn [snd fst]. destruct x; [reflexivity|].
  apply in_combine_snd in Hin. cbn [snd] in Hin. unfold all_given in H. eapply Forall_forall in H; [|exact Hin]. congruence.
Qed.
Lemma setting_unique : forall m apply new nm (a : @Args V P) rows cols u, setting m apply new nm a rows cols -> setting m apply new nm (set_unique a u) rows cols.
Proof. intros m apply new nm a rows cols u [N A B C D E F G]. constructor; assumption. Qed.

Lemma run_from_results : forall m apply new nm (a : @Args V P) rows cols params results, setting m apply new nm a rows cols -> a_unique a = false ->
  expand_params (a_params a) (a_product a) false cols = Ok params -> rect params -> 0 < n_values params -> 0 < length (a_in_outputs a) + m ->
  length results = n_values params ->
  (forall p, p < n_values params -> apply (a_inputs a) (before new a (n_values params) cols p) (row params p) = Ok (nth p results ([], []))) ->
  run peq hashable label_of m (from_apply_func m apply) new nm a = finish label_of nm a params (length (a_in_outputs a)) cols (whole (length (a_in_outputs a)) m results).
Proof.
  intros m apply new nm a rows cols params results S Hu Ee Hr Hn Hqm L Ha. destruct S as [Hnew Hpc Hsh Hin Hg Hgs Hk Hfit].
  unfold run. unfold shape_given. rewrite Hsh. cbn [raise_if]. unfold raise_if, columns_of_shape. rewrite Hsh, Hpc, Ee. cbn [bind].
  assert (E : run_raw peq hashable m (from_apply_func m apply) new a params = Ok (mkRaw (whole (length (a_in_outputs a)) m results) (zip_star params) cols, length (a_in_outputs a), false)).
  { apply (run_raw_spec peq hashable m apply new a params rows cols params false); auto.
    - unfold unique_params. rewrite Hu. reflexivity.
    - repeat split; auto. exists results. auto. }
  rewrite E. cbn [bind raw_outputs raw_cols]. reflexivity.
Qed.
Lemma finish_same : forall nm (a b : @Args V P) params q nic outs, a_shape a = a_shape b -> a_per_column a = a_per_column b -> a_inputs a = a_inputs b ->
  finish label_of nm a params q nic outs = finish label_of nm b params q nic outs.
Proof. intros nm a b params q nic outs E1 E2 E3. unfold finish. rewrite E1, E2, E3. reflexivity. Qed.

Theorem unique_invisible : (forall x, peq x x = true) -> (forall x y, peq x y = true -> peq y x = true) ->
  forall m apply new nm (a : @Args V P) rows cols, setting m apply new nm a rows cols -> all_given a -> respects peq apply ->
  forall x, run peq hashable label_of m (from_apply_func m apply) new nm (set_unique a true) = Ok x <->
            run peq hashable label_of m (from_apply_func m apply) new nm (set_unique a false) = Ok x.
Proof.
  intros R Sy m apply new nm a rows cols S Hall Hres x. split; intros H.
  - destruct (run_outputs m apply new nm _ x rows cols (setting_unique _ _ _ _ _ _ _ true S) H) as (params & results & Ee & Hr & Hn & Hqm & L & Ha & Hf).
    cbn [set_unique a_params a_product a_in_outputs] in *.
    rewrite (run_from_results m apply new nm (set_unique a false) rows cols params results (setting_unique _ _ _ _ _ _ _ false S) eq_refl Ee Hr Hn Hqm L).
    + rewrite <- Hf. apply finish_same; reflexivity.
    + intros p Hp. destruct (Ha p Hp) as (n' & p' & t & _ & E & Ht). cbn [set_unique a_inputs] in *. rewrite <- E.
      rewrite (before_given new (set_unique a false) (n_values params) cols p n' p' Hall).
      destruct Ht as [(-> & _)|(_ & Ht)]; [reflexivity|]. symmetry. apply Hres. exact Ht.
  - destruct (run_outputs m apply new nm _ x rows cols (setting_unique _ _ _ _ _ _ _ false S) H) as (params & results & Ee & Hr & Hn & Hqm & L & Ha & Hf).
    cbn [set_unique a_params a_product a_in_outputs] in *.
    assert (Hap : forall p, p < n_values params -> forall n' p', apply (a_inputs a) (before new a n' cols p') (row params p) = Ok (nth p results ([], []))).
    { intros p Hp n' p'. destruct (Ha p Hp) as (n0 & p0 & t & _ & E & [(-> & _)|(Hc & _)]); [|discriminate Hc]. cbn [set_unique a_inputs] in E. rewrite <- E.
      apply (f_equal (fun io => apply (a_inputs a) io (row params p))). apply (before_given new a). exact Hall. }
    clear Ha. destruct S as [Hnew Hpc Hsh Hin Hg Hgs Hk Hfit].
    unfold run. unfold shape_given. cbn [set_unique a_shape]. rewrite Hsh. unfold raise_if, columns_of_shape. cbn [set_unique a_shape a_per_column a_params a_product]. rewrite Hsh, Hpc, Ee. cbn [bind].
    destruct (unique_params peq hashable true params) as [up used] eqn:Eu. destruct (unique_rect peq hashable _ _ _ _ Hr Eu) as (Hup & Hnot & Hsub & Hused).
    set (results' := map (fun i => match apply (a_inputs a) (before new a (n_values up) cols i) (row up i) with Ok r => r | Err _ => ([], []) end) (seq 0 (n_values up))).
    assert (Hup_row : forall i, i < n_values up -> exists p, p < n_values params /\ row up i = row params p).
    { intros i Hi. destruct used.
      - destruct (Hused eq_refl) as (_ & _ & Hne & Hpne). assert (Lz : length (zip_star up) = n_values up) by (apply zip_star_len; [exact Hne|exact Hup]).
        assert (Hin' : In (row up i) (zip_star params)) by (apply Hsub; rewrite <- (zip_row up (n_values up) i Hup Hi); apply nth_In; lia).
        destruct (In_nth _ _ [] Hin') as (p & Hp & Ep). rewrite (zip_star_len params (n_values params) Hpne Hr) in Hp. exists p. split; [exact Hp|].
        rewrite <- Ep. apply zip_row with (n := n_values params); assumption.
      - rewrite (Hnot eq_refl) in *. exists i. auto. }
    assert (L' : length results' = n_values up) by (unfold results'; rewrite map_length; apply seq_length).
    assert (Ha' : forall i, i < n_values up -> exists p, p < n_values params /\ row up i = row params p /\ nth i results' ([], []) = nth p results ([], []) /\
        apply (a_inputs a) (before new a (n_values up) cols i) (row up i) = Ok (nth i results' ([], []))).
    { intros i Hi. destruct (Hup_row i Hi) as (p & Hp & Er). exists p. split; [exact Hp|]. split; [exact Er|].
      assert (E : nth i results' ([], []) = nth p results ([], [])).
      { unfold results'. rewrite (map_nth_map_seq (fun i => match apply (a_inputs a) (before new a (n_values up) cols i) (row up i) with Ok r => r | Err _ => ([], []) end) (n_values up) ([], []) i Hi).
        rewrite Er, Hap by exact Hp. reflexivity. }
      split; [exact E|]. rewrite Er, Hap, E by exact Hp. reflexivity. }
    assert (Hnu : 0 < n_values up).
    { destruct used; [|rewrite (Hnot eq_refl); exact Hn]. destruct (Hused eq_refl) as (_ & Hz & Hne & Hpne).
      rewrite <- (zip_star_len up (n_values up) Hne Hup), Hz. pose proof (zip_star_len params (n_values params) Hpne Hr) as Lz.
      destruct (zip_star params); [cbn in Lz; lia|]. cbn [dedupe existsb length]. lia. }
    assert (E : run_raw peq hashable m (from_apply_func m apply) new (set_unique a true) params = Ok (mkRaw (whole (length (a_in_outputs a)) m results') (zip_star up) cols, length (a_in_outputs a), used)).
    { apply (run_raw_spec peq hashable m apply new (set_unique a true) params rows cols up used); auto.
      repeat split; auto. exists results'. split; [exact L'|]. split; [|reflexivity]. intros i Hi. destruct (Ha' i Hi) as (p & _ & _ & _ & A). exact A. }
    rewrite E. cbn [bind raw_outputs raw_cols].
    assert (Hs' : Forall (shaped rows cols (length (a_in_outputs a)) m) results').
    { eapply (results_shaped m apply new a rows cols results' _ Hnew Hgs Hk L'). intros i Hi. destruct (Ha' i Hi) as (p & _ & _ & _ & A). exists (n_values up), i, (row up i). auto. }
    destruct used.
    + destruct (Hused eq_refl) as (_ & Hz & Hne & Hpne). pose proof (zip_star_len params (n_values params) Hpne Hr) as Lz.
      destruct (use_raw_total peq rows cols (length (a_in_outputs a)) m results' up params Hs' Hup L' Hne) as (outs & F).
      { intros Hc. rewrite Hc in Lz. cbn in Lz. lia. }
      { intros t Ht. rewrite Hz. apply (dedupe_complete peq R Sy (zip_star params) [] t Ht). }
      fold (whole (length (a_in_outputs a)) m results') in F. rewrite F. cbn [bind].
      destruct (use_raw_ok peq rows cols _ m results' up params Hs' Hup L' Hne outs F) as (picked & Lp & Hp & ->).
      replace picked with results; [rewrite <- Hf; apply finish_same; reflexivity|].
      rewrite Lz in *. apply (nth_ext _ _ ([], []) ([], [])); [congruence|]. intros p Hlt. rewrite L in Hlt.
      destruct (Hp p Hlt) as (i & Hi & Hal & _ & ->). destruct (Ha' i Hi) as (p2 & _ & _ & _ & A).
      rewrite (zip_row params (n_values params) p Hr Hlt) in Hal. rewrite (Hres _ _ _ _ Hal) in A. rewrite Hap in A by exact Hlt. congruence.
    + rewrite (Hnot eq_refl) in *. cbn [bind]. replace results' with results; [rewrite <- Hf; apply finish_same; reflexivity|].
      apply (nth_ext _ _ ([], []) ([], [])); [congruence|]. intros p Hlt. rewrite L in Hlt. destruct (Ha' p Hlt) as (p2 & _ & _ & _ & A).
      rewrite Hap in A by exact Hlt. congruence.
Qed.

(** ** Raw results of an earlier run *)
Theorem raw_reused : forall m apply new nm (a b : @Args V P) raw x rows cols, setting m apply new nm a rows cols -> all_given a -> respects peq apply ->
  a_unique b = false -> b = with_params a (a_params b) (a_product b) false ->
  run_return_raw peq hashable m (from_apply_func m apply) new a = Ok raw ->
  run_use_raw peq label_of nm b raw = Ok x ->
  run peq hashable label_of m (from_apply_func m apply) new nm b = Ok x.
Proof.
  intros m apply new nm a b raw x rows cols S Hall Hres Hub Eb Hraw Hx.
  assert (Sb : setting m apply new nm b rows cols) by (rewrite Eb; destruct S; constructor; assumption).
  assert (Hi : a_inputs b = a_inputs a /\ a_in_outputs b = a_in_outputs a) by (rewrite Eb; auto). destruct Hi as [Hi Hio].
  assert (Hbe : forall n p n' p', before new b n cols p = before new a n' cols p').
  { intros. transitivity (before new a n cols p); [unfold before; rewrite Hio; reflexivity|]. apply before_given. exact Hall. }
  pose proof S as S0. destruct S as [Hnew Hpc Hsh Hin Hg Hgs Hk Hfit]. pose proof (st_pc _ _ _ _ _ _ _ Sb) as Hpcb. pose proof (st_shape _ _ _ _ _ _ _ Sb) as Hshb.
  unfold run_return_raw in Hraw. apply raise_ok in Hraw. destruct Hraw as [_ Hraw]. unfold columns_of_shape in Hraw. rewrite Hsh, Hpc in Hraw.
  destruct (expand_params (a_params a) _ false cols) as [pa|] eqn:Ea; cbn [bind] in Hraw; [|discriminate].
  assert (Hra : rect pa) by (eapply expand_rect; [exact Ea|discriminate]).
  destruct (run_raw _ _ _ _ _ _ _) as [[[raw' n_in] used]|] eqn:E; cbn [bind fst] in Hraw; [|discriminate]. injection Hraw as ->.
  destruct (unique_params peq hashable (a_unique a) pa) as [up used'] eqn:Eu. destruct (unique_rect peq hashable _ _ _ _ Hra Eu) as (Hup & Hnot & _ & Hused).
  apply (run_raw_spec peq hashable m apply new a pa rows cols up used' raw n_in used Hpc Hsh Hnew Hgs Hg Hk Eu Hup) in E.
  destruct E as (_ & _ & Hn & Hqm & results & L & Ha & ->).
  assert (Hs : Forall (shaped rows cols (length (a_in_outputs a)) m) results) by (eapply results_shaped; [exact Hnew|exact Hgs|exact Hk|exact L|]; intros p Hp; exists (n_values up), p, (row up p); auto).
  unfold run_use_raw in Hx. apply raise_ok in Hx. destruct Hx as [_ Hx]. unfold columns_of_shape in Hx. rewrite Hshb, Hpcb in Hx.
  destruct (expand_params (a_params b) _ false cols) as [pb|] eqn:Ebb; cbn [bind] in Hx; [|discriminate].
  assert (Hrb : rect pb) by (eapply expand_rect; [exact Ebb|discriminate]).
  destruct (_use_raw peq pb _) as [outs|] eqn:F; cbn [bind] in Hx; [|discriminate]. cbn [raw_cols] in Hx.
  assert (Hpbne : pb <> []).
  { intros ->. unfold _use_raw in F. cbn [zip_star mapM bind raw_outputs] in F. fold (whole (length (a_in_outputs a)) m results) in F.
    assert (Lw : length (whole (length (a_in_outputs a)) m results) = length (a_in_outputs a) + m) by (unfold whole; rewrite app_length, !map_length, !seq_length; reflexivity).
    destruct (whole (length (a_in_outputs a)) m results); [cbn in Lw; lia|]. cbn in F. discriminate. }
  assert (Hupne : up <> []).
  { intros ->. unfold _use_raw in F. cbn [raw_params zip_star] in F. destruct (zip_star pb) as [|t ts] eqn:Ez.
    - cbn [mapM bind raw_outputs map] in F. fold (whole (length (a_in_outputs a)) m results) in F.
      assert (Lw : length (whole (length (a_in_outputs a)) m results) = length (a_in_outputs a) + m) by (unfold whole; rewrite app_length, !map_length, !seq_length; reflexivity).
      destruct (whole (length (a_in_outputs a)) m results); [cbn in Lw; lia|]. cbn in F. discriminate.
    - cbn in F. discriminate. }
  destruct (use_raw_ok peq rows cols _ m results up pb Hs Hup L Hupne outs F) as (picked & Lp & Hp & ->).
  assert (Lz : length (zip_star pb) = n_values pb) by (apply zip_star_len; [exact Hpbne|exact Hrb]). rewrite Lz in *.
  assert (Hnb : 0 < n_values pb).
  { destruct (n_values pb) eqn:En; [|lia]. exfalso. unfold _use_raw in F. destruct (zip_star pb); [|discriminate Lz]. cbn [mapM bind raw_outputs map] in F.
    fold (whole (length (a_in_outputs a)) m results) in F.
    assert (Lw : length (whole (length (a_in_outputs a)) m results) = length (a_in_outputs a) + m) by (unfold whole; rewrite app_length, !map_length, !seq_length; reflexivity).
    destruct (whole (length (a_in_outputs a)) m results); [cbn in Lw; lia|]. cbn in F. discriminate. }
  rewrite (run_from_results m apply new nm b rows cols pb picked Sb Hub Ebb Hrb Hnb ltac:(rewrite Hio; exact Hqm) Lp).
  - rewrite Hio. rewrite <- Hx. unfold number_of_in_outputs. rewrite Hio.
    assert (Ec : match given_idxs (a_in_outputs a) with [] => length (a_in_outputs a) | n :: l => length (n :: l) end = length (a_in_outputs a)).
    { pose proof (in_count (a_in_outputs a) Hg) as C. destruct (given_idxs (a_in_outputs a)); exact C. }
    rewrite Ec. reflexivity.
  - intros p Hlt. destruct (Hp p Hlt) as (i & Hi' & Hal & _ & ->). rewrite (zip_row pb (n_values pb) p Hrb Hlt) in Hal.
    rewrite <- (Hres _ _ _ _ Hal), Hi, (Hbe _ _ (n_values up) i). apply Ha. exact Hi'.
Qed.
End Pipeline.
