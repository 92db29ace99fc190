(** * The Rust order core against the Numba order core *)
From Coq Require Import ZArith Bool List String Lia.
From Verif Require Import Base Num MathNb Order OrderGen OrdLaws RustOrder CallSeq.
Import ListNotations.
Open Scope list_scope.

(** What the comparison needs of numbers: true of exact numbers and of doubles. *)
Class RustLaws {T} (N : Num T) (R : RustOps T) : Prop := mkRustLaws {
  rl_ord : OrdLaws N;
  rl_pos : forall a : T, ltb zero a = true -> signbit a = false;
  rl_neg : forall a : T, ltb a zero = true -> signbit a = true;
  rl_close_l : forall a b : T, eqb a zero = true ->
    is_close_nb (add a b) zero = is_close_nb (abs a) (abs b);
  rl_close_r : forall a b : T, eqb b zero = true ->
    is_close_nb (add a b) zero = is_close_nb (abs a) (abs b);
  rl_rtol : forall a : T, isnan a = false -> isinf a = false -> isnan (mul rtol (abs a)) = false;
  rl_atol : isnan (atol : T) = false;
  rl_zero : isnan (zero : T) = false;
  rl_abs : forall a : T, isnan (abs a) = isnan a;
  rl_nan : forall a : T, isnan a = true -> a = nan;
  rl_negn : forall a : T, isnan (neg a) = isnan a;
  rl_negi : forall a : T, isinf (neg a) = isinf a;
  rl_inf : forall a b : T, isinf a = true -> ltb zero a = true -> ltb a b = false;
  rl_flip : forall a : T, isnan (mul a (neg one)) = isnan a /\ eqb (mul a (neg one)) zero = eqb a zero /\
                          isinf (mul a (neg one)) = isinf a;
  rl_absi : forall a : T, isinf (abs a) = isinf a;
  rl_neginf : forall a : T, isinf a = true -> ltb zero a = false -> ltb zero (neg a) = true;
  rl_pinf : isinf (mul (one : T) pinf) = true /\ isnan (mul (one : T) pinf) = false /\
            isinf (mul (neg one : T) pinf) = true /\ isnan (mul (neg one : T) pinf) = false /\
            isinf (neg one : T) = false;
  rl_mul : forall a b : T, isnan a = false -> ltb zero b = true ->
    isinf b = false \/ eqb a zero = false -> isnan (mul a b) = false;
  rl_div : forall a b : T, isnan a = false -> ltb zero b = true -> isinf b = false ->
    isnan (div a b) = false;
  rl_sub : forall a b : T, isnan a = false -> isfinite b = true -> isnan (sub a b) = false;
  rl_abs_pos : forall a : T, isnan a = false -> eqb a zero = false -> ltb zero (abs a) = true;
  rl_one : ltb (neg one : T) zero = true /\ ltb (zero : T) one = true /\
           eqb (one : T) one = true /\ eqb (neg one : T) (neg one) = true /\
           eqb (one : T) (neg one) = false /\ eqb (neg one : T) one = false /\
           eqb (zero : T) one = false /\ eqb (zero : T) (neg one) = false /\
           eqb (one : T) zero = false /\ eqb (neg one : T) zero = false /\ eqb (zero : T) zero = true }.

(** Either Numba divides by zero or both engines give the same. *)
Definition agrees {A} (nb rs : res A) : Prop := nb = Err ZeroDivision \/ rs = nb.

Lemma agrees_refl : forall A (x : res A), agrees x x.
Proof. right; auto. Qed.

Section Agree.
  Context {T : Type} {N : Num T} {R : RustOps T} {L : RustLaws N R}.
  Local Instance Lord : OrdLaws N := rl_ord.

  Lemma rs_min_eq : forall a b : T, isnan a = false -> rs_min a b = min2 a b.
  Proof.
    intros a b H. unfold rs_min, min2. rewrite H. destruct (isnan b) eqn:E; auto.
    rewrite ol_nan_l; auto.
  Qed.

  Lemma rs_max_eq : forall a b : T, isnan a = false -> rs_max a b = max2 a b.
  Proof.
    intros a b H. unfold rs_max, max2. rewrite H. destruct (isnan b) eqn:E; auto.
    rewrite ol_nan_r; auto.
  Qed.

  Lemma leb_max_comm : forall x a b : T, isnan a = false -> isnan b = false ->
    leb x (rs_max a b) = leb x (max2 b a).
  Proof.
    intros x a b Ha Hb. unfold rs_max, max2. rewrite Ha, Hb.
    destruct (ltb a b) eqn:E1, (ltb b a) eqn:E2; auto.
    - rewrite ol_asym in E2; [discriminate|auto].
    - rewrite !ol_leb, Ha, Hb.
      destruct (isnan x) eqn:Hx; auto. cbn [negb andb].
      destruct (ltb a x) eqn:E3, (ltb b x) eqn:E4; auto.
      + assert (ltb a x = false) by (apply (ol_negtrans a b x); auto). congruence.
      + assert (ltb b x = false) by (apply (ol_negtrans b a x); auto). congruence.
  Qed.

  Lemma rs_is_close_eq : forall a b : T, rs_is_close a b = is_close_nb a b.
  Proof.
    intros a b. unfold rs_is_close, is_close_nb.
    destruct (isnan a) eqn:Na; auto. destruct (isnan b) eqn:Nb; auto. cbn [orb].
    destruct (isinf a) eqn:Ia; auto. destruct (isinf b) eqn:Ib; auto. cbn [orb].
    destruct (eqb a b) eqn:E; auto.
    rewrite (rs_max_eq (abs a)) by (rewrite rl_abs; auto).
    apply leb_max_comm; [apply rl_atol|].
    unfold max2. destruct (ltb (abs a) (abs b)); apply rl_rtol; auto.
  Qed.

  Lemma rs_is_close_or_less_eq : forall a b : T, rs_is_close_or_less a b = is_close_or_less_nb a b.
  Proof. intros. unfold rs_is_close_or_less, is_close_or_less_nb. rewrite rs_is_close_eq. auto. Qed.

  Lemma rs_is_less_eq : forall a b : T, rs_is_less a b = is_less_nb a b.
  Proof. intros. unfold rs_is_less, is_less_nb. rewrite rs_is_close_eq. auto. Qed.

  Lemma trichotomy : forall a : T, isnan a = false ->
    (ltb zero a = true /\ ltb a zero = false /\ eqb a zero = false) \/
    (ltb zero a = false /\ ltb a zero = true /\ eqb a zero = false) \/
    (ltb zero a = false /\ ltb a zero = false /\ eqb a zero = true).
  Proof.
    intros a Ha. rewrite ol_eqb, !ol_leb, Ha, rl_zero. cbn [negb andb].
    destruct (ltb zero a) eqn:E1, (ltb a zero) eqn:E2; cbn [negb andb]; auto.
    rewrite ol_asym in E2; [discriminate|auto].
  Qed.

  Lemma eqb_nan : forall a b : T, isnan a = true \/ isnan b = true -> eqb a b = false.
  Proof.
    intros a b H. rewrite ol_eqb, !ol_leb. destruct H as [-> | ->]; cbn [negb andb]; auto.
    rewrite andb_false_r. auto.
  Qed.

  Lemma rs_is_addition_zero_eq : forall a b : T, rs_is_addition_zero a b = is_addition_zero_nb a b.
  Proof.
    intros a b. unfold rs_is_addition_zero, is_addition_zero_nb. rewrite !rs_is_close_eq.
    unfold rs_signum, sign, neb.
    destruct rl_one as (O1 & O2 & O3 & O4 & O5 & O6 & O7 & O8 & O9 & O10 & O11).
    destruct (isnan a) eqn:Na.
    { rewrite !eqb_nan by (left; apply ol_nan). auto. }
    destruct (isnan b) eqn:Nb.
    { rewrite !eqb_nan by (right; apply ol_nan). auto. }
    destruct (trichotomy a Na) as [(A1 & A2 & A3)|[(A1 & A2 & A3)|(A1 & A2 & A3)]];
    destruct (trichotomy b Nb) as [(B1 & B2 & B3)|[(B1 & B2 & B3)|(B1 & B2 & B3)]];
    rewrite ?A1, ?A2, ?B1, ?B2, ?(rl_pos _ A1), ?(rl_pos _ B1), ?(rl_neg _ A2), ?(rl_neg _ B2),
      ?O3, ?O4, ?O5, ?O6, ?O7, ?O8, ?O9, ?O10, ?O11; cbn [negb]; auto;
    try rewrite (rl_close_l a b) by auto; try rewrite (rl_close_r a b) by auto;
    match goal with |- (if ?c then _ else _) = _ => destruct c end; auto.
  Qed.

  Lemma rs_add_eq : forall a b : T, rs_add a b = add_nb a b.
  Proof. intros. unfold rs_add, add_nb. rewrite rs_is_addition_zero_eq. auto. Qed.

  Lemma rs_snap_eq : forall a : T, rs_snap a = snap a.
  Proof. intros. unfold rs_snap, snap. rewrite rs_is_close_eq. auto. Qed.

  Lemma rs_signum_eq : forall a : T, isnan a = false -> eqb a zero = false -> rs_signum a = sign a.
  Proof.
    intros a Ha Hz. unfold rs_signum, sign. rewrite Ha.
    destruct (trichotomy a Ha) as [(A1 & A2 & A3)|[(A1 & A2 & A3)|(A1 & A2 & A3)]].
    - rewrite (rl_pos _ A1), A1. auto.
    - rewrite (rl_neg _ A2), A1, A2. auto.
    - congruence.
  Qed.

  (** What the comparison needs of a granularity: nothing when there is none. *)
  Record gran_regular (g : T) : Prop := mkGran {
    gr_fin : forall a, isinf a = false -> floor (div a g) = fdiv a g;
    gr_inf : forall a, isinf a = true -> ltb zero a = true ->
      is_close_nb (mul (floor (div a g)) g) zero = false /\
      is_close_nb (mul (fdiv a g) g) zero = false /\
      (forall p f ff l, isfinite p = true -> isfinite f = true -> isfinite ff = true ->
         ltb zero p = true -> isinf l = false ->
         is_close_or_less_nb (add (mul (mul (floor (div a g)) g) p)
           (add (mul (mul (mul (floor (div a g)) g) p) f) ff)) l = false /\
         is_close_or_less_nb (add (mul (mul (fdiv a g) g) p)
           (add (mul (mul (mul (fdiv a g) g) p) f) ff)) l = false);
    gr_lim : forall l f ff p, isinf l = false -> isfinite p = true -> isfinite f = true ->
      isfinite ff = true -> eqb (add one f) zero = false -> eqb p zero = false ->
      isinf (div (div (add_nb l (neg ff)) (add one f)) p) = false;
    gr_mul : forall a b, isinf a = false -> isinf b = false -> isinf (mul a b) = false;
    gr_all : forall a l f ff p, isfinite a = true -> isfinite p = true -> isfinite f = true ->
      isfinite ff = true -> isinf l = true -> ltb zero l = true ->
      is_close_or_less_nb (add (mul (mul (fdiv a g) g) p)
        (add (mul (mul (mul (fdiv a g) g) p) f) ff)) l = true }.

  Definition gran_ok (g : T) : Prop := isnan g = true \/ gran_regular g.

  Lemma granulate_agrees : forall a g : T, gran_ok g -> isinf a = false ->
    granulate a g = Err ZeroDivision \/ granulate a g = Ok (rs_granulate a g).
  Proof.
    intros a g H Ha. unfold granulate, rs_granulate, sfdiv. destruct (isnan g) eqn:E; auto. cbn [negb].
    destruct H as [H|H]; [congruence|].
    destruct (eqb g zero); auto. right. cbn [bind]. rewrite (gr_fin _ H); auto.
  Qed.

  Definition lock_ok (es : ExecState T) (adj_price fees fixed_fees : T) (lock_cash : bool) : Prop :=
    lock_cash = true -> forall l, buy_lock_limit es adj_price fees fixed_fees = Ok l -> isnan l = false.

  Lemma buy_cash_limit_agrees : forall es adj_price fees fixed_fees lock_cash percent,
    isnan (es_cash es) = false -> lock_ok es adj_price fees fixed_fees lock_cash ->
    buy_cash_limit es adj_price fees fixed_fees lock_cash percent = Err ZeroDivision \/
    buy_cash_limit es adj_price fees fixed_fees lock_cash percent =
      Ok (rs_buy_cash_limit es adj_price fees fixed_fees lock_cash percent).
  Proof.
    intros es p f ff lock percent Hc Hl. unfold buy_cash_limit, rs_buy_cash_limit.
    set (rl0 := if lock then _ else es_cash es).
    assert (H0 : (if lock then buy_lock_limit es p f ff else Ok (es_cash es)) = Err ZeroDivision \/
                 ((if lock then buy_lock_limit es p f ff else Ok (es_cash es)) = Ok rl0 /\ isnan rl0 = false)).
    { unfold rl0, lock_ok in *. clear rl0. destruct lock; [|right; auto].
      specialize (Hl eq_refl).
      enough (buy_lock_limit es p f ff = Err ZeroDivision \/ buy_lock_limit es p f ff =
        Ok (if geb (es_position es) zero then es_free_cash es
        else
          if gtb (rs_add (add (es_free_cash es) (mul two (es_debt es)))
                 (neg (add (mul (mul (abs (es_position es)) p) (add one f)) ff))) zero
          then add (es_free_cash es) (mul two (es_debt es))
          else if ltb (rs_add (add (es_free_cash es) (mul two (es_debt es)))
                 (neg (add (mul (mul (abs (es_position es)) p) (add one f)) ff))) zero then
            add (mul (mul (div (sub (es_free_cash es) ff)
                  (sub (mul p (add one f)) (mul two (div (es_debt es) (abs (es_position es)))))) p) (add one f)) ff
          else es_cash es)) as [H|H]; [left; exact H|right; split; [exact H|apply (Hl _ H)]|].
      clear Hl. unfold buy_lock_limit. rewrite !rs_add_eq.
      destruct (geb (es_position es) zero); auto.
      destruct (gtb _ zero); auto.
      destruct (ltb _ zero); auto.
      unfold sdiv. destruct (eqb (abs (es_position es)) zero); auto. cbn [bind].
      destruct (eqb _ zero); auto. }
    destruct H0 as [H0|[H0 Hn]]; rewrite H0; cbn [bind]; auto. right. f_equal.
    rewrite (rs_min_eq rl0) by auto.
    destruct (isnan percent); auto. cbn [negb]. apply eq_sym, rs_min_eq.
    unfold min2. destruct (ltb (es_cash es) rl0); auto.
  Qed.

  Lemma buy_fill_agrees : forall es fs p fees req,
    buy_fill es fs p fees req = Err ZeroDivision \/
    buy_fill es fs p fees req = Ok (rs_buy_fill es fs p fees req).
  Proof.
    intros es fs p fees req. unfold buy_fill, rs_buy_fill. rewrite !rs_add_eq.
    destruct (ltb (es_position es) zero); [|right; reflexivity].
    unfold sdiv. destruct (eqb (abs (es_position es)) zero); [left; reflexivity|right].
    cbn [bind fst snd]. reflexivity.
  Qed.

  Lemma buy_amounts_agrees : forall n1 n2 p f ff l g,
    gran_ok g -> isnan g = true \/ isfinite p = true -> isfinite f = true -> isfinite ff = true ->
    isnan g = true \/ isinf l = false \/
      is_close_or_less_nb (add (mul n1 p) (add (mul (mul n1 p) f) ff)) l = true ->
    (n1 = n2 \/
     (rs_is_close_or_less (add (mul n2 p) (add (mul (mul n2 p) f) ff)) l = false /\
      is_close_or_less_nb (add (mul n1 p) (add (mul (mul n1 p) f) ff)) l = false)) ->
    buy_amounts n1 p f ff l g = Err ZeroDivision \/
    buy_amounts n1 p f ff l g = Ok (rs_buy_amounts n2 p f ff l g).
  Proof.
    intros n1 n2 p f ff l g Hg Hp Hf Hff Hl Hn. unfold buy_amounts, rs_buy_amounts.
    set (rest1 := let! max_req_cash := sdiv (add_nb l (neg ff)) (add one f) in _).
    match goal with |- context [if rs_is_close_or_less _ _ then _ else ?r] => set (rest2 := r) end.
    assert (Hr : isnan g = true \/ isinf l = false -> rest1 = Err ZeroDivision \/ rest1 = Ok rest2).
    { intros Hl'. unfold rest1, rest2. clear rest1 rest2 Hl. rewrite rs_add_eq. unfold sdiv.
      destruct (eqb (add one f) zero) eqn:E1; [left; reflexivity|]. cbn [bind].
      destruct (leb _ zero); [right; auto|].
      destruct (eqb p zero) eqn:Ep; [left; reflexivity|]. cbn [bind].
      destruct (isnan g) eqn:Eg; cbn [negb]; [right; auto|].
      destruct Hl' as [?|Hl']; [discriminate|]. destruct Hg as [?|Hg]; [congruence|].
      destruct (granulate_agrees (div (div (add_nb l (neg ff)) (add one f)) p) g) as [H|H].
      - right; auto.
      - destruct Hp as [?|Hp]; [discriminate|]. apply (gr_lim _ Hg); auto.
      - rewrite H. left; reflexivity.
      - rewrite H. right. cbn [bind]. unfold rs_granulate. rewrite Eg. cbn [negb]. reflexivity. }
    cbn zeta. destruct Hn as [-> |[H1 H2]].
    - rewrite rs_is_close_or_less_eq. destruct (is_close_or_less_nb _ l) eqn:E; [right; reflexivity|].
      apply Hr. destruct Hl as [?|[?|?]]; auto. congruence.
    - rewrite H1, H2 in *. apply Hr. destruct Hl as [?|[?|?]]; auto. discriminate.
  Qed.

  Lemma buy_agrees : forall es size price dir fees ff slip mins maxs g lock partial percent,
    gran_ok g -> isnan (es_cash es) = false -> isfinite (es_position es) = true ->
    ltb zero size = true -> isnan maxs = false -> leb maxs zero = false ->
    isnan g = true \/
      (isfinite (mul price (add one slip)) = true /\ ltb zero (mul price (add one slip)) = true) ->
    isfinite fees = true -> isfinite ff = true ->
    lock_ok es (mul price (add one slip)) fees ff lock ->
    isnan g = true \/ (forall l,
      buy_cash_limit es (mul price (add one slip)) fees ff lock percent = Ok l ->
      isinf l = true -> ltb zero l = true) ->
    agrees (buy_nb es size price dir fees ff slip mins maxs g lock partial percent)
           (rs_buy es size price dir fees ff slip mins maxs g lock partial percent).
  Proof.
    intros es size price dir fees ff slip mins maxs g lock partial percent
      Hg Hc Hpos Hs Hmn Hmz Hp' Hf Hff Hlock Hlim.
    unfold buy_nb, rs_buy. set (p := mul price (add one slip)) in *.
    destruct (buy_cash_limit_agrees es p fees ff lock percent Hc Hlock) as [H|H];
      rewrite H; [left; reflexivity|]. cbn [bind].
    set (l := rs_buy_cash_limit es p fees ff lock percent) in *.
    rewrite H in Hlim.
    assert (Hlim' : isnan g = true \/ (isinf l = true -> ltb zero l = true))
      by (destruct Hlim; auto). clear Hlim.
    assert (Hbody : forall sz, isnan sz = false -> (isinf sz = true -> ltb zero sz = true /\ isinf l = false) ->
      agrees
       (let! adj_size := granulate sz g in
        buy_sized es size adj_size p fees ff mins g l partial)
       (match rs_buy_amounts (rs_granulate sz g) p fees ff l g with
        | None => not_filled es Rejected CantCoverFees
        | Some (final_size, fees_paid, final_req_cash) =>
          if rs_is_close (rs_granulate sz g) zero then not_filled es Ignored SizeZero
          else if rs_is_less final_size mins then not_filled es Rejected MinSizeNotReached
          else if isfinite size && rs_is_less final_size size && negb partial then
            not_filled es Rejected PartialFill
          else Ok (rs_buy_fill es final_size p fees_paid final_req_cash)
        end)).
    { intros sz Hnan Hsz.
      assert (Hstep : forall n1, granulate sz g = Ok n1 ->
         (isnan g = true \/ isinf l = false \/
           is_close_or_less_nb (add (mul n1 p) (add (mul (mul n1 p) fees) ff)) l = true) ->
         (n1 = rs_granulate sz g \/
          (rs_is_close_or_less (add (mul (rs_granulate sz g) p)
             (add (mul (mul (rs_granulate sz g) p) fees) ff)) l = false /\
           is_close_or_less_nb (add (mul n1 p) (add (mul (mul n1 p) fees) ff)) l = false)) ->
         is_close_nb n1 zero = is_close_nb (rs_granulate sz g) zero ->
         agrees (buy_sized es size n1 p fees ff mins g l partial)
       (match rs_buy_amounts (rs_granulate sz g) p fees ff l g with
        | None => not_filled es Rejected CantCoverFees
        | Some (final_size, fees_paid, final_req_cash) =>
          if rs_is_close (rs_granulate sz g) zero then not_filled es Ignored SizeZero
          else if rs_is_less final_size mins then not_filled es Rejected MinSizeNotReached
          else if isfinite size && rs_is_less final_size size && negb partial then
            not_filled es Rejected PartialFill
          else Ok (rs_buy_fill es final_size p fees_paid final_req_cash)
        end)).
      { intros n1 Hn1 Hl1 Heq Hcl. unfold buy_sized.
        destruct (buy_amounts_agrees n1 (rs_granulate sz g) p fees ff l g Hg (match Hp' with or_introl h => or_introl h | or_intror h => or_intror (proj1 h) end) Hf Hff Hl1 Heq)
          as [HA|HA]; rewrite HA; [left; reflexivity|]. cbn [bind].
        destruct (rs_buy_amounts (rs_granulate sz g) p fees ff l g) as [[[fs fp] rq]|];
          [|apply agrees_refl].
        rewrite rs_is_close_eq, !rs_is_less_eq, Hcl.
        destruct (is_close_nb (rs_granulate sz g) zero); [apply agrees_refl|].
        destruct (is_less_nb fs mins); [apply agrees_refl|].
        destruct (isfinite size && is_less_nb fs size && negb partial); [apply agrees_refl|].
        destruct (buy_fill_agrees es fs p fp rq) as [HB|HB]; rewrite HB; [left|right]; reflexivity. }
      destruct (isinf sz) eqn:Ei.
      - destruct (Hsz eq_refl) as [Hs0 Hli].
        unfold granulate at 1. destruct (isnan g) eqn:Eg; cbn [negb bind].
        + apply Hstep; auto; unfold granulate, rs_granulate; rewrite Eg; cbn [negb]; auto.
        + destruct Hg as [?|Hg]; [congruence|]. destruct Hp' as [?|[Hp Hp0]]; [discriminate|].
          unfold sfdiv. destruct (eqb g zero) eqn:Egz; [left; reflexivity|]. cbn [bind].
          destruct (gr_inf _ Hg sz Ei Hs0) as (G1 & G2 & G3).
          destruct (G3 p fees ff l Hp Hf Hff Hp0 Hli) as [G4 G5].
          apply Hstep; auto.
          * unfold granulate, sfdiv. rewrite Eg, Egz. reflexivity.
          * right. unfold rs_granulate. rewrite Eg. cbn [negb].
            rewrite rs_is_close_or_less_eq. auto.
          * unfold rs_granulate. rewrite Eg. cbn [negb]. congruence.
      - destruct (granulate_agrees sz g Hg Ei) as [HG|HG]; rewrite HG; [left; reflexivity|].
        cbn [bind]. apply Hstep; auto.
        destruct (isnan g) eqn:Eg; auto. destruct (isinf l) eqn:El; auto.
        destruct Hg as [?|Hg]; [congruence|]. destruct Hlim' as [?|Hlim']; [discriminate|].
        destruct Hp' as [?|[Hp Hp0]]; [discriminate|].
        right; right. unfold rs_granulate. rewrite Eg. cbn [negb].
        rewrite (gr_fin _ Hg) by auto. apply (gr_all _ Hg); auto.
        unfold isfinite. rewrite Hnan, Ei. auto. }
    assert (Hsn : isnan size = false) by (apply ltb_notnan in Hs; tauto).
    assert (Hm0 : ltb zero maxs = true) by (apply leb_false_ltb; auto; apply rl_zero).
    assert (Hhead : forall sz, isnan sz = false ->
      (isinf sz = true -> ltb zero sz = true /\ isinf l = false) ->
      agrees
      (if eqb sz zero then not_filled es Ignored SizeZero
       else if gtb sz maxs && negb partial then not_filled es Rejected MaxSizeExceeded
       else
         let! adj_size := granulate (if gtb sz maxs then maxs else sz) g in
         buy_sized es size adj_size p fees ff mins g l partial)
      (if eqb sz zero then not_filled es Ignored SizeZero
       else if gtb sz maxs && negb partial then not_filled es Rejected MaxSizeExceeded
       else
       (match rs_buy_amounts (rs_granulate (if gtb sz maxs then maxs else sz) g) p fees ff l g with
        | None => not_filled es Rejected CantCoverFees
        | Some (final_size, fees_paid, final_req_cash) =>
          if rs_is_close (rs_granulate (if gtb sz maxs then maxs else sz) g) zero
          then not_filled es Ignored SizeZero
          else if rs_is_less final_size mins then not_filled es Rejected MinSizeNotReached
          else if isfinite size && rs_is_less final_size size && negb partial then
            not_filled es Rejected PartialFill
          else Ok (rs_buy_fill es final_size p fees_paid final_req_cash)
        end))).
    { intros sz Hnan Hi. destruct (eqb sz zero); [apply agrees_refl|].
      destruct (gtb sz maxs && negb partial); [apply agrees_refl|].
      apply Hbody; unfold gtb; destruct (ltb maxs sz) eqn:E; auto.
      intros Hmi. rewrite (rl_inf maxs sz Hmi Hm0) in E. discriminate. }
    clear Hbody.
    destruct dir; cbn [is_short_only negb andb].
    - destruct (eqb l zero); [apply agrees_refl|].
      destruct (isinf size && isinf l) eqn:E; [apply agrees_refl|].
      apply Hhead; auto. intros Hi. rewrite Hi in E. auto.
    - destruct (eqb (es_position es) zero); [apply agrees_refl|].
      unfold isfinite in Hpos. apply andb_true_iff in Hpos. destruct Hpos as [Hp1 Hp2].
      apply negb_true_iff in Hp1, Hp2.
      rewrite (rs_min_eq (neg (es_position es))) by (rewrite rl_negn; auto).
      apply Hhead.
      + unfold min2. destruct (ltb size _); auto. rewrite rl_negn; auto.
      + unfold min2. destruct (ltb size (neg (es_position es))) eqn:E.
        * intros Hi. rewrite (rl_inf size _ Hi Hs) in E. discriminate.
        * rewrite rl_negi. congruence.
    - destruct (eqb l zero); [apply agrees_refl|].
      destruct (isinf size && isinf l) eqn:E; [apply agrees_refl|].
      apply Hhead; auto. intros Hi. rewrite Hi in E. auto.
  Qed.

  Lemma sell_fill_agrees : forall es n p f ff,
    rs_sell_fill es n p f ff = sell_fill es n p f ff.
  Proof. intros. unfold rs_sell_fill, sell_fill. rewrite !rs_add_eq. reflexivity. Qed.

  (** [percent] is NaN or positive, as produced by an order of non-zero size *)
  Lemma sell_limit_agrees : forall es size p dir fees ff lock percent,
    isfinite (es_position es) = true -> isnan size = false ->
    isnan percent = true \/ (ltb zero percent = true /\ isinf size = true) ->
    sell_limit es size p dir fees ff lock percent = Err ZeroDivision \/
    sell_limit es size p dir fees ff lock percent =
      Ok (rs_sell_limit es size p dir fees ff lock percent).
  Proof.
    intros es size p dir fees ff lock percent Hpos Hsn Hper.
    unfold isfinite in Hpos. apply andb_true_iff in Hpos. destruct Hpos as [Hp1 Hp2].
    apply negb_true_iff in Hp1, Hp2.
    assert (HS : sell_short_limit es size p fees ff lock percent = Err ZeroDivision \/
       forall d, d <> LongOnly -> sell_short_limit es size p fees ff lock percent =
         Ok (rs_sell_limit es size p d fees ff lock percent)).
    { unfold sell_short_limit, rs_sell_limit.
      rewrite !rs_add_eq, (rs_max_eq (es_position es)) by auto.
      set (lg := max2 (es_position es) zero).
      set (tot := add_nb (es_free_cash es) _).
      destruct (lock || isinf size && negb (isnan percent)) eqn:Ec;
        [|right; intros []; [congruence|reflexivity|reflexivity]].
      set (lim := if leb tot zero then if leb (es_position es) zero then inl NoCashShort else inr lg
                  else if leb (add_nb lg (div (add_nb tot (neg ff)) (mul p (add one fees)))) zero
                       then inl CantCoverFees
                       else inr (add_nb lg (div (add_nb tot (neg ff)) (mul p (add one fees))))).
      assert (HL : (if leb tot zero then
                     if leb (es_position es) zero then Ok (inl NoCashShort) else Ok (inr lg)
                   else
                     let! max_short_size := sdiv (add_nb tot (neg ff)) (mul p (add one fees)) in
                     if leb (add_nb lg max_short_size) zero then Ok (inl CantCoverFees)
                     else Ok (inr (add_nb lg max_short_size))) = Err ZeroDivision \/
                   (if leb tot zero then
                     if leb (es_position es) zero then Ok (inl NoCashShort) else Ok (inr lg)
                   else
                     let! max_short_size := sdiv (add_nb tot (neg ff)) (mul p (add one fees)) in
                     if leb (add_nb lg max_short_size) zero then Ok (inl CantCoverFees)
                     else Ok (inr (add_nb lg max_short_size))) = Ok lim).
      { unfold lim. destruct (leb tot zero).
        - right. destruct (leb (es_position es) zero); auto.
        - unfold sdiv. destruct (eqb (mul p (add one fees)) zero); [left; reflexivity|right].
          cbn [bind]. destruct (leb _ zero); auto. }
      assert (HP : forall m, lim = inr m -> leb m zero = false).
      { unfold lim. intros m. destruct (leb tot zero).
        - destruct (leb (es_position es) zero) eqn:E; [discriminate|]. intros H; injection H as <-.
          unfold lg, max2. apply leb_false_ltb in E; auto; [|apply rl_zero].
          rewrite (ol_asym _ _ E), ol_leb, E. apply andb_false_r.
        - destruct (leb (add_nb lg _) zero) eqn:E; [discriminate|]. intros H; injection H as <-. auto. }
      destruct HL as [HL|HL]; [left; rewrite HL; reflexivity|].
      rewrite HL. cbn [bind]. right. intros d Hd. fold lim. clearbody lim. clear HL.
      assert (Hgoal :
       match lim with
       | inl info => Ok (inl info)
       | inr m =>
          if lock then
            if isinf size && negb (isnan percent) then Ok (inr (min2 (mul percent m) m, nan))
            else if negb (isnan percent) then Ok (inr (min2 (mul percent size) m, nan))
            else Ok (inr (min2 size m, percent))
          else Ok (inr (m, percent))
       end = Ok match lim with
       | inl info => inl info
       | inr m =>
          if lock then
            if isinf size && negb (isnan percent) then inr (rs_min (mul percent m) m, nan)
            else if negb (isnan percent) then inr (rs_min (mul percent size) m, nan)
            else inr (rs_min size m, percent)
          else inr (m, percent)
       end).
      { destruct lim as [info|m]; auto. destruct lock; auto.
        rewrite (rs_min_eq size) by auto.
        destruct (isnan percent) eqn:Ep; [rewrite andb_false_r; auto|].
        destruct Hper as [?|[Hper Hi]]; [congruence|]. rewrite Hi. cbn [negb andb].
        do 3 f_equal. specialize (HP m eq_refl).
        destruct (isnan m) eqn:Em.
        - unfold rs_min, min2. rewrite Em. destruct (isnan (mul percent m)) eqn:E2.
          + rewrite ol_nan_l by auto. rewrite (rl_nan _ E2). symmetry. apply rl_nan; auto.
          + rewrite ol_nan_l by auto. auto.
        - symmetry. apply rs_min_eq. apply rl_mul; auto.
          + apply leb_false_ltb; auto. apply rl_zero.
          + right. apply ltb_notnan in Hper as Hn. destruct (trichotomy percent Ep) as [T1|[T1|T1]]; try tauto.
            destruct T1 as [T1 _]; congruence. }
      destruct d; [congruence|exact Hgoal|exact Hgoal]. }
    unfold sell_limit. destruct dir; cbn [is_long_only].
    - right. unfold rs_sell_limit. rewrite rs_min_eq by auto. reflexivity.
    - destruct HS as [HS|HS]; [left; exact HS|right; apply HS; discriminate].
    - destruct HS as [HS|HS]; [left; exact HS|right; apply HS; discriminate].
  Qed.

  Lemma sell_agrees : forall es size price dir fees ff slip mins maxs g lock partial percent,
    gran_ok g -> isfinite (es_position es) = true -> isnan size = false ->
    isnan maxs = false -> leb maxs zero = false ->
    isnan percent = true \/ (ltb zero percent = true /\ isinf size = true) ->
    isnan g = true \/ isinf percent = false ->
    (isinf size = true -> ltb zero size = true) ->
    agrees (sell_nb es size price dir fees ff slip mins maxs g lock partial percent)
           (rs_sell es size price dir fees ff slip mins maxs g lock partial percent).
  Proof.
    intros es size price dir fees ff slip mins maxs g lock partial percent
      Hg Hpos Hsn Hmn Hmz Hper Hpi Hsi.
    unfold sell_nb, rs_sell. set (p := mul price (sub one slip)).
    destruct (sell_limit_agrees es size p dir fees ff lock percent Hpos Hsn Hper) as [H|H];
      rewrite H; [left; reflexivity|]. cbn [bind].
    destruct (rs_sell_limit es size p dir fees ff lock percent) as [info|[n pv]] eqn:El;
      [apply agrees_refl|].
    set (n0 := if negb (isnan pv) then mul pv n else n).
    destruct (gtb n0 maxs && negb partial); [apply agrees_refl|].
    set (n1 := if gtb n0 maxs then maxs else n0).
    unfold sell_sized.
    assert (Hrest : isnan g = true \/ isinf n1 = false ->
      agrees (let! size_limit := granulate n1 g in
              if is_close_nb size_limit zero then not_filled es Ignored SizeZero
              else if is_less_nb size_limit mins then not_filled es Rejected MinSizeNotReached
              else if isfinite size && is_less_nb size_limit size && negb partial then
                not_filled es Rejected PartialFill
              else sell_fill es size_limit p fees ff)
             (let size_limit := rs_granulate n1 g in
              if rs_is_close size_limit zero then not_filled es Ignored SizeZero
              else if rs_is_less size_limit mins then not_filled es Rejected MinSizeNotReached
              else if isfinite size && rs_is_less size_limit size && negb partial then
                not_filled es Rejected PartialFill
              else rs_sell_fill es size_limit p fees ff)).
    { intros Hi.
      assert (HG : granulate n1 g = Err ZeroDivision \/ granulate n1 g = Ok (rs_granulate n1 g)).
      { destruct (isnan g) eqn:Eg.
        - right. unfold granulate, rs_granulate. rewrite Eg. reflexivity.
        - destruct Hi as [?|Hi]; [discriminate|]. apply granulate_agrees; auto. }
      destruct HG as [HG|HG]; rewrite HG; [left; reflexivity|]. cbn [bind]. cbn zeta.
      rewrite rs_is_close_eq, !rs_is_less_eq, sell_fill_agrees. apply agrees_refl. }
    destruct dir; cbn [is_long_only negb andb].
    - destruct (eqb (es_position es) zero); [apply agrees_refl|]. apply Hrest.
      destruct (isnan g) eqn:Eg; [left; reflexivity|]. right.
      destruct Hpi as [?|Hpi]; [discriminate|]. destruct Hg as [?|Hg]; [congruence|].
      unfold isfinite in Hpos. apply andb_true_iff in Hpos. destruct Hpos as [Hp1 Hp2].
      apply negb_true_iff in Hp1, Hp2.
      unfold rs_sell_limit in El. rewrite (rs_min_eq (es_position es)) in El by auto.
      injection El as <- <-.
      assert (Hn : isinf (min2 (es_position es) size) = false).
      { unfold min2. destruct (ltb size (es_position es)) eqn:E; auto.
        destruct (isinf size) eqn:Ei; auto. rewrite (rl_inf size _ Ei (Hsi eq_refl)) in E. discriminate. }
      unfold n1. unfold gtb. destruct (ltb maxs n0) eqn:E.
      + destruct (isinf maxs) eqn:Ei; auto. rewrite (rl_inf maxs n0 Ei) in E; [discriminate|].
        apply leb_false_ltb; auto. apply rl_zero.
      + unfold n0. destruct (negb (isnan percent)); auto. apply (gr_mul _ Hg); auto.
    - destruct (isinf n1) eqn:Ei; [apply agrees_refl|]. apply Hrest; auto.
    - destruct (isinf n1) eqn:Ei; [apply agrees_refl|]. apply Hrest; auto.
  Qed.

  Lemma check_agrees : forall A es o (k1 k2 : res A),
    (isnan (es_cash es) = false -> ltb (es_cash es) zero = false ->
     isfinite (es_position es) = true -> isfinite (es_debt es) = true ->
     isnan (es_free_cash es) = false ->
     isfinite (o_price o) = true -> ltb zero (o_price o) = true -> isfinite (o_fees o) = true ->
     isfinite (o_fixed_fees o) = true -> isfinite (o_slippage o) = true ->
     ltb (o_slippage o) zero = false -> isnan (o_max_size o) = false -> leb (o_max_size o) zero = false ->
     isnan (o_size_granularity o) = true \/ ltb zero (o_size_granularity o) = true /\
                                           isinf (o_size_granularity o) = false ->
     agrees k1 k2) ->
    agrees (check_state_order es o k1) (rs_check es o k2).
  Proof.
    intros A es o k1 k2 H. unfold check_state_order, rs_check, raise_if.
    destruct (isnan (es_cash es)) eqn:H1; [apply agrees_refl|].
    destruct (ltb (es_cash es) zero) eqn:H2; [apply agrees_refl|]. cbn [orb].
    destruct (isfinite (es_position es)) eqn:H3; [|apply agrees_refl]. cbn [negb].
    destruct (isfinite (es_debt es)) eqn:Hd; [|apply agrees_refl]. cbn [negb orb].
    destruct (ltb (es_debt es) zero); [apply agrees_refl|].
    destruct (isnan (es_free_cash es)) eqn:H4; [apply agrees_refl|].
    destruct (isfinite (o_price o)) eqn:H5; [|apply agrees_refl].
    destruct (leb (o_price o) zero) eqn:H6; [apply agrees_refl|]. cbn [negb orb].
    assert (E1 : is_long_only (o_direction o) && ltb (es_position es) zero =
                 match o_direction o with LongOnly => ltb (es_position es) zero | _ => false end)
      by (destruct (o_direction o); auto).
    assert (E2 : is_short_only (o_direction o) && gtb (es_position es) zero =
                 match o_direction o with ShortOnly => gtb (es_position es) zero | _ => false end)
      by (destruct (o_direction o); auto).
    rewrite E1, E2. clear E1 E2.
    match goal with |- agrees (if ?c then _ else _) _ => destruct c; [apply agrees_refl|] end.
    match goal with |- agrees (if ?c then _ else _) _ => destruct c; [apply agrees_refl|] end.
    destruct (isfinite (o_fees o)) eqn:H7; [|apply agrees_refl].
    destruct (isfinite (o_fixed_fees o)) eqn:H8; [|apply agrees_refl].
    destruct (isfinite (o_slippage o)) eqn:H9; [|apply agrees_refl].
    destruct (ltb (o_slippage o) zero) eqn:H10; [apply agrees_refl|]. cbn [negb orb].
    match goal with |- agrees (if ?c then _ else _) _ => destruct c; [apply agrees_refl|] end.
    destruct (isnan (o_max_size o)) eqn:H11; [apply agrees_refl|].
    destruct (leb (o_max_size o) zero) eqn:H12; [apply agrees_refl|]. cbn [orb].
    assert (E3 : isinf (o_size_granularity o) || leb (o_size_granularity o) zero =
      isinf (o_size_granularity o)
            || (negb (isnan (o_size_granularity o)) && leb (o_size_granularity o) zero)).
    { f_equal. rewrite ol_leb. destruct (isnan (o_size_granularity o)); auto. }
    rewrite <- E3. clear E3.
    destruct (isinf (o_size_granularity o)) eqn:H13; [apply agrees_refl|].
    destruct (leb (o_size_granularity o) zero) eqn:H14; [apply agrees_refl|]. cbn [orb].
    match goal with |- agrees (if ?c then _ else _) _ => destruct c; [apply agrees_refl|] end.
    apply H; auto.
    - unfold isfinite in H5. apply andb_true_iff in H5. destruct H5 as [H5 _]. apply negb_true_iff in H5.
      apply leb_false_ltb; auto. apply rl_zero.
    - destruct (isnan (o_size_granularity o)) eqn:E; auto. right. split; auto.
      apply leb_false_ltb; auto. apply rl_zero.
  Qed.

  (** The resolved size is a number and the percentage NaN or positive *)
  Definition size_ok (o : Order T) (value : T) : Prop :=
    (o_size_type o = Percent -> eqb (o_size o) zero = false /\
      (isnan (o_size_granularity o) = true \/ isinf (o_size o) = false)) /\
    (o_size_type o = TargetPercent ->
      isinf value = false \/ leb value zero = true \/ eqb (o_size o) zero = false).

  Lemma resolve_agrees : forall o position vp value,
    isnan (o_size o) = false -> isfinite position = true -> size_ok o value ->
    (resolve_size o position vp value = Err ZeroDivision \/
     rs_resolve o position vp value = resolve_size o position vp value) /\
    (forall sz pc, resolve_size o position vp value = Ok (inr (sz, pc)) ->
       isnan sz = false /\
       (isnan pc = true \/ (ltb zero pc = true /\ isinf sz = true)) /\
       (isnan (o_size_granularity o) = true \/ isinf pc = false)).
  Proof.
    intros o position vp value Hsn Hpos [Hpc Htp]. unfold resolve_size, rs_resolve.
    set (s0 := if is_short_only (o_direction o) then mul (o_size o) (neg one) else o_size o).
    replace (match o_direction o with ShortOnly => mul (o_size o) (neg one) | _ => o_size o end)
      with s0 by (unfold s0; destruct (o_direction o); auto).
    assert (Hs0 : isnan s0 = false) by (unfold s0; destruct (is_short_only _); auto;
      rewrite (proj1 (rl_flip _)); auto).
    assert (Hz0 : eqb s0 zero = eqb (o_size o) zero)
      by (unfold s0; destruct (is_short_only _); auto; rewrite (proj1 (proj2 (rl_flip _))); auto).
    destruct rl_one as (O1 & O2 & O3 & O4 & O5 & O6 & O7 & O8 & O9 & O10 & O11).
    destruct rl_pinf as (P1 & P2 & P3 & P4 & P5).
    assert (Hm1 : isnan (neg one : T) = false) by (apply (ltb_notnan _ _ O1)).
    assert (Hi0 : isinf s0 = isinf (o_size o))
      by (unfold s0; destruct (is_short_only _); auto; rewrite (proj2 (proj2 (rl_flip _))); auto).
    assert (Hsg : forall a : T, isnan a = false -> eqb a zero = false ->
       isnan (mul (sign a) pinf) = false /\ ltb zero (abs a) = true /\ isinf (mul (sign a) pinf) = true).
    { intros a Ha Hz. pose proof (rl_abs_pos a Ha Hz) as Hab. unfold sign. rewrite Ha.
      destruct (trichotomy a Ha) as [(A1 & A2 & A3)|[(A1 & A2 & A3)|(A1 & A2 & A3)]]; try congruence.
      - rewrite A1. auto.
      - rewrite A1, A2. auto. }
    set (amt := fun order_size : T => match o_direction o with
      | LongOnly => (order_size, nan)
      | _ => if ltb order_size zero && isinf order_size
             then (mul (rs_signum (neg one)) pinf, abs (neg one)) else (order_size, nan)
      end).
    assert (Hamt : forall s, resolve_amount (o_direction o) position s Amount = amt s).
    { intros s. unfold resolve_amount, amt. destruct (o_direction o); cbn [is_long_only negb andb]; auto;
      (destruct (ltb s zero && isinf s); [rewrite rs_signum_eq by auto; reflexivity|reflexivity]). }
    assert (Htam : forall s, resolve_amount (o_direction o) position s TargetAmount = amt (sub s position)).
    { intros s. rewrite <- Hamt. unfold resolve_amount. reflexivity. }
    assert (Hok : forall s sz pc, isnan s = false -> amt s = (sz, pc) -> isnan sz = false /\
       (isnan pc = true \/ (ltb zero pc = true /\ isinf sz = true)) /\
       (isnan (o_size_granularity o) = true \/ isinf pc = false)).
    { assert (Hn : forall a : T, isnan a = true -> isnan (o_size_granularity o) = true \/ isinf a = false).
      { intros a Ha. right. destruct (isinf a) eqn:E; auto. rewrite (rl_nan a Ha) in E.
        assert (H : ltb zero (nan : T) = false) by (apply ol_nan_r, ol_nan).
        pose proof (rl_neginf _ E H) as H2. apply ltb_notnan in H2. rewrite rl_negn, ol_nan in H2.
        destruct H2; discriminate. }
      intros s sz pc Hs H. unfold amt in H.
      assert (H' : (sz, pc) = (s, nan) \/ (sz, pc) = (mul (rs_signum (neg one)) pinf, abs (neg one)))
        by (destruct (o_direction o); auto; destruct (ltb s zero && isinf s); auto).
      destruct H' as [H'|H']; injection H' as -> ->.
      - split; auto. split; [left; apply ol_nan|apply Hn, ol_nan].
      - rewrite rs_signum_eq by auto. destruct (Hsg (neg one) Hm1 O10) as (G1 & G2 & G3).
        split; auto. split; auto. right. rewrite rl_absi. auto. }
    fold amt.
    assert (Hval : forall s (st : SizeType) k, isnan s = false ->
       (st = Value /\ k = (fun x => amt x) \/ st = TargetValue /\ k = (fun x => amt (sub x position))) ->
       let nb := (let! r := resolve_value vp s st in
                  match r with
                  | inl e => Ok (inl e)
                  | inr (s2, t2) => Ok (inr (resolve_amount (o_direction o) position s2 t2))
                  end) in
       (nb = Err ZeroDivision \/
        (if isnan vp then Ok (inl (Ignored, ValPriceNaN))
         else if isinf vp || leb vp zero then
           Err (ValueError "val_price_now must be finite and greater than 0")
         else Ok (inr (k (div s vp)))) = nb) /\
       (forall sz pc, nb = Ok (inr (sz, pc)) -> isnan sz = false /\
         (isnan pc = true \/ (ltb zero pc = true /\ isinf sz = true)) /\
         (isnan (o_size_granularity o) = true \/ isinf pc = false))).
    { intros s st k Hs Hk.
      assert (Hrv : resolve_value vp s st =
        if isinf vp || leb vp zero then
          Err (ValueError "val_price_now must be finite and greater than 0")
        else if isnan vp then Ok (inl (Ignored, ValPriceNaN))
        else
          let! s := sdiv s vp in
          Ok (inr (s, match st with Value => Amount | _ => TargetAmount end)))
        by (destruct Hk as [[-> _]|[-> _]]; reflexivity).
      rewrite Hrv. cbn zeta. clear Hrv.
      destruct (isnan vp) eqn:Nv.
      { assert (Ev : isinf vp || leb vp zero = false).
        { rewrite ol_leb, Nv. cbn [negb andb]. rewrite orb_false_r.
          destruct (isinf vp) eqn:E; auto.
          assert (H : ltb zero vp = false) by (apply ol_nan_r; auto).
          pose proof (rl_neginf _ E H) as H2. apply ltb_notnan in H2. rewrite rl_negn, Nv in H2.
          destruct H2; discriminate. }
        rewrite Ev. cbn [bind]. split; [right; reflexivity|]. discriminate. }
      destruct (isinf vp) eqn:Iv; cbn [orb].
      { split; [right; reflexivity|discriminate]. }
      destruct (leb vp zero) eqn:Lv.
      { split; [right; reflexivity|discriminate]. }
      assert (Hvp : ltb zero vp = true) by (apply leb_false_ltb; auto; apply rl_zero).
      unfold sdiv. destruct (eqb vp zero) eqn:Ez; cbn [bind].
      { split; [left; reflexivity|discriminate]. }
      assert (Hd : isnan (div s vp) = false) by (apply rl_div; auto).
      destruct Hk as [[-> ->]|[-> ->]].
      - rewrite Hamt. split; [right; reflexivity|].
        intros sz pc H. injection H as H. exact (Hok _ _ _ Hd H).
      - rewrite Htam. split; [right; reflexivity|].
        intros sz pc H. injection H as H. refine (Hok _ _ _ _ H). apply rl_sub; auto. }
    destruct (o_size_type o) eqn:Est; cbn [resolve_target_percent].
    - cbn [resolve_value bind]. rewrite Hamt. split; [right; reflexivity|].
      intros sz pc H. injection H as H. exact (Hok _ _ _ Hs0 H).
    - exact (Hval s0 Value _ Hs0 (or_introl (conj eq_refl eq_refl))).
    - cbn [resolve_value bind]. destruct (Hpc eq_refl) as [Hz Hi]. rewrite <- Hz0 in Hz.
      split; [right; unfold resolve_amount; rewrite rs_signum_eq by auto; reflexivity|].
      intros sz pc H. cbn [resolve_amount] in H. injection H as <- <-.
      destruct (Hsg s0 Hs0 Hz) as (G1 & G2 & G3). split; auto. split; auto.
      destruct Hi as [Hi|Hi]; auto. right. rewrite rl_absi. congruence.
    - cbn [resolve_value bind]. rewrite Htam. split; [right; reflexivity|].
      intros sz pc H. injection H as H. refine (Hok _ _ _ _ H). apply rl_sub; auto.
    - exact (Hval s0 TargetValue _ Hs0 (or_intror (conj eq_refl eq_refl))).
    - destruct (isnan value) eqn:Nv; [split; [right; reflexivity|discriminate]|].
      destruct (leb value zero) eqn:Lv; [split; [right; reflexivity|discriminate]|].
      refine (Hval (mul s0 value) TargetValue _ _ (or_intror (conj eq_refl eq_refl))).
      apply rl_mul; auto.
      + apply leb_false_ltb; auto. apply rl_zero.
      + destruct (Htp eq_refl) as [?|[?|?]]; auto; [congruence|]. right. congruence.
  Qed.

  (** ** Whole orders *)

  (** What the checks at the start of execution establish *)
  Record state_checked (es : ExecState T) : Prop := mkChecked {
    sc_cash : isnan (es_cash es) = false; sc_cash0 : ltb (es_cash es) zero = false;
    sc_pos : isfinite (es_position es) = true; sc_debt : isfinite (es_debt es) = true;
    sc_free : isnan (es_free_cash es) = false }.

  (** The conditions under which the engines agree on an order *)
  Record order_ok (s : ProcState T) (o : Order T) : Prop := mkOrderOk {
    ok_size : size_ok o (snap (ps_value s));
    ok_gran : isnan (o_size_granularity o) = true \/
              (ltb zero (o_size_granularity o) = true -> isinf (o_size_granularity o) = false ->
               gran_regular (o_size_granularity o));
    ok_price : isnan (o_size_granularity o) = true \/
     (isfinite (o_price o) = true -> ltb zero (o_price o) = true ->
      isfinite (o_slippage o) = true -> ltb (o_slippage o) zero = false ->
      isfinite (mul (o_price o) (add one (o_slippage o))) = true /\
      ltb zero (mul (o_price o) (add one (o_slippage o))) = true);
    ok_lock : state_checked (snap_state s) -> isfinite (o_price o) = true ->
      ltb zero (o_price o) = true ->
      isfinite (o_slippage o) = true -> ltb (o_slippage o) zero = false ->
      isfinite (o_fees o) = true -> isfinite (o_fixed_fees o) = true ->
      lock_ok (snap_state s) (mul (o_price o) (add one (o_slippage o))) (o_fees o)
        (o_fixed_fees o) (o_lock_cash o);
    ok_lim : isnan (o_size_granularity o) = true \/
      (state_checked (snap_state s) -> isfinite (o_price o) = true -> ltb zero (o_price o) = true ->
       isfinite (o_slippage o) = true -> ltb (o_slippage o) zero = false ->
       isfinite (o_fees o) = true -> isfinite (o_fixed_fees o) = true ->
       forall percent l, isinf percent = false -> isnan percent = true \/ ltb zero percent = true ->
       buy_cash_limit (snap_state s) (mul (o_price o) (add one (o_slippage o))) (o_fees o)
         (o_fixed_fees o) (o_lock_cash o) percent = Ok l -> isinf l = true -> ltb zero l = true) }.

  Lemma execute_agrees : forall draws rng s o, order_ok s o ->
    agrees (execute_order_nb draws rng s o) (rs_execute_order draws rng s o).
  Proof.
    intros draws rng s o Hok. unfold execute_order_nb, rs_execute_order. rewrite !rs_snap_eq.
    change (mkExec (snap (ps_cash s)) (snap (ps_position s)) (snap (ps_debt s)) (snap (ps_free_cash s)))
      with (snap_state s).
    destruct (isnan (o_size o)) eqn:Hsn; [apply agrees_refl|].
    destruct (isnan (o_price o)) eqn:Hpn; [apply agrees_refl|].
    apply check_agrees. intros C1 C1' C2 C2' C3 C4 C5 C6 C7 C8 C9 C10 C11 C12.
    destruct (resolve_agrees o (es_position (snap_state s)) (snap (ps_val_price s)) (snap (ps_value s))
                Hsn C2 (ok_size _ _ Hok)) as [[HR|HR] HQ]; [rewrite HR; left; reflexivity|].
    rewrite HR.
    destruct (resolve_size o (es_position (snap_state s)) (snap (ps_val_price s)) (snap (ps_value s)))
      as [[[st info]|[sz pc]]|e]; cbn [bind]; [apply agrees_refl| |apply agrees_refl].
    destruct (HQ sz pc eq_refl) as (Q1 & Q2 & Q3).
    assert (Hg : gran_ok (o_size_granularity o)).
    { unfold gran_ok. destruct (ok_gran _ _ Hok) as [?|G]; auto. destruct C12 as [?|[? ?]]; auto. }
    pose proof (mkChecked _ C1 C1' C2 C2' C3) as Hck.
    assert (Hp : isnan (o_size_granularity o) = true \/
      (isfinite (mul (o_price o) (add one (o_slippage o))) = true /\
       ltb zero (mul (o_price o) (add one (o_slippage o))) = true))
      by (destruct (ok_price _ _ Hok) as [?|Hp]; auto).
    assert (HB : agrees (buy_or_sell (snap_state s) o sz pc)
      (if gtb sz zero then
               rs_buy (snap_state s) sz (o_price o) (o_direction o) (o_fees o) (o_fixed_fees o)
                 (o_slippage o) (o_min_size o) (o_max_size o) (o_size_granularity o)
                 (o_lock_cash o) (o_allow_partial o) pc
             else
               rs_sell (snap_state s) (neg sz) (o_price o) (o_direction o) (o_fees o)
                 (o_fixed_fees o) (o_slippage o) (o_min_size o) (o_max_size o)
                 (o_size_granularity o) (o_lock_cash o) (o_allow_partial o) pc)).
    { unfold buy_or_sell, gtb. destruct (ltb zero sz) eqn:Es.
      - apply buy_agrees; auto.
        + apply (ok_lock _ _ Hok); auto.
        + destruct (ok_lim _ _ Hok) as [?|HL]; auto. destruct Q3 as [?|Q3]; auto.
          right. intros l. apply HL; auto. destruct Q2 as [?|[? ?]]; auto.
      - apply sell_agrees; auto.
        + rewrite rl_negn. auto.
        + destruct Q2 as [?|[? ?]]; auto. right. rewrite rl_negi. auto.
        + rewrite rl_negi. intros Hi. apply rl_neginf; auto. }
    destruct HB as [HB|HB]; rewrite HB; [left; reflexivity|]. apply agrees_refl.
  Qed.

  Lemma process_agrees : forall draws i col group s uv o rc, order_ok s o ->
    agrees (process_order_nb draws i col group s uv o rc)
           (rs_process_order draws i col group s uv o rc).
  Proof.
    intros draws i col group s uv o rc Hok. unfold process_order_nb, rs_process_order.
    destruct (execute_agrees draws (rc_rng rc) s o Hok) as [H|H]; rewrite H; [left; reflexivity|].
    destruct (execute_order_nb draws (rc_rng rc) s o) as [[[es r] rng']|e] eqn:Ex; cbn [bind];
      [|apply agrees_refl].
    assert (Hinfo : r_status r = Rejected -> reject_message (r_info r) = rs_reject_message (r_info r)).
    { intros Hr. apply execute_outcome in Ex. destruct Ex as [(_ & st & info & _ & ->)|(Hf & _)].
      - cbn [r_info order_not_filled]. destruct info; reflexivity.
      - congruence. }
    right. unfold is_rejected, is_filled, raise_if.
    change (@rs_update_value T N) with (@update_value_nb T N).
    destruct (r_status r) eqn:Er; cbn [andb].
    - destruct uv; (destruct (Nat.leb (rc_max_orders rc) _); [reflexivity|]);
        destruct (o_log o); cbn [andb]; try reflexivity;
        destruct (Nat.leb (rc_max_logs rc) _); reflexivity.
    - destruct (o_log o); cbn [andb]; try reflexivity;
        destruct (Nat.leb (rc_max_logs rc) _); reflexivity.
    - destruct (o_raise_reject o); [rewrite Hinfo; reflexivity|].
      destruct (o_log o); cbn [andb]; try reflexivity;
        destruct (Nat.leb (rc_max_logs rc) _); reflexivity.
  Qed.

  Lemma approx_agrees : forall size st dir cash pos free vp value,
    st <> Percent \/ isnan (mul pos vp) = false /\ isnan free = false ->
    rs_approx_order_value size st dir cash pos free vp value =
    approx_order_value_nb size st dir cash pos free vp value.
  Proof.
    intros size st dir cash pos free vp value H. unfold rs_approx_order_value, approx_order_value_nb.
    destruct st; try (destruct dir; reflexivity).
    destruct H as [H|[H1 H2]]; [congruence|].
    rewrite !rs_max_eq by auto. destruct dir; reflexivity.
  Qed.
End Agree.
