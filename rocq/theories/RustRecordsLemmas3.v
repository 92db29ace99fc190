(** * The Rust kernels for records against the Numba ones: ranking *)
From Coq Require Import String ZArith Bool List Arith Lia.
From Verif Require Import Base Num OrdLaws GenericNb RecordsNb RecordsSpec RecordsLemmas RecordsLemmas2 RustRecords RustRecordsLemmas RustRecordsLemmas2.
Import ListNotations.
Open Scope list_scope.

Lemma filter_map : forall A B (f : A -> B) p l, filter p (map f l) = map f (filter (fun x => p (f x)) l).
Proof. intros A B f p l. induction l as [|x l IH]; cbn; auto. destruct (p (f x)); cbn; f_equal; auto. Qed.

Lemma fold_filter : forall A B (f : A -> B -> A) (p : B -> bool) l a, fold_left (fun a x => if p x then f a x else a) l a = fold_left f (filter p l) a.
Proof. intros A B f p l. induction l as [|x l IH]; intros a; cbn; auto. destruct (p x); cbn; auto. Qed.

Lemma fold_filter_count : forall A B (f : A -> B -> A) (p : B -> bool) l a k,
  fold_left (fun s x => if p x then (f (fst s) x, snd s + 1) else s) l (a, k) = (fold_left f (filter p l) a, k + List.length (filter p l)).
Proof.
  intros A B f p l. induction l as [|x l IH]; intros a k; cbn; [f_equal; lia|]. destruct (p x); cbn [fst snd]; rewrite IH; auto.
  cbn. f_equal. lia.
Qed.

Section Top.
  Context {T : Type} {N : Num T} {L : OrdLaws N}.

  Lemma valid_eq : forall x : T, eqb x x = negb (isnan x).
  Proof. intros x. rewrite ol_eqb, ol_leb, ltb_irrefl. destruct (isnan x); reflexivity. Qed.

  Lemma until_eq : forall (p q : nat -> bool) idxs g ks n out, (forall k, In k ks -> p k = q k /\ nth k idxs 0 = g k) ->
    r_mark_until p g ks n out = mark_until q idxs ks n out.
  Proof.
    intros p q idxs g ks. induction ks as [|k ks IH]; intros n out H; cbn [r_mark_until mark_until]; auto.
    destruct (H k) as (E1 & E2); [left; auto|]. rewrite E1. unfold mark. rewrite E2.
    rewrite !IH by (intros; apply H; right; auto). reflexivity.
  Qed.

  Lemma marks_eq : forall idxs g sel out, (forall k, In k sel -> nth k idxs 0 = g k) ->
    fold_left (fun o k => upd o (g k) true) sel out = fold_left (mark idxs) sel out.
  Proof. intros idxs g sel out H. apply fold_left_ext_in. intros o k Hk. unfold mark. rewrite H by auto. reflexivity. Qed.

  (** The model of the Numba function with its local names as arguments *)
  Definition n_body (scan : list nat -> list nat) (better : T -> T -> bool) (pivot_at : nat -> nat) (inout : list bool) (idxs : list nat)
      (col_len : nat) (at_ : nat -> T) (n : nat) : list bool :=
    if Nat.leb n 0 then inout
    else
    if Nat.leb col_len n then fold_left (fun m i => upd m i true) idxs inout
    else
    let n_valid := List.length (filter (fun i => eqb (at_ i) (at_ i)) (seq 0 col_len)) in
    if Nat.eqb n_valid 0 then mark_until (fun _ => true) idxs (scan (seq 0 col_len)) n inout
    else
    if Nat.ltb n_valid n then
      mark_until (fun i => neb (at_ i) (at_ i)) idxs (scan (seq 0 col_len)) (n - n_valid)
        (fold_left (mark idxs) (filter (fun i => eqb (at_ i) (at_ i)) (seq 0 col_len)) inout)
    else
    let pivot := partition_at (map at_ (filter (fun i => eqb (at_ i) (at_ i)) (seq 0 col_len))) (pivot_at n_valid) in
    let sel := filter (fun i => eqb (at_ i) (at_ i) && better (at_ i) pivot) (seq 0 col_len) in
    let inout := fold_left (mark idxs) sel inout in
    if Nat.leb n (List.length sel) then inout
    else mark_until (fun i => eqb (at_ i) (at_ i) && eqb (at_ i) pivot) idxs (scan (seq 0 col_len)) (n - List.length sel) inout.
  Lemma n_inout_body : forall scan better pivot_at inout idxs (arr : list T) n,
    n_inout_map scan better pivot_at inout idxs arr n = n_body scan better pivot_at inout idxs (List.length arr) (fun i => nth i arr nan) n.
  Proof. reflexivity. Qed.

  Lemma r_n_mask : forall visit better pivot_at (vals : list T) cm n,
    (forall i ps, In i (visit ps) -> In i ps) -> list_sum (snd cm) = List.length (fst cm) ->
    r_n_mapped_mask visit better pivot_at vals (fst cm) (snd cm) n =
    mapped_to_mask_nb nan vals cm (fun m idxs col a => n_inout_map visit better pivot_at m idxs a n).
  Proof.
    intros visit better pivot_at vals cm n Hv Hcm. unfold r_n_mapped_mask, mapped_to_mask_nb. cbv zeta. rewrite r_starts.
    apply fold_left_ext_in. intros out col Hcol. apply in_seq in Hcol. change (nth col (snd cm) 0) with (col_len cm col).
    destruct (Nat.eqb_spec (col_len cm col) 0) as [|Hne]; auto.
    set (g := fun k => nth (nth col (start_idxs (snd cm)) 0 + k) (fst cm) 0).
    set (value := fun k => nth (g k) vals nan).
    assert (Hcl : col < List.length (snd cm)) by lia. pose proof (seg_map cm col Hcm Hcl) as Es. fold g in Es.
    set (idxs := col_seg cm col) in *. set (len := col_len cm col) in *.
    assert (Hi : forall k, k < len -> nth k idxs 0 = g k) by (intros k Hk; rewrite Es; apply (nth_map_seq _ g); auto).
    assert (Ll : List.length (take nan vals idxs) = len) by (unfold take; rewrite map_length, Es, map_length, seq_length; reflexivity).
    assert (Ha : forall k, k < len -> nth k (take nan vals idxs) nan = value k).
    { intros k Hk. unfold take. rewrite Es, map_map. rewrite (nth_map_seq _ (fun k => nth (g k) vals nan)) by auto. reflexivity. }
    rewrite n_inout_body. rewrite Ll.
    set (a := fun i => nth i (take nan vals idxs) nan).
    assert (Ha' : forall k, k < len -> a k = value k) by exact Ha.
    clearbody a. unfold n_body. cbv zeta.
    destruct (Nat.leb_spec n 0) as [Hn0|Hn0].
    { assert (n = 0) by lia. subst n. destruct (Nat.leb_spec len 0); [lia|]. reflexivity. }
    destruct (Nat.leb_spec len n) as [Hle|Hgt].
    { rewrite Es, fold_left_map. reflexivity. }
    destruct (Nat.eqb_spec n 0) as [|_]; [lia|].
    assert (Hf : forall q : T -> bool, filter (fun i => q (a i)) (seq 0 len) = filter (fun i => q (value i)) (seq 0 len)).
    { intros q. apply filter_ext_in. intros k Hk. apply in_seq in Hk. rewrite Ha' by lia. reflexivity. }
    assert (Fv : filter (fun i => eqb (a i) (a i)) (seq 0 len) = filter (fun k => negb (isnan (value k))) (seq 0 len)).
    { rewrite (Hf (fun x => eqb x x)). apply filter_ext. intros k. apply valid_eq. }
    assert (Ev : filter (fun v => negb (isnan v)) (map (fun k => nth (nth (nth col (start_idxs (snd cm)) 0 + k) (fst cm) 0) vals nan) (seq 0 len)) =
       map a (filter (fun i => eqb (a i) (a i)) (seq 0 len))).
    { rewrite Fv. change (map (fun k => nth (nth (nth col (start_idxs (snd cm)) 0 + k) (fst cm) 0) vals nan) (seq 0 len)) with (map value (seq 0 len)).
      rewrite filter_map. apply map_ext_in. intros k Hk. apply filter_In in Hk. destruct Hk as (Hk & _). apply in_seq in Hk. rewrite Ha' by lia. reflexivity. }
    rewrite Ev, map_length. set (nv := List.length (filter (fun i => eqb (a i) (a i)) (seq 0 len))).
    assert (Hvis : forall k, In k (visit (seq 0 len)) -> k < len) by (intros k Hk; apply Hv in Hk; apply in_seq in Hk; lia).
    destruct (Nat.eqb nv 0).
    { apply until_eq. intros k Hk. split; auto. }
    destruct (Nat.ltb nv n).
    { rewrite Fv. rewrite (fold_filter _ _ (fun o k => upd o (g k) true) (fun k => negb (isnan (value k)))).
      rewrite (marks_eq idxs g) by (intros k Hk; apply filter_In in Hk; destruct Hk as (Hk & _); apply in_seq in Hk; apply Hi; lia).
      apply until_eq. intros k Hk. apply Hvis in Hk. split; auto. unfold neb. rewrite Ha' by auto. rewrite valid_eq, negb_involutive. reflexivity. }
    set (pivot := partition_at _ _).
    assert (Fs : filter (fun i => eqb (a i) (a i) && better (a i) pivot) (seq 0 len) = filter (fun k => negb (isnan (value k)) && better (value k) pivot) (seq 0 len)).
    { rewrite (Hf (fun x => eqb x x && better x pivot)). apply filter_ext. intros k. rewrite valid_eq. reflexivity. }
    rewrite Fs. rewrite (fold_filter_count _ _ (fun o k => upd o (g k) true) (fun k => negb (isnan (value k)) && better (value k) pivot)).
    cbv iota. cbn [Nat.add]. set (sel := filter _ (seq 0 len)).
    rewrite (marks_eq idxs g) by (intros k Hk; apply filter_In in Hk; destruct Hk as (Hk & _); apply in_seq in Hk; apply Hi; lia).
    destruct (Nat.leb_spec n (List.length sel)) as [Hs|Hs], (Nat.eqb_spec (n - List.length sel) 0) as [E|E]; try lia; auto.
    apply until_eq. intros k Hk. apply Hvis in Hk. split; auto. rewrite Ha', valid_eq by auto. reflexivity.
  Qed.
End Top.
