(** Proofs about the selection of components by size. *)
From Coq Require Import ZArith Reals List Bool Arith Lia Lra Permutation Sorted.
From Verif Require Import Ops M_scalar M_vec S_order P_ord P_compare P_scalar_ord P_sort.
Import ListNotations.

(** Order statistics: at most [k] elements are above [x] and at most [n] below. *)
Lemma filter_perm : forall {A} (f : A -> bool) l l', Permutation l l' -> length (filter f l) = length (filter f l').
Proof.
  intros A f l l' P. induction P; simpl; auto.
  - destruct (f x); simpl; auto.
  - destruct (f x), (f y); simpl; auto.
  - congruence.
Qed.
Lemma filter_nil : forall {A} (f : A -> bool) l, (forall x, In x l -> f x = false) -> filter f l = [].
Proof.
  induction l; simpl; intros H; auto. rewrite H by auto. apply IHl. auto.
Qed.
Lemma filter_le : forall {A} (f : A -> bool) l, length (filter f l) <= length l.
Proof. induction l; simpl; auto. destruct (f a); simpl; lia. Qed.

Section Stat.
Context {A : Type} (cmp : A -> A -> bool).
Hypothesis irrefl : forall x, cmp x x = false.
Lemma sorted_stat : forall l i x, StronglySorted (fun x y => cmp y x = false) l -> nth_error l i = Some x ->
  length (filter (fun y => cmp x y) l) <= length l - i - 1
  /\ length (filter (fun y => cmp y x) l) <= i.
Proof.
  intros l i x S E.
  destruct (nth_error_split l i E) as (l1 & l2 & -> & Li).
  assert (H : forall y, In y l1 -> cmp x y = false).
  { clear E Li. revert S. induction l1 as [|z l1 IH]; simpl; intros S y [].
    - inversion_clear S. rewrite Forall_forall in H1. subst z. apply H1. apply in_or_app. simpl. auto.
    - inversion_clear S. auto. }
  assert (H2 : forall y, In y l2 -> cmp y x = false).
  { clear E Li H. induction l1 as [|z l1 IH]; simpl in S.
    - inversion_clear S. rewrite Forall_forall in H0. auto.
    - inversion_clear S. auto. }
  rewrite !filter_app, !app_length. simpl. rewrite irrefl.
  rewrite (filter_nil (fun y => cmp x y) l1) by assumption.
  rewrite (filter_nil (fun y => cmp y x) l2) by assumption.
  simpl.
  generalize (filter_le (fun y => cmp x y) l2) (filter_le (fun y => cmp y x) l1). lia.
Qed.
End Stat.

Section Comp.
Context {T : Type} {o : ops T} {ol : ordlaws o} {nl : neglaws o}.
Variable cmp : T -> T -> bool.
Hypothesis irrefl : forall x, cmp x x = false.
Hypothesis trans : forall x y z, cmp x y = true -> cmp y z = true -> cmp x z = true.

Lemma combine_seq_nth : forall (v : list T) i x k, In (x, i) (combine v (seq k (length v))) ->
  (k <= i < k + length v)%nat /\ nth_error v (i - k) = Some x.
Proof.
  induction v as [|y v IH]; simpl; intros i x k H; [ easy | ].
  destruct H as [H|H].
  - injection H as -> ->. rewrite Nat.sub_diag. split; [ lia | reflexivity ].
  - apply IH in H. destruct H as [H1 H2]. split; [ lia | ].
    replace (i - k)%nat with (S (i - S k)) by lia. exact H2.
Qed.

Lemma map_fst_combine : forall (v : list T) (l : list nat), length v = length l -> map fst (combine v l) = v.
Proof. induction v; intros [|y l]; simpl; intros; try easy. f_equal. apply IHv. lia. Qed.
Lemma map_snd_combine : forall (v : list T) (l : list nat), length v = length l -> map snd (combine v l) = l.
Proof. induction v; intros [|y l]; simpl; intros; try easy. f_equal. apply IHv. lia. Qed.

Lemma filter_map_len : forall {A B} (f : B -> bool) (g : A -> B) l,
  length (filter f (map g l)) = length (filter (fun x => f (g x)) l).
Proof. induction l; simpl; auto. destruct (f (g a)); simpl; auto. Qed.

Lemma sort_vector_spec : forall v, exists e, sort_vector cmp v = Ret e
  /\ length e = length v
  /\ NoDup (map snd e)
  /\ Permutation (map snd e) (seq 0 (length v))
  /\ forall k, (k < length v)%nat -> exists x i, nth_error e (length v - k - 1) = Some (x, i)
      /\ nth_error v i = Some x
      /\ (length (filter (fun y => cmp x y) v) <= k)%nat
      /\ (length (filter (fun y => cmp y x) v) <= length v - k - 1)%nat.
Proof.
  intros v. unfold sort_vector.
  set (c := fun l r : T * nat => cmp (fst l) (fst r)).
  assert (Lc : length (combine v (seq 0 (length v))) = length v).
  { rewrite combine_length, seq_length. lia. }
  destruct (sort_all c (combine v (seq 0 (length v)))) as (e & E & P & S).
  rewrite Lc in E. exists e. split; [ exact E | ].
  assert (S' : StronglySorted (fun x y => c y x = false) e).
  { apply S; unfold c; [ intros; apply irrefl | intros x y z; apply trans ]. }
  assert (Le : length e = length v).
  { rewrite <- Lc. symmetry. now apply Permutation_length. }
  assert (Ps : Permutation (map snd e) (seq 0 (length v))).
  { transitivity (map snd (combine v (seq 0 (length v)))).
    - apply Permutation_map. now symmetry.
    - rewrite map_snd_combine; [ reflexivity | now rewrite seq_length ]. }
  split; [ exact Le | split; [ | split ; [ exact Ps | ] ] ].
  - apply (Permutation_NoDup (l := seq 0 (length v))); [ now symmetry | apply seq_NoDup ].
  - intros k Hk.
    destruct (nth_error e (length v - k - 1)) as [[x i]|] eqn:En.
    2: { apply nth_error_None in En. lia. }
    exists x, i. split; [ reflexivity | ].
    assert (I : In (x, i) (combine v (seq 0 (length v)))).
    { apply (Permutation_in (l := e)); [ now symmetry | ]. eapply nth_error_In; eauto. }
    apply combine_seq_nth in I. rewrite Nat.sub_0_r in I. split; [ apply I | ].
    destruct (sorted_stat c (fun x => irrefl (fst x)) e _ _ S' En) as [H1 H2].
    assert (Pv : Permutation (map fst e) v).
    { transitivity (map fst (combine v (seq 0 (length v)))).
      - apply Permutation_map. now symmetry.
      - rewrite map_fst_combine; [ reflexivity | now rewrite seq_length ]. }
    rewrite <- (filter_perm (fun y => cmp x y) _ _ Pv), <- (filter_perm (fun y => cmp y x) _ _ Pv).
    rewrite !filter_map_len. unfold c in H1, H2. simpl in H1, H2. lia.
Qed.

(** The value selecting variant *)
Lemma sort_value_spec : forall v k, (k < length v)%nat ->
  exists s x, sort cmp (length v) 0 (length v) v = Ret s
    /\ arr_get s (length v - k - 1) = Ret x
    /\ In x v
    /\ (length (filter (fun y => cmp x y) v) <= k)%nat
    /\ (length (filter (fun y => cmp y x) v) <= length v - k - 1)%nat.
Proof.
  intros v k Hk.
  destruct (sort_all cmp v) as (s & E & P & S).
  assert (Ls : length s = length v) by (symmetry; now apply Permutation_length).
  destruct (nth_error s (length v - k - 1)) as [x|] eqn:En.
  2: { apply nth_error_None in En. lia. }
  exists s, x. split; [ exact E | ]. split; [ unfold arr_get; now rewrite En | ].
  split. { apply (Permutation_in (l := s)); [ now symmetry | ]. eapply nth_error_In; eauto. }
  destruct (sorted_stat cmp irrefl s _ _ (S irrefl trans) En) as [H1 H2].
  symmetry in P.
  rewrite <- (filter_perm (fun y => cmp x y) _ _ P), <- (filter_perm (fun y => cmp y x) _ _ P). lia.
Qed.
End Comp.

Section Final.
Context {T : Type} {o : ops T} {ol : ordlaws o} {nl : neglaws o}.

Lemma lt_irrefl : forall x : T, o_lt x x = false.
Proof.
  intros x. destruct (o_lt x x) eqn:E; auto. apply lt_true in E. lra.
Qed.
Lemma lt_trans : forall x y z : T, o_lt x y = true -> o_lt y z = true -> o_lt x z = true.
Proof.
  intros x y z H1 H2. apply lt_true in H1, H2. apply lt_true. intuition lra.
Qed.
Lemma abslt_irrefl : forall x : T, o_lt (sc_abs x) (sc_abs x) = false.
Proof. intros; apply lt_irrefl. Qed.
Lemma abslt_trans : forall x y z : T, o_lt (sc_abs x) (sc_abs y) = true -> o_lt (sc_abs y) (sc_abs z) = true ->
  o_lt (sc_abs x) (sc_abs z) = true.
Proof. intros x y z. apply lt_trans. Qed.

Lemma nth_error_vget : forall (v : list T) i x, nth_error v i = Some x -> (i < length v)%nat /\ vget v i = x.
Proof.
  intros v i x E. split.
  - apply nth_error_Some. congruence.
  - unfold vget. now apply nth_error_nth.
Qed.

Lemma find_max_component_spec : forall v k, (k < length v)%nat ->
  exists i, find_max_component v k = Ret i /\ (i < length v)%nat
    /\ (length (filter (fun y => o_lt (vget v i) y) v) <= k)%nat
    /\ (length (filter (fun y => o_lt y (vget v i)) v) <= length v - k - 1)%nat.
Proof.
  intros v k Hk. unfold find_max_component.
  rewrite (proj2 (Nat.ltb_lt k (length v)) Hk). unfold require.
  destruct (sort_vector_spec o_lt lt_irrefl lt_trans v) as (e & -> & Le & _ & _ & H).
  destruct (H k Hk) as (x & i & E & Ex & H1 & H2).
  cbn [bind]. unfold arr_get. rewrite E. cbn [bind snd].
  destruct (nth_error_vget _ _ _ Ex) as [Li Vi].
  exists i. rewrite Vi. auto.
Qed.
Lemma find_abs_max_component_spec : forall v k, (k < length v)%nat ->
  exists i, find_abs_max_component v k = Ret i /\ (i < length v)%nat
    /\ (length (filter (fun y => o_lt (sc_abs (vget v i)) (sc_abs y)) v) <= k)%nat
    /\ (length (filter (fun y => o_lt (sc_abs y) (sc_abs (vget v i))) v) <= length v - k - 1)%nat.
Proof.
  intros v k Hk. unfold find_abs_max_component.
  rewrite (proj2 (Nat.ltb_lt k (length v)) Hk). unfold require.
  destruct (sort_vector_spec (fun l r => o_lt (sc_abs l) (sc_abs r)) abslt_irrefl abslt_trans v)
    as (e & -> & Le & _ & _ & H).
  destruct (H k Hk) as (x & i & E & Ex & H1 & H2).
  cbn [bind]. unfold arr_get. rewrite E. cbn [bind snd].
  destruct (nth_error_vget _ _ _ Ex) as [Li Vi].
  exists i. rewrite Vi. auto.
Qed.

Lemma nth_error_nodup_map : forall {A B} (f : A -> B) l i j x y, NoDup (map f l) ->
  nth_error l i = Some x -> nth_error l j = Some y -> f x = f y -> i = j.
Proof.
  intros A B f l i j x y ND Ei Ej E.
  rewrite NoDup_nth_error in ND. apply ND.
  - rewrite map_length. apply nth_error_Some. congruence.
  - rewrite (map_nth_error f i l Ei), (map_nth_error f j l Ej). congruence.
Qed.

Lemma find_max_component_inj : forall v k1 k2 i,
  find_max_component v k1 = Ret i -> find_max_component v k2 = Ret i -> k1 = k2.
Proof.
  intros v k1 k2 i. unfold find_max_component, require.
  destruct (Nat.ltb_spec k1 (length v)) as [L1|]; [ | discriminate ].
  destruct (Nat.ltb_spec k2 (length v)) as [L2|]; [ | discriminate ].
  destruct (sort_vector_spec o_lt lt_irrefl lt_trans v) as (e & -> & Le & ND & _ & H).
  destruct (H k1 L1) as (x1 & i1 & E1 & _). destruct (H k2 L2) as (x2 & i2 & E2 & _).
  cbn [bind]. unfold arr_get. rewrite E1, E2. cbn [bind snd]. intros [= <-] [= Ei].
  assert (length v - k1 - 1 = length v - k2 - 1)%nat
    by (apply (nth_error_nodup_map snd e _ _ _ _ ND E1 E2); auto). lia.
Qed.
Lemma find_abs_max_component_inj : forall v k1 k2 i,
  find_abs_max_component v k1 = Ret i -> find_abs_max_component v k2 = Ret i -> k1 = k2.
Proof.
  intros v k1 k2 i. unfold find_abs_max_component, require.
  destruct (Nat.ltb_spec k1 (length v)) as [L1|]; [ | discriminate ].
  destruct (Nat.ltb_spec k2 (length v)) as [L2|]; [ | discriminate ].
  destruct (sort_vector_spec (fun l r => o_lt (sc_abs l) (sc_abs r)) abslt_irrefl abslt_trans v)
    as (e & -> & Le & ND & _ & H).
  destruct (H k1 L1) as (x1 & i1 & E1 & _). destruct (H k2 L2) as (x2 & i2 & E2 & _).
  cbn [bind]. unfold arr_get. rewrite E1, E2. cbn [bind snd]. intros [= <-] [= Ei].
  assert (length v - k1 - 1 = length v - k2 - 1)%nat
    by (apply (nth_error_nodup_map snd e _ _ _ _ ND E1 E2); auto). lia.
Qed.

Lemma get_max_component_spec : forall v k, (k < length v)%nat ->
  exists x, get_max_component v k = Ret x /\ In x v
    /\ (length (filter (fun y => o_lt x y) v) <= k)%nat
    /\ (length (filter (fun y => o_lt y x) v) <= length v - k - 1)%nat.
Proof.
  intros v k Hk. unfold get_max_component.
  rewrite (proj2 (Nat.ltb_lt k (length v)) Hk). unfold require.
  destruct (sort_value_spec o_lt lt_irrefl lt_trans v k Hk) as (s & x & -> & E & H).
  cbn [bind]. rewrite E. exists x. auto.
Qed.
Lemma get_abs_max_component_spec : forall v k, (k < length v)%nat ->
  exists x, get_abs_max_component v k = Ret x /\ In x v
    /\ (length (filter (fun y => o_lt (sc_abs x) (sc_abs y)) v) <= k)%nat
    /\ (length (filter (fun y => o_lt (sc_abs y) (sc_abs x)) v) <= length v - k - 1)%nat.
Proof.
  intros v k Hk. unfold get_abs_max_component.
  destruct (sort_value_spec (fun l r => o_lt (sc_abs l) (sc_abs r)) abslt_irrefl abslt_trans v k Hk)
    as (s & x & -> & E & H).
  cbn [bind]. rewrite (proj2 (Nat.ltb_lt k (length v)) Hk), E. exists x. auto.
Qed.

Lemma nth_upd : forall {A} (l : list A) i j x d, (i < length l)%nat ->
  nth j (upd l i x) d = if Nat.eqb j i then x else nth j l d.
Proof.
  induction l as [|y l IH]; simpl; intros i j x d H; [ lia | ].
  destruct i as [|i], j as [|j]; simpl; auto. apply IH. lia.
Qed.
Lemma axis_nth : forall S i j, (i < S)%nat -> exists a, v_axis (T:=T) S i = Ret a /\ length a = S
  /\ vget a j = if Nat.eqb j i then cst 1 else cst 0.
Proof.
  intros S i j H. unfold v_axis. rewrite (proj2 (Nat.ltb_lt i S) H).
  eexists. split; [ reflexivity | ]. split.
  - rewrite upd_length. apply repeat_length.
  - unfold vget. rewrite nth_upd by (unfold v_fill; now rewrite repeat_length).
    destruct (Nat.eqb j i); auto.
    unfold v_fill. destruct (Nat.lt_ge_cases j S).
    + apply nth_repeat.
    + apply nth_overflow. now rewrite repeat_length.
Qed.
Lemma get_abs_max_component_axis_spec : forall v k, (k < length v)%nat ->
  exists i a, find_abs_max_component v k = Ret i
    /\ get_abs_max_component_axis v k = Ret a /\ length a = length v
    /\ (forall j, (j < length v)%nat ->
        vget a j = if o_lt (vget v i) (cst 0)
                   then o_neg (if Nat.eqb j i then cst 1 else cst 0)
                   else (if Nat.eqb j i then cst 1 else cst 0)).
Proof.
  intros v k Hk. destruct (find_abs_max_component_spec v k Hk) as (i & E & Li & _).
  unfold get_abs_max_component_axis. rewrite E. cbn [bind].
  destruct (axis_nth (length v) i 0 Li) as (a & Ea & La & _).
  rewrite Ea. cbn [bind].
  exists i. eexists. split; [ reflexivity | split; [ reflexivity | ] ].
  split. { destruct (o_lt _ _); unfold v_neg; rewrite ?map_length; exact La. }
  intros j Hj. destruct (axis_nth (length v) i j Li) as (a' & Ea' & _ & Va).
  assert (a' = a) by congruence. subst a'.
  destruct (o_lt (vget v i) (cst 0)); auto.
  rewrite <- Va. unfold v_neg, vget.
  rewrite (nth_indep _ (cst 0) (o_neg (cst 0))) by (rewrite map_length; lia).
  apply map_nth.
Qed.
End Final.
