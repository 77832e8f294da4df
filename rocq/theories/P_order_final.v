(** Consequences of the comparison lemmas in the form used by the final theorems. *)
From Coq Require Import ZArith Reals List Bool Lia Lra.
From Verif Require Import Ops M_scalar M_vec S_order P_ord P_compare P_scalar_ord.
Import ListNotations.

Section S.
Context {T : Type} {o : ops T} {ol : ordlaws o}.

Lemma v_ops_spec : forall a b : list T, length a = length b ->
  (v_lt a b = true <-> vec_lt a b) /\ (v_eq a b = true <-> vec_eq a b)
  /\ (v_gt a b = true <-> vec_lt b a)
  /\ (v_ne a b = true <-> ~ vec_eq a b)
  /\ (v_le a b = true <-> vec_lt a b \/ vec_eq a b)
  /\ (v_ge a b = true <-> vec_lt b a \/ vec_eq a b).
Proof.
  intros a b L. unfold v_lt, v_eq, v_gt, v_ne, v_le, v_ge.
  rewrite <- (v_compare_lt a b L), <- (v_compare_gt a b L), <- (v_compare_eq a b L).
  rewrite negb_true_iff, !Z.ltb_lt, !Z.leb_le, Z.eqb_eq, Z.eqb_neq.
  generalize (v_compare_range a b). lia.
Qed.

Lemma v_lt_irrefl : forall a : list T, v_lt a a = false.
Proof. intros a. unfold v_lt. now rewrite v_compare_refl. Qed.
Lemma v_lt_trans : forall a b c : list T, length a = length b -> length b = length c ->
  v_lt a b = true -> v_lt b c = true -> v_lt a c = true.
Proof.
  intros a b c L1 L2. unfold v_lt. rewrite !Z.ltb_lt. intros H1 H2.
  destruct (v_compare_trans a b c L1 L2); lia.
Qed.
Lemma v_lt_total : forall a b : list T,
  (v_lt a b = true /\ v_eq a b = false /\ v_gt a b = false)
  \/ (v_lt a b = false /\ v_eq a b = true /\ v_gt a b = false)
  \/ (v_lt a b = false /\ v_eq a b = false /\ v_gt a b = true).
Proof.
  intros a b. unfold v_lt, v_eq, v_gt.
  destruct (v_compare_range a b) as [E|[E|E]]; rewrite E; auto.
Qed.
Lemma v_eq_equiv : forall a b c : list T, length a = length b -> length b = length c ->
  v_eq a a = true /\ v_eq b a = v_eq a b
  /\ (v_eq a b = true -> v_eq b c = true -> v_eq a c = true)
  /\ (v_eq a b = true -> v_lt a c = v_lt b c /\ v_lt c a = v_lt c b).
Proof.
  intros a b c L1 L2. unfold v_eq, v_lt. rewrite v_compare_refl.
  split; [ reflexivity | ]. split.
  { rewrite (v_compare_anti a b). destruct (v_compare_range a b) as [E|[E|E]]; rewrite E; auto. }
  split.
  - rewrite !Z.eqb_eq. intros H1 H2. rewrite (v_compare_eq_l a b c); auto.
  - rewrite !Z.eqb_eq. intros H1.
    rewrite (v_compare_anti a c), (v_compare_anti b c).
    now rewrite (v_compare_eq_l a b c).
Qed.
Lemma v_gt_lt : forall a b : list T, v_gt a b = v_lt b a /\ v_ge a b = v_le b a /\ v_ne a b = negb (v_eq a b).
Proof.
  intros a b. unfold v_gt, v_lt, v_ge, v_le, v_ne, v_eq. rewrite (v_compare_anti a b).
  destruct (v_compare_range a b) as [E|[E|E]]; rewrite E; auto.
Qed.
Lemma r_compare_gt : forall n (a b : list (list T)), dim n a -> dim n b ->
  (r_compare a b (cst 0) = 1%Z <-> seq_lt b a).
Proof.
  intros n a b Da Db. rewrite <- (r_compare_lt n b a) by auto. rewrite (r_compare_anti a b). lia.
Qed.

(** Componentwise vector functions *)
Lemma v_clamp_spec : forall v lo hi : list T, length v = length lo -> length v = length hi ->
  Forall (fun x => ~ NaN x) v -> Forall (fun x => ~ NaN x) lo -> Forall (fun x => ~ NaN x) hi ->
  Forall2 (fun l h => o_le l h = true) lo hi ->
  length (v_clamp v lo hi) = length v /\
  forall i, (i < length v)%nat ->
    o_le (vget lo i) (vget (v_clamp v lo hi) i) = true
    /\ o_le (vget (v_clamp v lo hi) i) (vget hi i) = true
    /\ (o_le (vget lo i) (vget v i) = true -> o_le (vget v i) (vget hi i) = true ->
        o_eq (vget (v_clamp v lo hi) i) (vget v i) = true).
Proof.
  induction v as [|x v IH]; intros [|l lo] [|h hi] L1 L2 N1 N2 N3 F; try discriminate.
  - split; auto. intros i Hi. simpl in Hi. lia.
  - inversion_clear N1. inversion_clear N2. inversion_clear N3. inversion_clear F.
    injection L1 as L1. injection L2 as L2.
    destruct (IH lo hi) as [IL IH']; auto.
    split. { simpl. f_equal. exact IL. }
    intros [|i] Hi.
    + unfold vget. cbn [v_clamp v_min v_max map2 nth].
      apply not_NaN_is_nan in H, H1, H3.
      apply le_true in H5. destruct H5 as (_ & _ & K).
      assert (Nm : is_nan (sc_max x [l]) = false) by (now apply max2_num).
      assert (Nr : is_nan (sc_min (sc_max x [l]) [h]) = false) by (now apply min2_num).
      assert (Kr : key (sc_min (sc_max x [l]) [h]) = Rmin (Rmax (key x) (key l)) (key h)).
      { rewrite min2_key, max2_key; auto. }
      rewrite !le_true, eq_true, Kr.
      unfold Rmin, Rmax. repeat destruct Rle_dec; intuition lra.
    + simpl in Hi. apply (IH' i). lia.
Qed.
End S.
