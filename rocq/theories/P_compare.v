(** Proofs about vector comparison, for every scalar type with order laws. *)
From Coq Require Import ZArith Reals List Bool Lra Lia.
From Flocq Require Import Core.
From Verif Require Import Ops M_scalar M_vec S_order P_ord.
Import ListNotations.
Local Open Scope R_scope.

Section Compare.
Context {T : Type} {o : ops T} {ol : ordlaws o}.

Lemma NaN_is_nan : forall x : T, NaN x <-> is_nan x = true.
Proof.
  intros x. unfold NaN, is_nan. destruct (o_eq x x); simpl; split; congruence.
Qed.
Lemma not_NaN_is_nan : forall x : T, ~ NaN x <-> is_nan x = false.
Proof.
  intros x. rewrite NaN_is_nan. destruct (is_nan x); split; congruence.
Qed.

Lemma lt_true : forall x y : T, o_lt x y = true <-> is_nan x = false /\ is_nan y = false /\ key x < key y.
Proof.
  intros x y. destruct (is_nan x) eqn:Nx.
  { destruct (nan_l x y Nx) as (-> & _). split; [ discriminate | intros (? & _); discriminate ]. }
  destruct (is_nan y) eqn:Ny.
  { destruct (nan_r x y Ny) as (-> & _). split; [ discriminate | intros (_ & ? & _); discriminate ]. }
  rewrite lt_key by assumption. destruct (Rlt_bool_spec (key x) (key y)); split; intros; try easy.
  lra.
Qed.
Lemma le_true : forall x y : T, o_le x y = true <-> is_nan x = false /\ is_nan y = false /\ key x <= key y.
Proof.
  intros x y. destruct (is_nan x) eqn:Nx.
  { destruct (nan_l x y Nx) as (_ & -> & _). split; [ discriminate | intros (? & _); discriminate ]. }
  destruct (is_nan y) eqn:Ny.
  { destruct (nan_r x y Ny) as (_ & -> & _). split; [ discriminate | intros (_ & ? & _); discriminate ]. }
  rewrite le_key by assumption. destruct (Rle_bool_spec (key x) (key y)); split; intros; try easy.
  lra.
Qed.
Lemma eq_true : forall x y : T, o_eq x y = true <-> is_nan x = false /\ is_nan y = false /\ key x = key y.
Proof.
  intros x y. destruct (is_nan x) eqn:Nx.
  { destruct (nan_l x y Nx) as (_ & _ & ->). split; [ discriminate | intros (? & _); discriminate ]. }
  destruct (is_nan y) eqn:Ny.
  { destruct (nan_r x y Ny) as (_ & _ & ->). split; [ discriminate | intros (_ & ? & _); discriminate ]. }
  rewrite eq_key by assumption. destruct (Req_bool_spec (key x) (key y)); split; intros; try easy.
Qed.
Lemma lt_false : forall x y : T, is_nan x = false -> is_nan y = false ->
  (o_lt x y = false <-> key y <= key x).
Proof.
  intros x y Hx Hy. rewrite lt_key by assumption.
  destruct (Rlt_bool_spec (key x) (key y)); split; intros; try easy; lra.
Qed.
Lemma le_false : forall x y : T, is_nan x = false -> is_nan y = false ->
  (o_le x y = false <-> key y < key x).
Proof.
  intros x y Hx Hy. rewrite le_key by assumption.
  destruct (Rle_bool_spec (key x) (key y)); split; intros; try easy; lra.
Qed.
Lemma eq_false : forall x y : T, is_nan x = false -> is_nan y = false ->
  (o_eq x y = false <-> key x <> key y).
Proof.
  intros x y Hx Hy. rewrite eq_key by assumption.
  destruct (Req_bool_spec (key x) (key y)); split; intros; try easy.
Qed.

(** One component *)
Definition ccmp (x y : T) : Z :=
  if is_nan x then (if is_nan y then 0 else 1)
  else if is_nan y then (-1)
  else match Rcompare (key x) (key y) with Lt => -1 | Eq => 0 | Gt => 1 end.

Lemma v_compare_cons : forall x y a b,
  v_compare (x :: a) (y :: b) (cst 0) =
  (if ccmp x y =? 0 then v_compare a b (cst 0) else ccmp x y)%Z.
Proof.
  intros x y a b. simpl. fold (is_nan x) (is_nan y). unfold ccmp.
  destruct (is_nan x) eqn:Nx, (is_nan y) eqn:Ny; simpl; try reflexivity.
  destruct (num_sub0 y) as [S1 S2]. destruct (num_add0 y) as [A1 A2].
  unfold cst in *. rewrite Ny in S1, A1.
  rewrite lt_key, S2 by assumption.
  rewrite lt_key, A2 by assumption.
  unfold Rlt_bool.
  rewrite (Rcompare_sym (key y) (key x)).
  destruct (Rcompare (key x) (key y)); reflexivity.
Qed.

Lemma ccmp_range : forall x y, (ccmp x y = -1 \/ ccmp x y = 0 \/ ccmp x y = 1)%Z.
Proof.
  intros x y. unfold ccmp.
  destruct (is_nan x), (is_nan y); auto. destruct (Rcompare (key x) (key y)); auto.
Qed.
Lemma ccmp_anti : forall x y, ccmp y x = (- ccmp x y)%Z.
Proof.
  intros x y. unfold ccmp. destruct (is_nan x), (is_nan y); try reflexivity.
  rewrite Rcompare_sym. now destruct (Rcompare (key x) (key y)).
Qed.
Lemma ccmp_lt : forall x y, ccmp x y = (-1)%Z <-> comp_lt x y.
Proof.
  intros x y. unfold comp_lt. rewrite !NaN_is_nan, lt_true. unfold ccmp.
  destruct (is_nan x) eqn:Nx, (is_nan y) eqn:Ny.
  - split; [ discriminate | ]. intros [[? _]|(? & _)]; congruence.
  - split; [ discriminate | ]. intros [[_ ?]|(? & _)]; discriminate.
  - split; [ intros _ | reflexivity ]. left. split; [ congruence | reflexivity ].
  - destruct (Rcompare_spec (key x) (key y)).
    + split; [ intros _ | reflexivity ]. auto.
    + split; [ discriminate | ]. intros [[_ ?]|(_ & _ & ?)]; [ discriminate | lra ].
    + split; [ discriminate | ]. intros [[_ ?]|(_ & _ & ?)]; [ discriminate | lra ].
Qed.
Lemma ccmp_eq : forall x y, ccmp x y = 0%Z <-> comp_eq x y.
Proof.
  intros x y. unfold comp_eq. rewrite !NaN_is_nan, eq_true. unfold ccmp.
  destruct (is_nan x) eqn:Nx, (is_nan y) eqn:Ny.
  - split; auto.
  - split; [ discriminate | ]. intros [[_ ?]|(? & _)]; discriminate.
  - split; [ discriminate | ]. intros [[? _]|(_ & ? & _)]; discriminate.
  - destruct (Rcompare_spec (key x) (key y)).
    + split; [ discriminate | ]. intros [[_ ?]|(_ & _ & ?)]; [ discriminate | lra ].
    + split; [ intros _ | reflexivity ]. auto.
    + split; [ discriminate | ]. intros [[_ ?]|(_ & _ & ?)]; [ discriminate | lra ].
Qed.
Lemma ccmp_gt : forall x y, ccmp x y = 1%Z <-> comp_lt y x.
Proof. intros x y. rewrite <- ccmp_lt, (ccmp_anti x y). lia. Qed.
(** Transitivity in one statement: the sum of signs decides. *)
Lemma ccmp_trans : forall x y z, (ccmp x y <= 0 -> ccmp y z <= 0 ->
  ccmp x z <= 0 /\ (ccmp x z = 0 -> ccmp x y = 0 /\ ccmp y z = 0))%Z.
Proof.
  intros x y z. unfold ccmp.
  destruct (is_nan x), (is_nan y), (is_nan z); try lia.
  destruct (Rcompare_spec (key x) (key y)), (Rcompare_spec (key y) (key z)),
    (Rcompare_spec (key x) (key z)); try lia; try lra.
Qed.
Lemma ccmp_eq_trans : forall x y z, (ccmp x y = 0 -> ccmp y z = 0 -> ccmp x z = 0)%Z.
Proof.
  intros x y z. unfold ccmp.
  destruct (is_nan x), (is_nan y), (is_nan z); try lia.
  destruct (Rcompare_spec (key x) (key y)), (Rcompare_spec (key y) (key z)),
    (Rcompare_spec (key x) (key z)); try lia; try lra.
Qed.

Lemma v_compare_range : forall a b,
  (v_compare a b (cst 0) = -1 \/ v_compare a b (cst 0) = 0 \/ v_compare a b (cst 0) = 1)%Z.
Proof.
  induction a as [|x a IH]; intros [|y b]; auto.
  rewrite v_compare_cons. destruct (Z.eqb_spec (ccmp x y) 0); auto. apply ccmp_range.
Qed.
Lemma v_compare_anti : forall a b, v_compare b a (cst 0) = (- v_compare a b (cst 0))%Z.
Proof.
  induction a as [|x a IH]; intros [|y b]; auto.
  rewrite !v_compare_cons, IH, ccmp_anti.
  destruct (Z.eqb_spec (ccmp x y) 0), (Z.eqb_spec (- ccmp x y) 0); auto; lia.
Qed.
Lemma v_compare_lt : forall a b, length a = length b ->
  (v_compare a b (cst 0) = (-1)%Z <-> vec_lt a b).
Proof.
  unfold vec_lt. induction a as [|x a IH]; intros [|y b] L; try discriminate.
  - split; [ discriminate | inversion 1 ].
  - injection L as L. rewrite v_compare_cons.
    destruct (Z.eqb_spec (ccmp x y) 0) as [E|N].
    + rewrite IH by assumption. split.
      * intros H. apply lex_next; [ now apply ccmp_eq | assumption ].
      * inversion 1; subst; auto.
        apply ccmp_lt in H1. lia.
    + rewrite ccmp_lt. split.
      * intros H. now apply lex_here.
      * inversion 1; subst; auto. apply ccmp_eq in H3. lia.
Qed.
Lemma v_compare_eq : forall a b, length a = length b ->
  (v_compare a b (cst 0) = 0%Z <-> vec_eq a b).
Proof.
  unfold vec_eq. induction a as [|x a IH]; intros [|y b] L; try discriminate.
  - split; [ constructor | reflexivity ].
  - injection L as L. rewrite v_compare_cons.
    destruct (Z.eqb_spec (ccmp x y) 0) as [E|N].
    + rewrite IH by assumption. split.
      * intros H. constructor; [ now apply ccmp_eq | assumption ].
      * inversion 1; subst; auto.
    + split; [ intros; lia | ]. inversion 1; subst. apply ccmp_eq in H3. lia.
Qed.
Lemma v_compare_gt : forall a b, length a = length b ->
  (v_compare a b (cst 0) = 1%Z <-> vec_lt b a).
Proof.
  intros a b L. rewrite <- v_compare_lt by auto. rewrite (v_compare_anti a b). lia.
Qed.
Lemma v_compare_refl : forall a, v_compare a a (cst 0) = 0%Z.
Proof.
  intros a. generalize (v_compare_anti a a). lia.
Qed.
Lemma v_compare_trans : forall a b c, length a = length b -> length b = length c ->
  (v_compare a b (cst 0) <= 0 -> v_compare b c (cst 0) <= 0 ->
   v_compare a c (cst 0) <= 0 /\
   (v_compare a c (cst 0) = 0 -> v_compare a b (cst 0) = 0 /\ v_compare b c (cst 0) = 0))%Z.
Proof.
  induction a as [|x a IH]; intros [|y b] [|z c] L1 L2; try discriminate.
  - simpl. lia.
  - injection L1 as L1. injection L2 as L2. rewrite !v_compare_cons. intros H1 H2.
    assert (H3 := ccmp_trans x y z). assert (H4 := ccmp_eq_trans x y z).
    specialize (IH b c L1 L2).
    destruct (Z.eqb_spec (ccmp x y) 0), (Z.eqb_spec (ccmp y z) 0), (Z.eqb_spec (ccmp x z) 0);
    try lia.
Qed.
Lemma v_compare_eq_l : forall a b c, length a = length b -> length b = length c ->
  (v_compare a b (cst 0) = 0 -> v_compare a c (cst 0) = v_compare b c (cst 0))%Z.
Proof.
  intros a b c L1 L2 E.
  assert (H1 := v_compare_trans a b c L1 L2).
  assert (H2 := v_compare_trans b a c ltac:(congruence) ltac:(congruence)).
  assert (H3 := v_compare_trans c b a ltac:(congruence) ltac:(congruence)).
  assert (H4 := v_compare_trans c a b ltac:(congruence) ltac:(congruence)).
  rewrite (v_compare_anti a b), (v_compare_anti a c), (v_compare_anti b c) in *.
  destruct (v_compare_range a c) as [R|[R|R]], (v_compare_range b c) as [R'|[R'|R']]; lia.
Qed.

(** ** Ranges. *)
Lemma r_compare_cons : forall x y a b,
  r_compare (x :: a) (y :: b) (cst 0) =
  (if v_compare x y (cst 0) =? 0 then r_compare a b (cst 0) else v_compare x y (cst 0))%Z.
Proof.
  intros x y a b. simpl.
  destruct (v_compare_range x y) as [E|[E|E]]; rewrite E; reflexivity.
Qed.
Lemma r_compare_range : forall a b,
  (r_compare a b (cst 0) = -1 \/ r_compare a b (cst 0) = 0 \/ r_compare a b (cst 0) = 1)%Z.
Proof.
  induction a as [|x a IH]; intros [|y b]; simpl; auto.
  destruct (Z.ltb_spec (v_compare x y (cst 0)) 0); auto.
  destruct (Z.ltb_spec 0 (v_compare x y (cst 0))); auto.
Qed.
Lemma r_compare_anti : forall a b, r_compare b a (cst 0) = (- r_compare a b (cst 0))%Z.
Proof.
  induction a as [|x a IH]; intros [|y b]; auto.
  rewrite !r_compare_cons, IH, v_compare_anti.
  destruct (Z.eqb_spec (v_compare x y (cst 0)) 0), (Z.eqb_spec (- v_compare x y (cst 0)) 0); auto; lia.
Qed.

Definition dim (n : nat) (l : list (list T)) : Prop := Forall (fun v => length v = n) l.

Lemma r_compare_lt : forall n a b, dim n a -> dim n b ->
  (r_compare a b (cst 0) = (-1)%Z <-> seq_lt a b).
Proof.
  unfold seq_lt. intros n. induction a as [|x a IH]; intros [|y b] Da Db.
  - split; [ discriminate | inversion 1 ].
  - split; [ intros; constructor | reflexivity ].
  - split; [ discriminate | inversion 1 ].
  - inversion_clear Da as [|? ? Lx Da']. inversion_clear Db as [|? ? Ly Db'].
    assert (L : length x = length y) by congruence.
    rewrite r_compare_cons.
    destruct (Z.eqb_spec (v_compare x y (cst 0)) 0) as [E|N].
    + rewrite IH by assumption. split.
      * intros H. apply lex_next; [ now apply v_compare_eq | assumption ].
      * inversion 1; subst; auto. apply v_compare_lt in H1; auto. lia.
    + rewrite v_compare_lt by assumption. split.
      * intros H. now apply lex_here.
      * inversion 1; subst; auto. apply v_compare_eq in H3; auto. lia.
Qed.
Lemma r_compare_eq : forall n a b, dim n a -> dim n b ->
  (r_compare a b (cst 0) = 0%Z <-> seq_eq a b).
Proof.
  unfold seq_eq. intros n. induction a as [|x a IH]; intros [|y b] Da Db.
  - split; [ constructor | reflexivity ].
  - split; [ discriminate | inversion 1 ].
  - split; [ discriminate | inversion 1 ].
  - inversion_clear Da as [|? ? Lx Da']. inversion_clear Db as [|? ? Ly Db'].
    assert (L : length x = length y) by congruence.
    rewrite r_compare_cons.
    destruct (Z.eqb_spec (v_compare x y (cst 0)) 0) as [E|N].
    + rewrite IH by assumption. split.
      * intros H. constructor; [ now apply v_compare_eq | assumption ].
      * inversion 1; subst; auto.
    + split; [ intros; lia | ]. inversion 1; subst. apply v_compare_eq in H3; auto; lia.
Qed.
Lemma r_compare_trans : forall n a b c, dim n a -> dim n b -> dim n c ->
  (r_compare a b (cst 0) <= 0 -> r_compare b c (cst 0) <= 0 ->
   r_compare a c (cst 0) <= 0 /\
   (r_compare a c (cst 0) = 0 -> r_compare a b (cst 0) = 0 /\ r_compare b c (cst 0) = 0))%Z.
Proof.
  intros n. induction a as [|x a IH]; intros [|y b] [|z c] Da Db Dc; [ try (simpl; lia) .. | ].
  inversion_clear Da as [|? ? Lx Da']. inversion_clear Db as [|? ? Ly Db'].
  inversion_clear Dc as [|? ? Lz Dc'].
  rewrite !r_compare_cons. intros H1 H2.
  assert (H3 := v_compare_trans x y z ltac:(congruence) ltac:(congruence)).
  assert (H4 := v_compare_eq_l x y z ltac:(congruence) ltac:(congruence)).
  specialize (IH b c Da' Db' Dc').
  destruct (Z.eqb_spec (v_compare x y (cst 0)) 0), (Z.eqb_spec (v_compare y z (cst 0)) 0),
    (Z.eqb_spec (v_compare x z (cst 0)) 0); try lia.
Qed.
End Compare.
