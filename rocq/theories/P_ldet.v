(** The determinant of the model is the Laplace expansion, also where the code has closed forms. *)
From Coq Require Import ZArith Reals List Bool Lra Lia Arith.
From Flocq Require Import Core.
From Verif Require Import Ops M_scalar M_vec M_mat Inst_XR P_xr S_vec S_mat P_vec P_mat P_mat2.
Import ListNotations.
Local Open Scope R_scope.

Definition sgn (i : nat) : R := if Nat.even i then 1 else -1.
Fixpoint ldet (n : nat) (f : nat -> nat -> R) : R :=
  match n with
  | O => 1
  | S n' => Rsum n (fun r => sgn r * f r 0%nat * ldet n' (fun i j => f (skip r i) (S j)))
  end.

Lemma ldet_ext : forall n f g, (forall i j, (i < n)%nat -> (j < n)%nat -> f i j = g i j) -> ldet n f = ldet n g.
Proof.
  induction n as [|n IH]; intros f g H; auto.
  change (Rsum (S n) (fun r => sgn r * f r 0%nat * ldet n (fun i j => f (skip r i) (S j)))
        = Rsum (S n) (fun r => sgn r * g r 0%nat * ldet n (fun i j => g (skip r i) (S j)))).
  apply Rsum_ext. intros r Hr. rewrite H by lia. f_equal. apply IH. intros i j Hi Hj. apply H; [|lia].
  unfold skip. destruct (Nat.ltb_spec i r); lia.
Qed.

Lemma X_minor : forall n A row col, is_mat (S n) (S n) A -> (row < S n)%nat -> (col < S n)%nat ->
  m_minor (S n) (S n) (mS A) row col = mS (of_ent n n (fun r c => ent A (skip row r) (skip col c))).
Proof.
  intros n A row col H Hr Hc. rewrite minor_mk by (auto; now apply mS_shape).
  simpl. rewrite Nat.sub_0_r. rewrite <- mk_mS. apply mk_ext. intros. now rewrite mS_get.
Qed.

Lemma X_det : forall n A, is_mat (S n) (S n) A -> m_det (S n) (mS A) = Some (ldet (S n) (ent A)).
Proof.
  induction n as [|n IH]; intros A H.
  - simpl. rewrite mS_get. f_equal. unfold sgn. simpl. ring.
  - destruct n as [|[|n]].
    + simpl. rewrite !mS_get. simpl. f_equal. unfold sgn, skip. simpl. ring.
    + simpl. rewrite !mS_get. simpl. f_equal. unfold sgn, skip. simpl. ring.
    + set (k := S (S n)) in *.
      change (m_det (S (S k)) (mS A)) with (acc_sum (S (S k)) 0 (fun r =>
        o_mul (o_mul (if Nat.even r then cst 1 else cst (-1)) (mget (mS A) 0 r))
         (m_det (S k) (m_minor (S (S k)) (S (S k)) (mS A) r 0))) (cst 0)).
      rewrite (acc_sum_ext _ _ _ (fun r => Some (sgn r * ent A r 0
        * ldet (S k) (fun i j => ent A (skip r i) (S j))))).
      * change (cst 0 : XR) with (Some 0). rewrite acc_sum_S. f_equal. rewrite Rplus_0_l. reflexivity.
      * intros r Hr. rewrite X_minor by (auto; lia). rewrite IH by apply of_ent_shape.
        rewrite mS_get.
        replace (if Nat.even r then cst 1 else cst (-1)) with (Some (sgn r)).
        2: { unfold sgn. now destruct (Nat.even r). }
        cbn [o_mul XRops X2]. f_equal. apply (f_equal (Rmult _)). apply ldet_ext. intros i j Hi Hj. now rewrite of_ent_get.
Qed.

Lemma X_adjugate : forall n A, is_mat (S (S n)) (S (S n)) A ->
  m_adjugate (S (S n)) (mS A) = mS (of_ent (S (S n)) (S (S n)) (fun i j =>
    sgn (i + j) * ldet (S n) (fun r c => ent A (skip j r) (skip i c)))).
Proof.
  intros n A H. unfold m_adjugate. rewrite <- mk_mS. apply mk_ext. intros c r Hc Hr.
  rewrite X_minor by auto. replace (S (S n) - 1)%nat with (S n) by lia. rewrite X_det by apply of_ent_shape.
  replace (if Nat.even (r + c) then cst 1 else cst (-1)) with (Some (sgn (r + c))).
  2: { unfold sgn. now destruct (Nat.even (r + c)). }
  cbn [o_mul XRops X2]. f_equal. apply (f_equal (Rmult _)). apply ldet_ext. intros i j Hi Hj. now rewrite of_ent_get.
Qed.

Definition adjl (n : nat) (A : list (list R)) : list (list R) :=
  of_ent (S n) (S n) (fun i j => sgn (i + j) * ldet n (fun r c => ent A (skip j r) (skip i c))).
