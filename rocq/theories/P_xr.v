(** Working with exact arithmetic. *)
From Coq Require Import ZArith Reals List Bool Lra Lia.
From Flocq Require Import Core.
From Verif Require Import Ops M_scalar Inst_XR.
Import ListNotations.
Local Open Scope R_scope.

Lemma X_lit : forall p q, q <> 0%Z -> lit p q = Some (IZR p / IZR q).
Proof.
  intros p q H. unfold lit. simpl. rewrite Req_bool_false; auto. now apply IZR_neq.
Qed.
Lemma X_div : forall a b : R, b <> 0 -> o_div (Some a) (Some b) = Some (a / b).
Proof. intros a b H. simpl. now rewrite Req_bool_false. Qed.
Lemma X_div0 : forall a : R, o_div (Some a) (Some 0) = None.
Proof. intros a. simpl. now rewrite Req_bool_true. Qed.
Lemma X_sqrt : forall a, 0 <= a -> o_sqrt (Some a) = Some (sqrt a).
Proof. intros a H. simpl. now rewrite Rlt_bool_false. Qed.
Lemma X_sqrt_neg : forall a, a < 0 -> o_sqrt (Some a) = None.
Proof. intros a H. simpl. now rewrite Rlt_bool_true. Qed.
Lemma X_abs : forall a, sc_abs (Some a) = Some (Rabs a).
Proof.
  intros a. unfold sc_abs. simpl. destruct (Rlt_bool_spec a 0).
  - now rewrite Rabs_left.
  - now rewrite Rabs_pos_eq.
Qed.
Lemma X_is_zero : forall a e, 0 <= e -> sc_is_zero (Some a) (Some e) = Rle_bool (Rabs a) e.
Proof.
  intros a e H. unfold sc_is_zero. rewrite X_abs. simpl.
  destruct (Req_bool_spec a 0) as [->|]; auto.
  rewrite Rabs_R0, Rle_bool_true; auto.
Qed.
Lemma X_is_equal : forall a b e, sc_is_equal (Some a) (Some b) (Some e) = Rle_bool (Rabs (a - b)) e.
Proof. intros. unfold sc_is_equal. simpl o_sub. rewrite X_abs. reflexivity. Qed.
Lemma X_min2 : forall a b, sc_min (Some a) [Some b] = Some (Rmin a b).
Proof.
  intros. simpl. unfold Rmin. destruct (Rlt_bool_spec a b), (Rle_dec a b); auto; f_equal; lra.
Qed.
Lemma X_max2 : forall a b, sc_max (Some a) [Some b] = Some (Rmax a b).
Proof.
  intros. simpl. unfold Rmax. destruct (Rlt_bool_spec b a), (Rle_dec a b); auto; f_equal; lra.
Qed.
Lemma X_nan : forall a, is_nan (Some a) = false.
Proof. intros. unfold is_nan. simpl. now rewrite Req_bool_true. Qed.

Lemma Rlt_true : forall a b, Rlt_bool a b = true <-> a < b.
Proof. intros. destruct (Rlt_bool_spec a b); split; intros; auto; try discriminate; lra. Qed.
Lemma Rle_true : forall a b, Rle_bool a b = true <-> a <= b.
Proof. intros. destruct (Rle_bool_spec a b); split; intros; auto; try discriminate; lra. Qed.
Lemma Req_true : forall a b, Req_bool a b = true <-> a = b.
Proof. intros. destruct (Req_bool_spec a b); split; intros; auto; try discriminate; contradiction. Qed.
Lemma Rlt_false : forall a b, Rlt_bool a b = false <-> b <= a.
Proof. intros. destruct (Rlt_bool_spec a b); split; intros; auto; try discriminate; lra. Qed.
Lemma Rle_false : forall a b, Rle_bool a b = false <-> b < a.
Proof. intros. destruct (Rle_bool_spec a b); split; intros; auto; try discriminate; lra. Qed.
Lemma Req_false : forall a b, Req_bool a b = false <-> a <> b.
Proof. intros. destruct (Req_bool_spec a b); split; intros; auto; try discriminate; contradiction. Qed.

(** [fold_right] spelling of vector functions on [map Some]. *)
Lemma map_Some_inj : forall l l' : list R, map Some l = map Some l' -> l = l'.
Proof.
  induction l; destruct l'; intros H; try discriminate; auto.
  injection H as -> H. f_equal. auto.
Qed.
