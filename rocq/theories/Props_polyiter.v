(** Final theorems: iterating over the vertices of a polygon (C110). *)
From Coq Require Import ZArith List Bool Lia Arith.
From Flocq Require Import Core BinarySingleNaN.
From Verif Require Import Ops M_scalar M_vec M_polygon M_polyiter Inst_F.
From Verif Require Import P_ord P_compare P_polyiter.
Import ListNotations.

Section IEEE.
Variables prec emax : Z.
Context {Hprec : FLX.Prec_gt_0 prec} {Hmax : Prec_lt_emax prec emax}.
Notation vertices := (list (list (binary_float prec emax))).

(** C110. Any polygon is [pg_make] of its vertices or what comes from the converting constructor, so that
    [p] is any list of vertices. *)
Theorem C110_forward : forall n (p : vertices), length p <= n -> pg_iterate n p (pg_begin p) (pg_end p) = Ret p.
Proof. exact forward. Qed.
(** The full property has the reverse order for every polygon. Proved: it holds if reversing changes nothing. *)
Theorem C110_reverse_partial : forall p : vertices, p = rev p -> forall n, length p <= n ->
  pg_iterate n p (pg_rbegin p) (pg_rend p) = Ret (rev p).
Proof. exact reverse_same. Qed.
(** What happens instead, and that this is wrong for each polygon whose first and last vertices differ. *)
Theorem C110_reverse_order : forall n (p : vertices), length p <= n -> pg_iterate n p (pg_rbegin p) (pg_rend p) = Ret p.
Proof. exact reverse. Qed.
Theorem C110_reverse_refuted : forall (p : vertices) v w q, p = v :: q ++ [w] -> v <> w ->
  forall n l, pg_iterate n p (pg_rbegin p) (pg_rend p) = Ret l -> l <> rev p.
Proof. exact reverse_wrong. Qed.
End IEEE.

(** A triangle in double precision: its first and last vertices differ, so that C110_reverse_refuted applies; a
    polygon of one vertex is its own reverse. *)
Definition iter_triangle : list (list double) := pg_make [[cst 1; cst 0]; [cst 0; cst 1]; [cst 0; cst 0]].
Lemma iter_triangle_shape : (length iter_triangle =? 3) && negb (v_eq (nth 0 iter_triangle []) (nth 2 iter_triangle [])) = true.
Proof. vm_cast_no_check (eq_refl true). Qed.
Lemma ends_differ : forall p : list (list double), (length p =? 3) && negb (v_eq (nth 0 p []) (nth 2 p [])) = true ->
  exists v q w, p = v :: q ++ [w] /\ v <> w /\ length p = 3.
Proof.
  intros p H. apply andb_true_iff in H; destruct H as (L & D).
  apply Nat.eqb_eq in L. destruct p as [|v [|x [|w [|]]]]; try discriminate L.
  exists v, [x], w. split; [reflexivity|split; [|reflexivity]].
  intros E; cbn [nth] in D. rewrite E in D. unfold v_eq in D. rewrite v_compare_refl in D. discriminate D.
Qed.
Example ex_C110 : exists v q w, iter_triangle = v :: q ++ [w] /\ v <> w /\ length iter_triangle = 3.
Proof. exact (ends_differ iter_triangle iter_triangle_shape). Qed.
Example ex_C110_same : forall v : list double, [v] = rev [v].
Proof. reflexivity. Qed.
Print Assumptions C110_forward.
Print Assumptions C110_reverse_partial.
Print Assumptions C110_reverse_order.
Print Assumptions C110_reverse_refuted.
