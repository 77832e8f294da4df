(** Final theorems: points in polygons in machine arithmetic (C116). *)
From Coq Require Import ZArith Reals List Lia Lra Bool.
From Flocq Require Import Core BinarySingleNaN.
From Verif Require Import Ops M_scalar M_vec M_geom M_intersect Inst_F S_vec S_rnd S_hit S_polygon S_winding S_polyf P_ieee P_polyf2 P_polyf3.
Import ListNotations.
Local Open Scope R_scope.

Section IEEE.
Variables prec emax : Z.
Context {Hprec : Prec_gt_0 prec} {Hmax : Prec_lt_emax prec emax}.
Notation fl := (binary_float prec emax).
Notation u := (unit_roundoff prec).

(** The point is accepted exactly if the polygon, seen along the axis, winds around it an odd number of times; the polygon can have any shape, can cross itself and need not lie in a plane. The boundary must be further from the point than the tolerance and the rounding errors.
    Missing: points at exactly the height of a vertex, and edges across this height that are flatter than the tolerance. *)
Theorem C116_winding_partial : (20 <= prec)%Z -> (20 <= emax)%Z -> forall (p : list fl) (vs : list (list fl)) axis M m, (axis < 3)%nat -> vs <> [] -> within M p -> Forall (within M) vs -> 1 <= M -> 32 * (M * M) <= bpow radix2 emax -> / 900 + 100 * (u * M) <= m ->
  let vs' := map (fun v => seen axis (values v)) vs in let p' := seen axis (values p) in
  clear_height_by m axis vs' p' -> clear_boundary_by m axis vs' p' ->
  exists w, winding_number (axis_dir axis) vs' p' w /\ (forall w', winding_number (axis_dir axis) vs' p' w' -> w' = w) /\ polygon_contains_point p axis vs = Ret (Z.odd w).
Proof. exact (polygon_ok prec emax). Qed.
(** With a normal instead of the axis: any normal selects one of the three axes. *)
Theorem C116_winding_normal_partial : (20 <= prec)%Z -> (20 <= emax)%Z -> forall (p n : list fl) (vs : list (list fl)) M m, length n = 3%nat -> vs <> [] -> within M p -> Forall (within M) vs -> 1 <= M -> 32 * (M * M) <= bpow radix2 emax -> / 900 + 100 * (u * M) <= m ->
  exists axis, find_abs_max_component n 0 = Ret axis /\ (axis < 3)%nat /\
  let vs' := map (fun v => seen axis (values v)) vs in let p' := seen axis (values p) in
  (clear_height_by m axis vs' p' -> clear_boundary_by m axis vs' p' ->
  exists w, winding_number (axis_dir axis) vs' p' w /\ (forall w', winding_number (axis_dir axis) vs' p' w' -> w' = w) /\ polygon_contains_point_n p n vs = Ret (Z.odd w)).
Proof. exact (polygon_normal_ok prec emax). Qed.
End IEEE.
(** In double precision, an inner point of a convex polygon at the height of a vertex can be rejected. *)
Theorem C116_level_refuted : exists (vs : list (list double)) p, convex_polygon 1 [0; 0; 1] (map values vs) /\ (forall i, 0 < turn [0; 0; 1] (vertex (map values vs) i) (vertex (map values vs) (S i)) (values p))
  /\ polygon_contains_point p 2 vs = Ret false.
Proof. exact level_refuted. Qed.

(** The hypotheses are met in double precision by the triangle (0, 0, 5), (4, 0, 6), (0, 4, -3) and the points (1, 1, 7) and (3, 2, 5), with the margin 1/100 and the size 8; the first point is accepted and the second is not. *)
Example ex_C116_case : hyps in_d /\ hyps out_d /\ polygon_contains_point in_d 2 tri_d = Ret true /\ polygon_contains_point out_d 2 tri_d = Ret false.
Proof. exact (conj (proj1 tri_hyps) (conj (proj2 tri_hyps) tri_runs)). Qed.
Print Assumptions C116_winding_partial.
Print Assumptions C116_winding_normal_partial.
Print Assumptions C116_level_refuted.
