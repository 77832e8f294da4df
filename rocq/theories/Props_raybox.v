(** Final theorems: the intersection of a ray and a box in machine arithmetic (C112). *)
From Coq Require Import ZArith Reals List Lia Lra Bool.
From Flocq Require Import Core BinarySingleNaN.
From Verif Require Import Ops M_scalar M_vec M_geom M_bbox M_intersect Inst_F S_vec S_rnd S_order S_bbox S_boxset S_grid S_intersect S_hit S_tbox S_raybox P_ieee P_fp5 P_raybox2 P_raybox3.
Import ListNotations.
Local Open Scope R_scope.

Section IEEE.
Variables prec emax : Z.
Context {Hprec : Prec_gt_0 prec} {Hmax : Prec_lt_emax prec emax}.
Notation fl := (binary_float prec emax).
Notation u := (unit_roundoff prec).
Notation eta := (underflow_error prec emax).
Notation e := (ray_box_error prec emax).

(** The result is NaN or a distance at which the ray is on the surface of the box, up to the error. *)
Theorem C112_on_surface : (20 <= prec)%Z -> (20 <= emax)%Z -> forall n M (o d lo hi : list fl), (0 < n)%nat -> sized n M o -> is_direction n d -> sized n M lo -> sized n M hi -> box_of n (BB lo hi) -> 16 * M <= bpow radix2 emax ->
  let r := Ray o d in let b := BB lo hi in let s := intersect_ray_bbox n r b in
  s = o_nan \/ is_finite s = true /\ 0 <= B2R s <= 9 * (M + eta) /\ on_surface_upto (e M) (box_values b) (ray_at (ray_values r) (B2R s)).
Proof. exact (sound prec emax). Qed.
(** If the origin is outside of the box, the ray does not meet the box before that distance, up to rounding. *)
Theorem C112_outside_not_before : (20 <= prec)%Z -> (20 <= emax)%Z -> forall n M (o d lo hi : list fl), (0 < n)%nat -> sized n M o -> is_direction n d -> sized n M lo -> sized n M hi -> box_of n (BB lo hi) -> 16 * M <= bpow radix2 emax ->
  let r := Ray o d in let b := BB lo hi in let s := intersect_ray_bbox n r b in
  ~ in_bbox (box_values b) (values o) -> is_finite s = true ->
  forall t, 0 <= t < B2R s * (1 - 3 * u) - 2 * eta -> ~ in_bbox (box_values b) (ray_at (ray_values r) t).
Proof. exact (not_before prec emax). Qed.
(** If the origin is in the box, the ray stays in the box until that distance, up to rounding. *)
Theorem C112_inside_until : (20 <= prec)%Z -> (20 <= emax)%Z -> forall n M (o d lo hi : list fl), (0 < n)%nat -> sized n M o -> is_direction n d -> sized n M lo -> sized n M hi -> box_of n (BB lo hi) -> 16 * M <= bpow radix2 emax ->
  let r := Ray o d in let b := BB lo hi in let s := intersect_ray_bbox n r b in
  in_bbox (box_values b) (values o) -> is_finite s = true ->
  forall t, 0 <= t <= B2R s * (1 - 3 * u) - 2 * eta -> in_bbox (box_values b) (ray_at (ray_values r) t).
Proof. exact (until prec emax). Qed.
(** A ray that enters the box farther than the error from its edges is found to hit it, at that distance. Missing: rays that enter close to an edge. *)
Theorem C112_entry_partial : (20 <= prec)%Z -> (20 <= emax)%Z -> forall n M (o d lo hi : list fl), (0 < n)%nat -> sized n M o -> is_direction n d -> sized n M lo -> sized n M hi -> box_of n (BB lo hi) -> 16 * M <= bpow radix2 emax ->
  let r := Ray o d in let b := BB lo hi in forall i t, enters (e M) (ray_values r) (box_values b) i t ->
  let s := intersect_ray_bbox n r b in is_finite s = true /\ Rabs (B2R s - t) <= 3 * u * t + eta.
Proof. exact (entry prec emax). Qed.
(** The same for a ray that leaves the box. Missing: rays that leave close to an edge, and directions with a zero. *)
Theorem C112_exit_partial : (20 <= prec)%Z -> (20 <= emax)%Z -> forall n M (o d lo hi : list fl), (0 < n)%nat -> sized n M o -> is_direction n d -> sized n M lo -> sized n M hi -> box_of n (BB lo hi) -> 16 * M <= bpow radix2 emax ->
  let r := Ray o d in let b := BB lo hi in forall i t, in_bbox (box_values b) (values o) -> (forall j, (j < n)%nat -> B2R (vget d j) <> 0) -> leaves (e M) (ray_values r) (box_values b) i t ->
  let s := intersect_ray_bbox n r b in is_finite s = true /\ Rabs (B2R s - t) <= 3 * u * t + eta.
Proof. exact (exit prec emax). Qed.
End IEEE.
Theorem C112_unit_directions : forall prec emax (d : list (binary_float prec emax)), (20 <= prec)%Z -> nearly_unit d -> is_direction 3 d.
Proof. exact unit_direction. Qed.
(** In double precision, a ray in a normalized direction that goes through the middle of a box is not found to hit it, since it enters through an edge. *)
Theorem C112_edge_refuted : exists (o d : list double) (b : bbox double) t, sized 3 16 o /\ nearly_unit d /\ box_of 3 b /\ sized 3 16 (bb_min b) /\ sized 3 16 (bb_max b)
  /\ 0 <= t /\ in_bbox_upto (- / 2) (box_values b) (ray_at (ray_values (Ray o d)) t) /\ is_nan (intersect_ray_bbox 3 (Ray o d) b) = true.
Proof. exact edge_refuted. Qed.

(** The hypotheses are met in double precision: the ray from (0, 1, 0) towards (1, 1, 0) enters the box from (4, -8, -8) to (6, 8, 8) at (4, 5, 0), and the ray from (5, 1, 0) towards (1, 1, -1) leaves it at (6, 2, -1). *)
Example ex_C112_sizes : sized 3 16 rb_from /\ is_direction 3 rb_toward /\ sized 3 16 rb_from_in /\ is_direction 3 rb_toward_in /\ sized 3 16 (bb_min rb_box) /\ sized 3 16 (bb_max rb_box) /\ box_of 3 rb_box /\ 16 * 16 <= bpow radix2 1024.
Proof. exact rb_sized. Qed.
Example ex_C112_entry : ~ in_bbox (box_values rb_box) (values rb_from) /\ enters (ray_box_error 53 1024 16) (ray_values (Ray rb_from rb_toward)) (box_values rb_box) 0 4.
Proof. exact (conj (proj2 rb_in) rb_enters). Qed.
Example ex_C112_exit : in_bbox (box_values rb_box) (values rb_from_in) /\ (forall j, (j < 3)%nat -> B2R (vget rb_toward_in j) <> 0) /\ leaves (ray_box_error 53 1024 16) (ray_values (Ray rb_from_in rb_toward_in)) (box_values rb_box) 0 1.
Proof. exact (conj (proj1 rb_in) (conj rb_nonzero rb_leaves)). Qed.
Print Assumptions C112_on_surface.
Print Assumptions C112_outside_not_before.
Print Assumptions C112_inside_until.
Print Assumptions C112_entry_partial.
Print Assumptions C112_exit_partial.
Print Assumptions C112_unit_directions.
Print Assumptions C112_edge_refuted.
