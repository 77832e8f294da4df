(** Final theorems: the intersection of a ray and a sphere in machine arithmetic (C113). *)
From Coq Require Import ZArith Reals List Lia Lra Bool.
From Flocq Require Import Core BinarySingleNaN.
From Verif Require Import Ops M_scalar M_vec M_geom M_intersect Inst_F S_vec S_rnd S_intersect S_hit S_raybox S_sphere P_ieee P_raybox3 P_sphere2.
Import ListNotations.
Local Open Scope R_scope.

Section IEEE.
Variables prec emax : Z.
Context {Hprec : Prec_gt_0 prec} {Hmax : Prec_lt_emax prec emax}.
Notation fl := (binary_float prec emax).
Notation e := (sphere_error prec).

(** The result is NaN or a distance at which the ray is on the sphere, up to the error. *)
Theorem C113_on_sphere : (20 <= prec)%Z -> (20 <= emax)%Z -> forall M (o d c : list fl) (radius : fl), within M o -> within M c -> nearly_unit d -> is_finite radius = true -> Rabs (B2R radius) <= M -> 1 <= M -> 4096 * (M * M) <= bpow radix2 emax ->
  let r := Ray o d in let s := intersect_ray_sphere r c radius in
  s = o_nan \/ is_finite s = true /\ 0 <= B2R s <= 14 * M /\ Rabs (excess r c radius (B2R s)) <= e M.
Proof. exact (on_sphere prec emax). Qed.
(** If the result is NaN, then the ray is nowhere deeper inside of the sphere than the error. *)
Theorem C113_miss : (20 <= prec)%Z -> (20 <= emax)%Z -> forall M (o d c : list fl) (radius : fl), within M o -> within M c -> nearly_unit d -> is_finite radius = true -> Rabs (B2R radius) <= M -> 1 <= M -> 4096 * (M * M) <= bpow radix2 emax ->
  let r := Ray o d in BinarySingleNaN.is_nan (intersect_ray_sphere r c radius) = true -> forall t, 0 <= t -> - e M <= excess r c radius t.
Proof. exact (miss prec emax). Qed.
(** A ray from outside of the sphere is not inside of it before the distance found, up to the error: it is the first hit. *)
Theorem C113_from_outside : (20 <= prec)%Z -> (20 <= emax)%Z -> forall M (o d c : list fl) (radius : fl), within M o -> within M c -> nearly_unit d -> is_finite radius = true -> Rabs (B2R radius) <= M -> 1 <= M -> 4096 * (M * M) <= bpow radix2 emax ->
  let r := Ray o d in let s := intersect_ray_sphere r c radius in
  e M < excess r c radius 0 -> is_finite s = true -> forall t, 0 <= t <= B2R s -> - e M <= excess r c radius t.
Proof. exact (from_outside prec emax). Qed.
(** A ray from inside of the sphere is found to hit it, and is not outside of it before that. *)
Theorem C113_from_inside : (20 <= prec)%Z -> (20 <= emax)%Z -> forall M (o d c : list fl) (radius : fl), within M o -> within M c -> nearly_unit d -> is_finite radius = true -> Rabs (B2R radius) <= M -> 1 <= M -> 4096 * (M * M) <= bpow radix2 emax ->
  let r := Ray o d in let s := intersect_ray_sphere r c radius in
  excess r c radius 0 < - e M -> is_finite s = true /\ forall t, 0 <= t <= B2R s -> excess r c radius t <= e M.
Proof. exact (from_inside prec emax). Qed.
End IEEE.

(** The hypotheses are met in double precision by the rays from (0, 0, 0) and from (8, 8, 0) towards (1, 1, 0) and the sphere of radius 4 around (8, 8, 0); the ray from (0, 9, 0) misses that sphere. *)
Example ex_C113_sizes : within 16 rb_zero /\ within 16 sp_center /\ nearly_unit rb_diag /\ is_finite sp_radius = true /\ Rabs (B2R sp_radius) <= 16 /\ 1 <= 16 /\ 4096 * (16 * 16) <= bpow radix2 1024.
Proof. exact sp_sizes. Qed.
Example ex_C113_cases : sphere_error 53 16 < excess (Ray rb_zero rb_diag) sp_center sp_radius 0 /\ excess (Ray sp_center rb_diag) sp_center sp_radius 0 < - sphere_error 53 16
  /\ (exists t, 0 <= t /\ excess (Ray rb_zero rb_diag) sp_center sp_radius t < - sphere_error 53 16).
Proof. exact sp_cases. Qed.
Example ex_C113_hit : is_finite (intersect_ray_sphere (Ray rb_zero rb_diag) sp_center sp_radius) = true.
Proof. exact sp_hit. Qed.
Example ex_C113_missed : BinarySingleNaN.is_nan (intersect_ray_sphere (Ray [cst 0 : double; cst 9; cst 0] rb_diag) sp_center sp_radius) = true.
Proof. exact sp_missed. Qed.
Print Assumptions C113_on_sphere.
Print Assumptions C113_miss.
Print Assumptions C113_from_outside.
Print Assumptions C113_from_inside.
