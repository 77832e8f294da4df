(** Final theorems: rays, lines and planes transformed by machine matrices (C125). *)
From Coq Require Import ZArith Reals List Lia Lra Bool.
From Flocq Require Import Core BinarySingleNaN.
From Verif Require Import Ops M_scalar M_vec M_mat M_matext M_geom Inst_F S_vec S_mat S_affine S_rigid S_rnd S_hit S_lu S_tbox P_ieee P_fp5 P_fp8 P_trf.
Import ListNotations.
Local Open Scope R_scope.

Section IEEE.
Variables prec emax : Z.
Context {Hprec : Prec_gt_0 prec} {Hmax : Prec_lt_emax prec emax}.
Notation fl := (binary_float prec emax).
Notation u := (unit_roundoff prec).
Notation eta := (underflow_error prec emax).
Notation Om := (bpow radix2 emax).

(** A transformed ray: the origin, the direction, and every point. N is the factor by which the matrix stretches the direction, so the point at parameter t goes to the point at parameter t N. *)
Theorem C125_ray : (20 <= prec)%Z -> (20 <= emax)%Z -> forall (r : ray fl) m M D K T, within M (ray_origin r) -> within D (ray_dir r) -> affine_up_to K T m ->
  2 * (K * M + T + 1) <= Om -> 2 * (K * D + 1) <= Om ->
  let A := mvalues m in let W := moved 3 A (values (ray_dir r)) in let N := rnorm W in let E := image_error prec emax K D 0 in let e := image_error prec emax K M T in
  8 * E <= N -> bpow radix2 (5 - emax / 2) <= N <= bpow radix2 (emax / 2 - 2) -> let s := ray_transform 4 r m in
  Forall2 (fun x y => near x y e) (ray_origin s) (raffine 3 A (values (ray_origin r)))
  /\ nearly_unit (ray_dir s) /\ Forall2 (fun x y => Rabs (B2R x - y / N) <= 9 * u + 4 * E / N) (ray_dir s) W
  /\ forall t, Forall2 (fun x y => Rabs (x - y) <= e + Rabs t * N * (9 * u + 4 * E / N))
       (rpoint (values (ray_origin s)) (values (ray_dir s)) (t * N)) (raffine 3 A (rpoint (values (ray_origin r)) (values (ray_dir r)) t)).
Proof. exact (ray_ok prec emax). Qed.
(** A transformed line *)
Theorem C125_line : (20 <= prec)%Z -> (20 <= emax)%Z -> forall (l : M_geom.line fl) m M D K T, within M (ln_point l) -> within D (ln_dir l) -> affine_up_to K T m ->
  2 * (K * M + T + 1) <= Om -> 2 * (K * D + 1) <= Om ->
  let A := mvalues m in let W := moved 3 A (values (ln_dir l)) in let N := rnorm W in let E := image_error prec emax K D 0 in let e := image_error prec emax K M T in
  8 * E <= N -> bpow radix2 (5 - emax / 2) <= N <= bpow radix2 (emax / 2 - 2) -> let s := ln_transform 4 l m in
  Forall2 (fun x y => near x y e) (ln_point s) (raffine 3 A (values (ln_point l)))
  /\ nearly_unit (ln_dir s) /\ Forall2 (fun x y => Rabs (B2R x - y / N) <= 9 * u + 4 * E / N) (ln_dir s) W
  /\ forall t, Forall2 (fun x y => Rabs (x - y) <= e + Rabs t * N * (9 * u + 4 * E / N))
       (rpoint (values (ln_point s)) (values (ln_dir s)) (t * N)) (raffine 3 A (rpoint (values (ln_point l)) (values (ln_dir l)) t)).
Proof. exact (line_ok prec emax). Qed.
(** A transformed plane: its normal has the direction of the image of the normal, and it contains the image of the foot of the perpendicular from the coordinate origin. *)
Theorem C125_plane : (20 <= prec)%Z -> (20 <= emax)%Z -> forall (m : list (list fl)) (p : plane fl) M K T, nearly_unit (pl_normal p) -> is_finite (pl_dist p) = true -> Rabs (B2R (pl_dist p)) <= M -> 1 <= M -> 4 * M <= Om -> affine_up_to K T m ->
  let B := K * M + T in 8 * (B + 1) <= Om -> 3 * (K + 1) <= Om ->
  let A := mvalues m in let W := moved 3 A (values (pl_normal p)) in let N := rnorm W in let E := image_error prec emax K (1001 / 1000) 0 in let G := 9 * u + 4 * E / N in
  8 * E <= N -> bpow radix2 (5 - emax / 2) <= N <= bpow radix2 (emax / 2 - 2) -> let p' := pl_transform 4 p m in
  nearly_unit (pl_normal p') /\ Forall2 (fun x y => Rabs (B2R x - y / N) <= G) (pl_normal p') W
  /\ near (pl_dist p') (rdot (raffine 3 A (rscale (B2R (pl_dist p)) (values (pl_normal p)))) (rscale (/ N) W)) (4 * B * G + 90 * (u * B + eta)).
Proof. exact (plane_ok_F prec emax). Qed.
End IEEE.

(** A ray, a plane and a matrix that meet the hypotheses *)
Example ex_C125_case : within 12 (ray_origin trf_ray) /\ within 1 (ray_dir trf_ray) /\ affine_up_to 4 7 m345 /\ 2 * (4 * 12 + 7 + 1) <= bpow radix2 1024 /\ 2 * (4 * 1 + 1) <= bpow radix2 1024
  /\ moved 3 (mvalues m345) (values (ray_dir trf_ray)) = [2; 0; 1] /\ 8 * image_error 53 1024 4 (1001 / 1000) 0 <= rnorm [2; 0; 1]
  /\ bpow radix2 (5 - 1024 / 2) <= rnorm [2; 0; 1] <= bpow radix2 (1024 / 2 - 2)
  /\ nearly_unit (pl_normal trf_plane) /\ is_finite (pl_dist trf_plane) = true /\ Rabs (B2R (pl_dist trf_plane)) <= 2 /\ 8 * (4 * 2 + 7 + 1) <= bpow radix2 1024.
Proof. exact case_trf. Qed.
Print Assumptions C125_ray.
Print Assumptions C125_line.
Print Assumptions C125_plane.
