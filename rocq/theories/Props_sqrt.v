(** Final theorems: square roots at compile time (C70, C75). *)
From Coq Require Import ZArith Reals List Bool Lra Lia.
From Flocq Require Import Core BinarySingleNaN.
From Verif Require Import Ops M_scalar M_vec M_mat M_matext M_geom M_constexpr Inst_F S_sqrt P_sqrtc2 P_constexpr.
Import ListNotations.
Local Open Scope R_scope.

(** C70, C75: every binary format with at least four digits and an exponent range that exceeds the number of digits by four,
    so [float] and [double]. *)
Section IEEE.
Variables prec emax : Z.
Context {Hprec : Prec_gt_0 prec} {Hmax : Prec_lt_emax prec emax}.
Hypothesis Hprec4 : (4 <= prec)%Z.
Hypothesis Hemax4 : (prec + 4 <= emax)%Z.
Notation fl := (binary_float prec emax).

Theorem C70_sqrt_c : forall x : fl, is_finite x = true -> 0 <= B2R x ->
  exists r, ends (fun fuel => sqrt_c fuel x) r /\ is_finite r = true /\ next_to prec emax (sqrt (B2R x)) (B2R r).
Proof.
  intros x Fx X. destruct (sqrt_c_spec prec emax Hprec4 Hemax4 x Fx X) as (r & fuel & H & Fr & N).
  exists r. split; [exists fuel; exact H|]. split; [exact Fr|exact N].
Qed.
Theorem C70_negative : forall fuel (x : fl), is_finite x = true -> B2R x < 0 -> sqrt_c fuel x = Ret o_nan.
Proof. exact (sqrt_c_negative prec emax). Qed.
Theorem C70_special : forall fuel, sqrt_c fuel (B754_nan : fl) = Ret B754_nan
  /\ sqrt_c fuel (B754_infinity false : fl) = Ret (B754_infinity false) /\ sqrt_c fuel (B754_infinity true : fl) = Ret B754_nan.
Proof. exact (sqrt_c_special prec emax). Qed.
Theorem C75_length_c : forall v : list fl,
  root (sum_squares v) (v_length v) /\ exists r, ends (fun fuel => v_length_c fuel v) r /\ root (sum_squares v) r.
Proof. exact (fun v => conj (length_spec prec emax v) (length_c_spec prec emax Hprec4 Hemax4 v)). Qed.
Theorem C75_distance_c : forall v w : list fl,
  root (sum_squares (differences v w)) (v_distance v w)
  /\ exists r, ends (fun fuel => v_distance_c fuel v w) r /\ root (sum_squares (differences v w)) r.
Proof. exact (distance_c_spec prec emax Hprec4 Hemax4). Qed.
Theorem C75_segment_length_c : forall s : segment fl, let d := sum_squares (differences (seg_end s) (seg_start s)) in
  root d (seg_length s) /\ exists r, ends (fun fuel => seg_length_c fuel s) r /\ root d r.
Proof. exact (fun s => distance_c_spec prec emax Hprec4 Hemax4 (seg_end s) (seg_start s)). Qed.
Theorem C75_normalize_c : forall v : list fl,
  unit_of v (v_normalize v) /\ exists u, ends (fun fuel => v_normalize_c fuel v) u /\ unit_of v u.
Proof. exact (fun v => conj (normalize_spec prec emax v) (normalize_c_spec prec emax Hprec4 Hemax4 v)). Qed.
Theorem C75_is_unit_c : forall (v : list fl) eps,
  exists l, root (sum_squares v) l /\ ends (fun fuel => v_is_unit_c fuel v eps) (machine_close l (cst 1) eps).
Proof. exact (is_unit_c_spec prec emax Hprec4 Hemax4). Qed.
Theorem C75_is_parallel_c : forall (v w : list fl) eps, exists a b, unit_of v a /\ unit_of w b
  /\ ends (fun fuel => v_is_parallel_c fuel v w eps) (machine_close (Babs (inner a b)) (cst 1) eps).
Proof. exact (is_parallel_c_spec prec emax Hprec4 Hemax4). Qed.
Theorem C75_is_between_c : forall p s e : list fl, v_is_colinear p s e colinear_epsilon = true ->
  (v_eq p s = true \/ v_eq p e = true -> forall fuel, v_is_between_c fuel p s e = Ret true)
  /\ (v_eq p s = false -> v_eq p e = false -> exists u, unit_of (differences s p) u
      /\ ends (fun fuel => v_is_between_c fuel p s e) (Bltb (inner (differences e p) u) (B754_zero false))).
Proof. exact (is_between_c_spec prec emax Hprec4 Hemax4). Qed.
(** The compile time transformations differ from the others only in the root by which the direction is divided. *)
Theorem C75_line_transform_c : forall S (l : line fl) M, let d := m_mul_p S (strip_translation S M) (ln_dir l) in
  exists l', ends (fun fuel => ln_transform_c fuel S l M) l' /\ ln_point l' = ln_point (ln_transform S l M)
  /\ unit_of d (ln_dir l') /\ unit_of d (ln_dir (ln_transform S l M)).
Proof. exact (ln_transform_c_spec prec emax Hprec4 Hemax4). Qed.
Theorem C75_ray_transform_c : forall S (r : ray fl) M, let d := m_mul_p S (strip_translation S M) (ray_dir r) in
  exists r', ends (fun fuel => ray_transform_c fuel S r M) r' /\ ray_origin r' = ray_origin (ray_transform S r M)
  /\ unit_of d (ray_dir r') /\ unit_of d (ray_dir (ray_transform S r M)).
Proof. exact (ray_transform_c_spec prec emax Hprec4 Hemax4). Qed.
Theorem C75_plane_transform_c : forall S (p : plane fl) M, let d := m_mul_p S (strip_translation S M) (pl_normal p) in
  let a := m_mul_p S M (pl_anchor p) in
  exists p', ends (fun fuel => pl_transform_c fuel S p M) p'
  /\ unit_of d (pl_normal p') /\ pl_dist p' = inner a (pl_normal p')
  /\ unit_of d (pl_normal (pl_transform S p M)) /\ pl_dist (pl_transform S p M) = inner a (pl_normal (pl_transform S p M)).
Proof. exact (pl_transform_c_spec prec emax Hprec4 Hemax4). Qed.
End IEEE.

(** The result need not be the number next to the root that [std::sqrt] returns. *)
Theorem C70_nearest_refuted :
  match sqrt_c 6 (D 2 0) with Ret r => negb (r =? o_sqrt (D 2 0))%sc | _ => false end = true.
Proof. vm_compute. reflexivity. Qed.

Example C70_double : (4 <= 53)%Z /\ (53 + 4 <= 1024)%Z /\ (4 <= 24)%Z /\ (24 + 4 <= 128)%Z.
Proof. lia. Qed.
Example C70_nine : match sqrt_c 8 (D 9 0) with Ret r => (r =? D 3 0)%sc | _ => false end = true.
Proof. vm_compute. reflexivity. Qed.
(** The smallest positive number takes 543 steps, more than the compilers evaluate at compile time by default. *)
Example C70_smallest : match sqrt_c 542 (D 1 (-1074)), sqrt_c 543 (D 1 (-1074)) with Fuel, Ret _ => true | _, _ => false end = true.
Proof. vm_compute. reflexivity. Qed.
Example C75_length : is_finite (v_squared_length [D 3 0; D 4 0]) = true
  /\ match v_length_c 8 [D 3 0; D 4 0] with Ret r => (r =? D 5 0)%sc | _ => false end = true.
Proof. split; vm_compute; reflexivity. Qed.
Example C75_between : v_is_colinear [D 1 0; D 1 0; D 1 0] [D 0 0; D 0 0; D 0 0] [D 3 0; D 3 0; D 3 0] colinear_epsilon = true.
Proof. vm_compute; reflexivity. Qed.
Print Assumptions C70_sqrt_c.
Print Assumptions C70_negative.
Print Assumptions C70_special.
Print Assumptions C75_length_c.
Print Assumptions C75_distance_c.
Print Assumptions C75_segment_length_c.
Print Assumptions C75_normalize_c.
Print Assumptions C75_is_unit_c.
Print Assumptions C75_is_parallel_c.
Print Assumptions C75_is_between_c.
Print Assumptions C75_line_transform_c.
Print Assumptions C75_ray_transform_c.
Print Assumptions C75_plane_transform_c.
Print Assumptions C70_nearest_refuted.
