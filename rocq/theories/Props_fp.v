(** Final theorems: rounding errors of vector and plane functions, boxes in machine arithmetic, symmetries (C83 to C87). *)
From Coq Require Import ZArith Reals List Lia Lra Bool.
From Flocq Require Import Core BinarySingleNaN.
From Verif Require Import Ops M_scalar M_vec M_bbox M_geom Inst_F S_order S_boxset S_vec S_rnd P_ieee P_fp P_fp2 P_fp3 P_fp4 P_fp5.
Import ListNotations.
Local Open Scope R_scope.

Section IEEE.
Variables prec emax : Z.
Context {Hprec : Prec_gt_0 prec} {Hmax : Prec_lt_emax prec emax}.
Notation fl := (binary_float prec emax).

(** C83 *)
Theorem C83_dot_error : forall v w : list fl, length v = length w -> all_finite v -> all_finite w ->
  no_overflow prec emax (length v) (size_dot (values v) (values w)) ->
  near (v_dot v w) (rdot (values v) (values w)) (rounding_error prec emax (length v) (size_dot (values v) (values w))).
Proof. exact (dot_ok prec emax). Qed.
Theorem C83_dot_error_simple : forall n size, few prec n -> 0 <= size ->
  rounding_error prec emax n size <= 2 * INR n * unit_roundoff prec * size + 2 * INR n * underflow_error prec emax.
Proof. exact (error_few prec emax). Qed.
Theorem C83_squared_length_error : forall v : list fl, all_finite v -> few prec (length v) -> moderate emax (values v) ->
  near (v_squared_length v) (rdot (values v) (values v)) (11 / 10 * (INR (length v) * unit_roundoff prec) * rdot (values v) (values v)).
Proof. exact (squared_length_ok prec emax). Qed.
Theorem C83_length_error : forall v : list fl, all_finite v -> few prec (length v) -> moderate emax (values v) ->
  near (v_length v) (rnorm (values v)) (INR (length v + 1) * unit_roundoff prec * rnorm (values v)).
Proof. exact (length_ok prec emax). Qed.

(** C84 *)
Theorem C84_normalize_components_partial : forall v : list fl, all_finite v -> few prec (length v) -> moderate emax (values v) ->
  Forall2 (fun x y => near y (B2R x / rnorm (values v))
                        (INR (2 * length v + 2) * unit_roundoff prec * (Rabs (B2R x) / rnorm (values v)) + underflow_error prec emax))
    v (v_normalize v).
Proof. exact (normalize_ok prec emax). Qed.
Theorem C84_normalize_unit_partial : forall v : list fl, all_finite v -> few prec (length v) -> moderate emax (values v) ->
  Rabs (rnorm (values (v_normalize v)) - 1) <= INR (2 * length v + 3) * unit_roundoff prec.
Proof. exact (normalize_norm prec emax). Qed.
Theorem C84_normalize_is_unit_partial : forall (v : list fl) eps, (10 <= emax)%Z -> all_finite v -> few prec (length v) -> moderate emax (values v) ->
  is_finite eps = true -> INR (4 * length v + 5) * unit_roundoff prec <= B2R eps -> v_is_unit (v_normalize v) eps = true.
Proof. exact (normalize_is_unit prec emax). Qed.

(** C85 *)
Theorem C85_plane_distance_error : forall (p : plane fl) (q : list fl), length q = length (pl_normal p) ->
  all_finite q -> all_finite (pl_normal p) -> is_finite (pl_dist p) = true ->
  no_overflow prec emax (length q + 1) (plane_size p q) ->
  near (pl_point_distance p q) (plane_distance p q) (rounding_error prec emax (length q + 1) (plane_size p q)).
Proof. exact (point_distance_ok prec emax). Qed.
Theorem C85_plane_status_reliable : forall (p : plane fl) (q : list fl) (eps : fl), length q = length (pl_normal p) ->
  all_finite q -> all_finite (pl_normal p) -> is_finite (pl_dist p) = true -> is_finite eps = true -> 0 <= B2R eps ->
  no_overflow prec emax (length q + 1) (plane_size p q) ->
  let t := plane_distance p q in let err := rounding_error prec emax (length q + 1) (plane_size p q) in
  (B2R eps + err < t -> pl_point_status p q eps = Above) /\ (t < - (B2R eps + err) -> pl_point_status p q eps = Below)
  /\ (Rabs t <= B2R eps - err -> pl_point_status p q eps = Inside)
  /\ (pl_point_status p q eps = Above -> B2R eps - err < t) /\ (pl_point_status p q eps = Below -> t < - (B2R eps - err))
  /\ (pl_point_status p q eps = Inside -> Rabs t <= B2R eps + err).
Proof. exact (point_status_ok prec emax). Qed.

(** C86 *)
Theorem C86_center_inside_partial : forall n (b : bbox fl), box_of n b -> all_finite (bb_min b) -> all_finite (bb_max b) ->
  Forall2 (fun x y => Rabs (B2R x + B2R y) * (1 + unit_roundoff prec) < bpow radix2 emax) (bb_min b) (bb_max b) ->
  exists c, bb_center b = Ret c /\ all_finite c /\ in_set b c.
Proof. exact (center_ok prec emax). Qed.
Theorem C86_size_nonnegative : forall n (b : bbox fl), box_of n b -> all_finite (bb_min b) -> all_finite (bb_max b) ->
  exists s, bb_size b = Ret s /\ length s = n /\ Forall (fun x => Bleb (B754_zero false) x = true) s.
Proof. exact (size_ok prec emax). Qed.

(** C87 *)
Theorem C87_distance_symmetric : forall v w : list fl, v_distance v w = v_distance w v /\ v_squared_distance v w = v_squared_distance w v.
Proof. exact (distance_sym prec emax). Qed.
Theorem C87_opposite : forall v : list fl, v_length (v_neg v) = v_length v /\ v_squared_length (v_neg v) = v_squared_length v
  /\ v_normalize (v_neg v) = v_neg (v_normalize v).
Proof. exact (opposite_ok prec emax). Qed.
Theorem C87_cross_anticommutes : forall v w : list fl, Forall2 comp_eq (v_cross v w) (v_neg (v_cross w v)).
Proof. exact (cross_opposite prec emax). Qed.
End IEEE.

Theorem C84_normalize_refuted :
  (exists v : list double, all_finite v /\ ~ Forall (fun x => B2R x = 0) v /\ Forall (fun x => is_finite x = false) (v_normalize v))
  /\ exists v : list double, all_finite v /\ ~ Forall (fun x => B2R x = 0) v /\ Forall (fun x => B2R x = 0) (v_normalize v).
Proof. exact normalize_extreme. Qed.
Theorem C86_center_inside_refuted : exists b : bbox double, box_of 1 b /\ all_finite (bb_min b) /\ all_finite (bb_max b)
  /\ exists c, bb_center b = Ret c /\ ~ in_set b c.
Proof. exact center_overflow. Qed.

Example C83_C84_case : all_finite v345 /\ few 53 (length v345) /\ moderate 1024 (values v345) /\ values v345 = [3; 4; 12].
Proof. exact (conj v345_finite (conj (few_double 3 ltac:(lia)) (conj v345_moderate v345_values))). Qed.
Example C83_overflow_case : no_overflow 53 1024 3 (size_dot (values v345) (values v345)).
Proof. exact v345_overflow. Qed.
Example C84_unit_case : v_is_unit (v_normalize v345) almost_zero = true.
Proof. exact v345_unit. Qed.
Example C85_case : let p := Pl (cst 2) (v_normalize v345) : plane double in
  no_overflow 53 1024 (length v345 + 1) (plane_size p v345) /\ pl_point_status p v345 point_status_epsilon = Above.
Proof. exact plane_case. Qed.
Example C86_case : let b := BB [cst (-1); cst 0; cst 2] v345 in box_of 3 b
  /\ Forall2 (fun x y : double => Rabs (B2R x + B2R y) * (1 + unit_roundoff 53) < bpow radix2 1024) (bb_min b) (bb_max b).
Proof. exact box_case. Qed.
Example C87_case : v_eq (v_cross v345 [cst 0; cst 0; cst 1]) [cst 4; cst (-3); cst 0] = true /\ v_eq (v_cross [cst 0; cst 0; cst 1] v345) [cst (-4); cst 3; cst 0] = true.
Proof. exact cross_case. Qed.
Print Assumptions C83_dot_error.
Print Assumptions C83_dot_error_simple.
Print Assumptions C83_squared_length_error.
Print Assumptions C83_length_error.
Print Assumptions C84_normalize_components_partial.
Print Assumptions C84_normalize_unit_partial.
Print Assumptions C84_normalize_is_unit_partial.
Print Assumptions C85_plane_distance_error.
Print Assumptions C85_plane_status_reliable.
Print Assumptions C86_center_inside_partial.
Print Assumptions C86_size_nonnegative.
Print Assumptions C87_distance_symmetric.
Print Assumptions C87_opposite.
Print Assumptions C87_cross_anticommutes.
Print Assumptions C84_normalize_refuted.
Print Assumptions C86_center_inside_refuted.
