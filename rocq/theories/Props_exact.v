(** Final theorems: transformations and interpolation in machine arithmetic (C88 to C91). *)
From Coq Require Import ZArith Reals List Lia Lra Bool.
From Flocq Require Import Core BinarySingleNaN.
From Verif Require Import Ops M_scalar M_vec M_mat M_bbox M_matext M_geom Inst_F S_order S_vec S_mat S_rnd P_fp P_fp5 P_fp6 P_fp7 P_fp8.
Import ListNotations.
Local Open Scope R_scope.

Section IEEE.
Variables prec emax : Z.
Context {Hprec : Prec_gt_0 prec} {Hmax : Prec_lt_emax prec emax}.
Notation fl := (binary_float prec emax).

(** C88 *)
Theorem C88_identity : (forall n (v : list fl), length v = n -> all_finite v -> vec_eq (m_mul_v n (m_identity n n) v) v)
  /\ forall n k (m : list (list fl)), is_mat n k m -> finite_mat m ->
     Forall2 vec_eq (m_mul n n k (m_identity n n) m) m /\ Forall2 vec_eq (m_mul n k k m (m_identity k k)) m.
Proof. exact (conj (id_vec prec emax) (id_mat prec emax)). Qed.
Theorem C88_translation : forall d p : list fl, length p = length d -> all_finite p -> all_finite d ->
  vec_eq (m_mul_p (S (length d)) (translation_matrix d) p) (v_add p d).
Proof. exact (translation_point prec emax). Qed.
Theorem C88_scaling : forall f p : list fl, length p = length f -> all_finite p -> all_finite f ->
  vec_eq (m_mul_p (S (length f)) (scaling_matrix f) p) (v_mul f p).
Proof. exact (scaling_point prec emax). Qed.
Theorem C88_quarter_turns : forall x y z : fl, all_finite [x; y; z] ->
  vec_eq (m_mul_p 4 rot_90_x_cw [x; y; z]) [x; z; o_neg y] /\ vec_eq (m_mul_p 4 rot_90_x_ccw [x; y; z]) [x; o_neg z; y]
  /\ vec_eq (m_mul_p 4 rot_90_y_cw [x; y; z]) [o_neg z; y; x] /\ vec_eq (m_mul_p 4 rot_90_y_ccw [x; y; z]) [z; y; o_neg x]
  /\ vec_eq (m_mul_p 4 rot_90_z_cw [x; y; z]) [y; o_neg x; z] /\ vec_eq (m_mul_p 4 rot_90_z_ccw [x; y; z]) [o_neg y; x; z]
  /\ vec_eq (m_mul_p 4 rot_180_x [x; y; z]) [x; o_neg y; o_neg z] /\ vec_eq (m_mul_p 4 rot_180_y [x; y; z]) [o_neg x; y; o_neg z]
  /\ vec_eq (m_mul_p 4 rot_180_z [x; y; z]) [o_neg x; o_neg y; z].
Proof.
  exact (fun x y z F => conj (turn_x_cw prec emax x y z F) (conj (turn_x_ccw prec emax x y z F) (conj (turn_y_cw prec emax x y z F)
    (conj (turn_y_ccw prec emax x y z F) (conj (turn_z_cw prec emax x y z F) (conj (turn_z_ccw prec emax x y z F)
    (conj (half_x prec emax x y z F) (conj (half_y prec emax x y z F) (half_z prec emax x y z F))))))))).
Qed.
Theorem C88_mirrors : forall x y z : fl, all_finite [x; y; z] ->
  vec_eq (m_mul_p 4 (mirror_matrix 0) [x; y; z]) [o_neg x; y; z] /\ vec_eq (m_mul_p 4 (mirror_matrix 1) [x; y; z]) [x; o_neg y; z]
  /\ vec_eq (m_mul_p 4 (mirror_matrix 2) [x; y; z]) [x; y; o_neg z].
Proof. exact (fun x y z F => conj (flip_x prec emax x y z F) (conj (flip_y prec emax x y z F) (flip_z prec emax x y z F))). Qed.
Theorem C88_transpose : (forall n (a b : list (list fl)), is_mat n n a -> is_mat n n b ->
    m_transpose n (m_mul n n n a b) = m_mul n n n (m_transpose n b) (m_transpose n a))
  /\ forall n (m : list (list fl)) v, is_mat n n m -> length v = n -> v_mul_m n n v m = Ret (m_mul_v n (m_transpose n m) v).
Proof. exact (conj (transpose_mul prec emax) (row_vector prec emax)). Qed.

(** C89 *)
Theorem C89_matrix_vector_error : forall n (m : list (list fl)) v r, length m = n -> length v = n -> (r < n)%nat -> finite_mat m -> all_finite v ->
  let size := size_dot (values (row m r)) (values v) in no_overflow prec emax n size ->
  near (vget (m_mul_v n m v) r) (rdot (values (row m r)) (values v)) (rounding_error prec emax n size).
Proof. exact (mat_vec_ok prec emax). Qed.
Theorem C89_matrix_matrix_error : forall n k l (a b : list (list fl)) r c, is_mat n k a -> is_mat k l b -> (r < n)%nat -> (c < l)%nat ->
  finite_mat a -> finite_mat b ->
  let size := size_dot (values (row a r)) (values (nth c b [])) in no_overflow prec emax k size ->
  near (vget (nth c (m_mul n k l a b) []) r) (rdot (values (row a r)) (values (nth c b []))) (rounding_error prec emax k size).
Proof. exact (mat_mat_ok prec emax). Qed.
Theorem C89_affine_point_error : forall n (m : list (list fl)) p r, length m = S n -> length p = n -> (r < n)%nat -> finite_mat m -> all_finite p ->
  values (row m n) = repeat 0 n ++ [1] ->
  let size := size_dot (values (row m r)) (values p ++ [1]) in no_overflow prec emax (S n) size ->
  near (vget (m_mul_p (S n) m p) r) (rdot (values (row m r)) (values p ++ [1])) (rounding_error prec emax (S n) size).
Proof. exact (affine_ok prec emax). Qed.

(** C90 *)
Theorem C90_cross_error : forall (v w : list fl) i, length v = 3%nat -> length w = 3%nat -> (i < 3)%nat -> all_finite v -> all_finite w ->
  let size := nth i (cross_sizes (values v) (values w)) 0 in no_overflow prec emax 2 size ->
  near (vget (v_cross v w) i) (nth i (rcross (values v) (values w)) 0) (rounding_error prec emax 2 size).
Proof. exact (cross_ok prec emax). Qed.
Theorem C90_distance_error : forall a b : list fl, length a = length b -> all_finite a -> all_finite b -> few prec (length a) ->
  let d := rnorm (rsub (values a) (values b)) in bpow radix2 (5 - emax / 2) <= d <= bpow radix2 (emax / 2 - 2) ->
  near (v_distance a b) d (INR (length a + 3) * unit_roundoff prec * d).
Proof. exact (distance_ok prec emax). Qed.
Theorem C90_point_at_distance_error : forall (a d : list fl) t i, length a = length d -> (i < length a)%nat ->
  all_finite a -> all_finite d -> is_finite t = true ->
  let A := B2R (vget a i) in let D := B2R (vget d i) in let size := Rabs A + Rabs D * Rabs (B2R t) in no_overflow prec emax 2 size ->
  near (vget (al_point_at_distance a d t) i) (A + D * B2R t) (rounding_error prec emax 2 size).
Proof. exact (point_at_ok prec emax). Qed.

(** C91 *)
Theorem C91_mix_endpoints : forall x y : fl, is_finite x = true -> is_finite y = true ->
  comp_eq (sc_mix x y (cst 0)) x /\ comp_eq (sc_mix x y (cst 1)) y.
Proof. exact (fun x y Fx Fy => conj (mix_start prec emax x y Fx Fy) (mix_end prec emax x y Fx Fy)). Qed.
Theorem C91_mix_error_partial : forall x y a : fl, is_finite x = true -> is_finite y = true -> is_finite a = true -> 0 <= B2R a <= 1 ->
  let size := (1 - B2R a) * Rabs (B2R x) + B2R a * Rabs (B2R y) in no_overflow prec emax 3 size ->
  near (sc_mix x y a) ((1 - B2R a) * B2R x + B2R a * B2R y) (rounding_error prec emax 3 size).
Proof. exact (mix_ok prec emax). Qed.
End IEEE.
Theorem C91_mix_between_refuted : exists x a : double, is_finite x = true /\ is_finite a = true /\ 0 <= B2R a <= 1 /\ Bltb x (sc_mix x x a) = true.
Proof. exact mix_overshoot. Qed.

Example C88_case : all_finite v345 /\ v_eq (m_mul_p 4 (translation_matrix v345) v345) [cst 6; cst 8; cst 24] = true
  /\ v_eq (m_mul_p 4 rot_90_x_cw v345) [cst 3; cst 12; cst (-4)] = true /\ finite_mat m345 /\ is_mat 4 4 m345.
Proof. exact exact_case. Qed.
Example C89_case : is_mat 4 4 m345 /\ finite_mat m345 /\ values (row m345 3) = repeat 0 3 ++ [1]
  /\ no_overflow 53 1024 4 (size_dot (values (row m345 2)) (values v345 ++ [1]))
  /\ v_eq (m_mul_p 4 m345 v345) [cst 23; cst 30; cst 18] = true.
Proof. exact m345_case. Qed.
Example C90_case : (forall i, (i < 3)%nat -> no_overflow 53 1024 2 (nth i (cross_sizes (values v345) (values v345)) 0))
  /\ let w := [cst 0; cst 0; cst 0] : list double in all_finite w /\ few 53 (length v345)
  /\ bpow radix2 (5 - 1024 / 2) <= rnorm (rsub (values v345) (values w)) <= bpow radix2 (1024 / 2 - 2).
Proof. exact (conj cross_size_case distance_case). Qed.
Example C91_case : no_overflow 53 1024 3 ((1 - / 4) * Rabs 3 + / 4 * Rabs 12) /\ Beqb (sc_mix (cst 3) (cst 12) (lit 1 4)) (lit 21 4 : double) = true.
Proof. exact mix_case. Qed.
Print Assumptions C88_identity.
Print Assumptions C88_translation.
Print Assumptions C88_scaling.
Print Assumptions C88_quarter_turns.
Print Assumptions C88_mirrors.
Print Assumptions C88_transpose.
Print Assumptions C89_matrix_vector_error.
Print Assumptions C89_matrix_matrix_error.
Print Assumptions C89_affine_point_error.
Print Assumptions C90_cross_error.
Print Assumptions C90_distance_error.
Print Assumptions C90_point_at_distance_error.
Print Assumptions C91_mix_endpoints.
Print Assumptions C91_mix_error_partial.
Print Assumptions C91_mix_between_refuted.
