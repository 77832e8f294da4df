(** Final theorems: conversions between component types (C96). *)
From Coq Require Import ZArith Reals List Bool Lia Lra.
From Flocq Require Import Core BinarySingleNaN.
From Verif Require Import Ops M_scalar M_vec M_geom M_mat M_quat M_bbox M_polygon M_convert Inst_F Inst_conv Inst_I
  S_order S_rnd S_int S_boxset S_convert P_ord P_seg P_equal P_int P_convert.
Import ListNotations.
Local Open Scope R_scope.

(** C96: from a floating point type to a wider one and back *)
Theorem C96_widen : forall p1 e1 p2 e2 : Z,
  forall (Hp1 : Prec_gt_0 p1) (Hm1 : Prec_lt_emax p1 e1) (Hp2 : Prec_gt_0 p2) (Hm2 : Prec_lt_emax p2 e2), (p1 <= p2)%Z -> (e1 <= e2)%Z ->
  let widen : binary_float p1 e1 -> binary_float p2 e2 := F_conv p2 e2 Hp2 Hm2 in
  (forall n v, length v = n -> Forall2 same_number v (v_convert widen n v))
  /\ (forall v u, v_compare (map widen v) (map widen u) (cst 0) = v_compare v u (cst 0))
  /\ (forall l k, r_compare (map (map widen) l) (map (map widen) k) (cst 0) = r_compare l k (cst 0)).
Proof. exact widen_ok. Qed.
Theorem C96_round_trip : forall p1 e1 p2 e2 : Z,
  forall (Hp1 : Prec_gt_0 p1) (Hm1 : Prec_lt_emax p1 e1) (Hp2 : Prec_gt_0 p2) (Hm2 : Prec_lt_emax p2 e2), (p1 <= p2)%Z -> (e1 <= e2)%Z ->
  let widen : binary_float p1 e1 -> binary_float p2 e2 := F_conv p2 e2 Hp2 Hm2 in
  let narrow : binary_float p2 e2 -> binary_float p1 e1 := F_conv p1 e1 Hp1 Hm1 in
  (forall n v, length v = n -> v_convert narrow n (v_convert widen n v) = v)
  /\ (forall m, m_convert narrow (m_convert widen m) = m)
  /\ (forall q, q_convert narrow (q_convert widen q) = q)
  /\ (forall n l, length (ln_point l) = n -> length (ln_dir l) = n -> ln_convert narrow n (ln_convert widen n l) = l)
  /\ (forall n r, length (ray_origin r) = n -> length (ray_dir r) = n -> ray_convert narrow n (ray_convert widen n r) = r)
  /\ (forall n p, length (pl_normal p) = n -> pl_convert narrow n (pl_convert widen n p) = p)
  /\ (forall s, seg_convert narrow (seg_convert widen s) = s)
  /\ (forall p, pg_convert narrow (pg_convert widen p) = p)
  /\ (forall n b, box_of n b -> exists c, bb_convert widen b = Ret c /\ bb_convert narrow c = Ret b).
Proof. exact round_trips. Qed.
(** C96: every component is converted by itself and keeps its place *)
Theorem C96_parts : forall (T U : Type) (o : ops T) (conv : U -> T),
  (forall n v, length v = n -> v_convert conv n v = map conv v)
  /\ (forall m, m_convert conv m = map (map conv) m)
  /\ (forall q, q_r (q_convert conv q) = conv (q_r q) /\ q_v (q_convert conv q) = map conv (q_v q))
  /\ (forall n l, length (ln_point l) = n -> length (ln_dir l) = n -> ln_point (ln_convert conv n l) = map conv (ln_point l) /\ ln_dir (ln_convert conv n l) = map conv (ln_dir l))
  /\ (forall n r, length (ray_origin r) = n -> length (ray_dir r) = n -> ray_origin (ray_convert conv n r) = map conv (ray_origin r) /\ ray_dir (ray_convert conv n r) = map conv (ray_dir r))
  /\ (forall n p, length (pl_normal p) = n -> pl_dist (pl_convert conv n p) = conv (pl_dist p) /\ pl_normal (pl_convert conv n p) = map conv (pl_normal p))
  /\ (forall s, seg_start (seg_convert conv s) = map conv (seg_start s) /\ seg_end (seg_convert conv s) = map conv (seg_end s))
  /\ (forall p, pg_convert conv p = map (map conv) p)
  /\ (forall b c, bb_convert conv b = Ret c -> bb_min c = map conv (bb_min b) /\ bb_max c = map conv (bb_max b)).
Proof. exact parts. Qed.
(** C96: from a floating point type to any other *)
Theorem C96_narrow : forall p1 e1 p2 e2 : Z,
  forall (Hp1 : Prec_gt_0 p1) (Hm1 : Prec_lt_emax p1 e1) (Hp2 : Prec_gt_0 p2) (Hm2 : Prec_lt_emax p2 e2),
  let conv : binary_float p1 e1 -> binary_float p2 e2 := F_conv p2 e2 Hp2 Hm2 in
  (forall (m : R) v, all_finite v -> Forall (fun x => Rabs x <= m) (values v) -> (1 + unit_roundoff p2) * m + underflow_error p2 e2 < bpow radix2 e2 ->
     Forall2 (fun y x => near y x (unit_roundoff p2 * Rabs x + underflow_error p2 e2)) (map conv v) (values v))
  /\ (forall x y, o_le x y = true -> o_le (conv x) (conv y) = true)
  /\ (forall x, NaN (conv x) <-> NaN x).
Proof. exact narrow_ok. Qed.
(** C96: from integers to floating point numbers *)
Theorem C96_integers_exact : forall (w prec emax : Z) (Hp : Prec_gt_0 prec) (Hm : Prec_lt_emax prec emax),
  (forall (v : list (sint w)) a, (2 <= w <= prec + 1)%Z -> are_sints v a ->
     Forall2 is_float (map (s_to_f prec emax Hp Hm) v) a /\ map (f_to_s w) (map (s_to_f prec emax Hp Hm) v) = v
     /\ forall u b, are_sints u b -> length a = length b ->
        v_compare (map (s_to_f prec emax Hp Hm) v) (map (s_to_f prec emax Hp Hm) u) (cst 0) = v_compare v u (cst 0))
  /\ (forall (v : list (uint w)) a, (1 <= w <= prec)%Z -> are_uints v a ->
     Forall2 is_float (map (u_to_f prec emax Hp Hm) v) a /\ map (f_to_u w) (map (u_to_f prec emax Hp Hm) v) = v
     /\ forall u b, are_uints u b -> length a = length b ->
        v_compare (map (u_to_f prec emax Hp Hm) v) (map (u_to_f prec emax Hp Hm) u) (cst 0) = v_compare v u (cst 0)).
Proof. exact ints_exact. Qed.
Theorem C96_integers_near : forall (w prec emax : Z) (Hp : Prec_gt_0 prec) (Hm : Prec_lt_emax prec emax), (2 <= w < emax)%Z ->
  (forall (v : list (sint w)) a, are_sints v a ->
     Forall2 (fun x z => near x (IZR z) (unit_roundoff prec * Rabs (IZR z))) (map (s_to_f prec emax Hp Hm) v) a)
  /\ (forall (v : list (uint w)) a, are_uints v a ->
     Forall2 (fun x z => near x (IZR z) (unit_roundoff prec * Rabs (IZR z))) (map (u_to_f prec emax Hp Hm) v) a).
Proof. exact ints_near. Qed.
(** C96: from floating point numbers to integers *)
Theorem C96_truncate : forall (w prec emax : Z) (Hp : Prec_gt_0 prec) (Hm : Prec_lt_emax prec emax) (x : binary_float prec emax), (0 <= w)%Z ->
  (is_finite x = true -> s_result (f_to_s w x) (Ztrunc (B2R x))
     /\ ((unsigned w (Ztrunc (B2R x)) /\ is_uint (f_to_u w x) (Ztrunc (B2R x))) \/ (~ unsigned w (Ztrunc (B2R x)) /\ f_to_u w x = U_undef)))
  /\ (is_finite x = false -> f_to_s w x = S_undef /\ f_to_u w x = U_undef).
Proof. exact truncates. Qed.
(** C96: between integers *)
Theorem C96_between_integers : forall (w w' : Z), (1 <= w')%Z ->
  (forall (v : list (sint w)) a, are_sints v a ->
     Forall2 (fun (x : sint w') z => exists r, is_sint x r /\ (r mod 2 ^ w' = z mod 2 ^ w')%Z /\ (signed w' z -> r = z)) (map (s_to_s w') v) a)
  /\ (forall (v : list (uint w)) a, are_uints v a ->
     Forall2 (fun (x : sint w') z => exists r, is_sint x r /\ (r mod 2 ^ w' = z mod 2 ^ w')%Z /\ (signed w' z -> r = z)) (map (u_to_s w') v) a)
  /\ (forall (v : list (sint w)) a, are_sints v a -> Forall2 u_result (map (s_to_u w') v) a)
  /\ (forall (v : list (uint w)) a, are_uints v a -> Forall2 u_result (map (u_to_u w') v) a).
Proof. exact between_ints. Qed.
Example C96_example :
  (24 <= 53)%Z /\ (128 <= 1024)%Z /\ (2 <= 32 <= 53 + 1)%Z /\ (2 <= 64 < 1024)%Z
  /\ are_sints (map (s_fit 32) [2147483647; -5]%Z) [2147483647; -5]%Z
  /\ map (f_to_s 32) (map (s_to_f 53 1024 Hprec53 Hmax53) (map (s_fit 32) [2147483647; -5]%Z)) = map (s_fit 32) [2147483647; -5]%Z
  /\ map (f_to_s 32) (map (s_to_f 24 128 Hprec24 Hmax24) (map (s_fit 32) [2147483647; -5]%Z)) = [S_undef; s_fit 32 (-5)]
  /\ map (s_to_u 64) (map (s_fit 32) [2147483647; -5]%Z) = map (u_fit 64) [2147483647; 18446744073709551611]%Z.
Proof. repeat split; try lia; repeat constructor. Qed.
Print Assumptions C96_widen.
Print Assumptions C96_round_trip.
Print Assumptions C96_parts.
Print Assumptions C96_narrow.
Print Assumptions C96_integers_exact.
Print Assumptions C96_integers_near.
Print Assumptions C96_truncate.
Print Assumptions C96_between_integers.
