(** Model of the functions that are evaluated at compile time: they use [sqrt_c] in place of the square root
    of the C library. The fuel is that of [sqrt_c]. *)
From Coq Require Import ZArith List Bool.
From Verif Require Import Ops M_scalar M_vec M_mat M_matext M_geom.
Import ListNotations.

Section C.
Context {T : Type} {o : ops T}.
Local Open Scope sc_scope.

(** vec.h:1147-1149 [length_c] *)
Definition v_length_c (fuel : nat) (v : list T) : outcome T := sqrt_c fuel (v_squared_length v).
(** vec.h:1171-1173 [normalize_c] *)
Definition v_normalize_c (fuel : nat) (v : list T) : outcome (list T) :=
  do l <- v_length_c fuel v; Ret (v_div_s v l).
(** vec.h:1244-1246 [is_unit_c] *)
Definition v_is_unit_c (fuel : nat) (v : list T) (epsilon : T) : outcome bool :=
  do l <- v_length_c fuel v; Ret (sc_is_equal l (cst 1) epsilon).
(** vec.h:1382-1385 [distance_c] *)
Definition v_distance_c (fuel : nat) (lhs rhs : list T) : outcome T := v_length_c fuel (v_sub lhs rhs).
(** vec.h:1493-1498 [is_parallel_c] *)
Definition v_is_parallel_c (fuel : nat) (lhs rhs : list T) (epsilon : T) : outcome bool :=
  do l <- v_normalize_c fuel lhs;
  do r <- v_normalize_c fuel rhs;
  Ret (sc_is_equal (sc_abs (v_dot l r)) (cst 1) epsilon).
(** vec.h:1690-1703 [is_between_c] *)
Definition v_is_between_c (fuel : nat) (p start fin : list T) : outcome bool :=
  require (v_is_colinear p start fin colinear_epsilon)
    (if v_eq p start || v_eq p fin then Ret true
     else
       do n <- v_normalize_c fuel (v_sub start p);
       Ret (v_dot (v_sub fin p) n <? cst 0)).
(** segment.h:105 [segment::length_c] *)
Definition seg_length_c (fuel : nat) (s : segment T) : outcome T := v_length_c fuel (v_sub (seg_end s) (seg_start s)).
(** line.h:105-107 [line::transform_c]; S is the dimension plus one *)
Definition ln_transform_c (fuel S : nat) (l : line T) (transform : list (list T)) : outcome (line T) :=
  do d <- v_normalize_c fuel (m_mul_p S (strip_translation S transform) (ln_dir l));
  Ret (Ln (m_mul_p S transform (ln_point l)) d).
(** ray.h:115-119 [ray::transform_c] *)
Definition ray_transform_c (fuel S : nat) (r : ray T) (transform : list (list T)) : outcome (ray T) :=
  let newOrigin := m_mul_p S transform (ray_origin r) in
  do newDirection <- v_normalize_c fuel (m_mul_p S (strip_translation S transform) (ray_dir r));
  Ret (Ray newOrigin newDirection).
(** plane.h:192-194 [plane::transform_c] *)
Definition pl_transform_c (fuel S : nat) (p : plane T) (transform : list (list T)) : outcome (plane T) :=
  do n <- v_normalize_c fuel (m_mul_p S (strip_translation S transform) (pl_normal p));
  Ret (pl_make (m_mul_p S transform (pl_anchor p)) n).
End C.
