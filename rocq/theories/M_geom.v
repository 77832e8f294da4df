(** Model of abstract_line.h, line.h, ray.h, segment.h and plane.h. *)
From Coq Require Import ZArith List Bool Arith.
From Verif Require Import Ops M_scalar M_vec M_mat M_quat M_bbox M_matext.
Import ListNotations.
Local Open Scope sc_scope.

(** segment.h:44-45 *)
Record segment (T : Type) := Seg { seg_start : list T; seg_end : list T }.
Arguments Seg {T} _ _.
Arguments seg_start {T} _.
Arguments seg_end {T} _.
(** line.h:40-41 *)
Record line (T : Type) := Ln { ln_point : list T; ln_dir : list T }.
Arguments Ln {T} _ _.
Arguments ln_point {T} _.
Arguments ln_dir {T} _.
(** ray.h:43-44 *)
Record ray (T : Type) := Ray { ray_origin : list T; ray_dir : list T }.
Arguments Ray {T} _ _.
Arguments ray_origin {T} _.
Arguments ray_dir {T} _.
(** plane.h:41-42 *)
Record plane (T : Type) := Pl { pl_dist : T; pl_normal : list T }.
Arguments Pl {T} _ _.
Arguments pl_dist {T} _.
Arguments pl_normal {T} _.
(** util.h [plane_status] *)
Inductive plane_status := Above | Below | Inside.

Section Geom.
Context {T : Type} {o : ops T}.

(** abstract_line.h:55-85. An abstract line is given by what get_origin and get_direction return:
    line.h:79-84, ray.h:86-91, segment.h:86-91. *)
Definition al_distance_to_projected_point (origin dir point : list T) : T := v_dot (v_sub point origin) dir.
Definition al_point_at_distance (origin dir : list T) (distance : T) : list T := v_add origin (v_scale dir distance).
Definition al_project_point (origin dir point : list T) : list T :=
  al_point_at_distance origin dir (al_distance_to_projected_point origin dir point).

(** ** segment.h *)
(** segment.h:67-69 *)
Definition seg_make (p1 p2 : list T) : segment T :=
  Seg (if v_lt p1 p2 then p1 else p2) (if v_lt p1 p2 then p2 else p1).
(** segment.h:78-81; [conv] is the conversion of a component from U to T *)
Definition seg_convert {U} (conv : U -> T) (other : segment U) : segment T :=
  Seg (map conv (seg_start other)) (map conv (seg_end other)).
(** segment.h:98, 112, 170, 178 *)
Definition seg_length (s : segment T) : T := v_length (v_sub (seg_end s) (seg_start s)).
Definition seg_squared_length (s : segment T) : T := v_squared_length (v_sub (seg_end s) (seg_start s)).
Definition seg_center (s : segment T) : list T := v_div_s (v_add (seg_start s) (seg_end s)) (cst 2).
Definition seg_direction (s : segment T) : list T := v_normalize (v_sub (seg_end s) (seg_start s)).
(** segment.h:121-129 [contains] *)
Definition seg_contains (s : segment T) (point : list T) (maxDistance : T) : bool :=
  let f := al_distance_to_projected_point (seg_start s) (seg_direction s) point in
  if (f <? - maxDistance) || (f * f >? seg_squared_length s + maxDistance * maxDistance) then false
  else
    let proj := al_point_at_distance (seg_start s) (seg_direction s) f in
    v_squared_distance proj point <=? maxDistance * maxDistance.
(** segment.h:137-139 [transform]; S is the dimension plus one *)
Definition seg_transform (S : nat) (s : segment T) (transform : list (list T)) : segment T :=
  seg_make (m_mul_p S transform (seg_start s)) (m_mul_p S transform (seg_end s)).
(** segment.h:147-149, 339-342 [translate] *)
Definition seg_translate (s : segment T) (delta : list T) : segment T :=
  seg_make (v_add (seg_start s) delta) (v_add (seg_end s) delta).
(** segment.h:190-199 [get_vertices]: what is written to the output, in order *)
Fixpoint seg_get_vertices (l : list (segment T)) : list (list T) :=
  match l with
  | [] => []
  | s :: l' => seg_start s :: seg_end s :: seg_get_vertices l'
  end.
(** segment.h:218-229 [compare] *)
Definition seg_compare (lhs rhs : segment T) (epsilon : T) : Z :=
  let startCmp := v_compare (seg_start lhs) (seg_start rhs) epsilon in
  if (startCmp <? 0)%Z then (-1)%Z else if (startCmp >? 0)%Z then 1%Z
  else v_compare (seg_end lhs) (seg_end rhs) epsilon.
(** segment.h:241-328 *)
Definition seg_is_equal (lhs rhs : segment T) (epsilon : T) : bool := (seg_compare lhs rhs epsilon =? 0)%Z.
Definition seg_eq (lhs rhs : segment T) : bool := (seg_compare lhs rhs (cst 0) =? 0)%Z.
Definition seg_ne (lhs rhs : segment T) : bool := negb (seg_compare lhs rhs (cst 0) =? 0)%Z.
Definition seg_lt (lhs rhs : segment T) : bool := (seg_compare lhs rhs (cst 0) <? 0)%Z.
Definition seg_le (lhs rhs : segment T) : bool := (seg_compare lhs rhs (cst 0) <=? 0)%Z.
Definition seg_gt (lhs rhs : segment T) : bool := (seg_compare lhs rhs (cst 0) >? 0)%Z.
Definition seg_ge (lhs rhs : segment T) : bool := (seg_compare lhs rhs (cst 0) >=? 0)%Z.

(** ** line.h *)
(** line.h:93-95 [transform] *)
Definition ln_transform (S : nat) (l : line T) (transform : list (list T)) : line T :=
  Ln (m_mul_p S transform (ln_point l)) (v_normalize (m_mul_p S (strip_translation S transform) (ln_dir l))).
(** line.h:124-131: whether the direction is to be negated *)
Fixpoint ln_flips (dir : list T) : bool :=
  match dir with
  | [] => false
  | x :: dir' => if x <>? cst 0 then x <? cst 0 else ln_flips dir'
  end.
(** line.h:116-134 [make_canonical] *)
Definition ln_canonical (l : line T) : line T :=
  let distance := v_dot (ln_point l) (ln_dir l) in
  let newPoint := v_sub (ln_point l) (v_scale_l distance (ln_dir l)) in
  Ln newPoint (if ln_flips (ln_dir l) then v_neg (ln_dir l) else ln_dir l).
(** line.h:147-182 *)
Definition ln_is_equal (lhs rhs : line T) (epsilon : T) : bool :=
  v_is_equal (ln_point lhs) (ln_point rhs) epsilon && v_is_equal (ln_dir lhs) (ln_dir rhs) epsilon.
Definition ln_eq (lhs rhs : line T) : bool :=
  let lhsC := ln_canonical lhs in let rhsC := ln_canonical rhs in
  v_eq (ln_point lhsC) (ln_point rhsC) && v_eq (ln_dir lhsC) (ln_dir rhsC).
Definition ln_ne (lhs rhs : line T) : bool :=
  let lhsC := ln_canonical lhs in let rhsC := ln_canonical rhs in
  v_ne (ln_point lhsC) (ln_point rhsC) || v_ne (ln_dir lhsC) (ln_dir rhsC).

(** ** ray.h *)
(** ray.h:101-105 [transform] *)
Definition ray_transform (S : nat) (r : ray T) (transform : list (list T)) : ray T :=
  let newOrigin := m_mul_p S transform (ray_origin r) in
  let newDirection := v_normalize (m_mul_p S (strip_translation S transform) (ray_dir r)) in
  Ray newOrigin newDirection.
(** ray.h:135-144 [point_status] *)
Definition ray_point_status (r : ray T) (point : list T) : plane_status :=
  let scale := v_dot (ray_dir r) (v_sub point (ray_origin r)) in
  if scale >? point_status_epsilon then Above
  else if scale <? - point_status_epsilon then Below
  else Inside.
(** ray.h:157-189 *)
Definition ray_is_equal (lhs rhs : ray T) (epsilon : T) : bool :=
  v_is_equal (ray_origin lhs) (ray_origin rhs) epsilon && v_is_equal (ray_dir lhs) (ray_dir rhs) epsilon.
Definition ray_eq (lhs rhs : ray T) : bool :=
  v_eq (ray_origin lhs) (ray_origin rhs) && v_eq (ray_dir lhs) (ray_dir rhs).
Definition ray_ne (lhs rhs : ray T) : bool :=
  v_ne (ray_origin lhs) (ray_origin rhs) || v_ne (ray_dir lhs) (ray_dir rhs).

(** ** plane.h *)
(** plane.h:47-49 *)
Definition pl_default (S : nat) : plane T := Pl (cst 0) (v_zero S).
(** plane.h:86-88 construction from a point and a normal *)
Definition pl_make (anchor normal : list T) : plane T := Pl (v_dot anchor normal) normal.
(** plane.h:96 [anchor] *)
Definition pl_anchor (p : plane T) : list T := v_scale (pl_normal p) (pl_dist p).
(** plane.h:117-123: the loop over the axes; i is the current one, the point has no component for
    the given axis *)
Fixpoint pl_at_loop (axis i : nat) (normal point : list T) (t : T) : T :=
  match normal with
  | [] => t
  | n :: normal' =>
    if negb (i =? axis)%nat then pl_at_loop axis (S i) normal' (tl point) (t + n * hd (cst 0) point)
    else pl_at_loop axis (S i) normal' point t
  end.
(** plane.h:112-131 [at], [xAt], [yAt], [zAt] *)
Definition pl_at (p : plane T) (point : list T) (axis : nat) : T :=
  if vget (pl_normal p) axis =? cst 0 then cst 0
  else (pl_dist p - pl_at_loop axis 0 (pl_normal p) point (cst 0)) / vget (pl_normal p) axis.
(** plane.h:140 [point_distance] *)
Definition pl_point_distance (p : plane T) (point : list T) : T := v_dot point (pl_normal p) - pl_dist p.
(** plane.h:151-161 [point_status] *)
Definition pl_point_status (p : plane T) (point : list T) (epsilon : T) : plane_status :=
  let dist := pl_point_distance p point in
  if dist >? epsilon then Above else if dist <? - epsilon then Below else Inside.
(** plane.h:168-172 [flip] *)
Definition pl_flip (p : plane T) : plane T := Pl (- pl_dist p) (v_neg (pl_normal p)).
(** plane.h:181-183 [transform] *)
Definition pl_transform (S : nat) (p : plane T) (transform : list (list T)) : plane T :=
  pl_make (m_mul_p S transform (pl_anchor p)) (v_normalize (m_mul_p S (strip_translation S transform) (pl_normal p))).
(** plane.h:202-204 [project_point] along the normal *)
Definition pl_project_point (p : plane T) (point : list T) : list T :=
  v_add (v_sub point (v_scale_l (v_dot point (pl_normal p)) (pl_normal p))) (v_scale_l (pl_dist p) (pl_normal p)).
(** plane.h:213-220 [project_point] along a direction *)
Definition pl_project_point_dir (p : plane T) (point direction : list T) : list T :=
  let cos := v_dot direction (pl_normal p) in
  if sc_is_zero cos almost_zero then v_nan (length point)
  else
    let d := v_dot (v_sub (v_scale_l (pl_dist p) (pl_normal p)) point) (pl_normal p) / cos in
    v_add point (v_scale direction d).
(** plane.h:229-231, 241-243 [project_vector] *)
Definition pl_project_vector (p : plane T) (vector : list T) : list T :=
  v_sub (pl_project_point p (v_add (pl_anchor p) vector)) (pl_anchor p).
Definition pl_project_vector_dir (p : plane T) (vector direction : list T) : list T :=
  v_sub (pl_project_point_dir p (v_add (pl_anchor p) vector) direction) (pl_anchor p).
(** plane.h:256-287 *)
Definition pl_is_equal (lhs rhs : plane T) (epsilon : T) : bool :=
  sc_is_equal (pl_dist lhs) (pl_dist rhs) epsilon && v_is_equal (pl_normal lhs) (pl_normal rhs) epsilon.
Definition pl_eq (lhs rhs : plane T) : bool := (pl_dist lhs =? pl_dist rhs) && v_eq (pl_normal lhs) (pl_normal rhs).
Definition pl_ne (lhs rhs : plane T) : bool := (pl_dist lhs <>? pl_dist rhs) || v_ne (pl_normal lhs) (pl_normal rhs).
(** plane.h:315-332 [plane_normal] *)
Definition plane_normal (p1 p2 p3 : list T) (epsilon : T) : bool * list T :=
  let v1 := v_sub p3 p1 in
  let v2 := v_sub p2 p1 in
  let normal := v_cross v1 v2 in
  let sin_theta := sc_abs (v_length normal / (v_length v1 * v_length v2)) in
  if is_nan sin_theta || is_inf sin_theta || (sin_theta <? epsilon) then (false, v_zero 3)
  else (true, v_normalize normal).
(** plane.h:355-364 [from_points] *)
Definition pl_from_points (p1 p2 p3 : list T) : bool * plane T :=
  let '(valid, normal) := plane_normal p1 p2 p3 angle_epsilon in
  if negb valid then (false, pl_default 3) else (true, pl_make p1 normal).
(** plane.h:391-412 [from_points] of a range of points. The parameter [get] is only used in the
    return type, so that the elements must be points themselves. *)
Definition pl_from_points_range (l : list (list T)) : bool * plane T :=
  match l with
  | p1 :: p2 :: p3 :: _ => pl_from_points p1 p2 p3
  | _ => (false, pl_default 3)
  end.
(** plane.h:421-423, 433-436, 447-451 *)
Definition pl_horizontal (position : list T) : plane T := pl_make position pos_z3.
Definition pl_orthogonal (position direction : list T) : plane T := pl_make position (v_normalize direction).
Definition pl_aligned_orthogonal (position direction : list T) : outcome (plane T) :=
  do axis <- get_abs_max_component_axis direction 0; Ret (pl_make position axis).
End Geom.
