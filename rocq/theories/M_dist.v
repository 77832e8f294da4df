(** Model of distance.h. *)
From Coq Require Import ZArith List Bool Arith.
From Verif Require Import Ops M_scalar M_vec M_mat M_geom.
Import ListNotations.
Local Open Scope sc_scope.

(** distance.h:38-61 *)
Record point_distance (T : Type) := PD { pd_position : T; pd_distance : T }.
Arguments PD {T} _ _.
Arguments pd_position {T} _.
Arguments pd_distance {T} _.
(** distance.h:177-225 [line_distance], [Parallel], [NonParallel] *)
Record line_distance (T : Type) := LD { ld_parallel : bool; ld_position1 : T; ld_distance : T; ld_position2 : T }.
Arguments LD {T} _ _ _ _.
Arguments ld_parallel {T} _.
Arguments ld_position1 {T} _.
Arguments ld_distance {T} _.
Arguments ld_position2 {T} _.

Section Dist.
Context {T : Type} {o : ops T}.

(** distance.h:79-88 [squared_distance] of a ray and a point *)
Definition ray_point_sqdist (r : ray T) (p : list T) : point_distance T :=
  let origin_to_point := v_sub p (ray_origin r) in
  let position := sc_max (v_dot origin_to_point (ray_dir r)) [cst 0] in
  if position =? cst 0 then PD position (v_squared_length origin_to_point)
  else PD position (v_squared_length (v_sub (al_point_at_distance (ray_origin r) (ray_dir r) position) p)).
(** distance.h:106-110, 155-160 [distance] to a point *)
Definition pd_sqrt (distance2 : point_distance T) : point_distance T :=
  PD (pd_position distance2) (o_sqrt (pd_distance distance2)).
Definition ray_point_dist (r : ray T) (p : list T) : point_distance T := pd_sqrt (ray_point_sqdist r p).
(** distance.h:128-138 [squared_distance] of a segment and a point *)
Definition seg_point_sqdist (s : segment T) (p : list T) : point_distance T :=
  let vector := v_sub (seg_end s) (seg_start s) in
  let len := v_length vector in
  let dir := v_div_s vector len in
  let scale := v_dot (v_sub p (seg_start s)) dir in
  let position := sc_min (sc_max (cst 0) [scale]) [len] in
  let distance := v_squared_length (v_sub p (al_point_at_distance (seg_start s) (seg_direction s) position)) in
  PD position distance.
Definition seg_point_dist (s : segment T) (p : list T) : point_distance T := pd_sqrt (seg_point_sqdist s p).

(** distance.h:234 [is_colinear] *)
Definition ld_is_colinear (x : line_distance T) (maxDistance : T) : bool :=
  ld_parallel x && (ld_distance x <=? maxDistance).
(** distance.h:337-341, 409-413, 458-462 [distance] of two lines, rays or segments *)
Definition ld_sqrt (distance2 : line_distance T) : line_distance T :=
  LD (ld_parallel distance2) (ld_position1 distance2) (o_sqrt (ld_distance distance2)) (ld_position2 distance2).

(** distance.h:268-298: the parallel case of the next function *)
Definition ray_seg_parallel (r : ray T) (s : segment T) : line_distance T :=
  let p1 := seg_start s in
  let p2 := seg_end s in
  let p1_on_r := al_distance_to_projected_point (ray_origin r) (ray_dir r) p1 in
  let p2_on_r := al_distance_to_projected_point (ray_origin r) (ray_dir r) p2 in
  if (p1_on_r <? cst 0) && (p2_on_r <? cst 0) then
    if p1_on_r >? p2_on_r then LD true (cst 0) (v_squared_distance (ray_origin r) p1) (cst 0)
    else LD true (cst 0) (v_squared_distance (ray_origin r) p2) (p2_on_r - p1_on_r)
  else if (p1_on_r >? cst 0) && (p2_on_r >? cst 0) then
    let perpendicular_dist_squared :=
      v_squared_distance (al_point_at_distance (ray_origin r) (ray_dir r) p1_on_r) p1 in
    if p1_on_r >? p2_on_r then LD true p2_on_r perpendicular_dist_squared (p1_on_r - p2_on_r)
    else LD true p1_on_r perpendicular_dist_squared (cst 0)
  else
    let perpendicular_dist_squared :=
      v_squared_distance (al_point_at_distance (ray_origin r) (ray_dir r) p1_on_r) p1 in
    let r_origin_on_s := al_distance_to_projected_point (seg_start s) (seg_direction s) (ray_origin r) in
    LD true (cst 0) perpendicular_dist_squared r_origin_on_s.
(** distance.h:252-325 [squared_distance] of a ray and a segment *)
Definition ray_seg_sqdist (r : ray T) (s : segment T) : line_distance T :=
  let p1 := seg_start s in
  let p2 := seg_end s in
  let u := v_sub p2 p1 in
  let v := ray_dir r in
  let w := v_sub p1 (ray_origin r) in
  let a := v_dot u u in
  let b := v_dot u v in
  let c := v_dot v v in
  let d := v_dot u w in
  let e := v_dot v w in
  let D := a * c - b * b in
  if sc_is_zero D almost_zero then ray_seg_parallel r s
  else
    let sD := D in
    let sN := b * e - c * d in
    let tN := a * e - b * d in
    let '(sN, tN, tD) :=
      if sN <? cst 0 then (cst 0, e, c)
      else if sN >? sD then (sD, e + b, c)
      else (sN, tN, D) in
    let sc := if sc_is_zero sN almost_zero then cst 0 else sN / sD in
    let tc := sc_max (if sc_is_zero tN almost_zero then cst 0 else tN / tD) [cst 0] in
    let dP := v_sub (v_add w (v_scale u sc)) (v_scale v tc) in
    LD false tc (v_squared_length dP) (sc * o_sqrt a).
Definition ray_seg_dist (r : ray T) (s : segment T) : line_distance T := ld_sqrt (ray_seg_sqdist r s).

(** distance.h:352-397 [squared_distance] of two rays *)
Definition ray_ray_sqdist (lhs rhs : ray T) : line_distance T :=
  let u := ray_dir rhs in
  let v := ray_dir lhs in
  let w := v_sub (ray_origin rhs) (ray_origin lhs) in
  let a := v_dot u u in
  let b := v_dot u v in
  let c := v_dot v v in
  let d := v_dot u w in
  let e := v_dot v w in
  let D := a * c - b * b in
  let sD := D in
  if sc_is_zero D almost_zero then
    let rhs_origin_on_lhs := al_distance_to_projected_point (ray_origin lhs) (ray_dir lhs) (ray_origin rhs) in
    let lhs_origin_on_rhs := al_distance_to_projected_point (ray_origin rhs) (ray_dir rhs) (ray_origin lhs) in
    let perpendicular_dist_squared :=
      v_squared_distance (al_project_point (ray_origin lhs) (ray_dir lhs) (ray_origin rhs)) (ray_origin rhs) in
    LD true (sc_max (cst 0) [rhs_origin_on_lhs]) perpendicular_dist_squared (sc_max (cst 0) [lhs_origin_on_rhs])
  else
    let sN := b * e - c * d in
    let tN := a * e - b * d in
    let '(sN, tN, tD) := if sN <? cst 0 then (cst 0, e, c) else (sN, tN, D) in
    let sc := if sc_is_zero sN almost_zero then cst 0 else sN / sD in
    let tc := sc_max (if sc_is_zero tN almost_zero then cst 0 else tN / tD) [cst 0] in
    let dP := v_sub (v_add w (v_scale u sc)) (v_scale v tc) in
    LD false tc (v_squared_length dP) sc.
Definition ray_ray_dist (lhs rhs : ray T) : line_distance T := ld_sqrt (ray_ray_sqdist lhs rhs).

(** distance.h:424-447 [squared_distance] of a ray and a line *)
Definition ray_line_sqdist (r : ray T) (l : line T) : line_distance T :=
  let w0 := v_sub (ray_origin r) (ln_point l) in
  let a := v_dot (ray_dir r) (ray_dir r) in
  let b := v_dot (ray_dir r) (ln_dir l) in
  let c := v_dot (ln_dir l) (ln_dir l) in
  let d := v_dot (ray_dir r) w0 in
  let e := v_dot (ln_dir l) w0 in
  let D := a * c - b * b in
  if sc_is_zero D almost_zero then
    let perpendicular_dist_squared :=
      v_squared_distance (al_project_point (ray_origin r) (ray_dir r) (ln_point l)) (ln_point l) in
    let r_origin_on_l := al_distance_to_projected_point (ln_point l) (ln_dir l) (ray_origin r) in
    LD true (cst 0) perpendicular_dist_squared r_origin_on_l
  else
    let sc := sc_max ((b * e - c * d) / D) [cst 0] in
    let tc := (a * e - b * d) / D in
    let rp := v_add (ray_origin r) (v_scale_l sc (ray_dir r)) in
    let lp := v_add (ln_point l) (v_scale_l tc (ln_dir l)) in
    LD false sc (v_squared_length (v_sub rp lp)) tc.
Definition ray_line_dist (r : ray T) (l : line T) : line_distance T := ld_sqrt (ray_line_sqdist r l).
End Dist.
