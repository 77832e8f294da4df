(** Model of intersection.h. *)
From Coq Require Import ZArith List Bool Arith.
From Verif Require Import Ops M_scalar M_vec M_mat M_bbox M_geom.
Import ListNotations.
Local Open Scope sc_scope.

Section Intersect.
Context {T : Type} {o : ops T}.

(** intersection.h:43-97 [handle_polygon_edge_intersection]. The only results are -1, 0, 1. *)
Definition polygon_edge (v0 v1 : list T) : Z :=
  if v_is_zero v0 almost_zero then -1
  else if (sc_is_zero (vy v0) almost_zero && sc_is_zero (vy v1) almost_zero)
          || ((vy v0 >? cst 0) && (vy v1 >? cst 0)) || ((vy v0 <? cst 0) && (vy v1 <? cst 0)) then 0
  else if (vx v0 >? cst 0) && (vx v1 >? cst 0) then 1
  else if (vx v0 <? cst 0) && (vx v1 <? cst 0) then 0
  else
    let x := - vy v0 * (vx v1 - vx v0) / (vy v1 - vy v0) + vx v0 in
    if sc_is_zero x almost_zero then -1
    else if x >? cst 0 then 1 else 0.
(** intersection.h:125-143: the loop over the vertices, with the previous vertex pv and the counter d;
    the vertices are swizzled and relative to the point already *)
Fixpoint polygon_loop (fv pv : list T) (d : Z) (l : list (list T)) : bool :=
  match l with
  | cv :: l' =>
    let s := polygon_edge pv cv in
    if (s =? -1)%Z then true else polygon_loop fv cv (d + s)%Z l'
  | [] =>
    let s := polygon_edge pv fv in
    if (s =? -1)%Z then true else negb (Z.rem (d + s) 2 =? 0)%Z
  end.
(** intersection.h:117-144 [polygon_contains_point] for an axis. Simplification: [get] is applied to
    the vertices already; dereferencing the end of an empty range is undefined behaviour. *)
Definition polygon_contains_point (p : list T) (axis : nat) (vertices : list (list T)) : outcome bool :=
  do o' <- v_swizzle p axis;
  do vs <- mapM (fun v => do v' <- v_swizzle v axis; Ret (v_sub v' o')) vertices;
  match vs with
  | [] => UB
  | fv :: l => Ret (polygon_loop fv fv 0 l)
  end.
(** intersection.h:163-167 [polygon_contains_point] for a normal *)
Definition polygon_contains_point_n (p n : list T) (vertices : list (list T)) : outcome bool :=
  do axis <- find_abs_max_component n 0; polygon_contains_point p axis vertices.
(** intersection.h:185-202 [polygon_contains_point] *)
Definition polygon_contains (p : list T) (vertices : list (list T)) : outcome bool :=
  match vertices with
  | p1 :: p2 :: p3 :: _ =>
    let '(valid, normal) := plane_normal p1 p2 p3 angle_epsilon in
    require valid
      (do axis <- find_abs_max_component normal 0; polygon_contains_point p axis vertices)
  | _ => Assert
  end.

(** intersection.h:214-227 [intersect_ray_plane] *)
Definition intersect_ray_plane (r : ray T) (p : plane T) : T :=
  let d := v_dot (ray_dir r) (pl_normal p) in
  if sc_is_zero d almost_zero then o_nan
  else
    let s := v_dot (v_sub (pl_anchor p) (ray_origin r)) (pl_normal p) / d in
    if s <? - almost_zero then o_nan else s.
(** intersection.h:241-280 [intersect_ray_triangle] *)
Definition intersect_ray_triangle (r : ray T) (p1 p2 p3 : list T) : T :=
  let e1 := v_sub p2 p1 in
  let e2 := v_sub p3 p1 in
  let p := v_cross (ray_dir r) e2 in
  let a := v_dot p e1 in
  if sc_is_zero a almost_zero then o_nan
  else
    let t := v_sub (ray_origin r) p1 in
    let q := v_cross t e1 in
    let u := v_dot q e2 / a in
    if u <? cst 0 then o_nan
    else
      let v := v_dot p t / a in
      if v <? cst 0 then o_nan
      else
        let w := v_dot q (ray_dir r) / a in
        if w <? cst 0 then o_nan
        else if v + w >? cst 1 then o_nan
        else u.
(** intersection.h:296-309 [intersect_ray_polygon] with a plane *)
Definition intersect_ray_polygon_plane (r : ray T) (p : plane T) (vertices : list (list T)) : outcome T :=
  let distance := intersect_ray_plane r p in
  if is_nan distance then Ret distance
  else
    let point := al_point_at_distance (ray_origin r) (ray_dir r) distance in
    do c <- polygon_contains_point_n point (pl_normal p) vertices;
    Ret (if c : bool then distance else o_nan).
(** intersection.h:324-332 [intersect_ray_polygon] *)
Definition intersect_ray_polygon (r : ray T) (vertices : list (list T)) : outcome T :=
  let '(valid, plane) := pl_from_points_range vertices in
  if negb valid then Ret o_nan else intersect_ray_polygon_plane r plane vertices.

(** intersection.h:352-365: the candidate plane of one axis and whether the origin is inside *)
Definition rb_candidate (org dir mn mx : T) : T * bool :=
  if org <? mn then (mn, false)
  else if org >? mx then (mx, false)
  else (if dir <? cst 0 then mn else mx, true).
(** intersection.h:371-375: the distance to the candidate plane *)
Definition rb_distance (org dir plane : T) : T :=
  if dir <>? cst 0 then (plane - org) / dir else cst (-1).
(** intersection.h:351-376: whether the origin is inside, and the distance to the candidate plane, for axis i *)
Definition rb_axis (r : ray T) (b : bbox T) (i : nat) : T * bool :=
  rb_candidate (vget (ray_origin r) i) (vget (ray_dir r) i) (vget (bb_min b) i) (vget (bb_max b) i).
Definition rb_inside (r : ray T) (b : bbox T) (i : nat) : bool := snd (rb_axis r b i).
Definition rb_distances (r : ray T) (b : bbox T) (i : nat) : T :=
  rb_distance (vget (ray_origin r) i) (vget (ray_dir r) i) (fst (rb_axis r b i)).
(** intersection.h:378-399: the choice of the plane *)
Definition rb_best (S : nat) (inside : nat -> bool) (distances : nat -> T) : nat :=
  if forallb inside (seq 0 S) then
    (* find the closest plane that was hit *)
    fold_left (fun best i => if distances i <? distances best then i else best) (seq 1 (S - 1)) 0%nat
  else
    (* find the farthest plane that was hit *)
    let first := match find (fun i => negb (inside i)) (seq 0 S) with Some i => i | None => 0%nat end in
    fold_left (fun best i => if negb (inside i) && (distances i >? distances best) then i else best)
      (seq (first + 1) (S - (first + 1))) first.
(** intersection.h:345-416 [intersect_ray_bbox] *)
Definition intersect_ray_bbox (S : nat) (r : ray T) (b : bbox T) : T :=
  let bestPlane := rb_best S (rb_inside r b) (rb_distances r b) in
  let dist := rb_distances r b bestPlane in
  if dist <? cst 0 then o_nan
  else if existsb (fun i => negb (bestPlane =? i)%nat &&
            (let coord := vget (ray_origin r) i + dist * vget (ray_dir r) i in
             (coord <? vget (bb_min b) i) || (coord >? vget (bb_max b) i))) (seq 0 S) then o_nan
  else dist.

(** intersection.h:430-453 [intersect_ray_sphere] *)
Definition intersect_ray_sphere (r : ray T) (position : list T) (radius : T) : T :=
  let diff := v_sub (ray_origin r) position in
  let p := cst 2 * v_dot diff (ray_dir r) in
  let q := v_squared_length diff - radius * radius in
  let d := p * p - cst 4 * q in
  if d <? cst 0 then o_nan
  else
    let s := o_sqrt d in
    let t0 := (- p + s) / cst 2 in
    let t1 := (- p - s) / cst 2 in
    if (t0 <? cst 0) && (t1 <? cst 0) then o_nan
    else if (t0 >? cst 0) && (t1 >? cst 0) then sc_min t0 [t1]
    else sc_max t0 [t1].

(** intersection.h:527-535 [intersect_line_plane] *)
Definition intersect_line_plane (l : line T) (p : plane T) : T :=
  let f := v_dot (ln_dir l) (pl_normal p) in
  if sc_is_zero f almost_zero then o_nan
  else v_dot (v_sub (v_scale_l (pl_dist p) (pl_normal p)) (ln_point l)) (pl_normal p) / f.
(** line.h:43-45: the default line *)
Definition ln_default (S : nat) : line T := Ln (v_zero S) (v_zero S).
(** intersection.h:547-572 [intersect_plane_plane] *)
Definition intersect_plane_plane (p1 p2 : plane T) : line T :=
  let lineDirection := v_normalize (v_cross (pl_normal p1) (pl_normal p2)) in
  if v_is_nan lineDirection then ln_default 3
  else
    let lineToP2 := Ln (pl_anchor p1) (v_normalize (pl_project_vector p1 (pl_normal p2))) in
    let dist := intersect_line_plane lineToP2 p2 in
    let point := al_point_at_distance (ln_point lineToP2) (ln_dir lineToP2) dist in
    if v_is_nan point then ln_default 3 else Ln point lineDirection.
End Intersect.

Section Torus.
Context {T : Type} {o : ops T} {lm : libm T}.
(** intersection.h:480-494: the coefficients of the quartic equation *)
Definition torus_coefficients (r : ray T) (position : list T) (majorRadius minorRadius : T) : T * T * T * T * T :=
  let origin := v_sub (ray_origin r) position in
  let dd := v_dot (ray_dir r) (ray_dir r) in
  let od := v_dot origin (ray_dir r) in
  let oo := v_dot origin origin in
  let MM := majorRadius * majorRadius in
  let mm := minorRadius * minorRadius in
  let dz := vz (ray_dir r) in
  let oz := vz origin in
  let omM := oo - mm - MM in
  (dd * dd,
   cst 4 * dd * od,
   cst 2 * dd * omM + cst 4 * (od * od + MM * dz * dz),
   cst 4 * od * omM + cst 8 * MM * oz * dz,
   omM * omM - cst 4 * MM * (mm - oz * oz)).
(** intersection.h:496-514 *)
Definition intersect_ray_torus (r : ray T) (position : list T) (majorRadius minorRadius : T) : outcome T :=
  let '(a, b, c, d, e) := torus_coefficients r position majorRadius minorRadius in
  do ns <- solve_quartic a b c d e almost_zero;
  let '(num, s) := ns in
  if (num =? 0)%nat then Ret o_nan
  else
    (* only consider positive solutions *)
    let pos i := let x := nth i s o_nan in if (i <? num)%nat then (if x >? cst 0 then x else o_nan) else x in
    Ret (sc_safe_min (pos 0%nat) [pos 1%nat; pos 2%nat; pos 3%nat]).
End Torus.
