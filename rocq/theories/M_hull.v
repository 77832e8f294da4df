(** Model of convex_hull.h. *)
From Coq Require Import ZArith List Bool Arith.
From Verif Require Import Ops M_scalar M_vec.
Import ListNotations.
Local Open Scope sc_scope.

Section Hull.
Context {T : Type} {o : ops T}.

(** convex_hull.h:39-49 [is_left] *)
Definition is_left (p1 p2 p3 : list T) : Z :=
  let result := (vx p2 - vx p1) * (vy p3 - vy p1) - (vx p3 - vx p1) * (vy p2 - vy p1) in
  if result <? cst 0 then (-1)%Z
  else if result >? cst 0 then 1%Z
  else 0%Z.

(** convex_hull.h:52-79 [less_than_by_angle] *)
Definition less_than_by_angle (anchor lhs rhs : list T) : bool :=
  let side := is_left anchor lhs rhs in
  if (side >? 0)%Z then true
  else if (side <? 0)%Z then false
  else
    let dxl := sc_abs (vx lhs - vx anchor) in
    let dxr := sc_abs (vx rhs - vx anchor) in
    if dxl =? dxr then
      let dyl := sc_abs (vy lhs - vy anchor) in
      let dyr := sc_abs (vy rhs - vy anchor) in
      dyl >? dyr
    else dxl >? dxr.

(** convex_hull.h:114-120 [find_linearly_independent_point]: [rest] are the points from [index] on *)
Fixpoint find_linearly_independent_point (p0 p1 : list T) (rest : list (list T)) (index : nat) : nat :=
  match rest with
  | [] => index
  | p :: rest' =>
    if v_is_colinear p0 p1 p colinear_epsilon
    then find_linearly_independent_point p0 p1 rest' (S index)
    else index
  end.

(** convex_hull.h:140-147, the loop of [find_anchor]: [n] iterations left, the next index is [i] *)
Fixpoint find_anchor_loop (points : list (list T)) (n i anchor : nat) : nat :=
  match n with
  | O => anchor
  | S n' =>
    let p := nth i points [] in
    let a := nth anchor points [] in
    find_anchor_loop points n' (S i)
      (if (vy p <? vy a) || ((vy p =? vy a) && (vx p >? vx a)) then i else anchor)
  end.
(** convex_hull.h:139-153 [find_anchor] *)
Definition find_anchor (points : list (list T)) : outcome (list (list T)) :=
  let anchor := find_anchor_loop points (length points - 1) 1 0 in
  if (0 <? anchor)%nat then arr_swap points 0 anchor else Ret points.

(** convex_hull.h:159-171, removal of the points after [p1] in the direction of [p1], and so on *)
Fixpoint erase_colinear (anchor p1 : list T) (rest : list (list T)) : list (list T) :=
  match rest with
  | [] => [p1]
  | p2 :: rest' =>
    if (is_left anchor p1 p2 =? 0)%Z
    then erase_colinear anchor p1 rest'
    else p1 :: erase_colinear anchor p2 rest'
  end.
(** convex_hull.h:155-172 [sort_points]. [std_sort] stands for [std::sort]: any function that sorts
    with a comparison, see [S_hull]. *)
Definition sort_points (std_sort : (list T -> list T -> bool) -> list (list T) -> list (list T))
  (points : list (list T)) : list (list T) :=
  match points with
  | [] => []
  | anchor :: rest =>
    match std_sort (less_than_by_angle anchor) rest with
    | [] => [anchor]
    | p1 :: rest' => anchor :: erase_colinear anchor p1 rest'
    end
  end.

(** convex_hull.h:191-201 [pop_stale_points]; the top of the stack is the first element of the list *)
Fixpoint pop_stale_points (stack : list (list T)) (p : list T) : list (list T) :=
  match stack with
  | t2 :: below =>
    match below with
    | t1 :: _ =>
      if (is_left t1 t2 p <? 0)%Z then pop_stale_points below p else stack
    | [] => stack
    end
  | [] => stack
  end.
(** convex_hull.h:174-189 [build_hull] of at least two points *)
Definition build_hull (points : list (list T)) : outcome (list (list T)) :=
  match points with
  | p0 :: p1 :: rest =>
    let stack := fold_left (fun stack p => p :: pop_stale_points stack p) rest [p1; p0] in
    let points := rev stack in
    require (2 <? length points)%nat (Ret points)
  | _ => UB
  end.

(** convex_hull.h:84-109 constructor, 214-218 [convex_hull] *)
Definition convex_hull (std_sort : (list T -> list T -> bool) -> list (list T) -> list (list T))
  (points : list (list T)) : outcome (list (list T)) :=
  match points with
  | p0 :: p1 :: p2 :: _ =>
    let third := find_linearly_independent_point p0 p1 (skipn 2 points) 2 in
    if (length points <=? third)%nat then Ret []
    else
      do axis <- find_abs_max_component (v_cross (v_sub (nth third points []) p0) (v_sub p1 p0)) 0;
      do swizzled <- mapM (fun p => v_swizzle p axis) points;
      do anchored <- find_anchor swizzled;
      let sorted := sort_points std_sort anchored in
      if (length sorted <=? 2)%nat then Ret []
      else
        do hull <- build_hull sorted;
        mapM (fun p => v_unswizzle p axis) hull
  | _ => Ret []
  end.
End Hull.
