(** Model of vec.h and constexpr_util.h. A [vec<T,S>] is a list of S components. *)
From Coq Require Import ZArith List Bool Arith.
From Verif Require Import Ops M_scalar.
Import ListNotations.

(** * constexpr_util.h *)
Section Sort.
Context {A : Type}.

(** Array read; out of range is undefined. *)
Definition arr_get (l : list A) (i : nat) : outcome A :=
  match nth_error l i with
  | Some x => Ret x
  | None => UB
  end.
(** constexpr_util.h:35-39, 48-50 [swap], [iter_swap] *)
Definition arr_swap (l : list A) (i j : nat) : outcome (list A) :=
  do x <- arr_get l i; do y <- arr_get l j; Ret (upd (upd l i y) j x).

Variable cmp : A -> A -> bool.

(** constexpr_util.h:66-70, the partitioning loop with [n] iterations left; returns [mid] *)
Fixpoint sort_partition (n left mid i : nat) (l : list A) : outcome (nat * list A) :=
  match n with
  | O => Ret (mid, l)
  | S n' =>
    do x <- arr_get l i;
    do p <- arr_get l left;
    if cmp x p
    then do l' <- arr_swap l (S mid) i; sort_partition n' left (S mid) (S i) l'
    else sort_partition n' left mid (S i) l
  end.

(** constexpr_util.h:62-76 [sort] of the elements from index [left] to before [right] *)
Fixpoint sort (fuel left right : nat) (l : list A) : outcome (list A) :=
  if left <? right then
    match fuel with
    | O => Fuel
    | S fuel' =>
      do r <- sort_partition (right - S left) left left (S left) l;
      let mid := fst r in
      do l1 <- arr_swap (snd r) left mid;
      do l2 <- sort fuel' left mid l1;
      sort fuel' (S mid) right l2
    end
  else Ret l.
End Sort.

(** * vec.h *)
Local Open Scope sc_scope.

(** [for (i = 0; i < S; ++i) result[i] = f(a[i], b[i])] on vectors of the same size *)
Fixpoint map2 {A B C} (f : A -> B -> C) (a : list A) (b : list B) : list C :=
  match a, b with
  | x :: a', y :: b' => f x y :: map2 f a' b'
  | _, _ => []
  end.

Section Vec.
Context {T : Type} {o : ops T}.

(** vec.h:172 [operator\[\]]; all uses are in range unless said otherwise *)
Definition vget (v : list T) (i : nat) : T := nth i v (cst 0).
Definition vx (v : list T) : T := vget v 0.
Definition vy (v : list T) : T := vget v 1.
Definition vz (v : list T) : T := vget v 2.
Definition vw (v : list T) : T := vget v 3.
(** vec.h:263-266 [xyz] *)
Definition v_xyz (v : list T) : list T := [vx v; vy v; vz v].

(** vec.h:143-149 [fill] *)
Definition v_fill (S : nat) (value : T) : list T := repeat value S.
(** vec.h:157-161 [axis]; writing out of range is undefined *)
Definition v_axis (S index : nat) : outcome (list T) :=
  if (index <? S)%nat then Ret (upd (v_fill S (cst 0)) index (cst 1)) else UB.
(** vec.h:330-333 [zero] *)
Definition v_zero (S : nat) : list T := v_fill S (cst 0).
(** vec.h:338-341 [one] *)
Definition v_one (S : nat) : list T := v_fill S (cst 1).
(** vec.h:346-349 [nan] *)
Definition v_nan (S : nat) : list T := v_fill S o_nan.
(** vec.h:68-74 construction from an initializer list: missing components are zero, surplus ones
    are dropped *)
Definition v_init_list (S : nat) (values : list T) : list T :=
  firstn S values ++ repeat (cst 0) (S - length values).
(** vec.h:100-106 converting constructor; [conv] is the [static_cast] of the components *)
Definition v_convert {U} (conv : U -> T) (S : nat) (other : list U) : list T :=
  map conv (firstn S other) ++ repeat (cst 0) (S - length other).
(** vec.h:121-133 construction from a smaller vector and further components *)
Definition v_extend {U} (conv : U -> T) (other : list U) (args : list T) : list T :=
  map conv other ++ args.

(** vec.h:396-417 [compare] *)
Fixpoint v_compare (lhs rhs : list T) (epsilon : T) : Z :=
  match lhs, rhs with
  | x :: lhs', y :: rhs' =>
    let lhsIsNaN := x <>? x in
    let rhsIsNaN := y <>? y in
    if negb lhsIsNaN && rhsIsNaN then (-1)%Z
    else if lhsIsNaN && negb rhsIsNaN then 1%Z
    else if negb lhsIsNaN && negb rhsIsNaN then
      if x <? y - epsilon then (-1)%Z
      else if x >? y + epsilon then 1%Z
      else v_compare lhs' rhs' epsilon
    else v_compare lhs' rhs' epsilon
  | _, _ => 0%Z
  end.
(** vec.h:437-458 [compare] of ranges *)
Fixpoint r_compare (lhs rhs : list (list T)) (epsilon : T) : Z :=
  match lhs, rhs with
  | x :: lhs', y :: rhs' =>
    let cmp := v_compare x y epsilon in
    if (cmp <? 0)%Z then (-1)%Z
    else if (0 <? cmp)%Z then 1%Z
    else r_compare lhs' rhs' epsilon
  | _, _ :: _ => (-1)%Z
  | _ :: _, _ => 1%Z
  | [], [] => 0%Z
  end.
(** vec.h:472-475 [is_equal] *)
Definition v_is_equal (lhs rhs : list T) (epsilon : T) : bool := (v_compare lhs rhs epsilon =? 0)%Z.
(** vec.h:486-565 [operator==], [!=], [<], [<=], [>], [>=] *)
Definition v_eq (lhs rhs : list T) : bool := (v_compare lhs rhs (cst 0) =? 0)%Z.
Definition v_ne (lhs rhs : list T) : bool := negb (v_compare lhs rhs (cst 0) =? 0)%Z.
Definition v_lt (lhs rhs : list T) : bool := (v_compare lhs rhs (cst 0) <? 0)%Z.
Definition v_le (lhs rhs : list T) : bool := (v_compare lhs rhs (cst 0) <=? 0)%Z.
Definition v_gt (lhs rhs : list T) : bool := (0 <? v_compare lhs rhs (cst 0))%Z.
Definition v_ge (lhs rhs : list T) : bool := (0 <=? v_compare lhs rhs (cst 0))%Z.

(** vec.h:579-589 [slice] *)
Definition v_slice (RS : nat) (vector : list T) (offset : nat) : outcome (list T) :=
  require (offset <=? length vector - RS)%nat (Ret (firstn RS (skipn offset vector))).

(** vec.h:614-622 [sort_vector]: pairs of component and index, sorted *)
Definition sort_vector (cmp : T -> T -> bool) (vector : list T) : outcome (list (T * nat)) :=
  let S := length vector in
  sort (fun l r => cmp (fst l) (fst r)) S 0 S (combine vector (seq 0 S)).
(** vec.h:635-646 [find_max_component] *)
Definition find_max_component (vector : list T) (k : nat) : outcome nat :=
  let S := length vector in
  require (k <? S)%nat
    (do elements <- sort_vector o_lt vector;
     do e <- arr_get elements (S - k - 1); Ret (snd e)).
(** vec.h:658-669 [find_abs_max_component] *)
Definition find_abs_max_component (vector : list T) (k : nat) : outcome nat :=
  let S := length vector in
  require (k <? S)%nat
    (do elements <- sort_vector (fun l r => sc_abs l <? sc_abs r) vector;
     do e <- arr_get elements (S - k - 1); Ret (snd e)).
(** vec.h:748-754 unary [operator-] *)
Definition v_neg (v : list T) : list T := map o_neg v.
(** vec.h:684-689 [get_abs_max_component_axis] *)
Definition get_abs_max_component_axis (vector : list T) (k : nat) : outcome (list T) :=
  do index <- find_abs_max_component vector k;
  do result <- v_axis (length vector) index;
  Ret (if vget vector index <? cst 0 then v_neg result else result).
(** vec.h:700-710 [get_max_component] *)
Definition get_max_component (vector : list T) (k : nat) : outcome T :=
  let S := length vector in
  require (k <? S)%nat (do s <- sort o_lt S 0 S vector; arr_get s (S - k - 1)).
(** vec.h:722-730 [get_abs_max_component]; without an assert, so that k >= S reads out of range *)
Definition get_abs_max_component (vector : list T) (k : nat) : outcome T :=
  let S := length vector in
  do s <- sort (fun l r => sc_abs l <? sc_abs r) S 0 S vector;
  if (k <? S)%nat then arr_get s (S - k - 1) else UB.

(** vec.h:765-772 [operator+] *)
Definition v_add (lhs rhs : list T) : list T := map2 o_add lhs rhs.
(** vec.h:784-791 [operator-] *)
Definition v_sub (lhs rhs : list T) : list T := map2 o_sub lhs rhs.
(** vec.h:804-811 componentwise [operator*] *)
Definition v_mul (lhs rhs : list T) : list T := map2 o_mul lhs rhs.
(** vec.h:823-830 [operator*] with a scalar *)
Definition v_scale (lhs : list T) (rhs : T) : list T := map (fun x => x * rhs) lhs.
(** vec.h:842-845 [operator*] with the scalar on the left *)
Definition v_scale_l (lhs : T) (rhs : list T) : list T := v_scale rhs lhs.
(** vec.h:857-864 componentwise [operator/] *)
Definition v_div (lhs rhs : list T) : list T := map2 o_div lhs rhs.
(** vec.h:876-883 [operator/] by a scalar *)
Definition v_div_s (lhs : list T) (rhs : T) : list T := map (fun x => x / rhs) lhs.
(** vec.h:895-902 [operator/] of a scalar *)
Definition v_s_div (lhs : T) (rhs : list T) : list T := map (fun x => lhs / x) rhs.

(** vec.h:918-925 [min] of two vectors; of three or more, see [v_min_l] *)
Definition v_min (lhs rhs : list T) : list T := map2 (fun x y => sc_min x [y]) lhs rhs.
(** vec.h:939-946 [max] *)
Definition v_max (lhs rhs : list T) : list T := map2 (fun x y => sc_max x [y]) lhs rhs.
(** vec.h:960-967 [abs_min] *)
Definition v_abs_min (lhs rhs : list T) : list T := map2 (fun x y => sc_abs_min x [y]) lhs rhs.
(** vec.h:981-988 [abs_max] *)
Definition v_abs_max (lhs rhs : list T) : list T := map2 (fun x y => sc_abs_max x [y]) lhs rhs.
(** vec.h:918-988, variadic forms: component i is the scalar function of all components i *)
Definition v_variadic (f : T -> list T -> T) (lhs : list T) (rest : list (list T)) : list T :=
  map (fun i => f (vget lhs i) (map (fun r => vget r i) rest)) (seq 0 (length lhs)).
(** vec.h:1001-1004 [clamp] *)
Definition v_clamp (v minVal maxVal : list T) : list T := v_min (v_max v minVal) maxVal.
(** vec.h:1015-1021 [abs] *)
Definition v_abs (v : list T) : list T := map sc_abs v.
(** vec.h:1037-1043 [sign] *)
Definition v_sign (v : list T) : list T := map sc_sign v.
(** vec.h:1055-1062 [step] *)
Definition v_step (e v : list T) : list T := map2 sc_step e v.
(** vec.h:1075-1082 [smoothstep] *)
Definition v_smoothstep (e0 e1 v : list T) : list T :=
  map2 (fun e x => sc_smoothstep (fst e) (snd e) x) (combine e0 e1) v.

(** vec.h:1093-1099 [dot] *)
Definition v_dot (lhs rhs : list T) : T :=
  fold_left (fun result p => result + fst p * snd p) (combine lhs rhs) (cst 0).
(** vec.h:1109-1113 [cross] *)
Definition v_cross (lhs rhs : list T) : list T :=
  [ vget lhs 1 * vget rhs 2 - vget lhs 2 * vget rhs 1;
    vget lhs 2 * vget rhs 0 - vget lhs 0 * vget rhs 2;
    vget lhs 0 * vget rhs 1 - vget lhs 1 * vget rhs 0 ].
(** vec.h:1123-1125 [squared_length] *)
Definition v_squared_length (v : list T) : T := v_dot v v.
(** vec.h:1135-1137 [length] *)
Definition v_length (v : list T) : T := o_sqrt (v_squared_length v).
(** vec.h:1159-1161 [normalize] *)
Definition v_normalize (v : list T) : list T := v_div_s v (v_length v).
(** vec.h:1188-1198 [swizzle] *)
Definition v_swizzle (point : list T) (axis : nat) : outcome (list T) :=
  require (axis <=? 3)%nat
    (Ret match axis with
         | 0%nat => [vy point; vz point; vx point]
         | 1%nat => [vz point; vx point; vy point]
         | _ => point
         end).
(** vec.h:1209-1220 [unswizzle] *)
Definition v_unswizzle (point : list T) (axis : nat) : outcome (list T) :=
  require (axis <=? 3)%nat
    (Ret match axis with
         | 0%nat => [vz point; vx point; vy point]
         | 1%nat => [vy point; vz point; vx point]
         | _ => point
         end).
(** vec.h:1231-1233 [is_unit] *)
Definition v_is_unit (v : list T) (epsilon : T) : bool := sc_is_equal (v_length v) (cst 1) epsilon.
(** vec.h:1257-1264 [is_zero] *)
Definition v_is_zero (v : list T) (epsilon : T) : bool :=
  forallb (fun x => sc_is_zero x epsilon) v.
(** vec.h:1274-1281 [is_nan] *)
Definition v_is_nan (v : list T) : bool := existsb is_nan v.
(** vec.h:1293-1301 [is_integral] *)
Fixpoint v_is_integral (v : list T) (epsilon : T) : outcome bool :=
  match v with
  | [] => Ret true
  | x :: v' => do r <- sc_round x;
               if sc_abs (x - r) >? epsilon then Ret false else v_is_integral v' epsilon
  end.
(** vec.h:1316-1319 [mix] *)
Definition v_mix (lhs rhs f : list T) : list T :=
  v_add (v_mul (v_sub (v_one (length f)) f) lhs) (v_mul f rhs).
(** vec.h:1333-1339 [fract] *)
Definition v_fract (v : list T) : outcome (list T) := mapM sc_fract v.
(** vec.h:1351-1358 [mod] *)
Definition v_mod (v f : list T) : outcome (list T) :=
  mapM (fun p => sc_mod (fst p) (snd p)) (combine v f).
(** vec.h:1369-1371 [distance] *)
Definition v_distance (lhs rhs : list T) : T := v_length (v_sub lhs rhs).
(** vec.h:1396-1399 [squared_distance] *)
Definition v_squared_distance (lhs rhs : list T) : T := v_squared_length (v_sub lhs rhs).
(** vec.h:1410-1413 [to_homogeneous_coords] *)
Definition v_to_homogeneous (point : list T) : list T := v_extend (fun x => x) point [cst 1].
(** vec.h:1424-1431 [to_cartesian_coords] *)
Definition v_to_cartesian (point : list T) : list T :=
  let S := length point in
  map (fun x => x / vget point (S - 1)) (firstn (S - 1) point).
(** vec.h:1444-1462 [is_colinear] *)
Definition v_is_colinear (a b c : list T) (epsilon : T) : bool :=
  let '(j, k, l) :=
    fold_left (fun jkl abc =>
      let '(j, k, l) := jkl in
      let '(ai, bi, ci) := abc in
      let ac := ai - ci in
      let ba := bi - ai in
      (j + ac * ba, k + ac * ac, l + ba * ba))
      (combine (combine a b) c) (cst 0, cst 0, cst 0) in
  sc_is_zero (j * j - k * l) epsilon.
(** vec.h:1475-1480 [is_parallel] *)
Definition v_is_parallel (lhs rhs : list T) (epsilon : T) : bool :=
  let cos := v_dot (v_normalize lhs) (v_normalize rhs) in
  sc_is_equal (sc_abs cos) (cst 1) epsilon.
(** vec.h:1511-1518 [floor], 1529-1536 [ceil], 1547-1553 [trunc], 1564-1570 [round] *)
Definition v_floor (v : list T) : outcome (list T) := mapM sc_floor v.
Definition v_ceil (v : list T) : outcome (list T) := mapM sc_ceil v.
Definition v_trunc (v : list T) : outcome (list T) := mapM sc_trunc v.
Definition v_round (v : list T) : outcome (list T) := mapM sc_round v.
(** vec.h:1582-1589 [snapDown], 1601-1608 [snapUp], 1619-1626 [snap] *)
Definition v_snap_down (v m : list T) : outcome (list T) :=
  mapM (fun p => sc_snap_down (fst p) (snd p)) (combine v m).
Definition v_snap_up (v m : list T) : outcome (list T) :=
  mapM (fun p => sc_snap_up (fst p) (snd p)) (combine v m).
Definition v_snap (v m : list T) : outcome (list T) :=
  mapM (fun p => sc_snap (fst p) (snd p)) (combine v m).
(** vec.h:1638-1647 [correct] *)
Definition v_correct (v : list T) (decimals : Z) (epsilon : T) : outcome (list T) :=
  mapM (fun x => sc_correct x decimals epsilon) v.
(** vec.h:1662-1675 [is_between] *)
Definition v_is_between (p start fin : list T) : outcome bool :=
  require (v_is_colinear p start fin colinear_epsilon)
    (if v_eq p start || v_eq p fin then Ret true
     else
       let toStart := v_sub start p in
       let toEnd := v_sub fin p in
       let d := v_dot toEnd (v_normalize toStart) in
       Ret (d <? cst 0)).
(** vec.h:1716-1730 [average]; the range is given by the values of [get] *)
Definition v_average (range : list (list T)) : outcome (list T) :=
  match range with
  | [] => Assert
  | v :: rest =>
    let '(result, count) :=
      fold_left (fun rc v => (v_add (fst rc) v, snd rc + cst 1)) rest (v, cst 1) in
    Ret (v_div_s result count)
  end.

Context {lm : libm T}.
(** vec.h:1743-1754 [measure_angle] *)
Definition measure_angle (v axis up : list T) : T :=
  let cosAngle := sc_clamp (v_dot v axis) (cst (-1)) (cst 1) in
  let angle := f_acos cosAngle in
  let perp := v_cross axis v in
  if v_dot perp up >=? cst 0 then angle else two_pi - angle.
End Vec.
