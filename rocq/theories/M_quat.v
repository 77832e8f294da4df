(** Model of quat.h. *)
From Coq Require Import ZArith List Bool Arith.
From Verif Require Import Ops M_scalar M_vec.
Import ListNotations.
Local Open Scope sc_scope.

(** quat.h:34-39 *)
Record quat (T : Type) := Q { q_r : T; q_v : list T }.
Arguments Q {T} _ _.
Arguments q_r {T} _.
Arguments q_v {T} _.

Section Quat.
Context {T : Type} {o : ops T} {lm : libm T}.

(** quat.h:44-46 default constructor *)
Definition q_default : quat T := Q (cst 0) (v_zero 3).
(** quat.h:62-65 converting constructor *)
Definition q_convert {U} (conv : U -> T) (q : quat U) : quat T := Q (conv (q_r q)) (map conv (q_v q)).
(** vec.h:282-325 the named unit vectors used below *)
Definition pos_x3 : list T := [cst 1; cst 0; cst 0].
Definition pos_y3 : list T := [cst 0; cst 1; cst 0].
Definition pos_z3 : list T := [cst 0; cst 0; cst 1].
(** quat.h:117-121 [set_rotation]; 84 construction from axis and angle *)
Definition q_axis_angle (axis : list T) (angle : T) : outcome (quat T) :=
  require (v_is_unit axis almost_zero)
    (Ret (Q (f_cos (angle / cst 2)) (v_scale axis (f_sin (angle / cst 2))))).
(** quat.h:93-114 construction from two vectors *)
Definition q_from_to (from to : list T) : outcome (quat T) :=
  require (v_is_unit from almost_zero)
    (require (v_is_unit to almost_zero)
      (let cos := v_dot from to in
       if sc_is_equal cos (cst 1) almost_zero then q_axis_angle pos_z3 (cst 0)
       else if sc_is_equal (- cos) (cst 1) almost_zero then
         let axis := v_cross from pos_z3 in
         let axis := if sc_is_zero (v_squared_length axis) almost_zero then v_cross from pos_x3 else axis in
         q_axis_angle (v_normalize axis) (to_radians (cst 180))
       else
         let axis := v_normalize (v_cross from to) in
         let angle := f_acos cos in
         q_axis_angle axis angle)).
(** quat.h:129 [angle] *)
Definition q_angle (q : quat T) : T := cst 2 * f_acos (q_r q).
(** quat.h:136-142 [axis] *)
Definition q_axis (q : quat T) : list T :=
  if v_is_zero (q_v q) almost_zero then q_v q else v_div_s (q_v q) (f_sin (f_acos (q_r q))).
(** quat.h:149 [conjugate] *)
Definition q_conjugate (q : quat T) : quat T := Q (q_r q) (v_neg (q_v q)).
(** quat.h:167-171 [is_equal] *)
Definition q_is_equal (lhs rhs : quat T) (epsilon : T) : bool :=
  (sc_is_equal (q_r lhs) (q_r rhs) epsilon || sc_is_equal (q_r lhs) (- q_r rhs) epsilon)
  && v_is_equal (q_v lhs) (q_v rhs) epsilon.
(** quat.h:187-189 [operator==] *)
Definition q_eq (lhs rhs : quat T) : bool :=
  ((q_r lhs =? q_r rhs) || (q_r lhs =? - q_r rhs)) && v_eq (q_v lhs) (q_v rhs).
(** quat.h:201-203 [operator!=] *)
Definition q_ne (lhs rhs : quat T) : bool :=
  ((q_r lhs <>? q_r rhs) && (q_r lhs <>? - q_r rhs)) || v_ne (q_v lhs) (q_v rhs).
(** quat.h:212-225 unary [operator+], [operator-] *)
Definition q_pos (q : quat T) : quat T := q.
Definition q_neg (q : quat T) : quat T := Q (- q_r q) (q_v q).
(** quat.h:235-249 [operator*] with a scalar *)
Definition q_scale (lhs : quat T) (rhs : T) : quat T := Q (q_r lhs * rhs) (q_v lhs).
Definition q_scale_l (lhs : T) (rhs : quat T) : quat T := Q (lhs * q_r rhs) (q_v rhs).
(** quat.h:259-269 [operator*] *)
Definition q_mul (lhs rhs : quat T) : quat T :=
  let lr := q_r lhs in let lv := q_v lhs in
  let rr := q_r rhs in let rv := q_v rhs in
  let nx := lr * vx rv + vx lv * rr + vy lv * vz rv - vz lv * vy rv in
  let ny := lr * vy rv + vy lv * rr + vz lv * vx rv - vx lv * vz rv in
  let nz := lr * vz rv + vz lv * rr + vx lv * vy rv - vy lv * vx rv in
  let nr := lr * rr - v_dot lv rv in
  Q nr [nx; ny; nz].
(** quat.h:279-281 [operator*] with a vector *)
Definition q_rotate (lhs : quat T) (rhs : list T) : list T :=
  q_v (q_mul (q_mul lhs (Q (cst 0) rhs)) (q_conjugate lhs)).
End Quat.
