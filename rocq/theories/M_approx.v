(** Model of approx.h and bezier_surface.h. *)
From Coq Require Import ZArith List Bool Arith.
From Verif Require Import Ops M_scalar M_vec M_mat M_geom.
Import ListNotations.
Local Open Scope sc_scope.

(** approx.h:32-33, 124-125, 192-193, 228-229: the value and the epsilon *)
Record approx (A T : Type) := Approx { ap_value : A; ap_eps : T }.
Arguments Approx {A T} _ _.
Arguments ap_value {A T} _.
Arguments ap_eps {A T} _.

Section Approx.
Context {T : Type} {o : ops T}.

(** approx.h:36-42, 128-134, 196-202, 232-238: the constructors *)
Definition ap_make {A} (value : A) (epsilon : T) : outcome (approx A T) :=
  require (epsilon >=? cst 0) (Ret (Approx value epsilon)).
Definition ap_make_default {A} (value : A) : outcome (approx A T) := ap_make value almost_zero.

(** approx.h:44-84, numbers. The suffix tells on which side the approx is. *)
Definition ap_eq_r (lhs : T) (rhs : approx T T) : bool :=
  (lhs >=? ap_value rhs - ap_eps rhs) && (lhs <=? ap_value rhs + ap_eps rhs).
Definition ap_eq_l (lhs : approx T T) (rhs : T) : bool := ap_eq_r rhs lhs.
Definition ap_ne_r (lhs : T) (rhs : approx T T) : bool := negb (ap_eq_r lhs rhs).
Definition ap_ne_l (lhs : approx T T) (rhs : T) : bool := negb (ap_eq_l lhs rhs).
Definition ap_lt_r (lhs : T) (rhs : approx T T) : bool := lhs <? ap_value rhs - ap_eps rhs.
Definition ap_lt_l (lhs : approx T T) (rhs : T) : bool := ap_value lhs <? rhs - ap_eps lhs.
Definition ap_le_r (lhs : T) (rhs : approx T T) : bool := lhs <=? ap_value rhs + ap_eps rhs.
Definition ap_le_l (lhs : approx T T) (rhs : T) : bool := ap_value lhs <=? rhs + ap_eps lhs.
Definition ap_gt_r (lhs : T) (rhs : approx T T) : bool := lhs >? ap_value rhs + ap_eps rhs.
Definition ap_gt_l (lhs : approx T T) (rhs : T) : bool := ap_value lhs >? rhs + ap_eps lhs.
Definition ap_ge_r (lhs : T) (rhs : approx T T) : bool := lhs >=? ap_value rhs - ap_eps rhs.
Definition ap_ge_l (lhs : approx T T) (rhs : T) : bool := ap_value lhs >=? rhs - ap_eps lhs.

(** approx.h:92-120, std::vector of numbers and of approx *)
Fixpoint apl_loop (lhs : list T) (rhs : list (approx T T)) : bool :=
  match lhs, rhs with
  | x :: lhs', y :: rhs' => if ap_ne_r x y then false else apl_loop lhs' rhs'
  | _, _ => true
  end.
Definition apl_eq_r (lhs : list T) (rhs : list (approx T T)) : bool :=
  if negb (length lhs =? length rhs)%nat then false else apl_loop lhs rhs.
Definition apl_eq_l (lhs : list (approx T T)) (rhs : list T) : bool := apl_eq_r rhs lhs.
Definition apl_ne_r (lhs : list T) (rhs : list (approx T T)) : bool := negb (apl_eq_r lhs rhs).
Definition apl_ne_l (lhs : list (approx T T)) (rhs : list T) : bool := negb (apl_eq_l lhs rhs).

(** approx.h:136-174, vectors of S components. Not modelled: [operator>=] (approx.h:176-182), which subtracts a number
    from a vector and so does not compile when used. *)
Definition apv_eq_r (lhs : list T) (rhs : approx (list T) T) : bool := v_is_equal lhs (ap_value rhs) (ap_eps rhs).
Definition apv_eq_l (lhs : approx (list T) T) (rhs : list T) : bool := apv_eq_r rhs lhs.
Definition apv_ne_r (lhs : list T) (rhs : approx (list T) T) : bool := negb (apv_eq_r lhs rhs).
Definition apv_ne_l (lhs : approx (list T) T) (rhs : list T) : bool := negb (apv_eq_l lhs rhs).
Definition apv_lt_r (S : nat) (lhs : list T) (rhs : approx (list T) T) : bool :=
  v_lt lhs (v_sub (ap_value rhs) (v_fill S (ap_eps rhs))).
Definition apv_lt_l (S : nat) (lhs : approx (list T) T) (rhs : list T) : bool :=
  v_lt (ap_value lhs) (v_sub rhs (v_fill S (ap_eps lhs))).
Definition apv_le_r (S : nat) (lhs : list T) (rhs : approx (list T) T) : bool :=
  v_le lhs (v_add (ap_value rhs) (v_fill S (ap_eps rhs))).
Definition apv_le_l (S : nat) (lhs : approx (list T) T) (rhs : list T) : bool :=
  v_le (ap_value lhs) (v_add rhs (v_fill S (ap_eps lhs))).
Definition apv_gt_r (S : nat) (lhs : list T) (rhs : approx (list T) T) : bool :=
  v_gt lhs (v_add (ap_value rhs) (v_fill S (ap_eps rhs))).
Definition apv_gt_l (S : nat) (lhs : approx (list T) T) (rhs : list T) : bool :=
  v_gt (ap_value lhs) (v_add rhs (v_fill S (ap_eps lhs))).

(** approx.h:204-218, matrices *)
Definition apm_eq_r (lhs : list (list T)) (rhs : approx (list (list T)) T) : bool := m_is_equal lhs (ap_value rhs) (ap_eps rhs).
Definition apm_eq_l (lhs : approx (list (list T)) T) (rhs : list (list T)) : bool := apm_eq_r rhs lhs.
Definition apm_ne_r (lhs : list (list T)) (rhs : approx (list (list T)) T) : bool := negb (apm_eq_r lhs rhs).
Definition apm_ne_l (lhs : approx (list (list T)) T) (rhs : list (list T)) : bool := negb (apm_eq_l lhs rhs).
(** approx.h:240-246, lines *)
Definition apn_eq_r (lhs : line T) (rhs : approx (line T) T) : bool := ln_is_equal lhs (ap_value rhs) (ap_eps rhs).
Definition apn_eq_l (lhs : approx (line T) T) (rhs : line T) : bool := apn_eq_r rhs lhs.

(** bezier_surface.h:30-40, the Bernstein polynomials *)
Definition bernstein_0 (x : T) : T := cst 1 - cst 2 * x + x * x.
Definition bernstein_1 (x : T) : T := cst 2 * (x - x * x).
Definition bernstein_2 (x : T) : T := x * x.
(** bezier_surface.h:42-48; [C] is the dimension. The array is read at 0, 1, 2. *)
Definition bezier_interpolate (C : nat) (x : T) (p : list (list T)) : list T :=
  let result := v_zero C in
  let result := v_add result (v_scale_l (bernstein_0 x) (nth 0 p [])) in
  let result := v_add result (v_scale_l (bernstein_1 x) (nth 1 p [])) in
  v_add result (v_scale_l (bernstein_2 x) (nth 2 p [])).
(** bezier_surface.h:27-56 [evaluate_quadratic_bezier_surface] *)
Definition bezier_surface (C : nat) (controlPoints : list (list (list T))) (u v : T) : list T :=
  bezier_interpolate C v
    [bezier_interpolate C u (nth 0 controlPoints []);
     bezier_interpolate C u (nth 1 controlPoints []);
     bezier_interpolate C u (nth 2 controlPoints [])].
End Approx.
