(** Model of the rest of scalar.h, constants.h and vec.h that depends on the number format. *)
From Coq Require Import ZArith List.
From Flocq Require Import Core BinarySingleNaN.
From Verif Require Import Ops M_scalar M_vec Inst_F.
Import ListNotations.

Section Limits.
Variables prec emax : Z.
Context {Hprec : Prec_gt_0 prec} {Hmax : Prec_lt_emax prec emax}.
Notation fl := (binary_float prec emax).

(** scalar.h:693-701 [nextgreater]: std::nextafter towards infinity, which is the successor of IEEE 754 *)
Definition nextgreater (value : fl) : fl := Bsucc value.
(** std::numeric_limits<T>::min() for a floating point type: the smallest positive normal number *)
Definition numeric_min : fl := Bldexp mode_NE (cst 1) (2 - emax).
(** std::numeric_limits<T>::max() for a floating point type: the greatest finite number *)
Definition numeric_max : fl := Bmax_float.
End Limits.
(** The same for signed integers of w bits *)
Definition numeric_min_int (w : Z) : Z := (- 2 ^ (w - 1))%Z.
Definition numeric_max_int (w : Z) : Z := (2 ^ (w - 1) - 1)%Z.

(** vec.h:354-365 [min], [max]: all components set to the limit of the component type *)
Definition v_min_value {T} (min : T) (S : nat) : list T := v_fill S min.
Definition v_max_value {T} (max : T) (S : nat) : list T := v_fill S max.
(** vec.h:377-381 [get_vertices] copies the range to the output; [while (cur != end) out++ = *cur++] *)
Fixpoint v_get_vertices {T} (range out : list (list T)) : list (list T) :=
  match range with
  | [] => out
  | v :: range' => v_get_vertices range' (out ++ [v])
  end.

Section Constants.
Context {T : Type} {o : ops T} {lm : libm T}.
(** constants.h:115-118 *)
Definition quarter_pi : T := o_div k_pi (cst 4).
(** constants.h:125-128 *)
Definition three_half_pi : T := o_div (o_mul (cst 3) k_pi) (cst 2).
(** constants.h:135-138 *)
Definition euler : T := lit 2718281828459045 1000000000000000.
(** constants.h:85-88: the literal of [pi]; the class libm leaves the value of pi open *)
Definition pi_literal : T := lit 3141592653589793 1000000000000000.
End Constants.
