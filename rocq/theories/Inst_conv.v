(** [static_cast] between binary floating point types: the value rounded to nearest even. Used by the
    converting constructors of the library's types. *)
From Coq Require Import ZArith.
From Flocq Require Import Core BinarySingleNaN.
From Verif Require Import Ops Inst_F.

Definition F_conv {p1 e1 : Z} (p2 e2 : Z) (Hp : Prec_gt_0 p2) (Hm : Prec_lt_emax p2 e2)
    (x : binary_float p1 e1) : binary_float p2 e2 :=
  match x with
  | B754_zero s => B754_zero s
  | B754_infinity s => B754_infinity s
  | B754_nan => B754_nan
  | B754_finite s m e _ => binary_normalize p2 e2 Hp Hm mode_NE (cond_Zopp s (Zpos m)) e s
  end.
(** double to float and float to double *)
Definition to_single : double -> single := F_conv 24 128 Hprec24 Hmax24.
Definition to_double : single -> double := F_conv 53 1024 Hprec53 Hmax53.
