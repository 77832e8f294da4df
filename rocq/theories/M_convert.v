(** Model of the converting constructors of lines, rays and planes, of the default constructors of
    lines and rays, and of [static_cast] between integers and floating point numbers. *)
From Coq Require Import ZArith List Bool.
From Flocq Require Import Core BinarySingleNaN.
From Verif Require Import Ops M_scalar M_vec M_geom Inst_F Inst_I.
Local Open Scope Z_scope.

Section Geom.
Context {T : Type} {o : ops T}.
(** line.h:43-45, ray.h:49-51 default constructors; line.h has [point], [direction] *)
Definition ln_make_default (S : nat) : line T := Ln (v_zero S) (v_zero S).
Definition ray_make_default (S : nat) : ray T := Ray (v_zero S) (v_zero S).
(** line.h:61-64, ray.h:68-71, plane.h:65-68 converting constructors; [conv] is the [static_cast] of a component *)
Definition ln_convert {U} (conv : U -> T) (S : nat) (other : line U) : line T :=
  Ln (v_convert conv S (ln_point other)) (v_convert conv S (ln_dir other)).
Definition ray_convert {U} (conv : U -> T) (S : nat) (other : ray U) : ray T :=
  Ray (v_convert conv S (ray_origin other)) (v_convert conv S (ray_dir other)).
Definition pl_convert {U} (conv : U -> T) (S : nat) (other : plane U) : plane T :=
  Pl (conv (pl_dist other)) (v_convert conv S (pl_normal other)).
End Geom.

(** vec.h:100-106 with components of different kinds. Integer to floating point: rounded to nearest.
    An undefined integer becomes NaN; no theorem is about it. *)
Definition s_to_f {w} (prec emax : Z) (Hp : Prec_gt_0 prec) (Hm : Prec_lt_emax prec emax) (x : sint w) : binary_float prec emax :=
  match x with SI z _ => F_of_Z prec emax Hp Hm z | S_undef => B754_nan end.
Definition u_to_f {w} (prec emax : Z) (Hp : Prec_gt_0 prec) (Hm : Prec_lt_emax prec emax) (x : uint w) : binary_float prec emax :=
  match x with UI z _ => F_of_Z prec emax Hp Hm z | U_undef => B754_nan end.
(** Floating point to integer: truncated; undefined if the truncated number is not representable *)
Definition f_to_s {prec emax} (w : Z) (x : binary_float prec emax) : sint w :=
  if is_finite x then s_fit w (Btrunc x) else S_undef.
Definition f_to_u {prec emax} (w : Z) (x : binary_float prec emax) : uint w :=
  if is_finite x && u_ok w (Btrunc x) then u_fit w (Btrunc x) else U_undef.
(** Between integers: the value modulo 2^w; for signed targets this is what every compiler does and
    C++20 prescribes. *)
Definition s_to_s {w} (w' : Z) (x : sint w) : sint w' :=
  match x with SI z _ => s_fit w' ((z + 2 ^ (w' - 1)) mod 2 ^ w' - 2 ^ (w' - 1)) | S_undef => S_undef end.
Definition s_to_u {w} (w' : Z) (x : sint w) : uint w' := match x with SI z _ => u_fit w' z | S_undef => U_undef end.
Definition u_to_s {w} (w' : Z) (x : uint w) : sint w' :=
  match x with UI z _ => s_fit w' ((z + 2 ^ (w' - 1)) mod 2 ^ w' - 2 ^ (w' - 1)) | U_undef => S_undef end.
Definition u_to_u {w} (w' : Z) (x : uint w) : uint w' := match x with UI z _ => u_fit w' z | U_undef => U_undef end.
