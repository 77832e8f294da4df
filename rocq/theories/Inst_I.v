(** Machine integers as scalar types: the signed and unsigned integers of w bits that
    forward.h:35-58 instantiates the vectors with (int, long, size_t). What C++ leaves undefined
    (signed overflow, division by zero) is a value of its own that no comparison accepts. *)
From Coq Require Import ZArith List Bool.
From Verif Require Import Ops.
Local Open Scope Z_scope.

(** The numbers that w bits represent, signed in two's complement and unsigned *)
Definition s_ok (w z : Z) : bool := (- 2 ^ (w - 1) <=? z) && (z <? 2 ^ (w - 1)).
Definition u_ok (w z : Z) : bool := (0 <=? z) && (z <? 2 ^ w).
(** Signed integers: int, long *)
Inductive sint (w : Z) : Type :=
| SI (z : Z) (ok : s_ok w z = true)
| S_undef.
Arguments SI {w} z ok.
Arguments S_undef {w}.
(** Unsigned integers: size_t *)
Inductive uint (w : Z) : Type :=
| UI (z : Z) (ok : u_ok w z = true)
| U_undef.
Arguments UI {w} z ok.
Arguments U_undef {w}.

(** The result of an operation on signed integers: undefined if it is not representable *)
Definition s_fit (w z : Z) : sint w :=
  match Sumbool.sumbool_of_bool (s_ok w z) with left ok => SI z ok | right _ => S_undef end.
Definition s_op1 {w} (f : Z -> Z) (x : sint w) : sint w :=
  match x with SI a _ => s_fit w (f a) | S_undef => S_undef end.
Definition s_op2 {w} (f : Z -> Z -> Z) (x y : sint w) : sint w :=
  match x, y with SI a _, SI b _ => s_fit w (f a b) | _, _ => S_undef end.
(** Division truncates; dividing by zero is undefined. *)
Definition s_div {w} (x y : sint w) : sint w :=
  match x, y with SI a _, SI b _ => if b =? 0 then S_undef else s_fit w (Z.quot a b) | _, _ => S_undef end.
Definition s_cmp {w} (f : Z -> Z -> bool) (x y : sint w) : bool :=
  match x, y with SI a _, SI b _ => f a b | _, _ => false end.

(** numeric_limits of integers have no NaN and no infinity: both are 0. Simplification: the square
    root (std::sqrt of the conversion to double, truncated) is the integer root; no theorem uses it. *)
#[global] Instance Sops (w : Z) : ops (sint w) := {|
  o_add := s_op2 Z.add;
  o_sub := s_op2 Z.sub;
  o_mul := s_op2 Z.mul;
  o_div := s_div;
  o_neg := s_op1 Z.opp;
  o_lt := s_cmp Z.ltb;
  o_le := s_cmp Z.leb;
  o_eq := s_cmp Z.eqb;
  o_of_Z := s_fit w;
  o_to_i64 := fun x => match x with SI a _ => Some a | S_undef => None end;
  o_sqrt := fun x => match x with SI a _ => if a <? 0 then S_undef else s_fit w (Z.sqrt a) | S_undef => S_undef end;
  o_nan := s_fit w 0;
  o_inf := s_fit w 0
|}.

(** The result of an operation on unsigned integers: reduced modulo 2^w, which is representable for
    every width that is not negative *)
Definition u_fit (w z : Z) : uint w :=
  match Sumbool.sumbool_of_bool (u_ok w (z mod 2 ^ w)) with left ok => UI (z mod 2 ^ w) ok | right _ => U_undef end.
Definition u_op1 {w} (f : Z -> Z) (x : uint w) : uint w :=
  match x with UI a _ => u_fit w (f a) | U_undef => U_undef end.
Definition u_op2 {w} (f : Z -> Z -> Z) (x y : uint w) : uint w :=
  match x, y with UI a _, UI b _ => u_fit w (f a b) | _, _ => U_undef end.
Definition u_div {w} (x y : uint w) : uint w :=
  match x, y with UI a _, UI b _ => if b =? 0 then U_undef else u_fit w (a / b) | _, _ => U_undef end.
Definition u_cmp {w} (f : Z -> Z -> bool) (x y : uint w) : bool :=
  match x, y with UI a _, UI b _ => f a b | _, _ => false end.

#[global] Instance Uops (w : Z) : ops (uint w) := {|
  o_add := u_op2 Z.add;
  o_sub := u_op2 Z.sub;
  o_mul := u_op2 Z.mul;
  o_div := u_div;
  o_neg := u_op1 Z.opp;
  o_lt := u_cmp Z.ltb;
  o_le := u_cmp Z.leb;
  o_eq := u_cmp Z.eqb;
  o_of_Z := u_fit w;
  o_to_i64 := fun x => match x with UI a _ => if a <? 2 ^ 63 then Some a else Some (a - 2 ^ 64) | U_undef => None end;
  o_sqrt := fun x => match x with UI a _ => u_fit w (Z.sqrt a) | U_undef => U_undef end;
  o_nan := u_fit w 0;
  o_inf := u_fit w 0
|}.
