(** Exact real arithmetic as a scalar type. [None] stands for every result that is not a finite
    number (NaN or an infinity); comparisons with it are false. No rounding and no overflow. *)
From Coq Require Import ZArith Reals List Bool Lra.
From Flocq Require Import Core.
From Verif Require Import Ops.
Local Open Scope R_scope.

Notation XR := (option R).

Definition X1 (f : R -> R) (x : XR) : XR := match x with Some a => Some (f a) | None => None end.
Definition X2 (f : R -> R -> R) (x y : XR) : XR :=
  match x, y with Some a, Some b => Some (f a b) | _, _ => None end.
Definition Xcmp (f : R -> R -> bool) (x y : XR) : bool :=
  match x, y with Some a, Some b => f a b | _, _ => false end.
Definition Xdiv (x y : XR) : XR :=
  match x, y with
  | Some a, Some b => if Req_bool b 0 then None else Some (a / b)
  | _, _ => None
  end.
Definition Xsqrt (x : XR) : XR :=
  match x with
  | Some a => if Rlt_bool a 0 then None else Some (sqrt a)
  | None => None
  end.
(** [static_cast<int64_t>]: defined for numbers strictly between -2^63-1 and 2^63. *)
Definition Xto_i64 (x : XR) : option Z :=
  match x with
  | Some a => let z := Ztrunc a in
              if ((- 2 ^ 63 <=? z) && (z <? 2 ^ 63))%Z then Some z else None
  | None => None
  end.

#[global] Instance XRops : ops XR := {|
  o_add := X2 Rplus;
  o_sub := X2 Rminus;
  o_mul := X2 Rmult;
  o_div := Xdiv;
  o_neg := X1 Ropp;
  o_lt := Xcmp Rlt_bool;
  o_le := Xcmp Rle_bool;
  o_eq := Xcmp Req_bool;
  o_of_Z := fun z => Some (IZR z);
  o_to_i64 := Xto_i64;
  o_sqrt := Xsqrt;
  o_nan := None;
  o_inf := None
|}.

(** The real cube root. *)
Definition Rcbrt (x : R) : R :=
  if Req_bool x 0 then 0
  else if Rlt_bool 0 x then Rpower x (/ 3)
  else - Rpower (- x) (/ 3).

(** The angle of the vector (x,y), in (-pi, pi], 0 for the origin. *)
Definition Ratan2 (y x : R) : R :=
  if Rlt_bool 0 x then atan (y / x)
  else if Rlt_bool x 0 then
    if Rlt_bool y 0 then atan (y / x) - PI else atan (y / x) + PI
  else if Rlt_bool 0 y then PI / 2
  else if Rlt_bool y 0 then - (PI / 2)
  else 0.

Definition Xunit (f : R -> R) (x : XR) : XR :=
  match x with
  | Some a => if Rlt_bool 1 (Rabs a) then None else Some (f a)
  | None => None
  end.

(** Simplification: pi is exact. [tan] is not finite where the cosine vanishes; [asin] and [acos]
    are NaN outside [-1,1]. *)
#[global] Instance XRlibm : libm XR := {|
  k_pi := Some PI;
  f_sin := X1 sin;
  f_cos := X1 cos;
  f_tan := fun x => match x with
                    | Some a => if Req_bool (cos a) 0 then None else Some (tan a)
                    | None => None
                    end;
  f_asin := Xunit asin;
  f_acos := Xunit acos;
  f_atan2 := X2 Ratan2;
  f_cbrt := X1 Rcbrt
|}.
