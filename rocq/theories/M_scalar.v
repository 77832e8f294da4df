(** Model of scalar.h. *)
From Coq Require Import ZArith List Bool.
From Verif Require Import Ops.
Import ListNotations.
Local Open Scope sc_scope.

Section Scalar.
Context {T : Type} {o : ops T}.

(** scalar.h:51-54 [is_nan] *)
Definition is_nan (f : T) : bool := f <>? f.
(** scalar.h:63-66 [is_inf] *)
Definition is_inf (f : T) : bool := (f =? o_inf) || (f =? - o_inf).
(** scalar.h:86-88 [abs] *)
Definition sc_abs (v : T) : T := if v <? cst 0 then - v else v.

(** scalar.h:97-118 [min]; the parameter pack is a list *)
Fixpoint sc_min (lhs : T) (rest : list T) : T :=
  match rest with
  | [] => lhs
  | rhs :: rest' => if lhs <? rhs then sc_min lhs rest' else sc_min rhs rest'
  end.
(** scalar.h:127-148 [max] *)
Fixpoint sc_max (lhs : T) (rest : list T) : T :=
  match rest with
  | [] => lhs
  | rhs :: rest' => if lhs >? rhs then sc_max lhs rest' else sc_max rhs rest'
  end.
(** scalar.h:157-179 [abs_min] *)
Fixpoint sc_abs_min (lhs : T) (rest : list T) : T :=
  match rest with
  | [] => lhs
  | rhs :: rest' => if sc_abs lhs <? sc_abs rhs then sc_abs_min lhs rest' else sc_abs_min rhs rest'
  end.
(** scalar.h:188-210 [abs_max] *)
Fixpoint sc_abs_max (lhs : T) (rest : list T) : T :=
  match rest with
  | [] => lhs
  | rhs :: rest' => if sc_abs lhs >? sc_abs rhs then sc_abs_max lhs rest' else sc_abs_max rhs rest'
  end.
(** scalar.h:219-245 [safe_min] *)
Fixpoint sc_safe_min (lhs : T) (rest : list T) : T :=
  match rest with
  | [] => lhs
  | rhs :: rest' =>
    if is_nan lhs then sc_safe_min rhs rest'
    else if is_nan rhs then sc_safe_min lhs rest'
    else if lhs <? rhs then sc_safe_min lhs rest'
    else sc_safe_min rhs rest'
  end.
(** scalar.h:254-280 [safe_max] *)
Fixpoint sc_safe_max (lhs : T) (rest : list T) : T :=
  match rest with
  | [] => lhs
  | rhs :: rest' =>
    if is_nan lhs then sc_safe_max rhs rest'
    else if is_nan rhs then sc_safe_max lhs rest'
    else if lhs >? rhs then sc_safe_max lhs rest'
    else sc_safe_max rhs rest'
  end.

(** scalar.h:290-296 [abs_difference], signed case (all floating point types) *)
Definition sc_abs_difference (lhs rhs : T) : T := sc_abs (sc_abs lhs - sc_abs rhs).
(** scalar.h:290-296 [abs_difference], unsigned case; no wrap-around can happen *)
Definition sc_abs_difference_unsigned (lhs rhs : T) : T :=
  if lhs >? rhs then lhs - rhs else rhs - lhs.

(** scalar.h:307-311 [clamp] *)
Definition sc_clamp (v minV maxV : T) : T := sc_max (sc_min v [maxV]) [minV].
(** scalar.h:321-329 [sign] *)
Definition sc_sign (v : T) : T :=
  if v <? cst 0 then cst (-1) else if v >? cst 0 then cst 1 else cst 0.
(** scalar.h:339-341 [step] *)
Definition sc_step (e v : T) : T := if v <? e then cst 0 else cst 1.
(** scalar.h:352-356 [smoothstep] *)
Definition sc_smoothstep (e0 e1 v : T) : T :=
  let t := sc_clamp ((v - e0) / (e1 - e0)) (cst 0) (cst 1) in
  t * t * (cst 3 - cst 2 * t).

(** scalar.h:366-368 [trunc]; the conversion to int64_t is undefined out of range *)
Definition sc_trunc (v : T) : outcome T :=
  match o_to_i64 v with
  | Some z => Ret (o_of_Z z)
  | None => UB
  end.
(** scalar.h:378-381 [mod] *)
Definition sc_mod (x y : T) : outcome T :=
  do t <- sc_trunc (x / y); Ret (x - y * t).
(** scalar.h:390-394 [floor] *)
Definition sc_floor (v : T) : outcome T :=
  do r <- sc_trunc v;
  Ret (if v >=? cst 0 then r else if r =? v then v else r - cst 1).
(** scalar.h:403-407 [ceil] *)
Definition sc_ceil (v : T) : outcome T :=
  do r <- sc_trunc v;
  Ret (if v <? cst 0 then r else if r =? v then r else r + cst 1).
(** scalar.h:417-419 [mix] *)
Definition sc_mix (x y a : T) : T := (cst 1 - a) * x + a * y.
(** scalar.h:428-434 [fract] *)
Definition sc_fract (v : T) : outcome T :=
  if v >? cst 0 then do f <- sc_floor v; Ret (v - f)
  else do c <- sc_ceil v; Ret (v - c).
(** scalar.h:443-446 [round] *)
Definition sc_round (v : T) : outcome T :=
  if v >? cst 0 then sc_floor (v + lit 1 2) else sc_ceil (v - lit 1 2).
(** scalar.h:457-460 [round_up] *)
Definition sc_round_up (v : T) : outcome T :=
  if v <? cst 0 then sc_floor v else sc_ceil v.
(** scalar.h:471-476 [round_down] *)
Definition sc_round_down (v : T) : outcome T :=
  if v >? cst 0 then sc_floor v else sc_ceil v.
(** scalar.h:486-490 [snap] *)
Definition sc_snap (v grid : T) : outcome T :=
  require (grid <>? cst 0) (do r <- sc_round (v / grid); Ret (grid * r)).
(** scalar.h:500-504 [snapUp] *)
Definition sc_snap_up (v grid : T) : outcome T :=
  require (grid >? cst 0) (do r <- sc_round_up (v / grid); Ret (grid * r)).
(** scalar.h:514-518 [snapDown] *)
Definition sc_snap_down (v grid : T) : outcome T :=
  require (grid >? cst 0) (do r <- sc_round_down (v / grid); Ret (grid * r)).
(** scalar.h:531-542 [correct]; [1u << decimals] is undefined from 32 on *)
Definition sc_correct (v : T) (decimals : Z) (epsilon : T) : outcome T :=
  if (decimals <? 32)%Z then
    let m := o_of_Z (2 ^ decimals) in
    do r <- sc_round (v * m);
    Ret (if sc_abs (v - r) <? epsilon then r / m else v)
  else UB.
(** scalar.h:554-556 [is_equal] *)
Definition sc_is_equal (lhs rhs epsilon : T) : bool := sc_abs (lhs - rhs) <=? epsilon.
(** scalar.h:566-572 [is_zero] *)
Definition sc_is_zero (v epsilon : T) : bool := (v =? cst 0) || (sc_abs v <=? epsilon).
(** scalar.h:584-590 [contains] *)
Definition sc_contains (v s e : T) : bool :=
  if s <? e then (v >=? s) && (v <=? e) else (v >=? e) && (v <=? s).

(** Loop of scalar.h:626-628 and 643-645 with explicit fuel: [while (angle < 0) angle += o]. *)
Fixpoint wrap_up (fuel : nat) (angle per : T) : outcome T :=
  if angle <? cst 0 then
    match fuel with
    | O => Fuel
    | S fuel' => wrap_up fuel' (angle + per) per
    end
  else Ret angle.
(** scalar.h:640-648 [normalize_degrees] *)
Definition sc_normalize_degrees (fuel : nat) (angle : T) : outcome T :=
  do a <- wrap_up fuel angle (cst 360); sc_mod a (cst 360).

(** scalar.h:703-705 [sqrt_c_nr] with explicit fuel *)
Fixpoint sqrt_c_nr (fuel : nat) (x curr prev : T) : outcome T :=
  if curr =? prev then Ret curr
  else match fuel with
       | O => Fuel
       | S fuel' => sqrt_c_nr fuel' x (lit 1 2 * (curr + x / curr)) curr
       end.
(** scalar.h:714-723 [sqrt_c] *)
Definition sqrt_c (fuel : nat) (value : T) : outcome T :=
  if is_nan value || (value =? o_inf) then Ret value
  else if value >=? cst 0 then sqrt_c_nr fuel value value (cst 0)
  else Ret o_nan.

(** scalar.h:752-771 [solve_quadratic]; the number of solutions and the two slots *)
Definition solve_quadratic (a b c epsilon : T) : nat * (T * T) :=
  let p := b / (cst 2 * a) in
  let q := c / a in
  let D := p * p - q in
  if sc_is_zero D epsilon then (1%nat, (- p, o_nan))
  else if D <? cst 0 then (0%nat, (o_nan, o_nan))
  else let D2 := o_sqrt D in (2%nat, (D2 - p, - D2 - p)).

Context {lm : libm T}.

(** scalar.h:599-602 [to_radians] *)
Definition to_radians (d : T) : T := d * k_pi / cst 180.
(** scalar.h:611-614 [to_degrees] *)
Definition to_degrees (r : T) : T := r * cst 180 / k_pi.
(** scalar.h:623-631 [normalize_radians] *)
Definition sc_normalize_radians (fuel : nat) (angle : T) : outcome T :=
  do a <- wrap_up fuel angle two_pi; sc_mod a two_pi.

(** scalar.h:789-847 [solve_cubic]; the number of solutions and the three slots. The final loop
    subtracts from the first [num] slots only. *)
Definition solve_cubic (a b c d epsilon : T) : nat * (T * T * T) :=
  let A := b / a in
  let B := c / a in
  let C := d / a in
  let p := lit 1 3 * (- lit 1 3 * A * A + B) in
  let q := lit 1 2 * (lit 2 27 * A * A * A - lit 1 3 * A * B + C) in
  let p3 := p * p * p in
  let D := q * q + p3 in
  let sub := lit 1 3 * A in
  if sc_is_zero D epsilon then
    if sc_is_zero q epsilon then (1%nat, (cst 0 - sub, o_nan, o_nan))
    else let u := f_cbrt (- q) in
         (2%nat, (u * cst 2 - sub, - u - sub, o_nan))
  else if D <? cst 0 then
    let phi := lit 1 3 * f_acos (- q / o_sqrt (- p3)) in
    let t := cst 2 * o_sqrt (- p) in
    (3%nat, (t * f_cos phi - sub,
             - t * f_cos (phi + k_pi / cst 3) - sub,
             - t * f_cos (phi - k_pi / cst 3) - sub))
  else
    let D2 := o_sqrt D in
    let u := f_cbrt (D2 - q) in
    let v := - f_cbrt (D2 + q) in
    (1%nat, (u + v - sub, o_nan, o_nan)).

(** In-place update of a C array; indices are in range in all uses. *)
Fixpoint upd {A} (l : list A) (i : nat) (x : A) : list A :=
  match l, i with
  | [], _ => []
  | _ :: l', O => x :: l'
  | y :: l', S i' => y :: upd l' i' x
  end.
(** [for (i = 0; i < n; ++i) l[i] = f(l[i])] *)
Fixpoint upd_first {A} (n : nat) (f : A -> A) (l : list A) : list A :=
  match n, l with
  | S n', x :: l' => f x :: upd_first n' f l'
  | _, _ => l
  end.

(** scalar.h:866-955 [solve_quartic]; the number of solutions and the four slots *)
Definition solve_quartic (a b c d e epsilon : T) : outcome (nat * list T) :=
  let A := b / a in
  let B := c / a in
  let C := d / a in
  let D := e / a in
  let p := - lit 3 8 * A * A + B in
  let q := lit 1 8 * A * A * A - lit 1 2 * A * B + C in
  let r := - lit 3 256 * A * A * A * A + lit 1 16 * A * A * B - lit 1 4 * A * C + D in
  let sub := lit 1 4 * A in
  let finish (num : nat) (solutions : list T) :=
    Ret (num, upd_first num (fun s => s - sub) solutions) in
  let none := Ret (0%nat, [o_nan; o_nan; o_nan; o_nan]) in
  if sc_is_zero r epsilon then
    let '(num3, (s1, s2, s3)) := solve_cubic (cst 1) (cst 0) p q epsilon in
    let num := S num3 in
    finish num (upd [s1; s2; s3; o_nan] (Nat.sub num 1) (cst 0))
  else
    let '(num3, (z, _, _)) :=
      solve_cubic (cst 1) (- lit 1 2 * p) (- r) (lit 1 2 * r * p - lit 1 8 * q * q) epsilon in
    require (Nat.ltb 0 num3)
     (let u := z * z - r in
      let v := cst 2 * z - p in
      let u' := if sc_is_zero u epsilon then Some (cst 0)
                else if u >? cst 0 then Some (o_sqrt u) else None in
      match u' with
      | None => none
      | Some u =>
        let v' := if sc_is_zero v epsilon then Some (cst 0)
                  else if v >? cst 0 then Some (o_sqrt v) else None in
        match v' with
        | None => none
        | Some v =>
          let '(num2_1, (x1, x2)) :=
            solve_quadratic (cst 1) (if q <? cst 0 then - v else v) (z - u) epsilon in
          let '(num2_2, (y1, y2)) :=
            solve_quadratic (cst 1) (if q <? cst 0 then v else - v) (z + u) epsilon in
          let s := [o_nan; o_nan; o_nan; o_nan] in
          let s := if Nat.ltb 0 num2_1 then upd s 0 x1 else s in
          let s := if Nat.ltb 1 num2_1 then upd s 1 x2 else s in
          let s := if Nat.ltb 0 num2_1 then upd s (0 + num2_1) y1 else s in
          let s := if Nat.ltb 1 num2_1 then upd s (1 + num2_1) y2 else s in
          finish (Nat.add num2_1 num2_2) s
        end
      end).
End Scalar.

(** scalar.h:660-665 [succ] for an unsigned type of [w] bits; [%] by zero is undefined *)
Definition u_succ (w index count stride : Z) : outcome Z :=
  if (count =? 0)%Z then UB
  else Ret (((index + stride) mod 2 ^ w) mod count)%Z.
(** scalar.h:677-683 [pred] for an unsigned type of [w] bits *)
Definition u_pred (w index count stride : Z) : outcome Z :=
  if (count =? 0)%Z then UB
  else Ret (((((index + count) mod 2 ^ w) - (stride mod count)) mod 2 ^ w) mod count)%Z.
