(** Specification of the equation solvers. *)
From Coq Require Import Reals List.
Import ListNotations.
Local Open Scope R_scope.

(** A solver reports the number of solutions and fills result slots. The answer is right for the
    function [f] if the first [n] slots hold [n] distinct numbers, these are exactly the zeros of
    [f], and the other slots hold NaN. *)
Definition solves (f : R -> R) (n : nat) (slots : list (option R)) : Prop :=
  exists rs : list R,
    slots = map Some rs ++ repeat None (length slots - n)
    /\ length rs = n /\ NoDup rs /\ forall y, f y = 0 <-> In y rs.

(** The polynomials. *)
Definition quadratic (a b c x : R) : R := a * x * x + b * x + c.
Definition cubic (a b c d x : R) : R := a * x * x * x + b * x * x + c * x + d.
Definition quartic (a b c d e x : R) : R := a * x * x * x * x + b * x * x * x + c * x * x + d * x + e.
(** Its derivative. *)
Definition quartic' (a b c d x : R) : R := 4 * a * x * x * x + 3 * b * x * x + 2 * c * x + d.

(** Like [solves], but a zero may be reported more than once. *)
Definition reports (f : R -> R) (n : nat) (slots : list (option R)) : Prop :=
  exists rs : list R,
    slots = map Some rs ++ repeat None (length slots - n)
    /\ length rs = n /\ forall y, f y = 0 <-> In y rs.

(** The solvers treat numbers up to a tolerance eps as zero. This changes nothing if every number that
    they compare with zero is zero or larger than the tolerance. *)
Definition gap (eps x : R) : Prop := x = 0 \/ eps < Rabs x.
(** For y^3 + b y^2 + c y + d: the discriminant (of y^3 + 3 P y + 2 Q after a shift), and Q. *)
Definition cubic_gap (eps b c d : R) : Prop :=
  let P := 1 / 3 * (- (1 / 3) * b * b + c) in
  let Q := 1 / 2 * (2 / 27 * b * b * b - 1 / 3 * b * c + d) in
  let D := Q * Q + P * P * P in
  D = 0 /\ gap eps Q \/ eps < Rabs D.
(** For y^4 + p y^2 + q y + r: r; the cubic y^3 + p y + q if r is 0; otherwise the resolvent cubic, and
    for its zeros z the discriminants of the quadratic factors. *)
Definition quartic_gap (eps p q r : R) : Prop :=
  gap eps r
  /\ (r = 0 -> cubic_gap eps 0 p q)
  /\ (r <> 0 ->
      cubic_gap eps (- (1 / 2) * p) (- r) (1 / 2 * r * p - 1 / 8 * q * q)
      /\ forall z, cubic 1 (- (1 / 2) * p) (- r) (1 / 2 * r * p - 1 / 8 * q * q) z = 0 ->
         gap eps (z * z - r) /\ gap eps (2 * z - p)
         /\ (0 <= z * z - r -> 0 <= 2 * z - p ->
             gap eps ((2 * z - p) / 4 - (z - sqrt (z * z - r))) /\ gap eps ((2 * z - p) / 4 - (z + sqrt (z * z - r))))).
(** A quartic polynomial without cubic term by the shift x = y - b / (4 a). *)
Definition depressed (a b c d e p q r : R) : Prop :=
  forall x, quartic a b c d e x = a * quartic 1 0 p q r (x + b / (4 * a)).
