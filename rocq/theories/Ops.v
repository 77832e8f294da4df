(** Common ground of the model: outcomes of a C++ call and the operations of a scalar type. *)
From Coq Require Import ZArith List Bool.
Import ListNotations.

(** Outcome of a call: a value, a failed [assert], undefined behaviour, or a loop that used up the
    fuel given to it. The last three are kept apart from every value. *)
Inductive outcome (A : Type) : Type :=
| Ret (a : A)
| Assert
| UB
| Fuel.
Arguments Ret {A} a.
Arguments Assert {A}.
Arguments UB {A}.
Arguments Fuel {A}.

Definition bind {A B} (x : outcome A) (f : A -> outcome B) : outcome B :=
  match x with
  | Ret a => f a
  | Assert => Assert
  | UB => UB
  | Fuel => Fuel
  end.
Notation "'do' x <- e ; f" := (bind e (fun x => f))
  (at level 200, x name, e at level 100, f at level 200, right associativity).

(** [assert(b); k] with assertions enabled. *)
Definition require {A} (b : bool) (k : outcome A) : outcome A := if b then k else Assert.

(** Runs an outcome producing function over a list, front to back. *)
Fixpoint mapM {A B} (f : A -> outcome B) (l : list A) : outcome (list B) :=
  match l with
  | [] => Ret []
  | a :: l' => do b <- f a; do bs <- mapM f l'; Ret (b :: bs)
  end.

(** The operations of the scalar type [T] the library is instantiated with. [o_lt], [o_le] and
    [o_eq] are the C++ operators <, <= and ==; a > b is [o_lt b a] and a >= b is [o_le b a].
    [o_of_Z] is [static_cast<T>] from an integer; [o_to_i64] is [static_cast<int64_t>], which
    answers [None] where C++ leaves the conversion undefined. *)
Class ops (T : Type) := mk_ops {
  o_add : T -> T -> T;
  o_sub : T -> T -> T;
  o_mul : T -> T -> T;
  o_div : T -> T -> T;
  o_neg : T -> T;
  o_lt : T -> T -> bool;
  o_le : T -> T -> bool;
  o_eq : T -> T -> bool;
  o_of_Z : Z -> T;
  o_to_i64 : T -> option Z;
  o_sqrt : T -> T;
  o_nan : T;
  o_inf : T
}.

(** The functions of the C math library used by the library, and the value of pi
    (constants.h:85-88). *)
Class libm (T : Type) := mk_libm {
  k_pi : T;
  f_sin : T -> T;
  f_cos : T -> T;
  f_tan : T -> T;
  f_asin : T -> T;
  f_acos : T -> T;
  f_atan2 : T -> T -> T;
  f_cbrt : T -> T
}.

Declare Scope sc_scope.
Delimit Scope sc_scope with sc.
Notation "a + b" := (o_add a b) : sc_scope.
Notation "a - b" := (o_sub a b) : sc_scope.
Notation "a * b" := (o_mul a b) : sc_scope.
Notation "a / b" := (o_div a b) : sc_scope.
Notation "- a" := (o_neg a) : sc_scope.
Notation "a <? b" := (o_lt a b) : sc_scope.
Notation "a >? b" := (o_lt b a) : sc_scope.
Notation "a <=? b" := (o_le a b) : sc_scope.
Notation "a >=? b" := (o_le b a) : sc_scope.
Notation "a =? b" := (o_eq a b) : sc_scope.
Notation "a <>? b" := (negb (o_eq a b)) (at level 70) : sc_scope.

Section Literals.
Context {T : Type} {o : ops T}.

(** [static_cast<T>(n)] for an integer literal. *)
Definition cst (n : Z) : T := o_of_Z n.
(** [static_cast<T>(p/q)] for a decimal literal or constant quotient. Simplification: it is
    computed by one division in T; for double this is the literal's value since all numerators and
    denominators used are exactly representable. *)
Definition lit (p q : Z) : T := o_div (o_of_Z p) (o_of_Z q).

(** constants.h:31-34 *)
Definition almost_zero : T := lit 1 1000.
(** constants.h:42-45 *)
Definition point_status_epsilon : T := lit 1 10000.
(** constants.h:52-55 *)
Definition correct_epsilon : T := lit 1 1000.
(** constants.h:62-66 *)
Definition colinear_epsilon : T := lit 1 100000.
(** constants.h:73-78 *)
Definition angle_epsilon : T := lit 1 100000000.

Context {lm : libm T}.
(** constants.h:95-98 *)
Definition two_pi : T := o_mul (cst 2) k_pi.
(** constants.h:105-108 *)
Definition half_pi : T := o_div k_pi (cst 2).
End Literals.
