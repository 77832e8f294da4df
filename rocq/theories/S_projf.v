(** Specification of projections of machine points onto lines (C119). *)
From Coq Require Import ZArith Reals List.
From Flocq Require Import Core BinarySingleNaN.
From Verif Require Import S_vec S_rnd M_geom.
Local Open Scope R_scope.

(** The line of the values of a line of machine numbers *)
Definition line_values {prec emax} (l : line (binary_float prec emax)) : line R := Ln (values (ln_point l)) (values (ln_dir l)).
(** A point of finite machine numbers whose coordinates are those of q up to e *)
Definition point_near {prec emax} (x : list (binary_float prec emax)) (q : list R) (e : R) : Prop :=
  all_finite x /\ Forall2 (fun a b => Rabs (a - b) <= e) (values x) q.
