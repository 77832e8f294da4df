(** Vectors close to each other. *)
From Coq Require Import Reals List.
From Flocq Require Import Core BinarySingleNaN.
From Verif Require Import Ops S_rnd.
Import ListNotations.
Local Open Scope R_scope.

(** A finite machine vector with components of at most the given distance from those of a real vector *)
Definition vnear {prec emax} (e : R) (v : list (binary_float prec emax)) (a : list R) : Prop := Forall2 (fun x y => near x y e) v a.
(** Two real vectors with components of at most the given distance from each other *)
Definition vclose (e : R) (a b : list R) : Prop := Forall2 (fun x y => Rabs (x - y) <= e) a b.
