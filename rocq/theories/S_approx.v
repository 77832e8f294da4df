(** Specification for approx.h. *)
From Coq Require Import Reals List.
Import ListNotations.
Local Open Scope R_scope.

(** Exactly one of three conditions holds. *)
Definition exactly_one3 (a b c : bool) : Prop :=
  (a = true /\ b = false /\ c = false) \/ (a = false /\ b = true /\ c = false) \/ (a = false /\ b = false /\ c = true).
(** No component differs by more than eps. *)
Definition vec_within (eps : R) (a b : list R) : Prop := Forall2 (fun x y => Rabs (x - y) <= eps) a b.
