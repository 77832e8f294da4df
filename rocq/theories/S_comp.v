(** Vocabulary for functions that act on the components of vectors and matrices. *)
From Coq Require Import List.
From Verif Require Import Ops.
Import ListNotations.

(** Component i of the vector v is x. *)
Definition component {A} (v : list A) (i : nat) (x : A) : Prop := nth_error v i = Some x.
(** The call returns a vector exactly if f returns a value for every component, and then the vector of these. *)
Definition componentwise {A B} (f : A -> outcome B) (v : list A) (r : outcome (list B)) : Prop :=
  forall w, r = Ret w <-> Forall2 (fun x y => f x = Ret y) v w.
Definition componentwise2 {A B C} (f : A -> B -> outcome C) (v : list A) (w : list B) (r : outcome (list C)) : Prop :=
  forall u, r = Ret u <-> (length u = length v /\ forall i x y z, component v i x -> component w i y -> component u i z -> f x y = Ret z).
(** The same for functions without failure. *)
Definition all_components {A B} (f : A -> B) (v : list A) (r : list B) : Prop :=
  length r = length v /\ forall i x, component v i x -> component r i (f x).
Definition all_components2 {A B C} (f : A -> B -> C) (v : list A) (w : list B) (r : list C) : Prop :=
  length r = length v /\ forall i x y, component v i x -> component w i y -> component r i (f x y).
