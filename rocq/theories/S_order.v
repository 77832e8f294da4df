(** Specification of the order on vectors and ranges, independent of the model's functions: only
    the scalar operators <, == are used. *)
From Coq Require Import List Bool.
From Verif Require Import Ops.
Import ListNotations.

Section Lex.
Context {T : Type} {o : ops T}.

(** A value is NaN if it does not equal itself. *)
Definition NaN (x : T) : Prop := o_eq x x = false.
(** Component order: numbers as usual, NaN above all numbers; NaN equals NaN only. *)
Definition comp_lt (x y : T) : Prop := (~ NaN x /\ NaN y) \/ o_lt x y = true.
Definition comp_eq (x y : T) : Prop := (NaN x /\ NaN y) \/ o_eq x y = true.
End Lex.

(** Lexicographic order of sequences over an element order and equality: decided at the first
    position where the elements differ; a proper prefix is smaller. *)
Inductive lex {A} (lt eq : A -> A -> Prop) : list A -> list A -> Prop :=
| lex_prefix : forall y b, lex lt eq [] (y :: b)
| lex_here : forall x y a b, lt x y -> lex lt eq (x :: a) (y :: b)
| lex_next : forall x y a b, eq x y -> lex lt eq a b -> lex lt eq (x :: a) (y :: b).

(** The order of vectors and of sequences of vectors. *)
Definition vec_lt {T} {o : ops T} : list T -> list T -> Prop := lex comp_lt comp_eq.
Definition vec_eq {T} {o : ops T} : list T -> list T -> Prop := Forall2 comp_eq.
Definition seq_lt {T} {o : ops T} : list (list T) -> list (list T) -> Prop := lex vec_lt vec_eq.
Definition seq_eq {T} {o : ops T} : list (list T) -> list (list T) -> Prop := Forall2 vec_eq.
