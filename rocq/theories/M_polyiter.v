(** Model of the iterators of polygon.h. *)
From Coq Require Import ZArith List Bool Arith.
From Verif Require Import Ops M_scalar M_vec M_polygon.
Import ListNotations.

Section PolyIter.
Context {A : Type}.
(** polygon.h:142 [begin], 149 [end], 156 [rbegin], 163 [rend]. All four return iterators of the
    vertices (polygon.h:42), so that [++] goes to the next vertex for each. Such an iterator is the
    index of the vertex it refers to; the index one past the last is that of the end. *)
Definition pg_begin (p : list A) : nat := 0.
Definition pg_end (p : list A) : nat := length p.
Definition pg_rbegin (p : list A) : nat := 0.
Definition pg_rend (p : list A) : nat := length p.
(** [for (auto it = cur; it != end; ++it)]: the vertices [*it], in order. At most [n] iterations;
    going past the end is undefined behaviour. *)
Fixpoint pg_iterate (n : nat) (p : list A) (cur fin : nat) : outcome (list A) :=
  if (cur =? fin)%nat then Ret []
  else match n with
       | O => Fuel
       | S n' => do v <- arr_get p cur; do vs <- pg_iterate n' p (S cur) fin; Ret (v :: vs)
       end.
End PolyIter.
