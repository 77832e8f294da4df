(** Specification for polygon.h: vertex sequences, their rotations and reversals. *)
From Coq Require Import List.
From Verif Require Import Ops S_order.
Import ListNotations.

(** [q] is [p] read cyclically from another starting position. *)
Definition rotation_of {A} (p q : list A) : Prop := exists a b, p = a ++ b /\ q = b ++ a.

Section Polygon.
Context {T : Type} {o : ops T}.

(** All vertices have dimension [n]. *)
Definition vertices_of_dim (n : nat) (p : list (list T)) : Prop := Forall (fun v => length v = n) p.
(** The first vertex is not greater than any other one. *)
Definition least_first (p : list (list T)) : Prop :=
  match p with
  | [] => True
  | v0 :: rest => forall v, In v rest -> ~ vec_lt v v0
  end.
(** No two vertices at different positions are equal. *)
Definition distinct (p : list (list T)) : Prop := ForallOrdPairs (fun v w => ~ vec_eq v w) p.
(** The same vertices after the first one, in the opposite order. *)
Definition reverse_order (p q : list (list T)) : Prop :=
  match p, q with
  | [], [] => True
  | v :: l, w :: r => vec_eq v w /\ seq_eq l (rev r)
  | _, _ => False
  end.
(** The same number of vertices, and the same ones from the third on. *)
Definition same_except_second (p q : list (list T)) : Prop :=
  match p, q with
  | v :: _ :: l, w :: _ :: r => vec_eq v w /\ seq_eq l r
  | _, _ => False
  end.
End Polygon.
