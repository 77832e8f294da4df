(** Boxes as sets of points, in terms of the scalar operators <= and < only. *)
From Coq Require Import List Bool.
From Verif Require Import Ops M_bbox S_order.
Import ListNotations.

Section BoxSet.
Context {T : Type} {o : ops T}.
(** Componentwise <= and <. *)
Definition vec_below (a b : list T) : Prop := Forall2 (fun x y => o_le x y = true) a b.
Definition vec_strictly_below (a b : list T) : Prop := Forall2 (fun x y => o_lt x y = true) a b.
(** n components, none of them NaN. *)
Definition point_of (n : nat) (a : list T) : Prop := length a = n /\ Forall (fun x => ~ NaN x) a.
(** A box of dimension n: the first corner is nowhere above the second. *)
Definition box_of (n : nat) (b : bbox T) : Prop :=
  point_of n (bb_min b) /\ point_of n (bb_max b) /\ vec_below (bb_min b) (bb_max b).
(** The points of a box; those strictly inside. *)
Definition in_set (b : bbox T) (p : list T) : Prop := vec_below (bb_min b) p /\ vec_below p (bb_max b).
Definition in_interior (b : bbox T) (p : list T) : Prop :=
  vec_strictly_below (bb_min b) p /\ vec_strictly_below p (bb_max b).
(** b is the smallest box of dimension n that contains all points with the property P. *)
Definition smallest_box (n : nat) (P : list T -> Prop) (b : bbox T) : Prop :=
  box_of n b /\ (forall p, P p -> in_set b p)
  /\ forall c, box_of n c -> (forall p, P p -> in_set c p) -> forall p, in_set b p -> in_set c p.
(** The points a sequence of points and boxes comprises. *)
Definition item_ok (n : nat) (i : bb_item T) : Prop :=
  match i with It_point p => point_of n p | It_box b => box_of n b end.
Definition comprises (l : list (bb_item T)) (p : list T) : Prop :=
  exists i, In i l /\ match i with It_point q => p = q | It_box b => in_set b p end.
End BoxSet.
