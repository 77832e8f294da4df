(** Specification of sorting and of convex hulls. *)
From Coq Require Import Reals List Arith Sorted Permutation.
From Verif Require Import S_vec S_polygon.
Import ListNotations.
Local Open Scope R_scope.

(** The comparison is a strict weak ordering of the elements of the list. *)
Definition strict_weak_order {A} (lt : A -> A -> bool) (l : list A) : Prop :=
  (forall x, In x l -> lt x x = false)
  /\ (forall x y z, In x l -> In y l -> In z l -> lt x y = true -> lt y z = true -> lt x z = true)
  /\ (forall x y z, In x l -> In y l -> In z l -> lt x y = false -> lt y x = false -> lt y z = false -> lt z y = false ->
        lt x z = false /\ lt z x = false).
(** What the standard promises of [std::sort]: if the comparison is a strict weak ordering, then the result
    is a permutation in which no element is less than one before it. *)
Definition sorts {A} (sort : (A -> A -> bool) -> list A -> list A) : Prop :=
  forall lt l, strict_weak_order lt l -> Permutation l (sort lt l) /\ StronglySorted (fun x y => lt y x = false) (sort lt l).

(** All points are in one plane with normal n. *)
Definition coplanar (n : list R) (ps : list (list R)) : Prop :=
  length n = 3%nat /\ rdot n n <> 0 /\ Forall (fun p => length p = 3%nat) ps
  /\ forall p q, In p ps -> In q ps -> rdot p n = rdot q n.
(** The vertices are given points, in the order of a convex polygon, and all given points are in this polygon. *)
Definition hull_polygon (n : list R) (ps hull : list (list R)) : Prop :=
  (3 <= length hull)%nat /\ incl hull ps
  /\ exists s, (s = 1 \/ s = -1)
     /\ (forall i j, (0 < i < j)%nat -> (j < length hull)%nat -> 0 < s * turn n (vertex hull 0) (vertex hull i) (vertex hull j))
     /\ Forall (in_polygon s n hull) ps.
(** The unit vector of an axis *)
Definition along (axis : nat) : list R := map (fun j => if Nat.eqb j axis then 1 else 0) (seq 0 3).
(** Seen along an axis, from its positive end, the vertices are given points in the counter-clockwise order of a convex polygon, and all
    given points are in this polygon. *)
Definition seen_hull (axis : nat) (ps hull : list (list R)) : Prop :=
  (3 <= length hull)%nat /\ incl hull ps
  /\ (forall i j, (0 < i < j)%nat -> (j < length hull)%nat -> 0 < turn (along axis) (vertex hull 0) (vertex hull i) (vertex hull j))
  /\ forall p, In p ps -> forall i, 0 <= turn (along axis) (vertex hull i) (vertex hull (S i)) p.
(** All points are on one line. *)
Definition all_collinear (ps : list (list R)) : Prop :=
  forall a b c, In a ps -> In b ps -> In c ps -> collinear a b c.
(** The square of twice the area of the triangle a, b, c *)
Definition spread (a b c : list R) : R :=
  rdot (rsub c a) (rsub c a) * rdot (rsub b a) (rsub b a) - rdot (rsub c a) (rsub b a) * rdot (rsub c a) (rsub b a).
