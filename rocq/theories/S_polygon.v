(** Specification of convex polygons. *)
From Coq Require Import Reals List Arith.
From Verif Require Import S_vec.
Import ListNotations.
Local Open Scope R_scope.

(** The vertices, counted around the polygon. *)
Definition vertex (vs : list (list R)) (i : nat) : list R := nth (i mod length vs) vs [].
(** Positive if c is to the left of the way from a to b, seen against the normal. *)
Definition turn (n a b c : list R) : R := rdot (rcross (rsub b a) (rsub c a)) n.
(** A strictly convex polygon in a plane with normal n; s is 1 if the vertices are given in
    counter-clockwise order and -1 for clockwise order (seen against the normal). *)
Definition convex_polygon (s : R) (n : list R) (vs : list (list R)) : Prop :=
  (s = 1 \/ s = -1) /\ (3 <= length vs)%nat /\ Forall (fun v => length v = 3%nat) vs
  /\ (forall i j, rdot (vertex vs i) n = rdot (vertex vs j) n)
  /\ forall i k, (i < length vs)%nat -> (k < length vs)%nat -> k <> i -> k <> (S i mod length vs)%nat ->
       0 < s * turn n (vertex vs i) (vertex vs (S i)) (vertex vs k).
(** The points of the polygon: on the inner side of each edge. *)
Definition in_polygon (s : R) (n : list R) (vs : list (list R)) (p : list R) : Prop :=
  length p = 3%nat /\ rdot p n = rdot (vertex vs 0) n
  /\ forall i, 0 <= s * turn n (vertex vs i) (vertex vs (S i)) p.
(** The points of the edges. *)
Definition on_boundary (vs : list (list R)) (q : list R) : Prop := exists i, on_segment q (vertex vs i) (vertex vs (S i)).
(** The coordinates in the plane that is seen along an axis. *)
Definition across (axis : nat) (v : list R) : R := nth ((axis + 1) mod 3) v 0.
Definition height (axis : nat) (v : list R) : R := nth ((axis + 2) mod 3) v 0.
(** No vertex has the same height as the point, and no edge from one side of this height to the other
    is within the tolerance. *)
Definition clear_height (axis : nat) (vs : list (list R)) (p : list R) : Prop :=
  let h i := height axis (vertex vs i) - height axis p in
  forall i, h i <> 0 /\ (0 < h i * h (S i) \/ / 1000 < Rabs (h i) \/ / 1000 < Rabs (h (S i))).
(** No point of the boundary is within the tolerance of p. *)
Definition clear_boundary (axis : nat) (vs : list (list R)) (p : list R) : Prop :=
  forall q, on_boundary vs q -> / 1000 < Rabs (across axis q - across axis p) \/ / 1000 < Rabs (height axis q - height axis p).
