(** Specification of points in polygons of machine numbers (C116). *)
From Coq Require Import ZArith Reals List.
From Verif Require Import S_vec S_polygon.
Import ListNotations.
Local Open Scope R_scope.

(** The polygon as it is seen along an axis: the coordinate along the axis is dropped. *)
Definition seen (axis : nat) (v : list R) : list R := match axis, v with
  | 0%nat, [x; y; z] => [0; y; z] | 1%nat, [x; y; z] => [x; 0; z] | 2%nat, [x; y; z] => [x; y; 0] | _, _ => v end.
(** The direction of the axis *)
Definition axis_dir (axis : nat) : list R := match axis with 0%nat => [1; 0; 0] | 1%nat => [0; 1; 0] | _ => [0; 0; 1] end.
(** No vertex has the same height as the point, and no edge from one side of this height to the other is within m of it. *)
Definition clear_height_by (m : R) (axis : nat) (vs : list (list R)) (p : list R) : Prop :=
  let h i := height axis (vertex vs i) - height axis p in
  forall i, h i <> 0 /\ (0 < h i * h (S i) \/ m < Rabs (h i) \/ m < Rabs (h (S i))).
(** No point of the boundary is within m of the point. *)
Definition clear_boundary_by (m : R) (axis : nat) (vs : list (list R)) (p : list R) : Prop :=
  forall q, on_boundary vs q -> m < Rabs (across axis q - across axis p) \/ m < Rabs (height axis q - height axis p).
