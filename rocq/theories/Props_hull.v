(** Final theorems: convex hull (C60). *)
From Coq Require Import ZArith Reals List Bool Lia Lra Arith.
From Verif Require Import Ops M_scalar M_vec M_hull Inst_F Inst_XR S_vec S_polygon S_hull P_hull4 P_hull5.
Import ListNotations.
Local Open Scope R_scope.
Notation vS := (map (@Some R)).

(** C60: [sort] stands for [std::sort]. Missing in the partial theorem: hulls of points that the tolerance of the test for colinear
    points rejects; the theorems [_refuted] show that the property fails there. *)
Theorem C60_convex_hull_partial : forall sort n p0 p1 ps, sorts sort -> coplanar n (p0 :: p1 :: ps) ->
  Exists (fun p => / 100000 < spread p0 p1 p) ps ->
  exists hull, convex_hull sort (map vS (p0 :: p1 :: ps)) = Ret (map vS hull) /\ hull_polygon n (p0 :: p1 :: ps) hull.
Proof. exact hull_main. Qed.
(** Points that need not be in a plane: the hull is the one seen along an axis. It is the axis to which the normal of the plane of the
    first two points and a third one is closest. *)
Theorem C60_any_points_partial : forall sort p0 p1 ps, sorts sort -> Forall (fun p => length p = 3%nat) (p0 :: p1 :: ps) ->
  Exists (fun p => / 100000 < spread p0 p1 p) ps ->
  exists axis hull, convex_hull sort (map vS (p0 :: p1 :: ps)) = Ret (map vS hull) /\ (axis < 3)%nat /\ seen_hull axis (p0 :: p1 :: ps) hull
    /\ exists p, In p ps /\ / 100000 < spread p0 p1 p
       /\ forall j, Rabs (nth j (rcross (rsub p p0) (rsub p1 p0)) 0) <= Rabs (nth axis (rcross (rsub p p0) (rsub p1 p0)) 0).
Proof. exact hull_points. Qed.
Theorem C60_collinear_points : forall sort ps, Forall (fun p => length p = 3%nat) ps -> all_collinear ps ->
  convex_hull sort (map vS ps) = Ret [].
Proof. exact hull_collinear. Qed.
Theorem C60_few_points : forall sort (ps : list (list XR)), (length ps <= 2)%nat -> convex_hull sort ps = Ret [].
Proof. exact hull_few. Qed.
Theorem C60_empty_iff : forall sort p0 p1 ps, sorts sort -> Forall (fun p => length p = 3%nat) (p0 :: p1 :: ps) ->
  (convex_hull sort (map vS (p0 :: p1 :: ps)) = Ret [] <-> Forall (fun p => spread p0 p1 p <= / 100000) ps).
Proof. exact hull_empty_iff. Qed.
(** The first point given twice: the hull is empty, whatever the other points are. *)
Theorem C60_doubled_point : forall sort p ps, Forall (fun p => length p = 3%nat) (p :: ps) ->
  convex_hull sort (map vS (p :: p :: ps)) = Ret [].
Proof. exact hull_coincident. Qed.
Theorem C60_doubled_point_refuted : forall sort, convex_hull sort (map vS [[0; 0; 0]; [0; 0; 0]; [8; 0; 0]; [0; 8; 0]]) = Ret []
  /\ ~ collinear [0; 0; 0] [8; 0; 0] [0; 8; 0].
Proof. exact doubled_point. Qed.
Theorem C60_small_triangle_refuted : forall sort, convex_hull sort (map vS [[0; 0; 0]; [/ 100; 0; 0]; [0; / 100; 0]]) = Ret []
  /\ ~ collinear [0; 0; 0] [/ 100; 0; 0] [0; / 100; 0].
Proof. exact tiny_triangle. Qed.

(** In double precision: the positions of the vertices of the hull in the given list *)
Definition hull_indices (ps : list (list Z)) : option (list (option nat)) :=
  let d := map (map (fun z => D z 0)) ps in
  match convex_hull insertion_sort d with
  | Ret hull => Some (map (fun v => find (fun i => v_eq v (nth i d [])) (seq 0 (length d))) hull)
  | _ => None
  end.
(** A square and the midpoint of its upper edge: the midpoint is returned, though it is not a vertex of the hull. *)
Theorem C60_point_on_edge_refuted :
  hull_indices [[0; 0; 0]; [8; 8; 0]; [8; 0; 0]; [0; 8; 0]; [4; 8; 0]]%Z = Some [Some 2; Some 1; Some 4; Some 3; Some 0]%nat.
Proof. vm_compute. reflexivity. Qed.

Example C60_sort : forall A, sorts (@insertion_sort A).
Proof. exact insertion_sorts. Qed.
Example C60_square : coplanar [0; 0; 1] [[0; 0; 0]; [8; 8; 0]; [8; 0; 0]; [0; 8; 0]; [4; 4; 0]]
  /\ Exists (fun p => / 100000 < spread [0; 0; 0] [8; 8; 0] p) [[8; 0; 0]; [0; 8; 0]; [4; 4; 0]].
Proof.
  split.
  - split; [reflexivity|]. split; [cbn; lra|]. split; [repeat constructor|].
    intros p q Hp Hq. cbn in Hp, Hq. intuition; subst; cbn; ring.
  - left. unfold spread. cbn. lra.
Qed.
Example C60_tetrahedron : Forall (fun p => length p = 3%nat) [[0; 0; 0]; [8; 0; 0]; [0; 8; 0]; [2; 2; 8]]
  /\ Exists (fun p => / 100000 < spread [0; 0; 0] [8; 0; 0] p) [[0; 8; 0]; [2; 2; 8]].
Proof. split; [repeat constructor|]. left. unfold spread. cbn. lra. Qed.
Example C60_test : hull_indices [[0; 0; 0]; [8; 8; 0]; [8; 0; 0]; [0; 8; 0]; [4; 4; 0]; [4; 0; 0]]%Z = Some [Some 2; Some 1; Some 3; Some 0]%nat.
Proof. vm_compute. reflexivity. Qed.
Example C60_line : all_collinear [[0; 0; 0]; [1; 2; 3]; [2; 4; 6]].
Proof.
  intros a b c Ha Hb Hc. assert (W : forall p, In p [[0; 0; 0]; [1; 2; 3]; [2; 4; 6]] -> exists t, p = [t; 2 * t; 3 * t]).
  { intros p [H|[H|[H|[]]]]; subst p; [exists 0|exists 1|exists 2]; repeat f_equal; lra. }
  destruct (W a Ha) as (t & ->), (W b Hb) as (u & ->), (W c Hc) as (v & ->).
  apply P_vec2.colinear_exact; try reflexivity. apply P_vec2.colinear_eps; try reflexivity; [lra|]. cbn. match goal with |- ?e <= 0 => replace e with 0 by ring end. lra.
Qed.
Print Assumptions C60_convex_hull_partial.
Print Assumptions C60_any_points_partial.
Print Assumptions C60_collinear_points.
Print Assumptions C60_few_points.
Print Assumptions C60_empty_iff.
Print Assumptions C60_doubled_point.
Print Assumptions C60_doubled_point_refuted.
Print Assumptions C60_small_triangle_refuted.
Print Assumptions C60_point_on_edge_refuted.
