(** Final theorems: the convex hull depends on the set of the points only, and the hull of a hull is the hull (C103). *)
From Coq Require Import ZArith Reals List Lia Lra Bool.
From Flocq Require Import Core BinarySingleNaN.
From Verif Require Import Ops M_scalar M_vec M_hull Inst_F Inst_XR S_vec S_polygon S_hull S_rnd S_grid S_hullg P_fp5 P_grid6 P_hull5 P_hull6 P_hullg3 P_hullg4.
Import ListNotations.
Local Open Scope R_scope.

(** C103: two lists of the same points of a plane, in any order and any multiplicity, and two functions that stand for [std::sort]. Missing:
    lists whose first two points do not span a triangle with another point; [C103_order_refuted] shows that the hull is then empty. *)
Theorem C103_same_points_partial : forall sort1 sort2 n p0 p1 ps q0 q1 qs, sorts sort1 -> sorts sort2 -> coplanar n (p0 :: p1 :: ps) ->
  incl (p0 :: p1 :: ps) (q0 :: q1 :: qs) -> incl (q0 :: q1 :: qs) (p0 :: p1 :: ps) ->
  Exists (fun p => / 100000 < spread p0 p1 p) ps -> Exists (fun q => / 100000 < spread q0 q1 q) qs ->
  convex_hull sort1 (map (map (@Some R)) (p0 :: p1 :: ps)) = convex_hull sort2 (map (map (@Some R)) (q0 :: q1 :: qs)).
Proof. exact hull_set. Qed.
Theorem C103_hull_of_hull_partial : forall sort sort' n p0 p1 ps h0 h1 hs, sorts sort -> sorts sort' -> coplanar n (p0 :: p1 :: ps) ->
  convex_hull sort (map (map (@Some R)) (p0 :: p1 :: ps)) = Ret (map (map (@Some R)) (h0 :: h1 :: hs)) -> Exists (fun h => / 100000 < spread h0 h1 h) hs ->
  convex_hull sort' (map (map (@Some R)) (h0 :: h1 :: hs)) = Ret (map (map (@Some R)) (h0 :: h1 :: hs)).
Proof. exact hull_again. Qed.
(** The same points in two orders: one hull is empty, the other one is a triangle. *)
Theorem C103_order_refuted : forall sort, sorts sort ->
  convex_hull sort (map (map (@Some R)) [[0; 0; 0]; [0; 0; 0]; [8; 0; 0]; [0; 8; 0]]) = Ret []
  /\ exists hull, convex_hull sort (map (map (@Some R)) [[0; 0; 0]; [8; 0; 0]; [0; 8; 0]; [0; 0; 0]]) = Ret (map (map (@Some R)) hull) /\ (3 <= length hull)%nat.
Proof. exact hull_order. Qed.
(** In double precision, for points on a grid: the hulls have the same vertices in the same order, and the hull of a hull is the hull itself. *)
Theorem C103_same_points_double_partial : forall e K D sort1 sort2 n (p0 p1 q0 q1 : list double) ps qs, sorts sort1 -> sorts sort2 ->
  grid_cluster e K D (p0 :: p1 :: ps) -> grid_cluster e K D (q0 :: q1 :: qs) ->
  (-4 <= e <= 242)%Z -> (K < 2 ^ 52)%Z -> (0 <= D <= 4729)%Z -> coplanar n (map values (p0 :: p1 :: ps)) ->
  incl (map values (p0 :: p1 :: ps)) (map values (q0 :: q1 :: qs)) -> incl (map values (q0 :: q1 :: qs)) (map values (p0 :: p1 :: ps)) ->
  Exists (fun p => ~ collinear (values p0) (values p1) (values p)) ps -> Exists (fun q => ~ collinear (values q0) (values q1) (values q)) qs ->
  exists h1 h2, convex_hull sort1 (p0 :: p1 :: ps) = Ret h1 /\ convex_hull sort2 (q0 :: q1 :: qs) = Ret h2 /\ map values h1 = map values h2.
Proof. exact hull_set_double. Qed.
Theorem C103_hull_of_hull_double : forall e K D sort sort' n (p0 p1 : list double) ps hull, sorts sort -> sorts sort' ->
  grid_cluster e K D (p0 :: p1 :: ps) -> (-4 <= e <= 242)%Z -> (K < 2 ^ 52)%Z -> (0 <= D <= 4729)%Z ->
  coplanar n (map values (p0 :: p1 :: ps)) -> convex_hull sort (p0 :: p1 :: ps) = Ret hull ->
  convex_hull sort' hull = Ret hull.
Proof. exact hull_again_double. Qed.

(** A square with an inner point in two orders, one of them with a point twice; the hull of the square is the square *)
Example ex_C103_square : let ps := [[8; 8; 0]; [0; 0; 0]; [8; 0; 0]; [0; 8; 0]; [4; 4; 0]] in let qs := [[0; 8; 0]; [4; 4; 0]; [8; 8; 0]; [0; 0; 0]; [8; 8; 0]; [8; 0; 0]] in
  coplanar [0; 0; 1] ps /\ incl ps qs /\ incl qs ps
  /\ Exists (fun p => / 100000 < spread [8; 8; 0] [0; 0; 0] p) [[8; 0; 0]; [0; 8; 0]; [4; 4; 0]]
  /\ Exists (fun p => / 100000 < spread [0; 8; 0] [4; 4; 0] p) [[8; 8; 0]; [0; 0; 0]; [8; 8; 0]; [8; 0; 0]].
Proof.
  cbv zeta. split; [|split; [|split; [|split]]].
  - split; [reflexivity|]. split; [cbn; lra|]. split; [repeat constructor|]. intros p q Hp Hq. cbn in Hp, Hq. intuition; subst; cbn; ring.
  - intros z Hz. cbn in *. tauto.
  - intros z Hz. cbn in *. tauto.
  - left. unfold spread. cbn. lra.
  - left. unfold spread. cbn. lra.
Qed.
(** The hull of the slanted polygon of [ex_C98_slanted], whose points meet the hypotheses on grids, and the hull of its hull have the same
    number of vertices *)
Example ex_C103_slanted : let ps := map (map cst) [[100000; 7; 0]; [100064; 7; 64]; [100000; 71; 0]; [100064; 71; 64]; [100032; 39; 32]; [100064; 39; 64]]%Z : list (list double) in
  match convex_hull insertion_sort ps with
  | Ret hull => match convex_hull insertion_sort hull with Ret hull' => Nat.eqb (length hull) 4 && Nat.eqb (length hull') 4 | _ => false end
  | _ => false
  end = true.
Proof. vm_compute. reflexivity. Qed.
Print Assumptions C103_same_points_partial.
Print Assumptions C103_hull_of_hull_partial.
Print Assumptions C103_order_refuted.
Print Assumptions C103_same_points_double_partial.
Print Assumptions C103_hull_of_hull_double.
