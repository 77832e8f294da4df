(** Final theorems: the convex hull of points on a grid in machine arithmetic (C98). *)
From Coq Require Import ZArith Reals List Lia Lra Bool.
From Flocq Require Import Core BinarySingleNaN.
From Verif Require Import Ops M_scalar M_vec M_hull Inst_F S_vec S_polygon S_hull S_rnd S_grid S_hullg P_fp5 P_grid6 P_hull5 P_hullg3.
Import ListNotations.
Local Open Scope R_scope.

(** C98 in any format: [sort] stands for [std::sort]; the powers of the grid must be representable, and the tolerance of the test for
    colinear points must be below the grid. *)
Theorem C98_grid_hull : forall prec emax {Hprec : Prec_gt_0 prec} {Hmax : Prec_lt_emax prec emax} e K D sort (p0 p1 : list (binary_float prec emax)) ps,
  sorts sort -> grid_cluster e K D (p0 :: p1 :: ps) ->
  (0 <= D)%Z -> representable prec emax e (K + K) -> representable prec emax (4 * e) (18 * D ^ 4) ->
  is_finite (colinear_epsilon : binary_float prec emax) = true -> 0 <= B2R (colinear_epsilon : binary_float prec emax) < bpow radix2 (4 * e) ->
  / 100000 < bpow radix2 (4 * e) ->
  (Exists (fun p => ~ collinear (values p0) (values p1) (values p)) ps ->
   exists hull, convex_hull sort (p0 :: p1 :: ps) = Ret hull /\ incl hull (p0 :: p1 :: ps)
     /\ (forall n, coplanar n (map values (p0 :: p1 :: ps)) -> hull_polygon n (map values (p0 :: p1 :: ps)) (map values hull))
     /\ exists axis, (axis < 3)%nat /\ seen_hull axis (map values (p0 :: p1 :: ps)) (map values hull))
  /\ (Forall (fun p => collinear (values p0) (values p1) (values p)) ps -> convex_hull sort (p0 :: p1 :: ps) = Ret []).
Proof. exact hull_cluster. Qed.
(** C98 in double precision *)
Theorem C98_grid_hull_double : forall e K D sort (p0 p1 : list double) ps, sorts sort -> grid_cluster e K D (p0 :: p1 :: ps) ->
  (-4 <= e <= 242)%Z -> (K < 2 ^ 52)%Z -> (0 <= D <= 4729)%Z ->
  (Exists (fun p => ~ collinear (values p0) (values p1) (values p)) ps ->
   exists hull, convex_hull sort (p0 :: p1 :: ps) = Ret hull /\ incl hull (p0 :: p1 :: ps)
     /\ (forall n, coplanar n (map values (p0 :: p1 :: ps)) -> hull_polygon n (map values (p0 :: p1 :: ps)) (map values hull))
     /\ exists axis, (axis < 3)%nat /\ seen_hull axis (map values (p0 :: p1 :: ps)) (map values hull))
  /\ (Forall (fun p => collinear (values p0) (values p1) (values p)) ps -> convex_hull sort (p0 :: p1 :: ps) = Ret []).
Proof. exact hull_double. Qed.

(** A slanted polygon far from the origin, with an inner point and a point on an edge *)
Definition slanted : list (list Z) := [[100000; 7; 0]; [100064; 7; 64]; [100000; 71; 0]; [100064; 71; 64]; [100032; 39; 32]; [100064; 39; 64]]%Z.
Example ex_C98_slanted : let ps := map (map cst) slanted : list (list double) in
  sorts (@insertion_sort (list double)) /\ grid_cluster 0 100064 64 ps /\ coplanar [1; 0; -1] (map values ps)
  /\ ~ collinear (values (nth 0 ps [])) (values (nth 1 ps [])) (values (nth 2 ps [])).
Proof.
  cbv zeta. assert (V : map values (map (map cst) slanted : list (list double)) = map (map IZR) slanted).
  { unfold slanted, values. cbn [map]. rewrite !(fun n H => proj2 (cst_double n H)) by lia. reflexivity. }
  assert (N : forall i, values (nth i (map (map cst) slanted : list (list double)) []) = nth i (map (map IZR) slanted) []).
  { intros i. rewrite <- V. change (@nil R) with (values (@nil double)). now rewrite map_nth. }
  split; [apply insertion_sorts|]. split; [|split].
  - split.
    + apply Forall_forall. intros p Hp. apply in_map_iff in Hp. destruct Hp as (z & <- & Hz). 
      assert (Q : length z = 3%nat /\ Forall (fun k => (Z.abs k <= 100064)%Z) z) by (cbn [slanted In] in Hz; destruct Hz as [<-|[<-|[<-|[<-|[<-|[<-|[]]]]]]]; split; try reflexivity; repeat (apply Forall_cons; [lia|]); apply Forall_nil).
      split; [rewrite map_length; apply Q|]. apply ex_grid_vec; [lia|apply Q].
    + intros p q Hp Hq i. apply (in_map values) in Hp. apply (in_map values) in Hq. rewrite V in Hp, Hq. cbn [map slanted In] in Hp, Hq.
      cbn [bpow]. rewrite Rmult_1_r. apply Rabs_le.
      destruct Hp as [<-|[<-|[<-|[<-|[<-|[<-|[]]]]]]]; destruct Hq as [<-|[<-|[<-|[<-|[<-|[<-|[]]]]]]]; (destruct i as [|[|[|[|i]]]]; cbn [nth]; lra).
  - rewrite V. split; [reflexivity|]. split; [cbn; lra|]. split; [repeat constructor|].
    intros p q Hp Hq. cbn in Hp, Hq. intuition; subst; cbn; ring.
  - rewrite !N. cbn [nth map slanted]. intros C. apply P_vec2.colinear_exact in C; try reflexivity. apply P_vec2.colinear_eps in C; try reflexivity; [|lra]. cbn in C. lra.
Qed.
Print Assumptions C98_grid_hull.
Print Assumptions C98_grid_hull_double.
