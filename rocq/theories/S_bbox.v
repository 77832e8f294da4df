(** Boxes with real corners. *)
From Coq Require Import Reals List.
From Verif Require Import M_bbox Inst_XR S_vec.
Import ListNotations.
Local Open Scope R_scope.

(** The box with the given real corners as a value of the model. *)
Definition blift (b : bbox R) : bbox XR := BB (map Some (bb_min b)) (map Some (bb_max b)).
(** Two corners of dimension n, the first nowhere greater than the second. *)
Definition is_box (n : nat) (b : bbox R) : Prop :=
  length (bb_min b) = n /\ length (bb_max b) = n /\ Forall2 Rle (bb_min b) (bb_max b).
Definition rsize (b : bbox R) : list R := rsub (bb_max b) (bb_min b).
(** The point at the relative position t: 0 is the minimum and 1 the maximum of each axis. *)
Definition box_point (b : bbox R) (t : list R) : list R := radd (bb_min b) (zip Rmult t (rsize b)).
(** The points of a box. *)
Definition in_bbox (b : bbox R) (p : list R) : Prop :=
  Forall2 Rle (bb_min b) p /\ Forall2 Rle p (bb_max b).
(** Three points of space span a parallelepiped of no volume. *)
Definition dependent (x y z : list R) : Prop := rdot (rcross x y) z = 0.
(** The corner of a box chosen by one bit per axis: false is the minimum, true the maximum. *)
Fixpoint pick (s : list bool) (a b : list R) : list R :=
  match s, a, b with
  | k :: s', x :: a', y :: b' => (if k then y else x) :: pick s' a' b'
  | _, _, _ => []
  end.
Definition rcorner (b : bbox R) (s : list bool) : list R := pick s (bb_min b) (bb_max b).
(** Two choices differ in exactly one axis. *)
Definition one_differs (s t : list bool) : Prop :=
  exists u v x y, s = u ++ x :: v /\ t = u ++ y :: v /\ x <> y.
(** The unit vector of an axis, in positive or negative direction. *)
Definition outward (i : nat) (s : bool) : list R :=
  map (fun j => if Nat.eqb j i then if s then 1 else -1 else 0) (seq 0 3).
(** A triple of points that turns clockwise for a viewer the vector n points at: on a box without
    extent in one of the directions the turn is degenerate. *)
Definition turn (p q r n : list R) : R := rdot (rcross (rsub q p) (rsub r q)) n.
Definition rvolume (b : bbox R) : R := fold_right Rmult 1 (rsize b).
