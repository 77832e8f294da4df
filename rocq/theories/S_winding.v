(** Specification of the winding number of a closed polygon around a point. *)
From Coq Require Import Reals List Arith.
From Verif Require Import S_vec S_polygon.
Import ListNotations.
Local Open Scope R_scope.

(** Somebody at the origin who looks at a and then along the straight way from a to b turns by the angle th;
    angles are positive in counter-clockwise direction, seen against the normal n. *)
Definition swept (n a b : list R) (th : R) : Prop :=
  - PI < th < PI
  /\ rnorm a * rnorm b * cos th = rdot a b
  /\ rnorm a * rnorm b * rnorm n * sin th = rdot (rcross a b) n.
(** The sum of f 0, ..., f (m - 1). *)
Fixpoint total (f : nat -> R) (m : nat) : R := match m with O => 0 | S m' => total f m' + f m' end.
(** Somebody at p who follows the edges of the polygon once around turns w times. *)
Definition winding_number (n : list R) (vs : list (list R)) (p : list R) (w : Z) : Prop :=
  exists th : nat -> R,
    (forall i, (i < length vs)%nat -> swept n (rsub (vertex vs i) p) (rsub (vertex vs (S i)) p) (th i))
    /\ total th (length vs) = 2 * PI * IZR w.
(** A closed polygon of any shape in a plane with normal n, given by its vertices. *)
Definition plane_polygon (n : list R) (vs : list (list R)) : Prop :=
  (1 <= length vs)%nat /\ Forall (fun v => length v = 3%nat) vs
  /\ forall i j, rdot (vertex vs i) n = rdot (vertex vs j) n.
