(** Real vectors as lists of numbers: the textbook notions the theorems about vectors and geometry
    are stated with. *)
From Coq Require Import Reals List.
Import ListNotations.
Local Open Scope R_scope.

(** Componentwise combination of two vectors. *)
Fixpoint zip (f : R -> R -> R) (a b : list R) : list R :=
  match a, b with
  | x :: a', y :: b' => f x y :: zip f a' b'
  | _, _ => []
  end.
Definition radd (a b : list R) : list R := zip Rplus a b.
Definition rsub (a b : list R) : list R := zip Rminus a b.
Definition rscale (k : R) (a : list R) : list R := map (fun x => k * x) a.
Definition rneg (a : list R) : list R := map Ropp a.
Definition rzero (n : nat) : list R := repeat 0 n.
(** Inner product. *)
Fixpoint rdot (a b : list R) : R :=
  match a, b with
  | x :: a', y :: b' => x * y + rdot a' b'
  | _, _ => 0
  end.
(** Euclidean norm. *)
Definition rnorm (a : list R) : R := sqrt (rdot a a).
Definition rdist (a b : list R) : R := rnorm (rsub a b).
(** Cross product in three dimensions. *)
Definition rcross (a b : list R) : list R :=
  match a, b with
  | [a0; a1; a2], [b0; b1; b2] =>
    [a1 * b2 - a2 * b1; a2 * b0 - a0 * b2; a0 * b1 - a1 * b0]
  | _, _ => []
  end.
(** The point at parameter t on the line through p with direction d. *)
Definition rpoint (p d : list R) (t : R) : list R := radd p (rscale t d).
(** The point at parameter t on the segment from s to e. *)
Definition rlerp (s e : list R) (t : R) : list R := rpoint s (rsub e s) t.
(** The point is on the segment from s to e. *)
Definition on_segment (p s e : list R) : Prop := exists t, 0 <= t <= 1 /\ p = rlerp s e t.
(** Three points are on a common line. *)
Definition collinear (a b c : list R) : Prop :=
  exists p d : list R, exists r s t : R,
    length p = length a /\ length d = length a
    /\ a = rpoint p d r /\ b = rpoint p d s /\ c = rpoint p d t.
(** All components are between those of the two corners. *)
Definition in_box (p lo hi : list R) : Prop :=
  Forall2 Rle lo p /\ Forall2 Rle p hi.
