(** Matrices of real numbers, as lists of columns, and what the textbook says about them. *)
From Coq Require Import Reals List Arith.
Import ListNotations.
Local Open Scope R_scope.

(** A matrix with R rows and C columns. *)
Definition is_mat {T} (R C : nat) (m : list (list T)) : Prop :=
  length m = C /\ Forall (fun col => length col = R) m.
(** The entry in row r and column c. *)
Definition ent (m : list (list R)) (r c : nat) : R := nth r (nth c m []) 0.
(** f 0 + ... + f (n-1) *)
Fixpoint Rsum (n : nat) (f : nat -> R) : R :=
  match n with O => 0 | S n' => Rsum n' f + f n' end.
(** The matrix with the given entries. *)
Definition of_ent {T} (nr nc : nat) (f : nat -> nat -> T) : list (list T) :=
  map (fun c => map (fun r => f r c) (seq 0 nr)) (seq 0 nc).

Definition delta (i j : nat) : R := if Nat.eqb i j then 1 else 0.
Definition rid (n : nat) : list (list R) := of_ent n n delta.
Definition rmul (nr n nc : nat) (a b : list (list R)) : list (list R) :=
  of_ent nr nc (fun r c => Rsum n (fun i => ent a r i * ent b i c)).
Definition rmulv (nr nc : nat) (a : list (list R)) (v : list R) : list R :=
  map (fun r => Rsum nc (fun c => ent a r c * nth c v 0)) (seq 0 nr).
Definition rvmul (nr nc : nat) (v : list R) (a : list (list R)) : list R :=
  map (fun c => Rsum nr (fun r => nth r v 0 * ent a r c)) (seq 0 nc).
Definition rtrans (nr nc : nat) (a : list (list R)) : list (list R) :=
  of_ent nc nr (fun r c => ent a c r).

(** b is a two-sided inverse of a. *)
Definition inverse (n : nat) (a b : list (list R)) : Prop :=
  rmul n n n a b = rid n /\ rmul n n n b a = rid n.
(** Some non-zero vector is mapped to zero. *)
Definition singular (n : nat) (a : list (list R)) : Prop :=
  exists v, length v = n /\ v <> repeat 0 n /\ rmulv n n a v = repeat 0 n.
