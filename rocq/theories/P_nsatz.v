(** Polynomial consequences that need Groebner bases. *)
From Coq Require Import Reals Nsatz.
Local Open Scope R_scope.

(** An orthonormal pair a, b and its cross product span space. *)
Lemma frame_complete : forall a0 a1 a2 b0 b1 b2 v0 v1 v2,
  a0 * a0 + a1 * a1 + a2 * a2 = 1 -> b0 * b0 + b1 * b1 + b2 * b2 = 1 -> a0 * b0 + a1 * b1 + a2 * b2 = 0 ->
  let c0 := a1 * b2 - a2 * b1 in let c1 := a2 * b0 - a0 * b2 in let c2 := a0 * b1 - a1 * b0 in
  let va := v0 * a0 + v1 * a1 + v2 * a2 in
  let vb := v0 * b0 + v1 * b1 + v2 * b2 in
  let vc := v0 * c0 + v1 * c1 + v2 * c2 in
  v0 = va * a0 + vb * b0 + vc * c0 /\ v1 = va * a1 + vb * b1 + vc * c1 /\ v2 = va * a2 + vb * b2 + vc * c2.
Proof. intros. unfold va, vb, vc, c0, c1, c2. repeat split; nsatz. Qed.
Lemma cross_unit : forall a0 a1 a2 b0 b1 b2,
  a0 * a0 + a1 * a1 + a2 * a2 = 1 -> b0 * b0 + b1 * b1 + b2 * b2 = 1 -> a0 * b0 + a1 * b1 + a2 * b2 = 0 ->
  let c0 := a1 * b2 - a2 * b1 in let c1 := a2 * b0 - a0 * b2 in let c2 := a0 * b1 - a1 * b0 in
  c0 * c0 + c1 * c1 + c2 * c2 = 1.
Proof. intros. unfold c0, c1, c2. nsatz. Qed.
(** The columns of the matrix with the rows a x b, b and -a are orthonormal. *)
Lemma frame_cols : forall a0 a1 a2 b0 b1 b2,
  a0 * a0 + a1 * a1 + a2 * a2 = 1 -> b0 * b0 + b1 * b1 + b2 * b2 = 1 -> a0 * b0 + a1 * b1 + a2 * b2 = 0 ->
  let c0 := a1 * b2 - a2 * b1 in let c1 := a2 * b0 - a0 * b2 in let c2 := a0 * b1 - a1 * b0 in
  a0 * a0 + b0 * b0 + c0 * c0 = 1 /\ a1 * a1 + b1 * b1 + c1 * c1 = 1 /\ a2 * a2 + b2 * b2 + c2 * c2 = 1 /\
  a0 * a1 + b0 * b1 + c0 * c1 = 0 /\ a0 * a2 + b0 * b2 + c0 * c2 = 0 /\ a1 * a2 + b1 * b2 + c1 * c2 = 0.
Proof. intros. unfold c0, c1, c2. repeat split; nsatz. Qed.
