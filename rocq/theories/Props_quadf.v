(** Final theorems: quadratic equations in machine arithmetic (C124). *)
From Coq Require Import ZArith Reals List Lia Lra Bool.
From Flocq Require Import Core BinarySingleNaN.
From Verif Require Import Ops M_scalar Inst_F S_scalar S_rnd P_fp5 P_quadf.
Import ListNotations.
Local Open Scope R_scope.

Section IEEE.
Variables prec emax : Z.
Context {Hprec : Prec_gt_0 prec} {Hmax : Prec_lt_emax prec emax}.
Notation fl := (binary_float prec emax).
Notation u := (unit_roundoff prec).
Notation Om := (bpow radix2 emax).

(** The number of solutions is right whenever the exact discriminant of the equation divided by a differs from the tolerance by more than the rounding error. *)
Theorem C124_count : (20 <= prec)%Z -> (20 <= emax)%Z -> forall (a b c eps : fl) s, is_finite a = true -> is_finite b = true -> is_finite c = true -> is_finite eps = true ->
  B2R a <> 0 -> 2 * Rabs (B2R a) < Om -> 1 <= s -> Rabs (B2R b / (2 * B2R a)) <= s -> Rabs (B2R c / B2R a) <= s * s -> 8 * (s * s) <= Om -> 0 <= B2R eps ->
  let D := B2R b / (2 * B2R a) * (B2R b / (2 * B2R a)) - B2R c / B2R a in let e := B2R eps in let E := 61 / 10 * (u * (s * s)) in
  exists n x1 x2, solve_quadratic a b c eps = (n, (x1, x2)) /\ (e + E < D -> n = 2%nat) /\ (D < - (e + E) -> n = 0%nat) /\ (Rabs D <= e - E -> n = 1%nat).
Proof.
  intros U20 E20 a b c eps s Fa Fb Fc Fe A0 AO S1 Ps Qs SO E0 D e E. destruct (quad_all prec emax U20 E20 a b c eps s Fa Fb Fc Fe A0 AO S1 Ps Qs SO E0) as (n & x1 & x2 & H & K1 & K2 & K3 & _). exists n, x1, x2. auto.
Qed.
(** Every reported solution solves the equation up to rounding errors, and up to the tolerance if it is the only one. *)
Theorem C124_residual : (20 <= prec)%Z -> (20 <= emax)%Z -> forall (a b c eps : fl) s, is_finite a = true -> is_finite b = true -> is_finite c = true -> is_finite eps = true ->
  B2R a <> 0 -> 2 * Rabs (B2R a) < Om -> 1 <= s -> Rabs (B2R b / (2 * B2R a)) <= s -> Rabs (B2R c / B2R a) <= s * s -> 8 * (s * s) <= Om -> 0 <= B2R eps ->
  let f := quadratic (B2R a) (B2R b) (B2R c) in
  exists n x1 x2, solve_quadratic a b c eps = (n, (x1, x2))
  /\ (n = 0%nat \/ (n = 1%nat /\ is_finite x1 = true /\ Rabs (f (B2R x1)) <= Rabs (B2R a) * (B2R eps + 62 / 10 * (u * (s * s))))
      \/ (n = 2%nat /\ is_finite x1 = true /\ is_finite x2 = true /\ Rabs (f (B2R x1)) <= Rabs (B2R a) * (21 * (u * (s * s))) /\ Rabs (f (B2R x2)) <= Rabs (B2R a) * (21 * (u * (s * s))))).
Proof.
  intros U20 E20 a b c eps s Fa Fb Fc Fe A0 AO S1 Ps Qs SO E0 f. destruct (quad_all prec emax U20 E20 a b c eps s Fa Fb Fc Fe A0 AO S1 Ps Qs SO E0) as (n & x1 & x2 & H & _ & _ & _ & K & _). exists n, x1, x2. auto.
Qed.
(** Every real solution is close to a reported one; it can be missed only if the tolerance is below the rounding error. *)
Theorem C124_roots : (20 <= prec)%Z -> (20 <= emax)%Z -> forall (a b c eps : fl) s, is_finite a = true -> is_finite b = true -> is_finite c = true -> is_finite eps = true ->
  B2R a <> 0 -> 2 * Rabs (B2R a) < Om -> 1 <= s -> Rabs (B2R b / (2 * B2R a)) <= s -> Rabs (B2R c / B2R a) <= s * s -> 8 * (s * s) <= Om -> 0 <= B2R eps ->
  let e := B2R eps in let E := 61 / 10 * (u * (s * s)) in
  exists n x1 x2, solve_quadratic a b c eps = (n, (x1, x2))
  /\ forall x, quadratic (B2R a) (B2R b) (B2R c) x = 0 ->
    (n = 0%nat -> e < E) /\ (n = 1%nat -> Rabs (B2R x1 - x) <= sqrt (e + E) + 101 / 100 * (u * s)) /\ (n = 2%nat -> Rabs (B2R x1 - x) <= 3 * (sqrt u * s) \/ Rabs (B2R x2 - x) <= 3 * (sqrt u * s)).
Proof.
  intros U20 E20 a b c eps s Fa Fb Fc Fe A0 AO S1 Ps Qs SO E0 e E. destruct (quad_all prec emax U20 E20 a b c eps s Fa Fb Fc Fe A0 AO S1 Ps Qs SO E0) as (n & x1 & x2 & H & _ & _ & _ & _ & K). exists n, x1, x2. auto.
Qed.
End IEEE.

(** With the tolerance almost_zero it does happen that a solution is missed: (3x + 10000001)^2 = 0 has integer coefficients and a solution, but none is reported. *)
Theorem C124_no_solution_refuted : exists a b c : double, fst (solve_quadratic a b c almost_zero) = 0%nat /\ exists x, quadratic (B2R a) (B2R b) (B2R c) x = 0.
Proof. exact quadratic_missed. Qed.

(** The hypotheses are met in double precision by the equation x^2 - 3x + 2 = 0 with s = 2 and tolerance 0, which has two solutions; 2 and 1 are found. *)
Example ex_C124_case : let a := cst 1 : double in let b := cst (-3) : double in let c := cst 2 : double in let z := cst 0 : double in
  is_finite a = true /\ is_finite b = true /\ is_finite c = true /\ is_finite z = true /\ B2R a <> 0 /\ 2 * Rabs (B2R a) < bpow radix2 1024 /\ Rabs (B2R b / (2 * B2R a)) <= 2 /\ Rabs (B2R c / B2R a) <= 2 * 2 /\ 8 * (2 * 2) <= bpow radix2 1024 /\ 0 <= B2R z
  /\ B2R z + 61 / 10 * (unit_roundoff 53 * (2 * 2)) < B2R b / (2 * B2R a) * (B2R b / (2 * B2R a)) - B2R c / B2R a
  /\ (let '(n, (x1, x2)) := solve_quadratic a b c z in (Nat.eqb n 2 && Beqb x1 (cst 2) && Beqb x2 (cst 1))%bool) = true.
Proof.
  destruct (cst_double 1 ltac:(lia)) as (F1 & V1). destruct (cst_double (-3) ltac:(lia)) as (F3 & V3). destruct (cst_double 2 ltac:(lia)) as (F2 & V2). destruct (cst_double 0 ltac:(lia)) as (F0 & V0). cbv zeta. rewrite V1, V3, V2, V0. assert (O : 1000 <= bpow radix2 1024) by (apply Rle_trans with (bpow radix2 30); [cbn; lra|apply bpow_le; lia]).
  repeat (split; [first [assumption | lra | rewrite Rabs_pos_eq by lra; lra | apply Rabs_le; lra | unfold unit_roundoff; cbn; lra]|]). vm_cast_no_check (eq_refl true).
Qed.
Print Assumptions C124_count.
Print Assumptions C124_residual.
Print Assumptions C124_roots.
Print Assumptions C124_no_solution_refuted.
