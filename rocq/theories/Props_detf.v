(** Final theorems: determinants and adjugates in machine arithmetic (C123). *)
From Coq Require Import ZArith Reals List Lia Lra Bool Factorial.
From Flocq Require Import Core BinarySingleNaN.
From Verif Require Import Ops M_scalar M_vec M_mat Inst_F S_vec S_mat S_det S_rnd S_hit P_detf2.
Import ListNotations.
Local Open Scope R_scope.

Section IEEE.
Variables prec emax : Z.
Context {Hprec : Prec_gt_0 prec} {Hmax : Prec_lt_emax prec emax}.
Notation fl := (binary_float prec emax).
Notation u := (unit_roundoff prec).

(** The determinant of a square matrix of any size N with entries up to M is finite and within N^2 u of the Leibniz sum, relative to the largest possible determinant N! M^N. *)
Theorem C123_determinant : (20 <= prec)%Z -> (20 <= emax)%Z -> forall n (m : list (list fl)) M, let N := S n in is_mat N N m -> Forall (fun col => all_finite col /\ Forall (fun x => Rabs x <= M) (values col)) m -> 1 <= M ->
  100 * (INR N * INR N * u) <= 1 -> 2 * (INR (fact N) * M ^ N) <= bpow radix2 emax ->
  is_finite (m_det N m) = true /\ Rabs (B2R (m_det N m) - leibniz N (ent (map values m))) <= INR N * INR N * (u * (INR (fact N) * M ^ N)).
Proof. exact (det_final prec emax). Qed.
(** Likewise for every entry of the adjugate, which is the transposed cofactor. *)
Theorem C123_adjugate : (20 <= prec)%Z -> (20 <= emax)%Z -> forall n (m : list (list fl)) M, let N := S n in is_mat (S N) (S N) m -> Forall (fun col => all_finite col /\ Forall (fun x => Rabs x <= M) (values col)) m -> 1 <= M ->
  100 * (INR N * INR N * u) <= 1 -> 2 * (INR (fact N) * M ^ N) <= bpow radix2 emax ->
  is_mat (S N) (S N) (m_adjugate (S N) m) /\ forall i j, (i < S N)%nat -> (j < S N)%nat -> is_finite (mget (m_adjugate (S N) m) j i) = true
    /\ Rabs (ent (map values (m_adjugate (S N) m)) i j - (-1) ^ (i + j) * leibniz N (ent (of_ent N N (fun r c => ent (map values m) (if r <? j then r else S r)%nat (if c <? i then c else S c)%nat)))) <= (INR N * INR N + 2) * (u * (INR (fact N) * M ^ N)).
Proof. exact (adj_final prec emax). Qed.
End IEEE.

(** The hypotheses are met in double precision by a 4 x 4 matrix with determinant -70. *)
Example ex_C123_case : is_mat 4 4 m44 /\ Forall (fun col => all_finite col /\ Forall (fun x => Rabs x <= 8) (values col)) m44 /\ 100 * (INR 4 * INR 4 * unit_roundoff 53) <= 1 /\ 2 * (INR (fact 4) * 8 ^ 4) <= bpow radix2 1024
  /\ Beqb (m_det 4 m44) (cst (-70)) = true /\ Beqb (mget (m_adjugate 4 m44) 1 0) (cst (-28)) = true.
Proof. exact m44_case. Qed.
Print Assumptions C123_determinant.
Print Assumptions C123_adjugate.
