(** Final theorems: averages in machine arithmetic (C121). *)
From Coq Require Import ZArith Reals List Lia Lra Bool.
From Flocq Require Import Core BinarySingleNaN.
From Verif Require Import Ops M_scalar M_vec Inst_F S_vec S_rnd S_hit P_ieee P_polyf3 P_avgf.
Import ListNotations.
Local Open Scope R_scope.

Section IEEE.
Variables prec emax : Z.
Context {Hprec : Prec_gt_0 prec} {Hmax : Prec_lt_emax prec emax}.
Notation fl := (binary_float prec emax).
Notation u := (unit_roundoff prec).

(** The average of n vectors of any dimension is finite, and its components are the means of the components up to n rounding errors. *)
Theorem C121_average : (20 <= prec)%Z -> (20 <= emax)%Z -> forall d (l : list (list fl)) M, l <> [] -> Forall (fun v => length v = d /\ all_finite v /\ Forall (fun x => Rabs x <= M) (values v)) l -> 0 <= M ->
  let n := INR (length l) in 100 * (n * u) <= 1 -> 2 * (n * M) <= bpow radix2 emax ->
  exists q, v_average l = Ret q /\ length q = d /\ all_finite q
    /\ forall i, (i < d)%nat -> Rabs (nth i (values q) 0 - fold_right Rplus 0 (map (fun v => nth i (values v) 0) l) / n) <= 103 / 100 * (n * (u * M)) + underflow_error prec emax.
Proof. exact (average_near prec emax). Qed.
End IEEE.

(** The hypotheses are met in double precision by the points (1, 2, 3), (3, 6, -3) and (8, -5, 3); their average is (4, 1, 1). *)
Definition three : list (list double) := [ints [1; 2; 3]; ints [3; 6; -3]; ints [8; -5; 3]]%Z.
Definition avg_b (o : outcome (list double)) (r : list double) : bool := match o with Ret q => v_eq q r | _ => false end.
Example ex_C121_case : three <> [] /\ Forall (fun v => length v = 3%nat /\ all_finite v /\ Forall (fun x => Rabs x <= 8) (values v)) three /\ 100 * (INR (length three) * unit_roundoff 53) <= 1 /\ 2 * (INR (length three) * 8) <= bpow radix2 1024
  /\ avg_b (v_average three) (ints [4; 1; 1]%Z) = true.
Proof.
  assert (W : forall x y z, (Z.abs x <= 8)%Z -> (Z.abs y <= 8)%Z -> (Z.abs z <= 8)%Z -> S_hit.within 8 (ints [x; y; z])) by (intros; apply ints_within; assumption). assert (N3 : INR (length three) = 3) by (cbn; lra). rewrite N3.
  split; [discriminate|]. split; [unfold three; repeat (apply Forall_cons; [apply W; lia|]); apply Forall_nil|]. split; [unfold unit_roundoff; cbn; lra|]. split; [apply Rle_trans with (bpow radix2 30); [cbn; lra|apply bpow_le; lia]|]. vm_cast_no_check (eq_refl true).
Qed.
Print Assumptions C121_average.
