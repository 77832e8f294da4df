(** The missing coordinate of a point of a plane in machine arithmetic: a case (C120). *)
From Coq Require Import ZArith Reals List Lia Lra Bool.
From Flocq Require Import Core BinarySingleNaN.
From Verif Require Import Ops M_scalar M_vec M_geom M_intersect Inst_F S_vec S_geom S_rnd S_hit S_planes P_ieee P_fp5 P_planes2.
Import ListNotations.
Local Open Scope R_scope.

Lemma op_x : nth 0 (values (pl_normal op_1)) 0 = 5404319552844595 / 9007199254740992.
Proof.
  destruct (andb_prop _ _ op_check) as [H1 _]. destruct (same_values _ op_a op_b op_0 eq_refl eq_refl eq_refl H1) as (_ & W1). rewrite W1. cbn [nth]. unfold op_a. cbn [B2R]. unfold F2R. cbn [Fnum Fexp cond_Zopp Z.opp]. change (bpow radix2 (-53)) with (/ 9007199254740992). lra.
Qed.
Lemma at_case : nearly_unit (pl_normal op_1) /\ is_finite (pl_dist op_1) = true /\ Rabs (B2R (pl_dist op_1)) <= 8 /\ is_finite (cst 5 : double) = true /\ is_finite (cst 2 : double) = true /\ Rabs (B2R (cst 5 : double)) <= 8 /\ Rabs (B2R (cst 2 : double)) <= 8
  /\ nth 0 (values (pl_normal op_1)) 0 <> 0 /\ 8 * 8 <= Rabs (nth 0 (values (pl_normal op_1)) 0) * bpow radix2 1024
  /\ (o_lt (cst 1666) (o_mul (cst 1000) (pl_at op_1 [cst 5; cst 2] 0)) && o_lt (o_mul (cst 1000) (pl_at op_1 [cst 5; cst 2] 0)) (cst 1667) = true)%bool.
Proof.
  destruct (cst_double 5 ltac:(lia)) as (F5 & V5). destruct (cst_double 2 ltac:(lia)) as (F2 & V2). rewrite op_x, V2. change (pl_dist op_1) with (cst 5 : double). rewrite V5.
  split; [apply int_unit; lia|]. split; [exact F5|]. split; [apply Rabs_le; lra|]. split; [exact F5|]. split; [exact F2|]. split; [apply Rabs_le; lra|]. split; [apply Rabs_le; lra|]. split; [lra|].
  split; [|vm_cast_no_check (eq_refl true)]. rewrite Rabs_pos_eq by lra. apply Rle_trans with (/ 2 * bpow radix2 30); [cbn; lra|]. apply Rmult_le_compat; [lra|apply bpow_ge_0|lra|apply bpow_le; lia].
Qed.
