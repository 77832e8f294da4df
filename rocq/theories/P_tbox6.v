(** Matrices against quaternions, and a case for the theorems (C111). *)
From Coq Require Import ZArith Reals List Lia Lra Bool Psatz.
From Flocq Require Import Core BinarySingleNaN.
From Verif Require Import Ops M_scalar M_vec M_mat M_matext M_quat M_bbox Inst_XR Inst_F S_vec S_mat S_affine S_rot S_quat S_order S_boxset S_rnd S_hit S_lu S_ft S_chain S_tbox
  P_ord P_ieee P_vec P_fp P_fp3 P_fp4 P_fp5 P_fp7 P_fp8 P_hit P_hit2 P_quat P_ft P_ft3 P_ft4 P_chain P_chain2 P_chain3 P_bbox3 P_affine P_rotmat P_tbox P_tbox2 P_tbox3 P_tbox4 P_tbox5.
Import ListNotations.
Local Open Scope R_scope.

Section FP.
Variables prec emax : Z.
Context {Hprec : Prec_gt_0 prec} {Hmax : Prec_lt_emax prec emax}.
Notation fl := (binary_float prec emax).
Notation u := (unit_roundoff prec).
Notation eta := (underflow_error prec emax).
Notation Om := (bpow radix2 emax).

Lemma quat_agrees : (20 <= prec)%Z -> (20 <= emax)%Z -> forall d (q : quat fl) (v : list fl), 0 <= d <= / 50 -> unit_quat d q -> length v = 3%nat -> all_finite v -> rnorm (values v) <= Om / 10 ->
  rdist (values (m_mul_p 4 (rotation_quat q) v)) (values (q_rotate q v)) <= 126 * (u * rnorm (values v) + eta) + 21 / 10 * d * rnorm (values v).
Proof.
  intros U20 E20 d q v D Uq Lv Fv HV. destruct (quat_matrix_turns prec emax U20 E20 d q D Uq) as (_ & _ & H). destruct (H v Lv Fv HV) as (_ & H1). assert (OM := om_big emax E20).
  destruct (rotate_error prec emax U20 E20 q v) as (L & _ & H2); auto; [eapply unit_quat_le; [|exact Uq]; lra|lra|]. assert (Qq := fin_quat prec emax q (proj1 Uq)).
  assert (LV : length (values v) = 3%nat) by now rewrite val_length. assert (L1 := rotate_length _ _ Qq LV).
  assert (T := rdist_triangle (values (m_mul_p 4 (rotation_quat q) v)) (rq_rotate (quat_values q) (values v)) (values (q_rotate q v))). rewrite !val_length, L1, L, mul_p_len in T. specialize (T eq_refl eq_refl).
  rewrite (rdist_sym (rq_rotate _ _)) in T. lra.
Qed.
Lemma axis_agrees : (20 <= prec)%Z -> (20 <= emax)%Z -> forall {lm : libm fl}, accurate lm -> forall (axis : list fl) (angle : fl) (v : list fl), nearly_unit axis -> is_finite angle = true -> Rabs (B2R angle) <= 7 ->
  length v = 3%nat -> all_finite v -> rnorm (values v) <= Om / 10 -> exists q, q_axis_angle axis angle = Ret q
  /\ rdist (values (m_mul_p 4 (rotation_axis_angle axis angle) v)) (values (q_rotate q v)) <= 530 * (u * rnorm (values v) + eta)
  /\ rdist (values (m_mul_p 4 (rotation_quat q) v)) (values (q_rotate q v)) <= 231 * (u * rnorm (values v) + eta).
Proof.
  intros U20 E20 lm Acc axis angle v HA Fa Ba Lv Fv HV. assert (OM := om_big emax E20). destruct (u_small prec U20) as [U0 U1]. destruct (eta_small prec emax E20) as [T0 T1].
  destruct (axis_angle_turns prec emax U20 E20 Acc axis angle v HA Fa ltac:(lra) Lv Fv ltac:(lra)) as (q & Eq & Uq & H1). exists q. split; [exact Eq|].
  destruct (axis_matrix prec emax U20 E20 Acc axis angle HA Fa Ba) as (_ & _ & H). destruct (H v Lv Fv HV) as (_ & H2).
  destruct (unit_near prec emax U20 axis HA) as (x & y & z & E & _ & a & b & c & Ew & _). assert (LV : length (values v) = 3%nat) by now rewrite val_length.
  assert (Uq' : unit_quat (/ 50) q) by (eapply unit_quat_le; [|exact Uq]; lra). destruct (rotate_error prec emax U20 E20 q v Uq' Lv Fv ltac:(lra)) as (L & _ & _).
  split.
  - assert (LW := rrot_len a b c (B2R angle) _ LV). rewrite <- Ew in LW.
    match type of H2 with rdist ?x ?y <= _ => assert (T := rdist_triangle x y (values (q_rotate q v))) end. rewrite !val_length, LW, L, mul_p_len in T. specialize (T eq_refl eq_refl).
    rewrite (rdist_sym (rrot _ _ _)) in T. lra.
  - assert (D50 : 0 <= 50 * u <= / 50) by lra. assert (G := quat_agrees U20 E20 (50 * u) q v D50 Uq Lv Fv HV). assert (P := rnorm_nonneg (values v)). assert (0 <= u * rnorm (values v)) by (apply Rmult_le_pos; lra). lra.
Qed.
End FP.

Definition box345 : bbox double := BB [cst (-1); cst 0; cst 2] v345.
Lemma case_tbox : box_of 3 box345 /\ within 12 (bb_min box345) /\ within 12 (bb_max box345) /\ affine_up_to 4 7 m345 /\ 4 * 12 <= bpow radix2 1024 /\ 2 * (4 * 12 + 7 + 1) <= bpow radix2 1024.
Proof.
  split; [exact (proj1 box_case)|]. assert (B := bpow_1024). assert (C : forall n, (Z.abs n <= 2 ^ 53)%Z -> is_finite (cst n : double) = true /\ B2R (cst n : double) = IZR n) by exact cst_double.
  destruct (C (-1)%Z ltac:(lia)) as [F1 V1]. destruct (C 0%Z ltac:(lia)) as [F0 V0]. destruct (C 2%Z ltac:(lia)) as [F2 V2].
  split. { split; [reflexivity|]. split; [repeat constructor; assumption|]. unfold values, box345. cbn [bb_min map]. rewrite V1, V0, V2. repeat (apply Forall_cons; [apply Rabs_le; lra|]). constructor. }
  split. { split; [reflexivity|]. split; [exact v345_finite|]. unfold box345. cbn [bb_max]. rewrite v345_values. repeat (apply Forall_cons; [apply Rabs_le; lra|]). constructor. }
  assert (EM : mvalues m345 = [[2; 0; 1; 0]; [0; 3; -1; 0]; [1; 1; 1; 0]; [5; 6; 7; 1]]).
  { unfold mvalues, m345, values. cbn [map]. rewrite !(fun n H => proj2 (C n H)) by lia. reflexivity. }
  split; [|lra]. split; [apply m345_case|]. rewrite EM. split.
  - split; [split; [reflexivity|repeat constructor]|]. intros [|[|[|[|]]]] Hc; [reflexivity..|lia].
  - intros r Hr. assert (A0 : Rabs 0 = 0) by apply Rabs_R0. assert (A1 : Rabs 1 = 1) by apply Rabs_R1. assert (A2 : Rabs 2 = 2) by (apply Rabs_pos_eq; lra). assert (A3 : Rabs 3 = 3) by (apply Rabs_pos_eq; lra).
    assert (A4 : Rabs (-1) = 1) by (rewrite Rabs_left; lra). assert (A5 : Rabs 5 = 5) by (apply Rabs_pos_eq; lra). assert (A6 : Rabs 6 = 6) by (apply Rabs_pos_eq; lra). assert (A7 : Rabs 7 = 7) by (apply Rabs_pos_eq; lra).
    unfold ent. destruct r as [|[|[|]]]; [| | |lia]; cbn [nth]; rewrite ?A0, ?A1, ?A2, ?A3, ?A4, ?A5, ?A6, ?A7; lra.
Qed.
Lemma case_axis7 : nearly_unit (pos_x3 : list double) /\ is_finite (cst 2 : double) = true /\ Rabs (B2R (cst 2 : double)) <= 7 /\ accurate (@exact_libm 53 1024 _ _).
Proof.
  destruct case_axis_turn as (H1 & H2 & _ & H3). destruct (F_cst 53 1024 2 ltac:(lia)) as (F2 & V2). split; [exact H1|]. split; [exact H2|]. split; [refine (eq_ind_r (fun x => Rabs x <= 7) _ V2); rewrite Rabs_pos_eq; lra|]. exact H3.
Qed.
Lemma case_quat_turn : unit_quat 0 (Q dhalf [dhalf; dhalf; dhalf]) /\ length case_turned = 3%nat /\ all_finite case_turned /\ rnorm (values case_turned) <= bpow radix2 1024 / 10.
Proof. destruct case_chain as (H1 & _ & H2). split; [exact (Forall_inv H1)|exact H2]. Qed.
