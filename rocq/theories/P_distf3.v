(** Degenerate segments, and cases in double precision (C117). *)
From Coq Require Import ZArith Reals List Lia Lra Bool Psatz.
From Flocq Require Import Core BinarySingleNaN.
From Verif Require Import Ops M_scalar M_vec M_geom M_dist Inst_F S_vec S_dist S_rnd S_hit S_raybox S_distf P_ieee P_vec P_fp5 P_fp6 P_fp8 P_hit P_raybox3 P_raytri2.
Import ListNotations.
Local Open Scope R_scope.

Section FP.
Variables prec emax : Z.
Context {Hprec : Prec_gt_0 prec} {Hmax : Prec_lt_emax prec emax}.
Notation fl := (binary_float prec emax).
Notation zero := (zero prec emax).

Lemma sum_nan : forall (l : list (fl * fl)) (a : fl), BinarySingleNaN.is_nan a = true \/ Exists (fun q => BinarySingleNaN.is_nan (o_mul (fst q) (snd q)) = true) l -> BinarySingleNaN.is_nan (fold_left (fun result q => o_add result (o_mul (fst q) (snd q))) l a) = true.
Proof.
  induction l as [|q l IH]; intros a H; cbn [fold_left]; [destruct H as [H|H]; [exact H|inversion H]|]. apply IH. destruct H as [H|H].
  - left. destruct a; try discriminate. reflexivity.
  - inversion H as [? ? K|? ? K]; subst; [|right; exact K]. left. destruct (o_mul (fst q) (snd q)); try discriminate. destruct a as [|[]| |]; reflexivity.
Qed.
(** A segment without length has no direction, and no distance. *)
Lemma no_direction : forall (x : fl) (v : list fl), Forall zero (x :: v) -> BinarySingleNaN.is_nan (nth 0 (v_normalize (x :: v)) (cst 0)) = true.
Proof.
  intros x v H. assert (L : zero (v_length (x :: v))).
  { assert (G : forall l (a : fl), zero a -> Forall zero l -> zero (fold_left (fun result q => o_add result (o_mul (fst q) (snd q))) (combine l l) a)).
    { induction l as [|y l IH]; intros a Za F; [exact Za|]. inversion F as [|? ? Zy F']; subst. cbn [combine fold_left fst snd]. apply IH; [|exact F']. destruct Za as [s ->], Zy as [s' ->]. unfold P_fp6.zero. destruct s, s'; eexists; reflexivity. }
    assert (Z0 : zero (cst 0)). { destruct (F_cst0 prec emax) as [F V]. destruct (cst 0 : fl) as [s| | |s m e B]; try discriminate; [eexists; reflexivity|]. exfalso. cbn [B2R] in V. apply eq_0_F2R in V. destruct s; discriminate. }
    destruct (G (x :: v) (cst 0) Z0 H) as [s E]. exists s. unfold v_length, v_squared_length, v_dot. rewrite E. destruct s; reflexivity. }
  destruct L as [s L]. inversion H as [|? ? [s' Zx] _]; subst. unfold v_normalize, v_div_s. cbn [map nth]. rewrite L. reflexivity.
Qed.
Lemma no_length : forall (a p : list fl), a <> [] -> length p = length a -> all_finite a -> BinarySingleNaN.is_nan (pd_distance (seg_point_sqdist (Seg a a) p)) = true /\ BinarySingleNaN.is_nan (pd_distance (seg_point_dist (Seg a a) p)) = true.
Proof.
  intros a p N L F. assert (G : BinarySingleNaN.is_nan (pd_distance (seg_point_sqdist (Seg a a) p)) = true).
  { unfold seg_point_sqdist. cbn [pd_distance seg_start seg_end]. set (pos := sc_min _ _). clearbody pos. unfold seg_direction. cbn [seg_start seg_end].
    destruct a as [|x a]; [congruence|]. destruct p as [|y p]; [discriminate|]. assert (Z : Forall zero (v_sub (x :: a) (x :: a))).
    { clear - F. induction F as [|z l Fz _ IH]; [apply Forall_nil|]. cbn [v_sub map2]. apply Forall_cons; [apply sub_self; exact Fz|exact IH]. }
    cbn [v_sub map2] in Z |- *. assert (K := no_direction _ _ Z). destruct (v_normalize (o_sub x x :: map2 o_sub a a)) as [|n ns] eqn:E; [unfold v_normalize, v_div_s in E; discriminate|]. cbn [nth] in K.
    unfold al_point_at_distance. cbn [v_scale map v_add map2]. unfold v_squared_length, v_dot. apply sum_nan. right. cbn [combine]. apply Exists_cons_hd. cbn [fst snd]. destruct n; try discriminate. destruct x as [|[]| |], y as [|[]| |]; reflexivity. }
  split; [exact G|]. unfold seg_point_dist, pd_sqrt. cbn [pd_distance] in *. destruct (pd_distance (seg_point_sqdist _ _)); try discriminate. reflexivity.
Qed.
End FP.

(** A short segment: the square of its length is rounded to zero. *)
Definition tiny : double := @B754_finite 53 1024 false 4503599627370496 (-652) eq_refl.
Definition tiny_end : list double := [tiny; cst 0; cst 0].
Definition at_zero : list double := [cst 0; cst 0; cst 0].
Definition at_y : list double := [cst 0; cst 1; cst 0].
Lemma tiny_check : (BinarySingleNaN.is_nan (pd_distance (seg_point_dist (Seg at_zero tiny_end) at_y)))%bool = true.
Proof. vm_cast_no_check (eq_refl true). Qed.
Lemma tiny_lost : exists (s : segment double) p, within 1 (seg_start s) /\ within 1 (seg_end s) /\ within 1 p /\ 0 < rdist (seg_end (seg_values s)) (seg_start (seg_values s)) /\ BinarySingleNaN.is_nan (pd_distance (seg_point_dist s p)) = true.
Proof.
  exists (Seg at_zero tiny_end), at_y. cbn [seg_start seg_end seg_values].
  assert (TV : 0 < B2R tiny <= 1). { unfold tiny. cbn [B2R]. unfold F2R. cbn [Fnum Fexp cond_Zopp]. assert (G := bpow_gt_0 radix2 (-652)). split; [lra|]. apply Rle_trans with (bpow radix2 53 * bpow radix2 (-652)); [apply Rmult_le_compat_r; [lra|cbn; lra]|]. rewrite <- bpow_plus. change 1 with (bpow radix2 0). apply bpow_le. lia. }
  destruct (cst_double 0 ltac:(lia)) as [F0 V0].
  split; [apply sized3; try lia; absz|]. split.
  { split; [reflexivity|]. split; [repeat (apply Forall_cons; [reflexivity|]); apply Forall_nil|]. unfold tiny_end, values. cbn [map]. apply Forall_cons; [apply Rabs_le; lra|]. apply Forall_cons; [rewrite V0; absz|]. apply Forall_cons; [rewrite V0; absz|apply Forall_nil]. }
  split; [apply sized3; try lia; absz|]. split; [|exact tiny_check].
  unfold tiny_end, at_zero, values. cbn [map]. rewrite V0. generalize dependent (B2R tiny). intros x TV. unfold rdist, rnorm. cbn [rsub zip rdot]. apply sqrt_lt_R0. assert (0 < (x - 0) * (x - 0)) by (apply Rmult_lt_0_compat; lra). lra.
Qed.
(** The point (2, 9, 3), and the segment from (-8, 0, 0) to (9, 0, 0) *)
Lemma sizes_case : within 16 rt_from /\ nearly_unit rt_dir /\ within 16 rt_p /\ within 16 rt_q /\ 1 <= 16 /\ 1000 * (16 * 16) <= bpow radix2 1024
  /\ let s := seg_values (Seg rt_p rt_q) in bpow radix2 (5 - 1024 / 2) <= rdist (seg_end s) (seg_start s).
Proof.
  destruct rt_sizes as (H1 & H2 & H3 & H4 & _). repeat (split; [assumption|]). split; [lra|]. split; [apply Rle_trans with (bpow radix2 30); [cbn; lra|apply bpow_le; lia]|].
  unfold seg_values, rt_p, rt_q. cbv zeta. cbn [seg_start seg_end]. rewrite (proj2 (vals3 (-8) 0 0 ltac:(lia) ltac:(lia) ltac:(lia))), (proj2 (vals3 9 0 0 ltac:(lia) ltac:(lia) ltac:(lia))).
  apply Rle_trans with (bpow radix2 0); [apply bpow_le; vm_compute; discriminate|]. change (bpow radix2 0) with 1. rewrite <- sqrt_1. unfold rdist, rnorm. apply sqrt_le_1_alt. cbn [rsub zip rdot]. lra.
Qed.
Lemma seg_case : let r := seg_point_sqdist (Seg rt_p rt_q) rt_from in (o_eq (pd_position r) (cst 10) && o_eq (pd_distance r) (cst 90))%bool = true.
Proof. vm_cast_no_check (eq_refl true). Qed.
Lemma ray_case : let r := ray_point_sqdist (Ray rt_from rt_dir) rt_q in (o_lt (cst 7) (pd_position r) && o_lt (pd_position r) (cst 8) && o_lt (cst 81) (pd_distance r) && o_lt (pd_distance r) (cst 139))%bool = true.
Proof. vm_cast_no_check (eq_refl true). Qed.
