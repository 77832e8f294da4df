(** The theorems of C113 and cases in double precision. *)
From Coq Require Import ZArith Reals List Lia Lra Bool Psatz.
From Flocq Require Import Core BinarySingleNaN.
From Verif Require Import Ops M_scalar M_vec M_geom M_intersect Inst_F S_vec S_rnd S_intersect S_hit S_raybox S_tbox S_sphere P_ieee P_vec P_fp P_fp4 P_fp5 P_hit P_hit2 P_hit4 P_ft P_tbox P_raybox P_raybox3 P_sphere.
Import ListNotations.
Local Open Scope R_scope.

Section FP.
Variables prec emax : Z.
Context {Hprec : Prec_gt_0 prec} {Hmax : Prec_lt_emax prec emax}.
Notation fl := (binary_float prec emax).
Hypothesis U20 : (20 <= prec)%Z.
Hypothesis E20 : (20 <= emax)%Z.
Variables (M : R) (o d c : list fl) (rad : fl).
Hypothesis (Ho : within M o) (Hc : within M c) (Hd : nearly_unit d) (Fr : is_finite rad = true) (Br : Rabs (B2R rad) <= M) (M1 : 1 <= M) (MO : 4096 * (M * M) <= bpow radix2 emax).
Notation r := (Ray o d).
Notation s := (intersect_ray_sphere r c rad).
Notation E := (sphere_error prec M).
Let G := sphere prec emax U20 E20 o d c rad M Ho Hc Hd Fr Br M1 MO.
Lemma nan_fin : forall x : fl, BinarySingleNaN.is_nan x = true -> is_finite x = true -> False. Proof. intros [| | |]; discriminate. Qed.
Lemma on_sphere : s = o_nan \/ is_finite s = true /\ 0 <= B2R s <= 14 * M /\ Rabs (excess r c rad (B2R s)) <= E.
Proof. destruct G as [[H _]|(H1 & H2 & H3 & _)]; auto. Qed.
Lemma far : forall t, 16 * M <= t -> 0 <= excess r c rad t.
Proof.
  intros t Ht. rewrite (excess_poly prec emax o d c rad M Ho Hc Hd). destruct (u_small prec U20) as [U0 U1]. destruct (unit_facts prec emax U20 d Hd) as (_ & D & _). destruct (p_near prec emax U20 E20 o d c rad M Ho Hc Hd M1 MO) as [_ BP].
  assert (W := rdot_nonneg (rsub (values o) (values c))). apply Rabs_le_inv in D, BP. assert (RR : B2R rad * B2R rad <= M * M). { assert (Br' := Br). apply Rabs_le_inv in Br'. nra. }
  set (P := 2 * rdot (rsub (values o) (values c)) (values d)) in *. set (n := rdot (values d) (values d)) in *.
  assert (N : 999 / 1000 <= n) by lra. assert (T : 999 / 1000 * (t * t) <= t * t * n) by nra. assert (PT : - (1202 / 100 * M) * t <= P * t) by (apply Rmult_le_compat_r; lra). nra.
Qed.
Lemma miss : BinarySingleNaN.is_nan s = true -> forall t, 0 <= t -> - E <= excess r c rad t.
Proof.
  intros N t Ht. destruct G as [[_ H]|(H & _)]; [|destruct (nan_fin _ N H)]. destruct (Rle_lt_dec t (16 * M)) as [L|L]; [apply H; lra|]. apply Rle_trans with 0; [|apply far; lra].
  assert (U := u_pos prec). unfold sphere_error. nra.
Qed.
Lemma E_pos : 0 <= E. Proof. assert (U := u_pos prec). unfold sphere_error. nra. Qed.
Lemma from_outside : E < excess r c rad 0 -> is_finite s = true -> forall t, 0 <= t <= B2R s -> - E <= excess r c rad t.
Proof.
  intros O F. destruct G as [[H _]|(_ & HS & _ & [H|H])]; [rewrite H in F; discriminate|exact H|]. specialize (H 0 ltac:(lra)). lra.
Qed.
Lemma from_inside : excess r c rad 0 < - E -> is_finite s = true /\ forall t, 0 <= t <= B2R s -> excess r c rad t <= E.
Proof.
  intros I. assert (EP := E_pos). destruct G as [[_ H]|(F & HS & _ & [H|H])]; [|specialize (H 0 ltac:(lra)); lra|auto]. specialize (H 0 ltac:(lra)). lra.
Qed.
End FP.

(** The ray from the origin towards (1, 1, 0), and from (8, 8, 0) in the same direction, with the sphere of radius 4 around (8, 8, 0) *)
Definition sp_center : list double := [cst 8; cst 8; cst 0].
Definition sp_radius : double := cst 4.
Lemma sp_sizes : within 16 rb_zero /\ within 16 sp_center /\ nearly_unit rb_diag /\ is_finite sp_radius = true /\ Rabs (B2R sp_radius) <= 16 /\ 1 <= 16 /\ 4096 * (16 * 16) <= bpow radix2 1024.
Proof.
  destruct (cst_double 4 ltac:(lia)) as [F V]. split; [apply sized3; try lia; absz|]. split; [apply sized3; try lia; absz|]. split; [exact diag_unit|]. split; [exact F|]. split; [refine (eq_ind_r (fun a => Rabs a <= 16) _ V); absz|]. split; [lra|].
  apply Rle_trans with (bpow radix2 20); [cbn; lra|apply bpow_le; lia].
Qed.
Lemma sp_E : 0 <= sphere_error 53 16 < 1.
Proof. destruct u_double as [U0 U1]. unfold sphere_error. split; [nra|]. assert (unit_roundoff 53 <= bpow radix2 (-53)) by (unfold unit_roundoff; apply bpow_le; lia). assert (bpow radix2 (-53) <= / 1000000000) by (cbn; lra). lra. Qed.
Lemma sp_excess : forall x y z a t, (Z.abs x <= 2 ^ 53)%Z -> (Z.abs y <= 2 ^ 53)%Z -> (Z.abs z <= 2 ^ 53)%Z -> values rb_diag = [a; a; 0] -> excess (Ray [cst x : double; cst y; cst z] rb_diag) sp_center sp_radius t
  = (IZR x + t * a - 8) * (IZR x + t * a - 8) + (IZR y + t * a - 8) * (IZR y + t * a - 8) + IZR z * IZR z - 16.
Proof.
  intros x y z a t Hx Hy Hz V. unfold excess, rdist, rnorm. rewrite Rsqr_sqrt by apply rdot_nonneg. unfold ray_at, ray_values, rpoint. cbn [ray_origin ray_dir]. rewrite V. unfold sp_center. rewrite (proj2 (vals3 x y z Hx Hy Hz)), (proj2 (vals3 8 8 0 ltac:(lia) ltac:(lia) ltac:(lia))).
  destruct (cst_double 4 ltac:(lia)) as [_ V4]. refine (eq_trans (f_equal (fun b => _ - Rsqr b) V4) _). unfold radd, rsub, rscale, Rsqr. cbn [map zip rdot]. ring.
Qed.
Lemma sp_cases : sphere_error 53 16 < excess (Ray rb_zero rb_diag) sp_center sp_radius 0 /\ excess (Ray sp_center rb_diag) sp_center sp_radius 0 < - sphere_error 53 16
  /\ (exists t, 0 <= t /\ excess (Ray rb_zero rb_diag) sp_center sp_radius t < - sphere_error 53 16).
Proof.
  destruct (diag_generic rb_diag diag_unit diag_check) as (a & A & V). assert (E := sp_E).
  assert (X1 := sp_excess 0 0 0 a 0 ltac:(lia) ltac:(lia) ltac:(lia) V). assert (X2 := sp_excess 8 8 0 a 0 ltac:(lia) ltac:(lia) ltac:(lia) V). assert (X3 := sp_excess 0 0 0 a (8 / a) ltac:(lia) ltac:(lia) ltac:(lia) V).
  split; [refine (eq_ind_r (fun x => _ < x) _ X1); lra|]. split; [refine (eq_ind_r (fun x => x < _) _ X2); lra|]. exists (8 / a). split; [apply Rlt_le, Rdiv_lt_0_compat; lra|].
  refine (eq_ind_r (fun x => x < _) _ X3). assert (EA : 8 / a * a = 8) by (field; lra). rewrite EA. lra.
Qed.
Lemma sp_hit : is_finite (intersect_ray_sphere (Ray rb_zero rb_diag) sp_center sp_radius) = true.
Proof. vm_cast_no_check (eq_refl true). Qed.
Lemma sp_missed : BinarySingleNaN.is_nan (intersect_ray_sphere (Ray [cst 0 : double; cst 9; cst 0] rb_diag) sp_center sp_radius) = true.
Proof. vm_cast_no_check (eq_refl true). Qed.
