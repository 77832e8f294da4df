(** The rotation matrices of an axis and an angle and of roll, pitch and yaw in machine numbers (C111). *)
From Coq Require Import ZArith Reals List Lia Lra Bool Psatz.
From Flocq Require Import Core BinarySingleNaN.
From Verif Require Import Ops M_scalar M_vec M_mat M_matext M_quat M_bbox Inst_XR Inst_F S_vec S_mat S_affine S_rot S_quat S_rnd S_hit S_lu S_ft S_chain S_tbox
  P_ord P_ieee P_vec P_fp P_fp3 P_fp4 P_fp7 P_hit P_hit2 P_quat P_ft P_ft3 P_ft4 P_chain P_chain2 P_chain3 P_bbox3 P_affine P_rotmat P_tbox P_tbox2 P_tbox3 P_tbox4.
Import ListNotations.
Local Open Scope R_scope.

Lemma rrot_poly : forall a b c th x y z, let s := sin (- th) in let k := cos (- th) in let i := 1 - k in
  rrot [a; b; c] th [x; y; z] = raffine 3 (lin (i * a * a + k) (i * a * b + s * c) (i * a * c - s * b) (i * a * b - s * c) (i * b * b + k) (i * b * c + s * a) (i * a * c + s * b) (i * b * c - s * a) (i * c * c + k)) [x; y; z].
Proof.
  intros. rewrite lin_apply. unfold s, i, k. rewrite sin_neg, cos_neg. unfold rrot, radd, rscale. cbn [map zip rdot rcross nth]. f_equal; [ring|]. f_equal; [ring|]. f_equal. ring.
Qed.
Lemma rrot_len : forall a b c th p, length p = 3%nat -> length (rrot [a; b; c] th p) = 3%nat.
Proof. intros a b c th p L. destruct (list3R p L) as (x & y & z & ->). reflexivity. Qed.
Lemma rrot_norm : forall w th p, length w = 3%nat -> length p = 3%nat -> rdot w w = 1 -> rnorm (rrot w th p) = rnorm p.
Proof. intros. unfold rnorm. f_equal. now apply rrot_isometry. Qed.
Lemma prod_le1 : forall a b A B, Rabs a <= A -> Rabs b <= B -> Rabs (a * b) <= A * B.
Proof. intros. rewrite Rabs_mult. apply Rmult_le_compat; auto using Rabs_pos. Qed.
Lemma sum_le : forall a b A B, Rabs a <= A -> Rabs b <= B -> Rabs (a + b) <= A + B.
Proof. intros. eapply Rle_trans; [apply Rabs_triang|]. lra. Qed.
Lemma diff_le : forall a b A B, Rabs a <= A -> Rabs b <= B -> Rabs (a - b) <= A + B.
Proof. intros a b A B HA HB. apply Rabs_le_inv in HA, HB. apply Rabs_le. lra. Qed.

Section FP.
Variables prec emax : Z.
Context {Hprec : Prec_gt_0 prec} {Hmax : Prec_lt_emax prec emax}.
Notation fl := (binary_float prec emax).
Notation u := (unit_roundoff prec).
Notation eta := (underflow_error prec emax).
Notation Om := (bpow radix2 emax).
Hypothesis U20 : (20 <= prec)%Z.
Hypothesis E20 : (20 <= emax)%Z.
Context {lm : libm fl}.
Hypothesis Acc : accurate lm.
Notation nmul := (nmul prec emax U20 E20).
Notation nadd := (nadd prec emax U20 E20).
Notation nsub := (nsub prec emax U20 E20).

Lemma unit_near : forall axis : list fl, nearly_unit axis -> exists x y z, axis = [x; y; z] /\ let w := rscale (/ rnorm (values axis)) (values axis) in
  rdot w w = 1 /\ exists a b c, w = [a; b; c] /\ near x a (16 * u) /\ near y b (16 * u) /\ near z c (16 * u) /\ Rabs a <= 1 /\ Rabs b <= 1 /\ Rabs c <= 1.
Proof.
  intros axis (L & F & N). destruct (u_small prec ltac:(assumption)) as [U0 U1]. destruct axis as [|x [|y [|z [|]]]]; try discriminate. exists x, y, z. split; [reflexivity|]. intros w.
  inversion F as [|? ? Fx F']; subst. inversion F' as [|? ? Fy F'']; subst. inversion F'' as [|? ? Fz _]; subst.
  set (A := rnorm (values [x; y; z])) in *. apply Rabs_le_inv in N. assert (A0 : A <> 0) by lra.
  assert (W : rdot w w = 1). { unfold w. rewrite rdot_scale_l, rdot_scale_r. rewrite <- rnorm_sq. fold A. field. exact A0. }
  split; [exact W|]. assert (S := unit_size w W). exists (/ A * B2R x), (/ A * B2R y), (/ A * B2R z). split; [reflexivity|].
  unfold w in S. cbn in S. inversion S as [|? ? Sx S']; subst. inversion S' as [|? ? Sy S'']; subst. inversion S'' as [|? ? Sz _]; subst.
  assert (K : forall t : fl, is_finite t = true -> Rabs (/ A * B2R t) <= 1 -> near t (/ A * B2R t) (16 * u)).
  { intros t Ft Bt. split; [exact Ft|]. replace (B2R t - / A * B2R t) with ((A - 1) * (/ A * B2R t)) by (field; exact A0). rewrite Rabs_mult. rewrite <- (Rmult_1_r (16 * u)). apply Rmult_le_compat; auto using Rabs_pos. apply Rabs_le; lra. }
  repeat split; auto; now apply K.
Qed.
Lemma i_axis : forall (i t : fl) I T, near i I (1001 / 100 * u) -> near t T (16 * u) -> Rabs I <= 2 -> Rabs T <= 1 -> near (o_mul i t) (I * T) (4412 / 100 * u) /\ Rabs (I * T) <= 2.
Proof.
  intros i t I T Ni Nt BI BT. split; [|eapply Rle_trans; [apply (prod_le1 I T 2 1); assumption|lra]]. eapply near_w; [exact U20|apply (nmul i t I T 2 1 _ _ Ni Nt); auto; lra|lra].
Qed.
Lemma ii_axis : forall (i t : fl) I T, near i I (4412 / 100 * u) -> near t T (16 * u) -> Rabs I <= 2 -> Rabs T <= 1 -> near (o_mul i t) (I * T) (7822 / 100 * u) /\ Rabs (I * T) <= 2.
Proof.
  intros i t I T Ni Nt BI BT. split; [|eapply Rle_trans; [apply (prod_le1 I T 2 1); assumption|lra]]. eapply near_w; [exact U20|apply (nmul i t I T 2 1 _ _ Ni Nt); auto; lra|lra].
Qed.
Lemma s_axis : forall (i t : fl) I T, near i I (8 * u) -> near t T (16 * u) -> Rabs I <= 1 -> Rabs T <= 1 -> near (o_mul i t) (I * T) (251 / 10 * u) /\ Rabs (I * T) <= 1.
Proof.
  intros i t I T Ni Nt BI BT. split; [|eapply Rle_trans; [apply (prod_le1 I T 1 1); assumption|lra]]. eapply near_w; [exact U20|apply (nmul i t I T 1 1 _ _ Ni Nt); auto; lra|lra].
Qed.
Lemma e_plus : forall (x y : fl) a b e, near x a (7822 / 100 * u) /\ Rabs a <= 2 -> near y b (e * u) -> Rabs b <= 1 -> 0 <= e <= 251 / 10 -> near (o_add x y) (a + b) (107 * u).
Proof. intros x y a b e [Nx Ba] Ny Bb E. eapply near_w; [exact U20|apply (nadd x y a b 3 _ _ Nx Ny); try lra; eapply Rle_trans; [apply sum_le; eassumption|lra]|lra]. Qed.
Lemma e_minus : forall (x y : fl) a b e, near x a (7822 / 100 * u) /\ Rabs a <= 2 -> near y b (e * u) -> Rabs b <= 1 -> 0 <= e <= 251 / 10 -> near (o_sub x y) (a - b) (107 * u).
Proof. intros x y a b e [Nx Ba] Ny Bb E. eapply near_w; [exact U20|apply (nsub x y a b 3 _ _ Nx Ny); try lra; eapply Rle_trans; [apply diff_le; eassumption|lra]|lra]. Qed.

Lemma axis_matrix : forall (axis : list fl) (angle : fl), nearly_unit axis -> is_finite angle = true -> Rabs (B2R angle) <= 7 -> let m := rotation_axis_angle axis angle in let w := rscale (/ rnorm (values axis)) (values axis) in
  affine_up_to 4 0 m /\ (forall p, length p = 3%nat -> rdist (raffine 3 (mvalues m) p) (rrot w (B2R angle) p) <= 322 * u * rnorm p)
  /\ forall v : list fl, length v = 3%nat -> all_finite v -> rnorm (values v) <= Om / 10 ->
    all_finite (m_mul_p 4 m v) /\ rdist (values (m_mul_p 4 m v)) (rrot w (B2R angle) (values v)) <= 400 * (u * rnorm (values v) + eta).
Proof.
  intros axis angle HA Fa Ba m w. destruct (u_small prec ltac:(assumption)) as [U0 U1]. destruct (eta_small prec emax ltac:(assumption)) as [T0 T1].
  destruct (unit_near axis HA) as (x & y & z & -> & W & a & b & c & Ew & Nx & Ny & Nz & Ba' & Bb & Bc). fold w in W, Ew. clear HA.
  assert (FN : is_finite (o_neg angle) = true) by (change (o_neg angle) with (Bopp angle); now rewrite is_finite_Bopp). assert (VN : B2R (o_neg angle) = - B2R angle) by apply B2R_Bopp.
  set (th := B2R angle) in *.
  assert (Ns := acc_sin lm Acc (o_neg angle) FN). assert (Nc := acc_cos lm Acc (o_neg angle) FN). rewrite VN, Rabs_Ropp in Ns, Nc. specialize (Ns Ba). specialize (Nc Ba).
  assert (Bs : Rabs (sin (- th)) <= 1) by (apply Rabs_le, SIN_bound). assert (Bk : Rabs (cos (- th)) <= 1) by (apply Rabs_le, COS_bound).
  set (s := f_sin (o_neg angle)) in *. set (k := f_cos (o_neg angle)) in *. set (S := sin (- th)) in *. set (K := cos (- th)) in *.
  assert (BI : Rabs (1 - K) <= 2) by (apply Rabs_le_inv in Bk; apply Rabs_le; lra).
  assert (Ni := nsub _ _ _ _ _ _ _ (one_near prec emax) Nc BI ltac:(lra) ltac:(lra) ltac:(lra)). replace (0 + 8 + 2 + / 100) with (1001 / 100) in Ni by field.
  destruct (i_axis _ _ _ _ Ni Nx BI Ba') as (Nix & Bix). destruct (i_axis _ _ _ _ Ni Ny BI Bb) as (Niy & Biy). destruct (i_axis _ _ _ _ Ni Nz BI Bc) as (Niz & Biz).
  destruct (s_axis _ _ _ _ Ns Nx Bs Ba') as (Nsx & Bsx). destruct (s_axis _ _ _ _ Ns Ny Bs Bb) as (Nsy & Bsy). destruct (s_axis _ _ _ _ Ns Nz Bs Bc) as (Nsz & Bsz).
  assert (Xx := ii_axis _ _ _ _ Nix Nx Bix Ba'). assert (Xy := ii_axis _ _ _ _ Nix Ny Bix Bb). assert (Xz := ii_axis _ _ _ _ Nix Nz Bix Bc).
  assert (Yy := ii_axis _ _ _ _ Niy Ny Biy Bb). assert (Yz := ii_axis _ _ _ _ Niy Nz Biy Bc). assert (Zz := ii_axis _ _ _ _ Niz Nz Biz Bc).
  assert (R0' : 0 <= 8 <= 251 / 10) by lra. assert (R1' : 0 <= 251 / 10 <= 251 / 10) by lra.
  destruct (near_linear prec emax _ _ _ _ _ _ _ _ _ _ _ _ _ _ _ _ _ _ (107 * u) ltac:(lra)
    (e_plus _ _ _ _ _ Xx Nc Bk R0') (e_plus _ _ _ _ _ Xy Nsz Bsz R1') (e_minus _ _ _ _ _ Xz Nsy Bsy R1')
    (e_minus _ _ _ _ _ Xy Nsz Bsz R1') (e_plus _ _ _ _ _ Yy Nc Bk R0') (e_plus _ _ _ _ _ Yz Nsx Bsx R1')
    (e_plus _ _ _ _ _ Xz Nsy Bsy R1') (e_minus _ _ _ _ _ Yz Nsx Bsx R1') (e_plus _ _ _ _ _ Zz Nc Bk R0')) as (H1 & H2 & H3 & H4).
  match type of H1 with finite_mat ?mm => change mm with m in * end.
  assert (H5 : forall p, length p = 3%nat -> rdist (raffine 3 (mvalues m) p) (rrot w th p) <= 322 * u * rnorm p).
  { intros p Lp. eapply Rle_trans; [|eapply Rle_trans; [apply (H4 p Lp)|]].
    - right. f_equal. rewrite Ew. destruct (list3R p Lp) as (p0 & p1 & p2 & ->). rewrite rrot_poly. reflexivity.
    - assert (P := rnorm_nonneg p). apply Rmult_le_compat_r; [exact P|lra]. }
  destruct (matrix_turns prec emax U20 E20 m (rrot w th) (322 * u) H1 H2 H3 ltac:(lra)) as (A & B).
  { intros p Lp. assert (Lw : length w = 3%nat) by now rewrite Ew. split; [rewrite Ew; now apply rrot_len|]. split; [|now apply H5]. rewrite rrot_norm by assumption. assert (P := rnorm_nonneg p). lra. }
  split; [exact A|]. split; [exact H5|]. intros v Lv Fv HV. destruct (B v Lv Fv HV) as (F & G). split; [exact F|]. assert (P := rnorm_nonneg (values v)). assert (0 <= u * rnorm (values v)) by (apply Rmult_le_pos; lra). lra.
Qed.

(** Roll, pitch and yaw *)
Lemma zero_add : forall x y : fl, is_finite x = true -> is_finite y = true -> B2R x = 0 -> is_finite (o_add x y) = true /\ B2R (o_add x y) = B2R y.
Proof.
  intros x y Fx Fy Zx. assert (H := Bplus_correct prec emax Hprec Hmax mode_NE x y Fx Fy). rewrite Zx, Rplus_0_l in H.
  rewrite (round_generic radix2 (SpecFloat.fexp prec emax) _ (B2R y)) in H by apply generic_format_B2R. rewrite Rlt_bool_true in H by apply abs_B2R_lt_emax. destruct H as (V & F & _). split; [exact F|exact V].
Qed.
Lemma zero_mul : forall x y : fl, is_finite x = true -> is_finite y = true -> B2R x * B2R y = 0 -> is_finite (o_mul x y) = true /\ B2R (o_mul x y) = 0.
Proof.
  intros x y Fx Fy Z. assert (H := Bmult_correct prec emax Hprec Hmax mode_NE x y). rewrite Z in H. rewrite round_0 in H by apply valid_rnd_round_mode. rewrite Rabs_R0 in H. rewrite Rlt_bool_true in H by apply bpow_gt_0.
  destruct H as (V & F & _). rewrite Fx, Fy in F. split; [exact F|exact V].
Qed.
Lemma one_mul : forall x y : fl, is_finite x = true -> is_finite y = true -> B2R x = 1 -> is_finite (o_mul x y) = true /\ B2R (o_mul x y) = B2R y.
Proof.
  intros x y Fx Fy Z. assert (H := Bmult_correct prec emax Hprec Hmax mode_NE x y). rewrite Z, Rmult_1_l in H.
  rewrite (round_generic radix2 (SpecFloat.fexp prec emax) _ (B2R y)) in H by apply generic_format_B2R. rewrite Rlt_bool_true in H by apply abs_B2R_lt_emax. destruct H as (V & F & _). rewrite Fx, Fy in F. split; [exact F|exact V].
Qed.
Definition d4 (x0 x1 x2 x3 y0 y1 y2 y3 : fl) : fl := o_add (o_add (o_add (o_add (cst 0) (o_mul x0 y0)) (o_mul x1 y1)) (o_mul x2 y2)) (o_mul x3 y3).
Lemma d4_near : forall (x0 x1 x2 x3 y0 y1 y2 y3 : fl) a0 a1 a2 a3 b0 b1 b2 b3 e1 e2, near x0 a0 (e1 * u) -> near x1 a1 (e1 * u) -> near x2 a2 (e1 * u) -> near x3 a3 (e1 * u) -> near y0 b0 (e2 * u) -> near y1 b1 (e2 * u) -> near y2 b2 (e2 * u) -> near y3 b3 (e2 * u) ->
  Rabs a0 <= 1 -> Rabs a1 <= 1 -> Rabs a2 <= 1 -> Rabs a3 <= 1 -> Rabs b0 <= 1 -> Rabs b1 <= 1 -> Rabs b2 <= 1 -> Rabs b3 <= 1 -> 0 <= e1 -> 0 <= e2 -> e1 + e2 <= 120 ->
  near (d4 x0 x1 x2 x3 y0 y1 y2 y3) (a0 * b0 + a1 * b1 + a2 * b2 + a3 * b3) ((4 * (e1 + e2) + 15) * u).
Proof.
  intros x0 x1 x2 x3 y0 y1 y2 y3 a0 a1 a2 a3 b0 b1 b2 b3 e1 e2 X0 X1 X2 X3 Y0 Y1 Y2 Y3 A0 A1 A2 A3 B0 B1 B2 B3 E1 E2 E12.
  assert (K : forall (x y : fl) a b, near x a (e1 * u) -> near y b (e2 * u) -> Rabs a <= 1 -> Rabs b <= 1 -> near (o_mul x y) (a * b) ((e1 + e2 + 11 / 10) * u) /\ Rabs (a * b) <= 1).
  { intros x y a b X Y A B. split; [|rewrite <- (Rmult_1_l 1); now apply prod_le1]. eapply near_w; [exact U20|apply (nmul x y a b 1 1 _ _ X Y A B); lra|lra]. }
  destruct (K _ _ _ _ X0 Y0 A0 B0) as (N0 & L0). destruct (K _ _ _ _ X1 Y1 A1 B1) as (N1 & L1). destruct (K _ _ _ _ X2 Y2 A2 B2) as (N2 & L2). destruct (K _ _ _ _ X3 Y3 A3 B3) as (N3 & L3). clear K.
  assert (N0' : near (o_add (cst 0) (o_mul x0 y0)) (a0 * b0) ((e1 + e2 + 11 / 10) * u)). { destruct (F_cst0 prec emax) as [F0 V0]. destruct (zero_add (cst 0) (o_mul x0 y0) F0 (proj1 N0) V0) as [F V]. split; [exact F|]. rewrite V. apply N0. }
  assert (L01 := sum_le _ _ _ _ L0 L1). assert (L012 := sum_le _ _ _ _ L01 L2). assert (L0123 := sum_le _ _ _ _ L012 L3).
  assert (M1 := nadd _ _ _ _ _ _ _ N0' N1 L01 ltac:(lra) ltac:(lra) ltac:(lra)). assert (M2 := nadd _ _ _ _ _ _ _ M1 N2 L012 ltac:(lra) ltac:(lra) ltac:(lra)).
  eapply near_w; [exact U20|apply (nadd _ _ _ _ (1 + 1 + 1 + 1) _ _ M2 N3)|]; lra.
Qed.

Lemma mul44 : forall a00 a10 a20 a30 a01 a11 a21 a31 a02 a12 a22 a32 a03 a13 a23 a33 b00 b10 b20 b30 b01 b11 b21 b31 b02 b12 b22 b32 b03 b13 b23 b33 : fl,
  m_mul 4 4 4 [[a00; a10; a20; a30]; [a01; a11; a21; a31]; [a02; a12; a22; a32]; [a03; a13; a23; a33]] [[b00; b10; b20; b30]; [b01; b11; b21; b31]; [b02; b12; b22; b32]; [b03; b13; b23; b33]] =
  [[d4 a00 a01 a02 a03 b00 b10 b20 b30; d4 a10 a11 a12 a13 b00 b10 b20 b30; d4 a20 a21 a22 a23 b00 b10 b20 b30; d4 a30 a31 a32 a33 b00 b10 b20 b30];
   [d4 a00 a01 a02 a03 b01 b11 b21 b31; d4 a10 a11 a12 a13 b01 b11 b21 b31; d4 a20 a21 a22 a23 b01 b11 b21 b31; d4 a30 a31 a32 a33 b01 b11 b21 b31];
   [d4 a00 a01 a02 a03 b02 b12 b22 b32; d4 a10 a11 a12 a13 b02 b12 b22 b32; d4 a20 a21 a22 a23 b02 b12 b22 b32; d4 a30 a31 a32 a33 b02 b12 b22 b32];
   [d4 a00 a01 a02 a03 b03 b13 b23 b33; d4 a10 a11 a12 a13 b03 b13 b23 b33; d4 a20 a21 a22 a23 b03 b13 b23 b33; d4 a30 a31 a32 a33 b03 b13 b23 b33]].
Proof. reflexivity. Qed.
Definition zero (x : fl) : Prop := is_finite x = true /\ B2R x = 0.
Definition unity (x : fl) : Prop := is_finite x = true /\ B2R x = 1.
Lemma d4_zero : forall x0 x1 x2 x3 y0 y1 y2 y3 : fl, is_finite x0 = true -> is_finite x1 = true -> is_finite x2 = true -> is_finite x3 = true -> is_finite y0 = true -> is_finite y1 = true -> is_finite y2 = true -> is_finite y3 = true ->
  B2R x0 * B2R y0 = 0 -> B2R x1 * B2R y1 = 0 -> B2R x2 * B2R y2 = 0 -> B2R x3 * B2R y3 = 0 -> zero (d4 x0 x1 x2 x3 y0 y1 y2 y3).
Proof.
  intros x0 x1 x2 x3 y0 y1 y2 y3 X0 X1 X2 X3 Y0 Y1 Y2 Y3 Z0 Z1 Z2 Z3. destruct (F_cst0 prec emax) as [F V].
  destruct (zero_mul x0 y0 X0 Y0 Z0) as [F0 V0]. destruct (zero_mul x1 y1 X1 Y1 Z1) as [F1 V1]. destruct (zero_mul x2 y2 X2 Y2 Z2) as [F2 V2]. destruct (zero_mul x3 y3 X3 Y3 Z3) as [F3 V3].
  destruct (zero_add _ _ F F0 V) as [G0 W0]. rewrite V0 in W0. destruct (zero_add _ _ G0 F1 W0) as [G1 W1]. rewrite V1 in W1. destruct (zero_add _ _ G1 F2 W1) as [G2 W2]. rewrite V2 in W2.
  destruct (zero_add _ _ G2 F3 W2) as [G3 W3]. rewrite V3 in W3. split; assumption.
Qed.
Lemma d4_one : forall x0 x1 x2 x3 y0 y1 y2 y3 : fl, zero x0 -> zero x1 -> zero x2 -> unity x3 -> zero y0 -> zero y1 -> zero y2 -> unity y3 -> unity (d4 x0 x1 x2 x3 y0 y1 y2 y3).
Proof.
  intros x0 x1 x2 x3 y0 y1 y2 y3 [X0 A0] [X1 A1] [X2 A2] [X3 A3] [Y0 B0] [Y1 B1] [Y2 B2] [Y3 B3]. destruct (F_cst0 prec emax) as [F V].
  destruct (zero_mul x0 y0 X0 Y0) as [F0 V0]; [rewrite A0; ring|]. destruct (zero_mul x1 y1 X1 Y1) as [F1 V1]; [rewrite A1; ring|]. destruct (zero_mul x2 y2 X2 Y2) as [F2 V2]; [rewrite A2; ring|]. destruct (one_mul x3 y3 X3 Y3 A3) as [F3 V3].
  destruct (zero_add _ _ F F0 V) as [G0 W0]. rewrite V0 in W0. destruct (zero_add _ _ G0 F1 W0) as [G1 W1]. rewrite V1 in W1. destruct (zero_add _ _ G1 F2 W1) as [G2 W2]. rewrite V2 in W2.
  destruct (zero_add _ _ G2 F3 W2) as [G3 W3]. rewrite V3, B3 in W3. split; assumption.
Qed.
(** A machine matrix whose linear part is known *)
Definition islin (e : R) (m : list (list fl)) (a b c d e' f g h i : R) : Prop :=
  exists a0 b0 c0 d0 e0 f0 g0 h0 i0 z1 z2 z3 z4 z5 z6 o1, m = [[a0; d0; g0; z1]; [b0; e0; h0; z2]; [c0; f0; i0; z3]; [z4; z5; z6; o1]]
  /\ (near a0 a (e * u) /\ near b0 b (e * u) /\ near c0 c (e * u)) /\ (near d0 d (e * u) /\ near e0 e' (e * u) /\ near f0 f (e * u)) /\ (near g0 g (e * u) /\ near h0 h (e * u) /\ near i0 i (e * u))
  /\ (zero z1 /\ zero z2 /\ zero z3) /\ (zero z4 /\ zero z5 /\ zero z6) /\ unity o1.
Lemma zero_near : forall x e, zero x -> 0 <= e -> near x 0 (e * u).
Proof. intros x e [F V] E. split; [exact F|]. rewrite V, Rminus_0_r, Rabs_R0. apply Rmult_le_pos; [exact E|]. destruct (u_small prec U20). lra. Qed.
Lemma islin_mul : forall e1 e2 m n a b c d e f g h i a' b' c' d' e' f' g' h' i', islin e1 m a b c d e f g h i -> islin e2 n a' b' c' d' e' f' g' h' i' -> 0 <= e1 -> 0 <= e2 -> e1 + e2 <= 120 ->
  Forall (fun x => Rabs x <= 1) [a; b; c; d; e; f; g; h; i] -> Forall (fun x => Rabs x <= 1) [a'; b'; c'; d'; e'; f'; g'; h'; i'] ->
  islin (4 * (e1 + e2) + 15) (m_mul 4 4 4 m n) (a * a' + b * d' + c * g') (a * b' + b * e' + c * h') (a * c' + b * f' + c * i')
    (d * a' + e * d' + f * g') (d * b' + e * e' + f * h') (d * c' + e * f' + f * i') (g * a' + h * d' + i * g') (g * b' + h * e' + i * h') (g * c' + h * f' + i * i').
Proof.
  intros e1 e2 m n a b c d e f g h i a' b' c' d' e' f' g' h' i' (a0 & b0 & c0 & d0 & e0 & f0 & g0 & h0 & i0 & z1 & z2 & z3 & z4 & z5 & z6 & o1 & -> & (Na & Nb & Nc) & (Nd & Ne & Nf) & (Ng & Nh & Ni) & (Z1 & Z2 & Z3) & (Z4 & Z5 & Z6) & O1)
    (a1 & b1 & c1 & d1 & e3 & f1 & g1 & h1 & i1 & y1 & y2 & y3 & y4 & y5 & y6 & o2 & -> & (Na' & Nb' & Nc') & (Nd' & Ne' & Nf') & (Ng' & Nh' & Ni') & (Y1 & Y2 & Y3) & (Y4 & Y5 & Y6) & O2) E1 E2 E12 B B'.
  repeat match goal with K : Forall _ (_ :: _) |- _ => inversion K; clear K; subst end.
  assert (K : forall (p0 p1 p2 p3 q0 q1 q2 q3 : fl) r0 r1 r2 s0 s1 s2, near p0 r0 (e1 * u) -> near p1 r1 (e1 * u) -> near p2 r2 (e1 * u) -> zero p3 -> near q0 s0 (e2 * u) -> near q1 s1 (e2 * u) -> near q2 s2 (e2 * u) -> zero q3 ->
    Rabs r0 <= 1 -> Rabs r1 <= 1 -> Rabs r2 <= 1 -> Rabs s0 <= 1 -> Rabs s1 <= 1 -> Rabs s2 <= 1 -> near (d4 p0 p1 p2 p3 q0 q1 q2 q3) (r0 * s0 + r1 * s1 + r2 * s2) ((4 * (e1 + e2) + 15) * u)).
  { intros p0 p1 p2 p3 q0 q1 q2 q3 r0 r1 r2 s0 s1 s2 P0 P1 P2 P3 Q0 Q1 Q2 Q3 R0' R1' R2' S0 S1 S2. assert (Q := d4_near p0 p1 p2 p3 q0 q1 q2 q3 r0 r1 r2 0 s0 s1 s2 0 e1 e2). rewrite Rmult_0_l, Rplus_0_r in Q. apply Q; auto using zero_near; rewrite Rabs_R0; lra. }
  assert (FZ : forall x, zero x -> is_finite x = true) by (intros x []; assumption). assert (FO : forall x, unity x -> is_finite x = true) by (intros x []; assumption).
  assert (FN : forall (x : fl) r s, near x r s -> is_finite x = true) by (intros x r s []; assumption).
  assert (ML : forall x y : fl, zero x -> B2R x * B2R y = 0) by (intros x y [_ ->]; ring). assert (MR : forall x y : fl, zero y -> B2R x * B2R y = 0) by (intros x y [_ ->]; ring).
  rewrite mul44. unfold islin. do 16 eexists. split; [reflexivity|].
  split; [split; [|split]; apply K; assumption|]. split; [split; [|split]; apply K; assumption|]. split; [split; [|split]; apply K; assumption|].
  split; [split; [|split]; apply d4_zero; eauto|]. split; [split; [|split]; apply d4_zero; eauto|]. now apply d4_one.
Qed.
Lemma islin_rows : forall s m a b c d e f g h i, 0 <= s -> islin s m a b c d e f g h i -> finite_mat m /\ affine 3 (mvalues m) /\ (forall r, (r < 3)%nat -> ent (mvalues m) r 3 = 0)
  /\ forall p, length p = 3%nat -> rdist (raffine 3 (mvalues m) p) (raffine 3 (lin a b c d e f g h i) p) <= 3004 / 1000 * (s * u) * rnorm p.
Proof.
  intros s m a b c d e f g h i S0 (a0 & b0 & c0 & d0 & e0 & f0 & g0 & h0 & i0 & z1 & z2 & z3 & z4 & z5 & z6 & o1 & -> & ([Fa Na] & [Fb Nb] & [Fc Nc]) & ([Fd Nd] & [Fe Ne] & [Ff Nf]) & ([Fg Ng] & [Fh Nh] & [Fi Ni]) & ([G1 Z1] & [G2 Z2] & [G3 Z3]) & ([G4 Z4] & [G5 Z5] & [G6 Z6]) & [G7 O1]).
  assert (E : mvalues [[a0; d0; g0; z1]; [b0; e0; h0; z2]; [c0; f0; i0; z3]; [z4; z5; z6; o1]] = lin (B2R a0) (B2R b0) (B2R c0) (B2R d0) (B2R e0) (B2R f0) (B2R g0) (B2R h0) (B2R i0)).
  { unfold mvalues, values, lin. cbn [map]. now rewrite Z1, Z2, Z3, Z4, Z5, Z6, O1. }
  split. { repeat (apply Forall_cons; [repeat (apply Forall_cons; [assumption|]); constructor|]). constructor. }
  rewrite E. destruct (u_small prec U20) as [U0 U1]. split; [|split].
  - split; [split; [reflexivity|repeat constructor]|]. intros [|[|[|[|]]]] Hc; [reflexivity..|lia].
  - intros [|[|[|]]] Hr; [reflexivity..|lia].
  - intros p Lp. apply lin_close; auto. apply Rmult_le_pos; lra.
Qed.
Lemma rpy_matrix : forall roll pitch yaw : fl, is_finite roll = true -> is_finite pitch = true -> is_finite yaw = true -> Rabs (B2R roll) <= 7 -> Rabs (B2R pitch) <= 7 -> Rabs (B2R yaw) <= 7 ->
  let m := rotation_rpy roll pitch yaw in let turn p := rrot [0; 0; 1] (B2R yaw) (rrot [0; 1; 0] (B2R pitch) (rrot [1; 0; 0] (B2R roll) p)) in
  affine_up_to 4 0 m /\ (forall p, length p = 3%nat -> rdist (raffine 3 (mvalues m) p) (turn p) <= 1130 * u * rnorm p)
  /\ forall v : list fl, length v = 3%nat -> all_finite v -> rnorm (values v) <= Om / 10 ->
    all_finite (m_mul_p 4 m v) /\ rdist (values (m_mul_p 4 m v)) (turn (values v)) <= 1200 * (u * rnorm (values v) + eta).
Proof.
  intros roll pitch yaw Fr Fp Fy Br Bp By m turn. destruct (u_small prec ltac:(assumption)) as [U0 U1]. destruct (eta_small prec emax ltac:(assumption)) as [T0 T1].
  assert (SC : forall t, Rabs (sin t) <= 1 /\ Rabs (cos t) <= 1) by (intros t; split; apply Rabs_le; [apply SIN_bound|apply COS_bound]).
  assert (TR : forall t : fl, is_finite t = true -> Rabs (B2R t) <= 7 -> near (f_sin t) (sin (B2R t)) (8 * u) /\ near (f_cos t) (cos (B2R t)) (8 * u) /\ near (o_neg (f_sin t)) (- sin (B2R t)) (8 * u)).
  { intros t Ft Bt. assert (N := acc_sin lm Acc t Ft Bt). split; [exact N|]. split; [exact (acc_cos lm Acc t Ft Bt)|]. destruct N as [F N]. change (o_neg (f_sin t)) with (Bopp (f_sin t)). split; [now rewrite is_finite_Bopp|].
    rewrite B2R_Bopp. replace (- B2R (f_sin t) - - sin (B2R t)) with (- (B2R (f_sin t) - sin (B2R t))) by ring. now rewrite Rabs_Ropp. }
  destruct (TR roll Fr Br) as (Sr & Cr & Nr). destruct (TR pitch Fp Bp) as (Sp & Cp & Np). destruct (TR yaw Fy By) as (Sy & Cy & Ny). clear TR.
  destruct (SC (B2R roll)) as [Sr1 Cr1]. destruct (SC (B2R pitch)) as [Sp1 Cp1]. destruct (SC (B2R yaw)) as [Sy1 Cy1]. clear SC.
  assert (Z : zero (cst 0)) by (destruct (F_cst0 prec emax); split; assumption). assert (O : unity (cst 1)) by (destruct (F_cst1 prec emax); split; assumption).
  assert (Z8 := zero_near _ 8 Z ltac:(lra)). assert (O8 : near (cst 1 : fl) 1 (8 * u)) by (eapply near_w; [exact U20|apply one_near|lra]).
  set (sr := sin (B2R roll)) in *. set (cr := cos (B2R roll)) in *. set (sp := sin (B2R pitch)) in *. set (cp := cos (B2R pitch)) in *. set (sy := sin (B2R yaw)) in *. set (cy := cos (B2R yaw)) in *.
  assert (LR : islin 8 (m_of_rows 4 4 [cst 1; cst 0; cst 0; cst 0; cst 0; f_cos roll; o_neg (f_sin roll); cst 0; cst 0; f_sin roll; f_cos roll; cst 0; cst 0; cst 0; cst 0; cst 1]) 1 0 0 0 cr (- sr) 0 sr cr).
  { rewrite rows16. unfold islin. do 16 eexists. split; [reflexivity|]. repeat (match goal with |- _ /\ _ => split end); first [assumption|apply Z8|apply O8|apply Sr|apply Cr|apply Nr|apply Z|apply O]. }
  assert (LP : islin 8 (m_of_rows 4 4 [f_cos pitch; cst 0; f_sin pitch; cst 0; cst 0; cst 1; cst 0; cst 0; o_neg (f_sin pitch); cst 0; f_cos pitch; cst 0; cst 0; cst 0; cst 0; cst 1]) cp 0 sp 0 1 0 (- sp) 0 cp).
  { rewrite rows16. unfold islin. do 16 eexists. split; [reflexivity|]. repeat (match goal with |- _ /\ _ => split end); first [assumption|apply Z8|apply O8|apply Sp|apply Cp|apply Np|apply Z|apply O]. }
  assert (LY : islin 8 (m_of_rows 4 4 [f_cos yaw; o_neg (f_sin yaw); cst 0; cst 0; f_sin yaw; f_cos yaw; cst 0; cst 0; cst 0; cst 0; cst 1; cst 0; cst 0; cst 0; cst 0; cst 1]) cy (- sy) 0 sy cy 0 0 0 1).
  { rewrite rows16. unfold islin. do 16 eexists. split; [reflexivity|]. repeat (match goal with |- _ /\ _ => split end); first [assumption|apply Z8|apply O8|apply Sy|apply Cy|apply Ny|apply Z|apply O]. }
  assert (R0' : Rabs 0 <= 1) by (rewrite Rabs_R0; lra). assert (R1' : Rabs 1 <= 1) by (rewrite Rabs_R1; lra).
  assert (NG : forall x, Rabs x <= 1 -> Rabs (- x) <= 1) by (intros x; now rewrite Rabs_Ropp). assert (PR : forall x y, Rabs x <= 1 -> Rabs y <= 1 -> Rabs (x * y) <= 1) by (intros x y X Y; rewrite <- (Rmult_1_l 1); now apply prod_le1).
  assert (LYP := islin_mul _ _ _ _ _ _ _ _ _ _ _ _ _ _ _ _ _ _ _ _ _ _ LY LP ltac:(lra) ltac:(lra) ltac:(lra)).
  assert (LM : islin (4 * (4 * (8 + 8) + 15 + 8) + 15) m (cy * cp * 1 + - sy * 0 + cy * sp * 0) (cy * cp * 0 + - sy * cr + cy * sp * sr) (cy * cp * 0 + - sy * - sr + cy * sp * cr)
    (sy * cp * 1 + cy * 0 + sy * sp * 0) (sy * cp * 0 + cy * cr + sy * sp * sr) (sy * cp * 0 + cy * - sr + sy * sp * cr) (- sp * 1 + 0 * 0 + cp * 0) (- sp * 0 + 0 * cr + cp * sr) (- sp * 0 + 0 * - sr + cp * cr)).
  { refine (islin_mul _ _ _ _ _ _ _ _ _ _ _ _ _ _ _ _ _ _ _ _ _ _ _ LR _ _ _ _ _); [|lra|lra|lra| |]; [|repeat (apply Forall_cons; [auto|]); constructor..].
    assert (Q : forall m' x0 x1 x2 x3 x4 x5 x6 x7 x8 y0 y1 y2 y3 y4 y5 y6 y7 y8 s, islin s m' x0 x1 x2 x3 x4 x5 x6 x7 x8 -> x0 = y0 -> x1 = y1 -> x2 = y2 -> x3 = y3 -> x4 = y4 -> x5 = y5 -> x6 = y6 -> x7 = y7 -> x8 = y8 -> islin s m' y0 y1 y2 y3 y4 y5 y6 y7 y8) by (intros; subst; assumption).
    eapply Q; [apply LYP; repeat (apply Forall_cons; [auto|]); constructor|ring..]. }
  assert (S0 : 0 <= 4 * (4 * (8 + 8) + 15 + 8) + 15) by lra. destruct (islin_rows _ _ _ _ _ _ _ _ _ _ _ S0 LM) as (H1 & H2 & H3 & H4).
  assert (H5 : forall p, length p = 3%nat -> rdist (raffine 3 (mvalues m) p) (turn p) <= 1130 * u * rnorm p).
  { intros p Lp. eapply Rle_trans; [|eapply Rle_trans; [apply (H4 p Lp)|]].
    - right. f_equal. destruct (list3R p Lp) as (p0 & p1 & p2 & ->). rewrite lin_apply. unfold turn, rrot, radd, rscale, sr, cr, sp, cp, sy, cy. cbn [map zip rdot rcross nth]. f_equal; [ring|]. f_equal; [ring|]. f_equal. ring.
    - assert (P := rnorm_nonneg p). apply Rmult_le_compat_r; [exact P|lra]. }
  destruct (matrix_turns prec emax U20 E20 m turn (1130 * u) H1 H2 H3 ltac:(lra)) as (A & B).
  { intros p Lp. unfold turn. assert (L1 := rrot_len 1 0 0 (B2R roll) p Lp). assert (L2 := rrot_len 0 1 0 (B2R pitch) _ L1). assert (L3 := rrot_len 0 0 1 (B2R yaw) _ L2). split; [exact L3|]. split; [|now apply H5].
    rewrite !rrot_norm by (auto; cbn; ring). assert (P := rnorm_nonneg p). lra. }
  split; [exact A|]. split; [exact H5|]. intros v Lv Fv HV. destruct (B v Lv Fv HV) as (F & G). split; [exact F|]. assert (P := rnorm_nonneg (values v)). assert (0 <= u * rnorm (values v)) by (apply Rmult_le_pos; lra). lra.
Qed.
End FP.
