(** Rotation matrices of machine numbers (C111). *)
From Coq Require Import ZArith Reals List Lia Lra Bool Psatz.
From Flocq Require Import Core BinarySingleNaN.
From Verif Require Import Ops M_scalar M_vec M_mat M_matext M_quat M_bbox Inst_XR Inst_F S_vec S_mat S_affine S_rot S_quat S_rnd S_hit S_lu S_ft S_chain S_tbox
  P_ord P_ieee P_vec P_fp P_fp3 P_fp4 P_fp7 P_hit P_hit2 P_ft P_ft3 P_ft4 P_chain P_chain2 P_chain3 P_bbox3 P_affine P_tbox P_tbox2.
Import ListNotations.
Local Open Scope R_scope.

Lemma norm3 : forall a b c, rnorm [a; b; c] = sqrt (a * a + b * b + c * c).
Proof. intros. unfold rnorm. f_equal. cbn. ring. Qed.
Lemma coord_le3 : forall a b c, Rabs a <= rnorm [a; b; c] /\ Rabs b <= rnorm [a; b; c] /\ Rabs c <= rnorm [a; b; c].
Proof. intros. rewrite norm3. rewrite <- !sqrt_Rsqr_abs. unfold Rsqr. repeat split; apply sqrt_le_1_alt; nra. Qed.
Lemma norm3_le : forall a b c e, 0 <= e -> Rabs a <= e -> Rabs b <= e -> Rabs c <= e -> rnorm [a; b; c] <= 1733 / 1000 * e.
Proof.
  intros a b c e E A B C. rewrite norm3. rewrite <- (sqrt_Rsqr (1733 / 1000 * e)) by lra. apply sqrt_le_1_alt. unfold Rsqr.
  apply Rabs_le_inv in A, B, C. assert (a * a <= e * e) by nra. assert (b * b <= e * e) by nra. assert (c * c <= e * e) by nra. nra.
Qed.
Lemma sum3_le : forall x y z, Rabs x + Rabs y + Rabs z <= 1733 / 1000 * rnorm [x; y; z].
Proof.
  intros. rewrite norm3. assert (P := Rabs_pos x). assert (P' := Rabs_pos y). assert (P'' := Rabs_pos z).
  replace (x * x + y * y + z * z) with (Rabs x * Rabs x + Rabs y * Rabs y + Rabs z * Rabs z) by (rewrite <- !Rabs_mult, !Rabs_pos_eq by nra; ring).
  set (a := Rabs x) in *. set (b := Rabs y) in *. set (c := Rabs z) in *. clearbody a b c.
  rewrite <- (sqrt_Rsqr (1733 / 1000)) by lra. rewrite <- sqrt_mult by (unfold Rsqr; nra). rewrite <- (sqrt_Rsqr (a + b + c)) by lra. apply sqrt_le_1_alt. unfold Rsqr.
  assert (0 <= (a - b) * (a - b)) by apply Rle_0_sqr. assert (0 <= (a - c) * (a - c)) by apply Rle_0_sqr. assert (0 <= (b - c) * (b - c)) by apply Rle_0_sqr. nra.
Qed.
Lemma lin_error : forall d0 d1 d2 x y z e, 0 <= e -> Rabs d0 <= e -> Rabs d1 <= e -> Rabs d2 <= e -> Rabs (d0 * x + d1 * y + d2 * z) <= e * (1733 / 1000 * rnorm [x; y; z]).
Proof.
  intros d0 d1 d2 x y z e E H0 H1 H2. apply Rle_trans with (e * (Rabs x + Rabs y + Rabs z)); [|apply Rmult_le_compat_l; [exact E|apply sum3_le]].
  eapply Rle_trans; [apply Rabs_triang|]. assert (T := Rabs_triang (d0 * x) (d1 * y)). rewrite !Rabs_mult in *.
  assert (Rabs d0 * Rabs x <= e * Rabs x) by (apply Rmult_le_compat_r; auto using Rabs_pos). assert (Rabs d1 * Rabs y <= e * Rabs y) by (apply Rmult_le_compat_r; auto using Rabs_pos).
  assert (Rabs d2 * Rabs z <= e * Rabs z) by (apply Rmult_le_compat_r; auto using Rabs_pos). lra.
Qed.
(** Two linear maps with nearly the same coefficients *)
Lemma close_maps : forall A B e p, 0 <= e -> (forall r c, (r < 3)%nat -> (c < 3)%nat -> Rabs (ent A r c - ent B r c) <= e) -> (forall r, (r < 3)%nat -> ent A r 3 = 0 /\ ent B r 3 = 0) -> length p = 3%nat ->
  rdist (raffine 3 A p) (raffine 3 B p) <= 3004 / 1000 * e * rnorm p.
Proof.
  intros A B e p E H T L. destruct p as [|x [|y [|z [|]]]]; try discriminate. rewrite !raffine3. unfold rdist. cbn [rsub zip].
  assert (R : forall r, (r < 3)%nat -> Rabs (ent A r 0 * x + ent A r 1 * y + ent A r 2 * z + ent A r 3 - (ent B r 0 * x + ent B r 1 * y + ent B r 2 * z + ent B r 3)) <= e * (1733 / 1000 * rnorm [x; y; z])).
  { intros r Hr. destruct (T r Hr) as [-> ->]. replace (_ - _) with ((ent A r 0 - ent B r 0) * x + (ent A r 1 - ent B r 1) * y + (ent A r 2 - ent B r 2) * z) by ring. apply lin_error; auto. }
  assert (N := rnorm_nonneg [x; y; z]). assert (EN : 0 <= e * rnorm [x; y; z]) by (apply Rmult_le_pos; assumption).
  eapply Rle_trans; [apply norm3_le with (e := e * (1733 / 1000 * rnorm [x; y; z])); [lra|apply R; lia..]|]. lra.
Qed.

Section FP.
Variables prec emax : Z.
Context {Hprec : Prec_gt_0 prec} {Hmax : Prec_lt_emax prec emax}.
Notation fl := (binary_float prec emax).
Notation u := (unit_roundoff prec).
Notation eta := (underflow_error prec emax).
Notation Om := (bpow radix2 emax).
Hypothesis U20 : (20 <= prec)%Z.
Hypothesis E20 : (20 <= emax)%Z.

(** A machine matrix that is close to a linear map of about unit norm *)
Lemma matrix_turns : forall (m : list (list fl)) (f : list R -> list R) e, finite_mat m -> affine 3 (mvalues m) -> (forall r, (r < 3)%nat -> ent (mvalues m) r 3 = 0) -> 0 <= e <= / 10 ->
  (forall p, length p = 3%nat -> length (f p) = 3%nat /\ rnorm (f p) <= 21 / 20 * rnorm p /\ rdist (raffine 3 (mvalues m) p) (f p) <= e * rnorm p) ->
  affine_up_to 4 0 m /\ forall v : list fl, length v = 3%nat -> all_finite v -> rnorm (values v) <= Om / 10 ->
    all_finite (m_mul_p 4 m v) /\ rdist (values (m_mul_p 4 m v)) (f (values v)) <= e * rnorm (values v) + 70 * (u * rnorm (values v) + eta).
Proof.
  intros m f e Fm Am Tm [E0 E1] Hf. destruct (u_small prec ltac:(assumption)) as [U0 U1]. destruct (eta_small prec emax ltac:(assumption)) as [T0 T1]. assert (OM := om_big emax ltac:(assumption)).
  assert (EN : forall c p, (c < 3)%nat -> length p = 3%nat -> rnorm p = 1 -> (forall r, (r < 3)%nat -> nth r (raffine 3 (mvalues m) p) 0 = ent (mvalues m) r c) -> forall r, (r < 3)%nat -> Rabs (ent (mvalues m) r c) <= 23 / 20).
  { intros c p Hc Lp Np Hp r Hr. destruct (Hf p Lp) as (L & N & D). rewrite Np in N, D. assert (Q := norm_dist (raffine 3 (mvalues m) p) (f p)). rewrite raffine_length, L in Q. specialize (Q eq_refl).
    rewrite <- (Hp r Hr). set (rp := raffine 3 (mvalues m) p) in *. assert (QE : rnorm rp = rnorm [nth 0 rp 0; nth 1 rp 0; nth 2 rp 0]) by (f_equal; apply nth3_eq, raffine_length). destruct (coord_le3 (nth 0 rp 0) (nth 1 rp 0) (nth 2 rp 0)) as (Q0 & Q1 & Q2).
    destruct r as [|[|[|]]]; [| | |lia]; lra. }
  assert (N1 : rnorm [1; 0; 0] = 1) by (rewrite norm3; replace (1 * 1 + 0 * 0 + 0 * 0) with 1 by ring; apply sqrt_1).
  assert (N2 : rnorm [0; 1; 0] = 1) by (rewrite norm3; replace (0 * 0 + 1 * 1 + 0 * 0) with 1 by ring; apply sqrt_1).
  assert (N3 : rnorm [0; 0; 1] = 1) by (rewrite norm3; replace (0 * 0 + 0 * 0 + 1 * 1) with 1 by ring; apply sqrt_1).
  assert (X0 : forall r, (r < 3)%nat -> Rabs (ent (mvalues m) r 0) <= 23 / 20). { apply (EN 0%nat [1; 0; 0]); auto. intros r Hr. rewrite raffine3. assert (Z := Tm r Hr). destruct r as [|[|[|]]]; [| | |lia]; cbn [nth]; rewrite Z; ring. }
  assert (X1 : forall r, (r < 3)%nat -> Rabs (ent (mvalues m) r 1) <= 23 / 20). { apply (EN 1%nat [0; 1; 0]); auto. intros r Hr. rewrite raffine3. assert (Z := Tm r Hr). destruct r as [|[|[|]]]; [| | |lia]; cbn [nth]; rewrite Z; ring. }
  assert (X2 : forall r, (r < 3)%nat -> Rabs (ent (mvalues m) r 2) <= 23 / 20). { apply (EN 2%nat [0; 0; 1]); auto. intros r Hr. rewrite raffine3. assert (Z := Tm r Hr). destruct r as [|[|[|]]]; [| | |lia]; cbn [nth]; rewrite Z; ring. }
  assert (AU : affine_up_to 4 0 m).
  { split; [exact Fm|]. split; [exact Am|]. intros r Hr. specialize (X0 r Hr). specialize (X1 r Hr). specialize (X2 r Hr). split; [lra|]. rewrite (Tm r Hr), Rabs_R0. lra. }
  split; [exact AU|]. intros v Lv Fv HV. set (V := rnorm (values v)) in *. assert (V0 : 0 <= V) by apply rnorm_nonneg.
  assert (LV : length (values v) = 3%nat) by now rewrite val_length.
  assert (W : within V v). { split; [exact Lv|]. split; [exact Fv|]. unfold V. destruct (values v) as [|x [|y [|z [|]]]]; try discriminate LV. destruct (coord_le3 x y z) as (Q0 & Q1 & Q2). apply Forall_cons; [exact Q0|]. apply Forall_cons; [exact Q1|]. apply Forall_cons; [exact Q2|constructor]. }
  assert (PT := point_transform prec emax U20 E20 m v V 4 0 W AU ltac:(lra)).
  assert (FF : all_finite (m_mul_p 4 m v)). { clear - PT. induction PT; constructor; [apply H|exact IHPT]. }
  split; [exact FF|]. destruct (Hf (values v) LV) as (L & N & D). fold V in D.
  assert (LM : length (values (m_mul_p 4 m v)) = 3%nat) by now rewrite val_length, mul_p_len.
  assert (DT := rdist_triangle (values (m_mul_p 4 m v)) (raffine 3 (mvalues m) (values v)) (f (values v))). rewrite LM, raffine_length, L in DT. specialize (DT eq_refl eq_refl).
  assert (UV : 0 <= u * V) by (apply Rmult_le_pos; lra).
  assert (DR : rdist (values (m_mul_p 4 m v)) (raffine 3 (mvalues m) (values v)) <= 1733 / 1000 * image_error prec emax 4 V 0).
  { destruct (m_mul_p 4 m v) as [|a [|b [|c [|]]]]; try discriminate LM. destruct (raffine 3 (mvalues m) (values v)) as [|x [|y [|z [|]]]] eqn:ER; try (inversion PT; subst; repeat match goal with K : Forall2 _ _ _ |- _ => inversion K; clear K; subst end; fail).
    inversion PT as [|? ? ? ? Nx PT']; subst. inversion PT' as [|? ? ? ? Ny PT'']; subst. inversion PT'' as [|? ? ? ? Nz _]; subst.
    unfold rdist, values. cbn [map rsub zip]. apply norm3_le; [unfold image_error; lra|apply Nx|apply Ny|apply Nz]. }
  unfold image_error in DR. lra.
Qed.
Lemma rows16 : forall a b c d e f g h i j k l m n o p : fl, m_of_rows 4 4 [a; b; c; d; e; f; g; h; i; j; k; l; m; n; o; p] = [[a; e; i; m]; [b; f; j; n]; [c; g; k; o]; [d; h; l; p]].
Proof. reflexivity. Qed.
Lemma linear_affine : forall a b c d e f g h i : fl, Forall (fun x => is_finite x = true) [a; b; c; d; e; f; g; h; i] -> let m := m_of_rows 4 4 [a; b; c; cst 0; d; e; f; cst 0; g; h; i; cst 0; cst 0; cst 0; cst 0; cst 1] in
  finite_mat m /\ affine 3 (mvalues m) /\ (forall r, (r < 3)%nat -> ent (mvalues m) r 3 = 0)
  /\ mvalues m = [[B2R a; B2R d; B2R g; 0]; [B2R b; B2R e; B2R h; 0]; [B2R c; B2R f; B2R i; 0]; [0; 0; 0; 1]].
Proof.
  intros a b c d e f g h i F m. unfold m. rewrite rows16. destruct (F_cst0 prec emax) as [F0 V0]. destruct (F_cst1 prec emax) as [F1 V1].
  assert (E : mvalues [[a; d; g; cst 0]; [b; e; h; cst 0]; [c; f; i; cst 0]; [cst 0; cst 0; cst 0; cst 1]] = [[B2R a; B2R d; B2R g; 0]; [B2R b; B2R e; B2R h; 0]; [B2R c; B2R f; B2R i; 0]; [0; 0; 0; 1]]).
  { unfold mvalues, values. cbn [map]. now rewrite V0, V1. }
  split. { repeat match goal with K : Forall _ (_ :: _) |- _ => inversion K; clear K; subst end. repeat (apply Forall_cons; [repeat (apply Forall_cons; [assumption|]); constructor|]). constructor. }
  rewrite E. split; [|split; [|reflexivity]].
  - split; [split; [reflexivity|repeat constructor]|]. intros [|[|[|[|]]]] Hc; [reflexivity..|lia].
  - intros [|[|[|]]] Hr; [reflexivity..|lia].
Qed.

(** Products and sums of known numbers of moderate size *)
Lemma nmul : forall (x y : fl) a b A B e1 e2, near x a (e1 * u) -> near y b (e2 * u) -> Rabs a <= A -> Rabs b <= B -> A <= 4 -> B <= 4 -> 0 <= e1 <= 200 -> 0 <= e2 <= 200 ->
  near (o_mul x y) (a * b) ((A * e2 + B * e1 + A * B + / 10) * u).
Proof.
  intros x y a b A B e1 e2 Nx Ny HA HB A4 B4 E1 E2. destruct (u_small prec ltac:(assumption)) as [U0 U1]. destruct (eta_small prec emax ltac:(assumption)) as [T0 T1]. assert (OM := om_big emax ltac:(assumption)).
  assert (A0 := Rabs_pos a). assert (B0 := Rabs_pos b). assert (X1 : 0 <= e1 * u <= 2 / 10000) by nra. assert (X2 : 0 <= e2 * u <= 2 / 10000) by nra.
  assert (G : (A + e1 * u) * (B + e2 * u) <= A * B + 17 / 10000) by nra.
  assert (E12 : e1 * u * (e2 * u) <= 4 / 100 * u). { assert (e1 * e2 <= 40000) by nra. assert (e1 * e2 * u <= 4 / 100) by nra. replace (e1 * u * (e2 * u)) with (e1 * e2 * u * u) by ring. apply Rmult_le_compat_r; lra. }
  eapply near_le; [apply (near_mul prec emax x y a b _ _ A B Nx Ny HA HB)|]. { assert (A * B <= 16) by nra. nra. }
  assert (u * ((A + e1 * u) * (B + e2 * u)) <= u * (A * B + 17 / 10000)) by (apply Rmult_le_compat_l; lra). lra.
Qed.
Lemma nadd : forall (x y : fl) a b A e1 e2, near x a (e1 * u) -> near y b (e2 * u) -> Rabs (a + b) <= A -> A <= 10 -> 0 <= e1 <= 1000 -> 0 <= e2 <= 1000 ->
  near (o_add x y) (a + b) ((e1 + e2 + A + / 100) * u).
Proof.
  intros x y a b A e1 e2 Nx Ny HA A10 E1 E2. destruct (u_small prec ltac:(assumption)) as [U0 U1]. assert (OM := om_big emax ltac:(assumption)).
  assert (A0 := Rabs_pos (a + b)). assert (X1 : 0 <= e1 * u <= / 1000) by nra. assert (X2 : 0 <= e2 * u <= / 1000) by nra.
  eapply near_le; [apply (near_add prec emax x y a b _ _ A Nx Ny HA); nra|]. nra.
Qed.
Lemma nsub : forall (x y : fl) a b A e1 e2, near x a (e1 * u) -> near y b (e2 * u) -> Rabs (a - b) <= A -> A <= 10 -> 0 <= e1 <= 1000 -> 0 <= e2 <= 1000 ->
  near (o_sub x y) (a - b) ((e1 + e2 + A + / 100) * u).
Proof.
  intros x y a b A e1 e2 Nx Ny HA A10 E1 E2. destruct (u_small prec ltac:(assumption)) as [U0 U1]. assert (OM := om_big emax ltac:(assumption)).
  assert (A0 := Rabs_pos (a - b)). assert (X1 : 0 <= e1 * u <= / 1000) by nra. assert (X2 : 0 <= e2 * u <= / 1000) by nra.
  eapply near_le; [apply (near_sub prec emax x y a b _ _ A Nx Ny HA); nra|]. nra.
Qed.
Lemma near0 : forall x : fl, is_finite x = true -> near x (B2R x) (0 * u).
Proof. intros x F. rewrite Rmult_0_l. now apply near_exact. Qed.
Lemma near_lit : forall (x : fl) r, is_finite x = true -> B2R x = r -> near x r (0 * u).
Proof. intros x r F <-. now apply near0. Qed.
End FP.
