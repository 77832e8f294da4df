(** The rotation matrices of an axis and an angle, of a quaternion and of roll, pitch and yaw, in machine numbers (C111). *)
From Coq Require Import ZArith Reals List Lia Lra Bool Psatz.
From Flocq Require Import Core BinarySingleNaN.
From Verif Require Import Ops M_scalar M_vec M_mat M_matext M_quat M_bbox Inst_XR Inst_F S_vec S_mat S_affine S_rot S_quat S_rnd S_hit S_lu S_ft S_chain S_tbox
  P_ord P_ieee P_vec P_fp P_fp3 P_fp4 P_fp7 P_hit P_hit2 P_quat P_ft P_ft3 P_ft4 P_chain P_chain2 P_chain3 P_bbox3 P_affine P_tbox P_tbox2 P_tbox3.
Import ListNotations.
Local Open Scope R_scope.

(** The real matrix with the given linear part *)
Definition lin (a b c d e f g h i : R) : list (list R) := [[a; d; g; 0]; [b; e; h; 0]; [c; f; i; 0]; [0; 0; 0; 1]].
Lemma lin_close : forall a b c d e f g h i a' b' c' d' e' f' g' h' i' s, 0 <= s -> Rabs (a - a') <= s -> Rabs (b - b') <= s -> Rabs (c - c') <= s -> Rabs (d - d') <= s -> Rabs (e - e') <= s -> Rabs (f - f') <= s ->
  Rabs (g - g') <= s -> Rabs (h - h') <= s -> Rabs (i - i') <= s -> forall p, length p = 3%nat ->
  rdist (raffine 3 (lin a b c d e f g h i) p) (raffine 3 (lin a' b' c' d' e' f' g' h' i') p) <= 3004 / 1000 * s * rnorm p.
Proof.
  intros. apply close_maps; auto.
  - intros r k Hr Hk. destruct r as [|[|[|]]]; [| | |lia]; (destruct k as [|[|[|]]]; [| | |lia]); assumption.
  - intros r Hr. destruct r as [|[|[|]]]; [| | |lia]; split; reflexivity.
Qed.
Lemma lin_apply : forall a b c d e f g h i x y z, raffine 3 (lin a b c d e f g h i) [x; y; z] = [a * x + b * y + c * z; d * x + e * y + f * z; g * x + h * y + i * z].
Proof. intros. rewrite raffine3. unfold ent, lin. cbn [nth]. f_equal; [ring|]. f_equal; [ring|]. f_equal. ring. Qed.
Lemma list3R : forall v : list R, length v = 3%nat -> exists x y z, v = [x; y; z].
Proof. intros [|a [|b [|c [|]]]] H; try discriminate. eauto. Qed.

Section FP.
Variables prec emax : Z.
Context {Hprec : Prec_gt_0 prec} {Hmax : Prec_lt_emax prec emax}.
Notation fl := (binary_float prec emax).
Notation u := (unit_roundoff prec).
Notation eta := (underflow_error prec emax).
Notation Om := (bpow radix2 emax).
Hypothesis U20 : (20 <= prec)%Z.
Hypothesis E20 : (20 <= emax)%Z.
Notation nmul := (nmul prec emax U20 E20).
Notation nadd := (nadd prec emax U20 E20).
Notation nsub := (nsub prec emax U20 E20).
Notation near0 := (near0 prec emax).

(** Nine entries that are known make a known linear map. *)
Lemma near_linear : forall (a b c d e f g h i : fl) a' b' c' d' e' f' g' h' i' s, 0 <= s -> near a a' s -> near b b' s -> near c c' s -> near d d' s -> near e e' s -> near f f' s -> near g g' s -> near h h' s -> near i i' s ->
  let m := m_of_rows 4 4 [a; b; c; cst 0; d; e; f; cst 0; g; h; i; cst 0; cst 0; cst 0; cst 0; cst 1] in
  finite_mat m /\ affine 3 (mvalues m) /\ (forall r, (r < 3)%nat -> ent (mvalues m) r 3 = 0)
  /\ forall p, length p = 3%nat -> rdist (raffine 3 (mvalues m) p) (raffine 3 (lin a' b' c' d' e' f' g' h' i') p) <= 3004 / 1000 * s * rnorm p.
Proof.
  intros a b c d e f g h i a' b' c' d' e' f' g' h' i' s S0 [Fa Na] [Fb Nb] [Fc Nc] [Fd Nd] [Fe Ne] [Ff Nf] [Fg Ng] [Fh Nh] [Fi Ni] m.
  destruct (linear_affine prec emax a b c d e f g h i) as (H1 & H2 & H3 & H4). { repeat (apply Forall_cons; [assumption|]). constructor. }
  split; [exact H1|]. split; [exact H2|]. split; [exact H3|]. intros p Lp. unfold m. rewrite H4. now apply lin_close.
Qed.

(** Quaternions *)
Lemma near_w : forall (x : fl) a e f, near x a (e * u) -> e <= f -> near x a (f * u).
Proof. intros x a e f N L. apply near_le with (e * u); [exact N|]. destruct (u_small prec ltac:(assumption)). nra. Qed.
Lemma two_near : near (cst 2 : fl) 2 (0 * u).
Proof.
  assert (C2 : is_finite (cst 2 : fl) = true /\ B2R (cst 2 : fl) = 2). { apply F_cst. change 2%Z with (2 ^ 1)%Z at 1. rewrite Z.abs_eq by lia. apply Z.pow_le_mono_r; lia. }
  destruct C2 as [F V]. now apply near_lit.
Qed.
Lemma one_near : near (cst 1 : fl) 1 (0 * u).
Proof. destruct (F_cst1 prec emax) as [F V]. now apply near_lit. Qed.
Section Quat.
Variables (x y z w : fl).
Hypothesis (Fx : is_finite x = true) (Fy : is_finite y = true) (Fz : is_finite z = true) (Fw : is_finite w = true).
Lemma quat_diag : B2R y * B2R y + B2R z * B2R z <= 10404 / 10000 ->
  near (o_sub (cst 1) (o_mul (cst 2) (o_add (o_mul y y) (o_mul z z)))) (1 - 2 * (B2R y * B2R y + B2R z * B2R z)) (10 * u).
Proof.
  intros H. destruct (u_small prec ltac:(assumption)) as [U0 U1]. assert (By : Rabs (B2R y) <= 102 / 100) by (apply Rabs_le; nra). assert (Bz : Rabs (B2R z) <= 102 / 100) by (apply Rabs_le; nra).
  assert (Ny := nmul y y _ _ _ _ _ _ (near0 y Fy) (near0 y Fy) By By ltac:(lra) ltac:(lra) ltac:(lra) ltac:(lra)). assert (Nz := nmul z z _ _ _ _ _ _ (near0 z Fz) (near0 z Fz) Bz Bz ltac:(lra) ltac:(lra) ltac:(lra) ltac:(lra)).
  assert (0 <= B2R y * B2R y) by nra. assert (0 <= B2R z * B2R z) by nra.
  assert (B1 : Rabs (B2R y * B2R y + B2R z * B2R z) <= 10404 / 10000) by (apply Rabs_le; lra).
  assert (N1 := nadd _ _ _ _ _ _ _ Ny Nz B1 ltac:(lra) ltac:(lra) ltac:(lra)).
  assert (B2' : Rabs 2 <= 2) by (rewrite Rabs_pos_eq; lra).
  assert (N2 := nmul _ _ _ _ _ _ _ _ two_near N1 B2' B1 ltac:(lra) ltac:(lra) ltac:(lra) ltac:(lra)).
  assert (B3 : Rabs (1 - 2 * (B2R y * B2R y + B2R z * B2R z)) <= 10808 / 10000) by (apply Rabs_le; lra).
  assert (N3 := nsub _ _ _ _ _ _ _ one_near N2 B3 ltac:(lra) ltac:(lra) ltac:(lra)). eapply near_w; [exact N3|lra].
Qed.
Hypothesis N4 : B2R x * B2R x + B2R y * B2R y + B2R z * B2R z + B2R w * B2R w <= 10404 / 10000.
Lemma quat_small : Rabs (B2R x) <= 102 / 100 /\ Rabs (B2R y) <= 102 / 100 /\ Rabs (B2R z) <= 102 / 100 /\ Rabs (B2R w) <= 102 / 100.
Proof. repeat split; apply Rabs_le; nra. Qed.
Lemma quat_plus : near (o_mul (cst 2) (o_add (o_mul x y) (o_mul z w))) (2 * (B2R x * B2R y + B2R z * B2R w)) (10 * u).
Proof.
  destruct quat_small as (Bx & By & Bz & Bw). destruct (u_small prec ltac:(assumption)) as [U0 U1].
  assert (N1 := nmul x y _ _ _ _ _ _ (near0 x Fx) (near0 y Fy) Bx By ltac:(lra) ltac:(lra) ltac:(lra) ltac:(lra)). assert (N2 := nmul z w _ _ _ _ _ _ (near0 z Fz) (near0 w Fw) Bz Bw ltac:(lra) ltac:(lra) ltac:(lra) ltac:(lra)).
  assert (B1 : Rabs (B2R x * B2R y + B2R z * B2R w) <= 5203 / 10000).
  { assert (0 <= (B2R x - B2R y) * (B2R x - B2R y)) by apply Rle_0_sqr. assert (0 <= (B2R z - B2R w) * (B2R z - B2R w)) by apply Rle_0_sqr. assert (0 <= (B2R x + B2R y) * (B2R x + B2R y)) by apply Rle_0_sqr. assert (0 <= (B2R z + B2R w) * (B2R z + B2R w)) by apply Rle_0_sqr. apply Rabs_le; lra. }
  assert (N3 := nadd _ _ _ _ _ _ _ N1 N2 B1 ltac:(lra) ltac:(lra) ltac:(lra)). assert (B2' : Rabs 2 <= 2) by (rewrite Rabs_pos_eq; lra).
  assert (N5 := nmul _ _ _ _ _ _ _ _ two_near N3 B2' B1 ltac:(lra) ltac:(lra) ltac:(lra) ltac:(lra)). eapply near_w; [exact N5|lra].
Qed.
Lemma quat_minus : near (o_mul (cst 2) (o_sub (o_mul x y) (o_mul z w))) (2 * (B2R x * B2R y - B2R z * B2R w)) (10 * u).
Proof.
  destruct quat_small as (Bx & By & Bz & Bw). destruct (u_small prec ltac:(assumption)) as [U0 U1].
  assert (N1 := nmul x y _ _ _ _ _ _ (near0 x Fx) (near0 y Fy) Bx By ltac:(lra) ltac:(lra) ltac:(lra) ltac:(lra)). assert (N2 := nmul z w _ _ _ _ _ _ (near0 z Fz) (near0 w Fw) Bz Bw ltac:(lra) ltac:(lra) ltac:(lra) ltac:(lra)).
  assert (B1 : Rabs (B2R x * B2R y - B2R z * B2R w) <= 5203 / 10000).
  { assert (0 <= (B2R x - B2R y) * (B2R x - B2R y)) by apply Rle_0_sqr. assert (0 <= (B2R z - B2R w) * (B2R z - B2R w)) by apply Rle_0_sqr. assert (0 <= (B2R x + B2R y) * (B2R x + B2R y)) by apply Rle_0_sqr. assert (0 <= (B2R z + B2R w) * (B2R z + B2R w)) by apply Rle_0_sqr. apply Rabs_le; lra. }
  assert (N3 := nsub _ _ _ _ _ _ _ N1 N2 B1 ltac:(lra) ltac:(lra) ltac:(lra)). assert (B2' : Rabs 2 <= 2) by (rewrite Rabs_pos_eq; lra).
  assert (N5 := nmul _ _ _ _ _ _ _ _ two_near N3 B2' B1 ltac:(lra) ltac:(lra) ltac:(lra) ltac:(lra)). eapply near_w; [exact N5|lra].
Qed.
End Quat.
Lemma quat_matrix : forall d (q : quat fl), 0 <= d <= / 50 -> unit_quat d q -> let m := rotation_quat q in
  finite_mat m /\ affine 3 (mvalues m) /\ (forall r, (r < 3)%nat -> ent (mvalues m) r 3 = 0)
  /\ forall p, length p = 3%nat -> rdist (raffine 3 (mvalues m) p) (rq_rotate (quat_values q) p) <= (31 * u + 21 / 10 * d) * rnorm p.
Proof.
  intros d q [D0 D1] Uq m. assert (Qq := fin_quat prec emax q (proj1 Uq)). destruct Uq as ((Fr & Lq & Fq) & NQ). destruct q as [w v]. cbn [q_r q_v] in *. unfold quat_values in *. cbn [q_r q_v] in *.
  destruct v as [|x [|y [|z [|]]]]; try discriminate Lq. inversion Fq as [|? ? Fx Fq']; subst. inversion Fq' as [|? ? Fy Fq'']; subst. inversion Fq'' as [|? ? Fz _]; subst.
  destruct (u_small prec ltac:(assumption)) as [U0 U1].
  set (NN := B2R w * B2R w + B2R x * B2R x + B2R y * B2R y + B2R z * B2R z).
  assert (LN : rq_length (Q (B2R w) (values [x; y; z])) = sqrt NN) by (unfold rq_length, rnorm; f_equal; unfold NN; cbn; ring).
  rewrite LN in NQ. assert (N0 : 0 <= NN) by (unfold NN; nra). assert (SS := sqrt_sqrt NN N0). assert (SP := sqrt_pos NN). apply Rabs_le_inv in NQ.
  assert (NB : Rabs (1 - NN) <= 2 * d + d * d) by (apply Rabs_le; nra). assert (NB' : NN <= 10404 / 10000) by (apply Rabs_le_inv in NB; nra).
  assert (Qx : 0 <= B2R x * B2R x) by nra. assert (Qy : 0 <= B2R y * B2R y) by nra. assert (Qz : 0 <= B2R z * B2R z) by nra. assert (Qw : 0 <= B2R w * B2R w) by nra. unfold NN in NB'.
  destruct (near_linear (o_sub (cst 1) (o_mul (cst 2) (o_add (o_mul y y) (o_mul z z)))) (o_mul (cst 2) (o_sub (o_mul x y) (o_mul z w))) (o_mul (cst 2) (o_add (o_mul x z) (o_mul y w)))
    (o_mul (cst 2) (o_add (o_mul x y) (o_mul z w))) (o_sub (cst 1) (o_mul (cst 2) (o_add (o_mul x x) (o_mul z z)))) (o_mul (cst 2) (o_sub (o_mul y z) (o_mul x w)))
    (o_mul (cst 2) (o_sub (o_mul x z) (o_mul y w))) (o_mul (cst 2) (o_add (o_mul y z) (o_mul x w))) (o_sub (cst 1) (o_mul (cst 2) (o_add (o_mul x x) (o_mul y y)))) _ _ _ _ _ _ _ _ _ (10 * u) ltac:(lra)
    (quat_diag y z Fy Fz ltac:(lra)) (quat_minus x y z w Fx Fy Fz Fr ltac:(lra)) (quat_plus x z y w Fx Fz Fy Fr ltac:(lra)) (quat_plus x y z w Fx Fy Fz Fr ltac:(lra)) (quat_diag x z Fx Fz ltac:(lra)) (quat_minus y z x w Fy Fz Fx Fr ltac:(lra))
    (quat_minus x z y w Fx Fz Fy Fr ltac:(lra)) (quat_plus y z x w Fy Fz Fx Fr ltac:(lra)) (quat_diag x y Fx Fy ltac:(lra))) as (H1 & H2 & H3 & H4).
  split; [exact H1|]. split; [exact H2|]. split; [exact H3|]. intros p Lp. specialize (H4 p Lp). destruct (list3R p Lp) as (p0 & p1 & p2 & ->).
  match type of H4 with rdist ?a ?b <= _ => assert (T := rdist_triangle a b (rq_rotate (Q (B2R w) (values [x; y; z])) [p0; p1; p2])); assert (La : length a = 3%nat) by apply raffine_length; assert (Lb : length b = 3%nat) by apply raffine_length; rewrite La, Lb in T end.
  rewrite (rotate_length _ _ Qq Lp) in T. specialize (T eq_refl eq_refl). change (mvalues m) with (mvalues (rotation_quat (Q w [x; y; z]))).
  assert (E : rdist (raffine 3 (lin (1 - 2 * (B2R y * B2R y + B2R z * B2R z)) (2 * (B2R x * B2R y - B2R z * B2R w)) (2 * (B2R x * B2R z + B2R y * B2R w))
    (2 * (B2R x * B2R y + B2R z * B2R w)) (1 - 2 * (B2R x * B2R x + B2R z * B2R z)) (2 * (B2R y * B2R z - B2R x * B2R w))
    (2 * (B2R x * B2R z - B2R y * B2R w)) (2 * (B2R y * B2R z + B2R x * B2R w)) (1 - 2 * (B2R x * B2R x + B2R y * B2R y))) [p0; p1; p2]) (rq_rotate (Q (B2R w) (values [x; y; z])) [p0; p1; p2]) = Rabs (1 - NN) * rnorm [p0; p1; p2]).
  { rewrite <- rnorm_scale. unfold rdist. f_equal. rewrite lin_apply. change (values [x; y; z]) with [B2R x; B2R y; B2R z]. rewrite rotate_poly. unfold rscale. cbn [rsub zip map]. unfold NN. f_equal; [ring|]. f_equal; [ring|]. f_equal. ring. }
  rewrite E in T. clear E. assert (P := rnorm_nonneg [p0; p1; p2]). assert (Rabs (1 - NN) * rnorm [p0; p1; p2] <= 21 / 10 * d * rnorm [p0; p1; p2]) by (apply Rmult_le_compat_r; [exact P|nra]).
  eapply Rle_trans; [exact T|]. assert (0 <= u * rnorm [p0; p1; p2]) by (apply Rmult_le_pos; lra). lra.
Qed.
Lemma quat_matrix_turns : forall d (q : quat fl), 0 <= d <= / 50 -> unit_quat d q -> let m := rotation_quat q in
  affine_up_to 4 0 m /\ (forall p, length p = 3%nat -> rdist (raffine 3 (mvalues m) p) (rq_rotate (quat_values q) p) <= (31 * u + 21 / 10 * d) * rnorm p)
  /\ forall v : list fl, length v = 3%nat -> all_finite v -> rnorm (values v) <= Om / 10 ->
    all_finite (m_mul_p 4 m v) /\ rdist (values (m_mul_p 4 m v)) (rq_rotate (quat_values q) (values v)) <= 101 * (u * rnorm (values v) + eta) + 21 / 10 * d * rnorm (values v).
Proof.
  intros d q D Uq m. destruct (quat_matrix d q D Uq) as (H1 & H2 & H3 & H4). fold m in H1, H2, H3, H4. destruct (u_small prec ltac:(assumption)) as [U0 U1]. destruct (eta_small prec emax ltac:(assumption)) as [T0 T1].
  assert (Qq := fin_quat prec emax q (proj1 Uq)).
  destruct (matrix_turns prec emax U20 E20 m (rq_rotate (quat_values q)) (31 * u + 21 / 10 * d) H1 H2 H3 ltac:(lra)) as (A & B).
  { intros p Lp. split; [now apply rotate_length|]. split; [|now apply H4]. rewrite rotate_norm by assumption. destruct Uq as (_ & NQ). apply Rabs_le_inv in NQ. assert (P := rnorm_nonneg p). assert (Y := length_pos (quat_values q)). apply Rmult_le_compat_r; [exact P|]. nra. }
  split; [exact A|]. split; [exact H4|]. intros v Lv Fv HV. destruct (B v Lv Fv HV) as (F & G). split; [exact F|]. lra.
Qed.
End FP.
