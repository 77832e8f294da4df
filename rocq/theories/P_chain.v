(** The error of quaternion products and rotations in the Euclidean norm (C109). *)
From Coq Require Import ZArith Reals List Lia Lra Bool Psatz.
From Flocq Require Import Core BinarySingleNaN.
From Verif Require Import Ops M_scalar M_vec M_quat Inst_F S_vec S_rnd S_hit S_quat S_ft S_chain P_ord P_ieee P_vec P_fp P_fp2 P_fp3 P_fp4 P_fp5 P_hit P_hit2 P_hit3 P_quat P_ft P_ft3.
Import ListNotations.
Local Open Scope R_scope.

(** ** Real quaternions *)
Definition rq_sub (p q : quat R) : quat R := Q (q_r p - q_r q) (rsub (q_v p) (q_v q)).
Lemma length2 : forall q, rq_length q = sqrt (rq_norm2 q).
Proof. intros [r v]. reflexivity. Qed.
Lemma length_mul : forall p q, is_quat p -> is_quat q -> rq_length (rq_mul p q) = rq_length p * rq_length q.
Proof.
  intros p q Hp Hq. rewrite !length2, rq_norm_mul by auto. apply sqrt_mult; unfold rq_norm2; pose proof (rdot_nonneg (q_v p)); pose proof (rdot_nonneg (q_v q)); nra.
Qed.
Lemma length_pos : forall q, 0 <= rq_length q. Proof. intros. apply sqrt_pos. Qed.
Lemma sub_quat : forall p q, is_quat p -> is_quat q -> is_quat (rq_sub p q).
Proof. intros p q Hp Hq. quat3 p. quat3 q. reflexivity. Qed.
Lemma dist_sub : forall p q, rq_dist p q = rq_length (rq_sub p q).
Proof. reflexivity. Qed.
Lemma mul_sub_l : forall p q r, is_quat p -> is_quat q -> is_quat r -> rq_mul (rq_sub p q) r = rq_sub (rq_mul p r) (rq_mul q r).
Proof. intros p q r Hp Hq Hr. quat3 p. quat3 q. quat3 r. unfold rq_sub. qring. Qed.
Lemma dist_mul : forall p q r, is_quat p -> is_quat q -> is_quat r -> rq_dist (rq_mul p r) (rq_mul q r) = rq_dist p q * rq_length r.
Proof. intros p q r Hp Hq Hr. rewrite !dist_sub, <- mul_sub_l by auto. apply length_mul; auto using sub_quat. Qed.
Lemma four_length : forall q, is_quat q -> length (rq_four q) = 4%nat.
Proof. intros q H. unfold rq_four. simpl. now rewrite H. Qed.
Lemma dist_triangle : forall p q r, is_quat p -> is_quat q -> is_quat r -> rq_dist p r <= rq_dist p q + rq_dist q r.
Proof. intros p q r Hp Hq Hr. apply rdist_triangle; rewrite !four_length; auto. Qed.
Lemma length_dist : forall p q, is_quat p -> is_quat q -> rq_length p <= rq_length q + rq_dist p q.
Proof.
  intros p q Hp Hq. assert (Z : forall s, is_quat s -> rq_dist s (Q 0 [0; 0; 0]) = rq_length s).
  { intros s Hs. quat3 s. unfold rq_dist, rq_length, rdist, rq_four. cbn [q_r q_v]. f_equal. unfold rsub, zip. repeat (f_equal; try ring). }
  rewrite <- (Z p), <- (Z q) by auto. rewrite Rplus_comm. now apply dist_triangle.
Qed.
Lemma dist_sym : forall p q, rq_dist p q = rq_dist q p. Proof. intros. apply rdist_sym. Qed.
Lemma conj_length : forall q, is_quat q -> rq_length (rq_conj q) = rq_length q.
Proof. intros q Hq. quat3 q. unfold rq_length, rnorm, rq_four, rq_conj. cbn [q_r q_v rneg map rdot]. f_equal. ring. Qed.
Lemma rotate_act : forall q v, is_quat q -> length v = 3%nat -> rq_rotate q v = rq_act q v.
Proof. intros q v Hq Hv. unfold rq_rotate. now rewrite rq_sandwich. Qed.
Lemma rotate_quat : forall q v, is_quat q -> length v = 3%nat -> rq_mul (rq_mul q (Q 0 v)) (rq_conj q) = Q 0 (rq_rotate q v).
Proof. intros q v Hq Hv. rewrite rotate_act by auto. now apply rq_sandwich. Qed.
Lemma rotate_length : forall q v, is_quat q -> length v = 3%nat -> length (rq_rotate q v) = 3%nat.
Proof. intros. rewrite rotate_act by auto. now apply rq_act_length. Qed.
Lemma vec_length : forall v, rq_length (Q 0 v) = rnorm v.
Proof. intros v. unfold rq_length, rq_four, rnorm. cbn [q_r q_v rdot]. f_equal. ring. Qed.
Lemma rotate_norm : forall q v, is_quat q -> length v = 3%nat -> rnorm (rq_rotate q v) = rq_length q * rq_length q * rnorm v.
Proof.
  intros q v Hq Hv. assert (HQ : is_quat (Q 0 v)) by exact Hv. rewrite <- vec_length, <- rotate_quat, length_mul, length_mul, conj_length, vec_length by auto using rq_mul_quat, rq_conj_quat. ring.
Qed.
Lemma rotate_dist : forall q v w, is_quat q -> length v = 3%nat -> length w = 3%nat -> rdist (rq_rotate q v) (rq_rotate q w) = rq_length q * rq_length q * rdist v w.
Proof.
  intros q v w Hq Hv Hw. unfold rdist at 2. rewrite <- rotate_norm by (auto; rewrite rsub_length; congruence). unfold rdist. f_equal.
  rewrite !rotate_act by (auto; rewrite rsub_length; congruence). quat3 q. vec3 v. vec3 w. unfold rq_act. qring.
Qed.
Lemma rotate_mul : forall p q v, is_quat p -> is_quat q -> length v = 3%nat -> rq_rotate (rq_mul p q) v = rq_rotate p (rq_rotate q v).
Proof. intros p q v Hp Hq Hv. rewrite (rotate_act (rq_mul p q)), (rotate_act q) by auto using rq_mul_quat. rewrite rotate_act by auto using rq_act_length. now apply rq_act_mul. Qed.
Lemma vec_dist : forall v w, rq_dist (Q 0 v) (Q 0 w) = rdist v w.
Proof. intros v w. unfold rq_dist, rdist, rq_four, rnorm. cbn [q_r q_v rsub zip rdot]. f_equal. fold (rsub v w). ring. Qed.
(** Rotating with two different quaternions *)
Lemma rotate_apart : forall p q v, is_quat p -> is_quat q -> length v = 3%nat -> rdist (rq_rotate p v) (rq_rotate q v) <= (rq_length p + rq_length q) * rq_dist p q * rnorm v.
Proof.
  intros p q v Hp Hq Hv. assert (HV : is_quat (Q 0 v)) by exact Hv. rewrite <- vec_dist, <- !rotate_quat by auto.
  eapply Rle_trans; [apply (dist_triangle _ (rq_mul (rq_mul q (Q 0 v)) (rq_conj p))); auto 6 using rq_mul_quat, rq_conj_quat|].
  rewrite !dist_mul, conj_length, vec_length by auto using rq_mul_quat, rq_conj_quat.
  assert (E : rq_dist (rq_mul (rq_mul q (Q 0 v)) (rq_conj p)) (rq_mul (rq_mul q (Q 0 v)) (rq_conj q)) = rq_length q * rnorm v * rq_dist p q).
  { rewrite dist_sub. replace (rq_sub (rq_mul (rq_mul q (Q 0 v)) (rq_conj p)) (rq_mul (rq_mul q (Q 0 v)) (rq_conj q))) with (rq_mul (rq_mul q (Q 0 v)) (rq_conj (rq_sub p q))).
    - rewrite !length_mul, vec_length, conj_length by auto using rq_mul_quat, rq_conj_quat, sub_quat. reflexivity.
    - clear HV. quat3 p. quat3 q. vec3 v. unfold rq_sub. qring. }
  rewrite E. lra.
Qed.

(** ** Machine quaternions *)
Section FP.
Variables prec emax : Z.
Context {Hprec : Prec_gt_0 prec} {Hmax : Prec_lt_emax prec emax}.
Notation fl := (binary_float prec emax).
Notation u := (unit_roundoff prec).
Notation eta := (underflow_error prec emax).
Notation Om := (bpow radix2 emax).
Hypothesis U20 : (20 <= prec)%Z.
Hypothesis E20 : (20 <= emax)%Z.

Lemma mul_plain : forall x y : fl, is_finite x = true -> is_finite y = true -> 2 * Rabs (B2R x * B2R y) + 1 <= Om ->
  near (o_mul x y) (B2R x * B2R y) (u * Rabs (B2R x * B2R y) + eta).
Proof.
  intros x y Fx Fy HO. destruct (u_small prec ltac:(assumption)) as (U0 & U1). destruct (eta_small prec emax ltac:(assumption)) as (E0 & E1). rewrite Rabs_mult in *.
  assert (P := Rabs_pos (B2R x)). assert (P' := Rabs_pos (B2R y)). assert (PP : 0 <= Rabs (B2R x) * Rabs (B2R y)) by (apply Rmult_le_pos; auto).
  eapply near_le; [apply (near_mul prec emax x y _ _ 0 0 _ _ (near_exact prec emax x Fx) (near_exact prec emax y Fy) (Rle_refl _) (Rle_refl _))|].
  - rewrite !Rplus_0_r. nra.
  - rewrite !Rplus_0_r. lra.
Qed.
Lemma four_terms : forall (a b c d x y z w : fl) S, is_finite a = true -> is_finite b = true -> is_finite c = true -> is_finite d = true ->
  is_finite x = true -> is_finite y = true -> is_finite z = true -> is_finite w = true ->
  Rabs (B2R a * B2R x) + Rabs (B2R b * B2R y) + Rabs (B2R c * B2R z) + Rabs (B2R d * B2R w) <= S -> 2 * S + 1 <= Om ->
  near (o_sub (o_add (o_add (o_mul a x) (o_mul b y)) (o_mul c z)) (o_mul d w)) (B2R a * B2R x + B2R b * B2R y + B2R c * B2R z - B2R d * B2R w) (6 * (u * S + eta))
  /\ near (o_sub (o_mul a x) (o_add (o_add (o_add (cst 0) (o_mul b y)) (o_mul c z)) (o_mul d w))) (B2R a * B2R x - (B2R b * B2R y + B2R c * B2R z + B2R d * B2R w)) (6 * (u * S + eta)).
Proof.
  intros a b c d x y z w S Fa Fb Fc Fd Fx Fy Fz Fw HS HO. destruct (u_small prec ltac:(assumption)) as (U0 & U1). destruct (eta_small prec emax ltac:(assumption)) as (E0 & E1).
  set (s1 := Rabs (B2R a * B2R x)) in *. set (s2 := Rabs (B2R b * B2R y)) in *. set (s3 := Rabs (B2R c * B2R z)) in *. set (s4 := Rabs (B2R d * B2R w)) in *.
  assert (P1 : 0 <= s1) by apply Rabs_pos. assert (P2 : 0 <= s2) by apply Rabs_pos. assert (P3 : 0 <= s3) by apply Rabs_pos. assert (P4 : 0 <= s4) by apply Rabs_pos.
  assert (N1 := mul_plain a x Fa Fx ltac:(fold s1; lra)). assert (N2 := mul_plain b y Fb Fy ltac:(fold s2; lra)). assert (N3 := mul_plain c z Fc Fz ltac:(fold s3; lra)). assert (N4 := mul_plain d w Fd Fw ltac:(fold s4; lra)).
  fold s1 in N1. fold s2 in N2. fold s3 in N3. fold s4 in N4.
  assert (A1 : - s1 <= B2R a * B2R x <= s1) by (apply Rabs_le_inv, Rle_refl). assert (A2 : - s2 <= B2R b * B2R y <= s2) by (apply Rabs_le_inv, Rle_refl).
  assert (A3 : - s3 <= B2R c * B2R z <= s3) by (apply Rabs_le_inv, Rle_refl). assert (A4 : - s4 <= B2R d * B2R w <= s4) by (apply Rabs_le_inv, Rle_refl).
  set (p1 := B2R a * B2R x) in *. set (p2 := B2R b * B2R y) in *. set (p3 := B2R c * B2R z) in *. set (p4 := B2R d * B2R w) in *. clearbody s1 s2 s3 s4 p1 p2 p3 p4.
  assert (T1 : 0 <= u * s1 <= s1 / 1000000) by nra. assert (T2 : 0 <= u * s2 <= s2 / 1000000) by nra. assert (T3 : 0 <= u * s3 <= s3 / 1000000) by nra. assert (T4 : 0 <= u * s4 <= s4 / 1000000) by nra.
  assert (TE : 0 <= u * eta <= eta / 1000000) by nra. assert (TS : u * (s1 + s2 + s3 + s4) <= u * S) by (apply Rmult_le_compat_l; lra).
  assert (V1 : 0 <= u * (u * s1) <= u * s1 / 1000000) by nra. assert (V2 : 0 <= u * (u * s2) <= u * s2 / 1000000) by nra. assert (V3 : 0 <= u * (u * s3) <= u * s3 / 1000000) by nra. assert (V4 : 0 <= u * (u * s4) <= u * s4 / 1000000) by nra.
  assert (EB : eta <= / 1000) by lra.
  destruct (F_cst0 prec emax) as (F0 & V0). assert (N0 : near (cst 0 : fl) 0 0) by (rewrite <- V0 at 2; now apply near_exact).
  split.
  - assert (R2 : near (o_add (o_mul a x) (o_mul b y)) (p1 + p2) (201 / 100 * (u * s1 + u * s2) + 21 / 10 * eta)).
    { eapply near_le; [apply (near_add prec emax _ _ _ _ _ _ (s1 + s2) N1 N2)|]; [apply Rabs_le; lra|nra|lra]. }
    assert (R3 : near (o_add (o_add (o_mul a x) (o_mul b y)) (o_mul c z)) (p1 + p2 + p3) (302 / 100 * (u * s1 + u * s2 + u * s3) + 32 / 10 * eta)).
    { eapply near_le; [apply (near_add prec emax _ _ _ _ _ _ (s1 + s2 + s3) R2 N3)|]; [apply Rabs_le; lra|nra|lra]. }
    eapply near_le; [apply (near_sub prec emax _ _ _ _ _ _ (s1 + s2 + s3 + s4) R3 N4)|]; [apply Rabs_le; lra|nra|lra].
  - assert (R1 : near (o_add (cst 0) (o_mul b y)) p2 (201 / 100 * (u * s2) + 11 / 10 * eta)).
    { eapply near_eq; [eapply near_le; [apply (near_add prec emax _ _ _ _ _ _ s2 N0 N2)|]; [apply Rabs_le; lra|nra|lra]|ring]. }
    assert (R2 : near (o_add (o_add (cst 0) (o_mul b y)) (o_mul c z)) (p2 + p3) (302 / 100 * (u * s2 + u * s3) + 22 / 10 * eta)).
    { eapply near_le; [apply (near_add prec emax _ _ _ _ _ _ (s2 + s3) R1 N3)|]; [apply Rabs_le; lra|nra|lra]. }
    assert (R3 : near (o_add (o_add (o_add (cst 0) (o_mul b y)) (o_mul c z)) (o_mul d w)) (p2 + p3 + p4) (403 / 100 * (u * s2 + u * s3 + u * s4) + 33 / 10 * eta)).
    { eapply near_le; [apply (near_add prec emax _ _ _ _ _ _ (s2 + s3 + s4) R2 N4)|]; [apply Rabs_le; lra|nra|lra]. }
    eapply near_le; [apply (near_sub prec emax _ _ _ _ _ _ (s1 + s2 + s3 + s4) N1 R3)|]; [apply Rabs_le; lra|nra|lra].
Qed.

Lemma abs4 : forall a b c d x y z w, Rabs (a * x) + Rabs (b * y) + Rabs (c * z) + Rabs (d * w) <= rnorm [a; b; c; d] * rnorm [x; y; z; w].
Proof.
  intros. assert (H := abs_dot_le [Rabs a; Rabs b; Rabs c; Rabs d] [Rabs x; Rabs y; Rabs z; Rabs w] eq_refl).
  assert (E : forall s t p q, rnorm [Rabs s; Rabs t; Rabs p; Rabs q] = rnorm [s; t; p; q]).
  { intros. unfold rnorm. cbn [rdot]. f_equal. rewrite <- !Rabs_mult. rewrite !(Rabs_pos_eq (_ * _)) by (apply Rle_0_sqr). reflexivity. }
  rewrite !E in H. eapply Rle_trans; [|exact H]. eapply Rle_trans; [|apply Rle_abs]. cbn [rdot]. rewrite !Rabs_mult. lra.
Qed.
Lemma norm4_le : forall a b c d e, Rabs a <= e -> Rabs b <= e -> Rabs c <= e -> Rabs d <= e -> rnorm [a; b; c; d] <= 2 * e.
Proof.
  intros a b c d e A B C D. assert (E0 : 0 <= e) by (eapply Rle_trans; [apply Rabs_pos|exact A]). unfold rnorm. rewrite <- (sqrt_square (2 * e)) by lra. apply sqrt_le_1_alt. cbn [rdot].
  assert (K : forall s, Rabs s <= e -> s * s <= e * e). { intros s Hs. rewrite <- (Rabs_pos_eq (s * s)) by apply Rle_0_sqr. rewrite Rabs_mult. apply Rmult_le_compat; auto using Rabs_pos. }
  apply K in A, B, C, D. lra.
Qed.
Lemma fin_quat : forall q : quat fl, quat_finite q -> is_quat (quat_values q).
Proof. intros q (_ & L & _). unfold is_quat, quat_values, values. cbn [q_v]. now rewrite map_length. Qed.

(** The product *)
Lemma mul_error : forall p q : quat fl, quat_finite p -> quat_finite q -> let L := rq_length (quat_values p) * rq_length (quat_values q) in 2 * L + 1 <= Om ->
  quat_finite (q_mul p q) /\ rq_dist (quat_values (q_mul p q)) (rq_mul (quat_values p) (quat_values q)) <= 12 * (u * L + eta).
Proof.
  intros [pr pv] [qr qv] (Fpr & Lp & Fp) (Fqr & Lq & Fq) L HO. cbn [q_r q_v] in *.
  destruct pv as [|px [|py [|pz [|]]]]; try discriminate. destruct qv as [|qx [|qy [|qz [|]]]]; try discriminate.
  inversion Fp as [|? ? Fpx Fp1]; subst. inversion Fp1 as [|? ? Fpy Fp2]; subst. inversion Fp2 as [|? ? Fpz _]; subst.
  inversion Fq as [|? ? Fqx Fq1]; subst. inversion Fq1 as [|? ? Fqy Fq2]; subst. inversion Fq2 as [|? ? Fqz _]; subst. clear Fp Fp1 Fp2 Fq Fq1 Fq2.
  assert (EL : L = rnorm [B2R pr; B2R px; B2R py; B2R pz] * rnorm [B2R qr; B2R qx; B2R qy; B2R qz]) by reflexivity. clearbody L.
  destruct (four_terms pr px py pz qx qr qz qy L) as (NX & _); try assumption.
  { eapply Rle_trans; [apply abs4|]. rewrite EL. right. f_equal. unfold rnorm; cbn [rdot]; f_equal; ring. }
  destruct (four_terms pr py pz px qy qr qx qz L) as (NY & _); try assumption.
  { eapply Rle_trans; [apply abs4|]. rewrite EL. right. f_equal; unfold rnorm; cbn [rdot]; f_equal; ring. }
  destruct (four_terms pr pz px py qz qr qy qx L) as (NZ & _); try assumption.
  { eapply Rle_trans; [apply abs4|]. rewrite EL. right. f_equal; unfold rnorm; cbn [rdot]; f_equal; ring. }
  destruct (four_terms pr px py pz qr qx qy qz L) as (_ & NR); try assumption.
  { eapply Rle_trans; [apply abs4|]. rewrite EL. lra. }
  change (q_mul (Q pr [px; py; pz]) (Q qr [qx; qy; qz])) with
    (Q (o_sub (o_mul pr qr) (o_add (o_add (o_add (cst 0) (o_mul px qx)) (o_mul py qy)) (o_mul pz qz)))
      [o_sub (o_add (o_add (o_mul pr qx) (o_mul px qr)) (o_mul py qz)) (o_mul pz qy);
       o_sub (o_add (o_add (o_mul pr qy) (o_mul py qr)) (o_mul pz qx)) (o_mul px qz);
       o_sub (o_add (o_add (o_mul pr qz) (o_mul pz qr)) (o_mul px qy)) (o_mul py qx)]).
  match goal with |- quat_finite (Q ?r [?x; ?y; ?z]) /\ _ => set (R := r) in *; set (X := x) in *; set (Y := y) in *; set (Z := z) in * end. clearbody R X Y Z.
  destruct NX as (FX & NX), NY as (FY & NY), NZ as (FZ & NZ), NR as (FR & NR). split.
  - split; [exact FR|]. split; [reflexivity|]. cbn [q_v]. repeat (apply Forall_cons; [assumption|]). apply Forall_nil.
  - replace (12 * (u * L + eta)) with (2 * (6 * (u * L + eta))) by ring. unfold rq_dist, rdist, rq_four, quat_values, values, rq_mul, rscale, radd. cbn [q_r q_v map zip rcross rdot rsub].
    assert (TR : forall a b k, Rabs a <= k -> a = b -> Rabs b <= k) by (intros ? ? ? ? <-; assumption).
    apply norm4_le; [eapply TR; [exact NR|ring]|eapply TR; [exact NX|ring]|eapply TR; [exact NY|ring]|eapply TR; [exact NZ|ring]].
Qed.

Lemma conj_values : forall q : quat fl, quat_finite q -> quat_finite (q_conjugate q) /\ quat_values (q_conjugate q) = rq_conj (quat_values q).
Proof.
  intros [r v] (Fr & L & F). cbn [q_r q_v] in *. destruct v as [|x [|y [|z [|]]]]; try discriminate. inversion F as [|? ? Fx F1]; subst. inversion F1 as [|? ? Fy F2]; subst. inversion F2 as [|? ? Fz _]; subst.
  destruct (opp_F prec emax x Fx) as (Fx' & Vx). destruct (opp_F prec emax y Fy) as (Fy' & Vy). destruct (opp_F prec emax z Fz) as (Fz' & Vz).
  split; [split; [exact Fr|]; split; [reflexivity|]; cbn [q_conjugate q_v v_neg map]; repeat (apply Forall_cons; [assumption|]); apply Forall_nil|].
  unfold quat_values, q_conjugate, rq_conj, rneg, values, v_neg. cbn [q_r q_v map]. now rewrite Vx, Vy, Vz.
Qed.
Lemma vector_part : forall p q, rdist (q_v p) (q_v q) <= rq_dist p q.
Proof. intros p q. unfold rq_dist, rdist, rq_four, rnorm. apply sqrt_le_1_alt. cbn [q_r q_v rsub zip rdot]. fold (rsub (q_v p) (q_v q)). assert (H := Rle_0_sqr (q_r p - q_r q)). unfold Rsqr in H. lra. Qed.

(** The rotation *)
Lemma rotate_error : forall (q : quat fl) (v : list fl), unit_quat (/ 50) q -> length v = 3%nat -> all_finite v -> rnorm (values v) <= Om / 5 ->
  length (q_rotate q v) = 3%nat /\ all_finite (q_rotate q v) /\ rdist (values (q_rotate q v)) (rq_rotate (quat_values q) (values v)) <= 25 * (u * rnorm (values v) + eta).
Proof.
  intros q v (Fq & Hq) Lv Fv HO. destruct (u_small prec ltac:(assumption)) as (U0 & U1). destruct (eta_small prec emax ltac:(assumption)) as (E0 & E1). assert (OB := om_big emax ltac:(assumption)).
  apply Rabs_le_inv in Hq. set (L := rq_length (quat_values q)) in *. set (V := rnorm (values v)) in *. assert (V0 : 0 <= V) by apply rnorm_nonneg.
  destruct (F_cst0 prec emax) as (F0 & Z0).
  assert (FV : quat_finite (Q (cst 0) v)) by (split; [exact F0|]; split; [exact Lv|exact Fv]).
  assert (EV : quat_values (Q (cst 0) v) = Q 0 (values v)) by (unfold quat_values; cbn [q_r q_v]; rewrite Z0; reflexivity).
  assert (LV : rq_length (quat_values (Q (cst 0) v)) = V) by (rewrite EV; apply vec_length).
  assert (LB : L * V <= 102 / 100 * V) by (apply Rmult_le_compat_r; lra). assert (LB0 : 0 <= L * V) by (apply Rmult_le_pos; lra).
  destruct (mul_error q (Q (cst 0) v) Fq FV) as (F1 & D1). { rewrite LV. fold L. lra. }
  rewrite LV in D1. rewrite EV in D1. fold L in D1. destruct (conj_values q Fq) as (FC & EC).
  set (m := q_mul q (Q (cst 0) v)) in *. set (r := rq_mul (quat_values q) (Q 0 (values v))) in *.
  assert (Qq := fin_quat q Fq). assert (Qm := fin_quat m F1). assert (QV : is_quat (Q 0 (values v))) by (unfold is_quat, values; cbn [q_v]; now rewrite map_length).
  assert (Qr : is_quat r) by (apply rq_mul_quat; assumption).
  assert (Lr : rq_length r = L * V) by (unfold r; rewrite length_mul, vec_length by auto; reflexivity).
  assert (Lm := length_dist (quat_values m) r Qm Qr). rewrite Lr in Lm. assert (M0 := length_pos (quat_values m)). set (M := rq_length (quat_values m)) in *.
  assert (LC : rq_length (quat_values (q_conjugate q)) = L) by (rewrite EC; now apply conj_length).
  assert (T1 : 0 <= u * V <= V / 1000000) by nra. assert (T2 : u * (L * V) <= 102 / 100 * (u * V)) by nra. assert (T3 : 0 <= u * (L * V)) by nra.
  assert (MB : M <= 102 / 100 * V + 12 * (102 / 100 * (u * V) + eta)) by lra.
  assert (ML : M * L <= 102 / 100 * M) by nra. assert (ML0 : 0 <= M * L) by (apply Rmult_le_pos; lra).
  destruct (mul_error m (q_conjugate q) F1 FC) as (F2 & D2). { rewrite LC. fold M. lra. }
  rewrite LC, EC in D2. fold M in D2. destruct F2 as (_ & L2 & A2). split; [exact L2|]. split; [exact A2|].
  unfold q_rotate, rq_rotate. fold m r. change (values (q_v (q_mul m (q_conjugate q)))) with (q_v (quat_values (q_mul m (q_conjugate q)))). eapply Rle_trans; [apply vector_part|].
  assert (Q2 : is_quat (quat_values (q_mul m (q_conjugate q)))) by (unfold is_quat, quat_values, values; cbn [q_v]; now rewrite map_length).
  eapply Rle_trans; [apply (dist_triangle _ (rq_mul (quat_values m) (rq_conj (quat_values q)))); auto using rq_mul_quat, rq_conj_quat|].
  rewrite dist_mul, conj_length by auto using rq_conj_quat. fold L. 
  assert (DL : rq_dist (quat_values m) r * L <= 102 / 100 * (12 * (102 / 100 * (u * V) + eta))).
  { rewrite Rmult_comm. apply Rmult_le_compat; try lra. apply rnorm_nonneg. }
  assert (T5 : u * (M * L) <= u * (102 / 100 * (102 / 100 * V + 12 * (102 / 100 * (u * V) + eta)))) by (apply Rmult_le_compat_l; lra).
  assert (T6 : u * (u * V) <= u * V / 1000000) by nra. assert (T7 : u * eta <= eta / 1000000) by nra. lra.
Qed.
End FP.
