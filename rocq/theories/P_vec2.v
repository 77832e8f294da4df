(** Vectors: betweenness, averages, angles, homogeneous coordinates, IEEE commutativity. *)
From Coq Require Import ZArith Reals List Bool Lra Lia Psatz Permutation.
From Flocq Require Import Core BinarySingleNaN.
From Verif Require Import Ops M_scalar M_vec Inst_F Inst_XR P_xr P_misc P_ieee S_vec P_vec.
Import ListNotations.
Local Open Scope R_scope.

(** ** Exact equality *)
Lemma X_v_eq : forall a b, length a = length b -> (v_eq (vS a) (vS b) = true <-> a = b).
Proof.
  intros a b H. unfold v_eq. rewrite Z.eqb_eq. change (cst 0) with (Some 0).
  rewrite X_compare_zero by (auto; lra). split.
  - intros F. induction F; auto. injection H as H. f_equal; auto. 
    assert (G := Rabs_pos (x - y)). assert (Rabs (x - y) = 0) by lra.
    destruct (Req_dec (x - y) 0) as [|N]; [ lra | ]. apply Rabs_no_R0 in N. contradiction.
  - intros <-. clear H. induction a; constructor; auto. rewrite Rminus_eq_0, Rabs_R0. lra.
Qed.

(** ** is_between *)
Lemma X_is_between : forall p s e, length p = length s -> length p = length e -> collinear p s e ->
  exists r, v_is_between (vS p) (vS s) (vS e) = Ret r /\ (r = true <-> on_segment p s e).
Proof.
  intros p s e H1 H2 C.
  assert (Hc : v_is_colinear (vS p) (vS s) (vS e) colinear_epsilon = true).
  { unfold colinear_epsilon. rewrite X_lit by lia. rewrite X_is_colinear by (auto; lra).
    apply Rle_bool_true. apply collinear_gram in C; auto. lra. }
  unfold v_is_between. rewrite Hc. cbn [require].
  assert (Lse : length s = length (rsub e s)) by (rewrite rsub_length; congruence).
  destruct (v_eq (vS p) (vS s)) eqn:E1.
  { apply X_v_eq in E1; auto. subst s. cbn [orb]. exists true. split; auto. split; auto. intros _.
    exists 0. split; [ lra | ]. unfold rlerp. now rewrite rpoint_0. }
  destruct (v_eq (vS p) (vS e)) eqn:E2.
  { apply X_v_eq in E2; auto. subst e. cbn [orb]. exists true. split; auto. split; auto. intros _.
    exists 1. split; [ lra | ]. unfold rlerp, rpoint. rewrite rscale_1. symmetry. now apply radd_sub. }
  cbn [orb].
  assert (N1 : p <> s) by (intros E; apply X_v_eq in E; [ congruence | auto ]).
  assert (N2 : p <> e) by (intros E; apply X_v_eq in E; [ congruence | auto ]). clear E1 E2.
  rewrite !X_sub.
  assert (P : 0 < rnorm (rsub s p)).
  { apply rnorm_pos. intros E. apply N1. symmetry. apply rsub_eq; [ congruence | ].
    rewrite E at 1. f_equal. rewrite rsub_length; congruence. }
  rewrite X_normalize_vec by lra. rewrite X_dot. change (cst 0) with (Some 0).
  cbn [o_lt XRops Xcmp]. rewrite rdot_scale_r.
  eexists. split; [ reflexivity | ]. rewrite Rlt_true.
  assert (K : / rnorm (rsub s p) * rdot (rsub e p) (rsub s p) < 0 <-> rdot (rsub e p) (rsub s p) < 0).
  { assert (0 < / rnorm (rsub s p)) by now apply Rinv_0_lt_compat. split; intros; nra. }
  rewrite K. clear K P. split.
  - destruct C as (q & d & r & a & b & Hq & Hd & -> & -> & ->).
    assert (L : length q = length d) by congruence.
    rewrite !rsub_rpoint by auto. rewrite rdot_scale_l, rdot_scale_r. intros Hlt.
    assert (Pd := rdot_nonneg d). assert (M : (b - r) * (a - r) < 0) by nra.
    assert (a <> b) by (intros <-; assert (Q := Rle_0_sqr (a - r)); unfold Rsqr in Q; lra).
    exists ((r - a) / (b - a)). split.
    + split.
      * destruct (Rlt_or_le a b).
        -- apply Rmult_le_reg_r with (b - a); [ lra | ]. replace ((r - a) / (b - a) * (b - a)) with (r - a) by (field; lra). nra.
        -- apply Rmult_le_reg_r with (a - b); [ lra | ]. replace ((r - a) / (b - a) * (a - b)) with (a - r) by (field; lra). nra.
      * destruct (Rlt_or_le a b).
        -- apply Rmult_le_reg_r with (b - a); [ lra | ]. replace ((r - a) / (b - a) * (b - a)) with (r - a) by (field; lra). nra.
        -- apply Rmult_le_reg_r with (a - b); [ lra | ]. replace ((r - a) / (b - a) * (a - b)) with (a - r) by (field; lra). nra.
    + unfold rlerp. rewrite rsub_rpoint by auto. unfold rpoint. rewrite rscale_mul.
      rewrite <- radd_assoc, <- rscale_add_l. do 2 f_equal. field. lra.
  - intros (t & Ht & Ep). subst p. unfold rlerp in *.
    assert (E : s = rpoint s (rsub e s) 0) by now rewrite rpoint_0.
    assert (E' : e = rpoint s (rsub e s) 1) by (unfold rpoint; rewrite rscale_1; symmetry; apply radd_sub; congruence).
    assert (A : rsub e (rpoint s (rsub e s) t) = rscale (1 - t) (rsub e s)).
    { rewrite E' at 1. now rewrite rsub_rpoint. }
    assert (B : rsub s (rpoint s (rsub e s) t) = rscale (0 - t) (rsub e s)).
    { rewrite E at 1. now rewrite rsub_rpoint. }
    rewrite A, B, rdot_scale_l, rdot_scale_r.
    assert (t <> 0) by (intros ->; apply N1; now rewrite rpoint_0).
    assert (t <> 1) by (intros ->; apply N2; now rewrite <- E').
    destruct (rdot_nonneg (rsub e s)) as [P|Z].
    + assert (0 < (1 - t) * t) by nra. nra.
    + exfalso. apply N1. symmetry in Z. apply rdot_zero in Z. unfold rpoint. rewrite Z.
      assert (R : forall n, rscale t (rzero n) = rzero n).
      { unfold rscale, rzero. intros n. induction n; simpl; auto. rewrite IHn. f_equal. ring. }
      rewrite R, <- Lse. apply radd_0_r.
Qed.

(** ** average *)
(** Componentwise sum of vectors of dimension n. *)
Fixpoint rsum (n : nat) (l : list (list R)) : list R :=
  match l with [] => rzero n | v :: l' => radd v (rsum n l') end.
Lemma rsum_length : forall n l, Forall (fun v => length v = n) l -> length (rsum n l) = n.
Proof.
  intros n l H. induction H; simpl. { unfold rzero. apply repeat_length. }
  rewrite radd_length; congruence.
Qed.
Lemma rsum_perm : forall n l l', Permutation l l' -> rsum n l = rsum n l'.
Proof.
  intros n l l' H. induction H; simpl; try congruence.
  rewrite !radd_assoc. f_equal. apply radd_comm.
Qed.
Lemma X_average_acc : forall n rest acc k, length acc = n -> Forall (fun v => length v = n) rest ->
  fold_left (fun rc v => (v_add (fst rc) v, o_add (snd rc) (cst 1))) (map (map Some) rest) (vS acc, Some k)
  = (vS (radd acc (rsum n rest)), Some (k + INR (length rest))).
Proof.
  intros n. induction rest as [|v rest IH]; intros acc k Ha Hr.
  - cbn [map fold_left rsum length INR]. subst n. now rewrite radd_0_r, Rplus_0_r.
  - inversion Hr; subst. cbn [map fold_left fst snd]. rewrite X_add.
    change (o_add (Some k) (cst 1)) with (Some (k + 1)). rewrite IH; auto.
    2: { rewrite radd_length; auto. }
    cbn [rsum]. rewrite radd_assoc. f_equal. f_equal.
    change (length (v :: rest)) with (S (length rest)). rewrite S_INR. ring.
Qed.
Lemma X_average : forall n l, l <> [] -> Forall (fun v => length v = n) l ->
  v_average (map (map Some) l) = Ret (vS (rscale (/ INR (length l)) (rsum n l))).
Proof.
  intros n [|v rest] Hn H; [ congruence | ]. inversion H; subst.
  unfold v_average. cbn [map]. change (cst 1) with (Some 1). rewrite X_average_acc with (n := length v) by auto.
  rewrite X_div_s.
  - cbn [rsum]. do 4 f_equal. change (length (v :: rest)) with (S (length rest)). rewrite S_INR. ring.
  - assert (G := pos_INR (length rest)). lra.
Qed.
Lemma Forall2_length : forall A B (P : A -> B -> Prop) l l', Forall2 P l l' -> length l = length l'.
Proof. intros A B P l l' H. induction H; simpl; auto. Qed.
Lemma Forall2_rlist : forall lo hi l, Forall (fun v => in_box v lo hi) l -> length lo = length hi ->
  Forall2 Rle (rscale (INR (length l)) lo) (rsum (length lo) l)
  /\ Forall2 Rle (rsum (length lo) l) (rscale (INR (length l)) hi).
Proof.
  intros lo hi l H L.
  assert (Z : forall v, Forall2 Rle (rscale 0 v) (rzero (length v)) /\ Forall2 Rle (rzero (length v)) (rscale 0 v)).
  { intros v. rewrite rscale_0. unfold rzero. split; induction (length v); simpl; constructor; auto; lra. }
  assert (M : forall a b c d, Forall2 Rle a b -> Forall2 Rle c d -> length a = length c ->
              Forall2 Rle (radd a c) (radd b d)).
  { intros a b c d H1. revert c d. induction H1; intros c d H2 Hl; destruct H2; try discriminate; simpl; constructor; [ lra | ].
    apply IHForall2; auto. }
  assert (LB : forall v, in_box v lo hi -> length v = length lo).
  { intros v [A _]. now apply Forall2_length in A. }
  induction H.
  - change (INR (length (@nil (list R)))) with 0. cbn [rsum]. split; [ apply Z | rewrite L; apply Z ].
  - change (length (x :: l)) with (S (length l)). rewrite S_INR.
    rewrite Rplus_comm, !rscale_add_l, !rscale_1. cbn [rsum]. destruct IHForall as [I1 I2]. destruct H as [B1 B2].
    assert (Lx := LB x (conj B1 B2)).
    split; apply M; auto.
    + now rewrite rscale_length.
    + rewrite rsum_length; auto. revert H0. apply Forall_impl. apply LB.
Qed.
Lemma X_average_in_box : forall lo hi l, l <> [] -> length lo = length hi ->
  Forall (fun v => in_box v lo hi) l ->
  exists m, v_average (map (map Some) l) = Ret (vS m) /\ in_box m lo hi.
Proof.
  intros lo hi l Hn L H. exists (rscale (/ INR (length l)) (rsum (length lo) l)).
  assert (Hl : Forall (fun v => length v = length lo) l).
  { revert H. apply Forall_impl. intros v [A _]. now apply Forall2_length in A. }
  split; [ now apply X_average | ].
  destruct (Forall2_rlist lo hi l H L) as [A B].
  assert (P : 0 < INR (length l)) by (apply lt_0_INR; destruct l; [ congruence | simpl; lia ]).
  assert (I : 0 < / INR (length l)) by now apply Rinv_0_lt_compat.
  assert (S : forall k a b, 0 < k -> Forall2 Rle a b -> Forall2 Rle (rscale k a) (rscale k b)).
  { intros k a b Hk F. induction F; constructor; auto. nra. }
  apply (S _ _ _ I) in A. apply (S _ _ _ I) in B.
  rewrite rscale_mul, Rinv_l, rscale_1 in A, B by lra. split; auto.
Qed.

(** ** measure_angle *)
Lemma X_measure_angle : forall v axis up,
  length v = 3%nat -> length axis = 3%nat -> length up = 3%nat ->
  rdot v v = 1 -> rdot axis axis = 1 -> rdot up up = 1 -> rdot v up = 0 -> rdot axis up = 0 ->
  exists th, measure_angle (vS v) (vS axis) (vS up) = Some th /\ 0 <= th < 2 * PI
    /\ v = radd (rscale (cos th) axis) (rscale (sin th) (rcross up axis)).
Proof.
  intros v axis up Lv La Lu Hv Ha Hu Hvu Hau.
  set (c := rdot v axis). set (s := rdot (rcross axis v) up).
  assert (CS : c * c + s * s = 1 /\ v = radd (rscale c axis) (rscale s (rcross up axis))).
  { unfold c, s. vec3 v. vec3 axis. vec3 up. simpl in *.
    set (w0 := axis1 * v2 - axis2 * v1). set (w1 := axis2 * v0 - axis0 * v2). set (w2 := axis0 * v1 - axis1 * v0).
    set (x := v0 * axis0 + (v1 * axis1 + (v2 * axis2 + 0))).
    set (t := w0 * up0 + (w1 * up1 + (w2 * up2 + 0))).
    (* w is a multiple of up *)
    assert (O1 : w0 * axis0 + w1 * axis1 + w2 * axis2 = 0) by (unfold w0, w1, w2; ring).
    assert (O2 : w0 * v0 + w1 * v1 + w2 * v2 = 0) by (unfold w0, w1, w2; ring).
    (* the gram identity for the components of v - x axis - t (up x axis) *)
    pose (b0 := up1 * axis2 - up2 * axis1). pose (b1 := up2 * axis0 - up0 * axis2). pose (b2 := up0 * axis1 - up1 * axis0).
    assert (T : t = v0 * b0 + v1 * b1 + v2 * b2) by (unfold t, w0, w1, w2, b0, b1, b2; ring).
    assert (Bn : b0 * b0 + b1 * b1 + b2 * b2 = 1).
    { replace (b0 * b0 + b1 * b1 + b2 * b2) with
        ((up0 * up0 + (up1 * up1 + (up2 * up2 + 0))) * (axis0 * axis0 + (axis1 * axis1 + (axis2 * axis2 + 0)))
         - (axis0 * up0 + (axis1 * up1 + (axis2 * up2 + 0))) * (axis0 * up0 + (axis1 * up1 + (axis2 * up2 + 0))))
        by (unfold b0, b1, b2; ring).
      rewrite Hu, Ha, Hau. ring. }
    assert (Ba : b0 * axis0 + b1 * axis1 + b2 * axis2 = 0) by (unfold b0, b1, b2; ring).
    (* orthonormal basis: det of (axis, b, up) squared is 1, use the completeness relation via triple products *)
    assert (Key : forall y0 y1 y2,
      y0 * axis0 + y1 * axis1 + y2 * axis2 = 0 -> y0 * b0 + y1 * b1 + y2 * b2 = 0 -> y0 * up0 + y1 * up1 + y2 * up2 = 0 ->
      y0 = 0 /\ y1 = 0 /\ y2 = 0).
    { intros y0 y1 y2 Y1 Y2 Y3.
      (* cross axis b = up *)
      assert (Dt : axis0 * (b1 * up2 - b2 * up1) + axis1 * (b2 * up0 - b0 * up2) + axis2 * (b0 * up1 - b1 * up0) = 1).
      { replace (axis0 * (b1 * up2 - b2 * up1) + axis1 * (b2 * up0 - b0 * up2) + axis2 * (b0 * up1 - b1 * up0))
          with ((up0 * up0 + (up1 * up1 + (up2 * up2 + 0))) * (axis0 * axis0 + (axis1 * axis1 + (axis2 * axis2 + 0)))
         - (axis0 * up0 + (axis1 * up1 + (axis2 * up2 + 0))) * (axis0 * up0 + (axis1 * up1 + (axis2 * up2 + 0))))
          by (unfold b0, b1, b2; ring).
        rewrite Hu, Ha, Hau. ring. }
      assert (E0 : y0 * 1 = 0).
      { rewrite <- Dt.
        replace (y0 * (axis0 * (b1 * up2 - b2 * up1) + axis1 * (b2 * up0 - b0 * up2) + axis2 * (b0 * up1 - b1 * up0)))
          with ((y0 * axis0 + y1 * axis1 + y2 * axis2) * (b1 * up2 - b2 * up1)
              + (y0 * b0 + y1 * b1 + y2 * b2) * (axis2 * up1 - axis1 * up2)
              + (y0 * up0 + y1 * up1 + y2 * up2) * (axis1 * b2 - axis2 * b1)) by ring.
        rewrite Y1, Y2, Y3. ring. }
      assert (E1 : y1 * 1 = 0).
      { rewrite <- Dt.
        replace (y1 * (axis0 * (b1 * up2 - b2 * up1) + axis1 * (b2 * up0 - b0 * up2) + axis2 * (b0 * up1 - b1 * up0)))
          with ((y0 * axis0 + y1 * axis1 + y2 * axis2) * (b2 * up0 - b0 * up2)
              + (y0 * b0 + y1 * b1 + y2 * b2) * (axis0 * up2 - axis2 * up0)
              + (y0 * up0 + y1 * up1 + y2 * up2) * (axis2 * b0 - axis0 * b2)) by ring.
        rewrite Y1, Y2, Y3. ring. }
      assert (E2 : y2 * 1 = 0).
      { rewrite <- Dt.
        replace (y2 * (axis0 * (b1 * up2 - b2 * up1) + axis1 * (b2 * up0 - b0 * up2) + axis2 * (b0 * up1 - b1 * up0)))
          with ((y0 * axis0 + y1 * axis1 + y2 * axis2) * (b0 * up1 - b1 * up0)
              + (y0 * b0 + y1 * b1 + y2 * b2) * (axis1 * up0 - axis0 * up1)
              + (y0 * up0 + y1 * up1 + y2 * up2) * (axis0 * b1 - axis1 * b0)) by ring.
        rewrite Y1, Y2, Y3. ring. }
      lra. }
    assert (Bu : b0 * up0 + b1 * up1 + b2 * up2 = 0) by (unfold b0, b1, b2; ring).
    destruct (Key (v0 - x * axis0 - t * b0) (v1 - x * axis1 - t * b1) (v2 - x * axis2 - t * b2)) as (K0 & K1 & K2).
    - replace (_ + _ + _) with (x - x * (axis0 * axis0 + (axis1 * axis1 + (axis2 * axis2 + 0))) - t * (b0 * axis0 + b1 * axis1 + b2 * axis2)) by (unfold x; ring).
      rewrite Ha, Ba. ring.
    - replace (_ + _ + _) with ((v0 * b0 + v1 * b1 + v2 * b2) - x * (b0 * axis0 + b1 * axis1 + b2 * axis2) - t * (b0 * b0 + b1 * b1 + b2 * b2)) by ring.
      rewrite Ba, Bn, <- T. ring.
    - replace (_ + _ + _) with ((v0 * up0 + (v1 * up1 + (v2 * up2 + 0))) - x * (axis0 * up0 + (axis1 * up1 + (axis2 * up2 + 0))) - t * (b0 * up0 + b1 * up1 + b2 * up2)) by ring.
      rewrite Hvu, Hau, Bu. ring.
    - assert (R0 : v0 = x * axis0 + t * b0) by lra. assert (R1 : v1 = x * axis1 + t * b1) by lra. assert (R2 : v2 = x * axis2 + t * b2) by lra.
      split.
      + assert (Q : (x * axis0 + t * b0) * (x * axis0 + t * b0) + (x * axis1 + t * b1) * (x * axis1 + t * b1) + (x * axis2 + t * b2) * (x * axis2 + t * b2) = 1).
        { rewrite <- R0, <- R1, <- R2. lra. }
        replace (_ + _ + _) with (x * x * (axis0 * axis0 + (axis1 * axis1 + (axis2 * axis2 + 0))) + t * t * (b0 * b0 + b1 * b1 + b2 * b2) + 2 * x * t * (b0 * axis0 + b1 * axis1 + b2 * axis2)) in Q by ring.
        rewrite Ha, Bn, Ba in Q. lra.
      + unfold radd, rscale. simpl. fold b0 b1 b2. congruence. }
  destruct CS as [CS Ev].
  assert (Hc : -1 <= c <= 1) by nra.
  unfold measure_angle. rewrite X_dot. fold c.
  rewrite X_cross3 by auto. rewrite X_dot. fold s.
  assert (Cl : sc_clamp (Some c) (cst (-1)) (cst 1) = Some c).
  { unfold sc_clamp. change (cst 1) with (Some 1). change (cst (-1)) with (Some (-1)).
    rewrite X_min2, X_max2. f_equal. rewrite Rmin_left by lra. apply Rmax_left. lra. }
  rewrite Cl. cbn [f_acos XRlibm Xunit]. rewrite Rlt_bool_false by (apply Rabs_le; lra).
  change (cst 0) with (Some 0). cbn [o_le XRops Xcmp].
  assert (Ac := acos_bound c). assert (Pp := PI_RGT_0).
  assert (Cc : cos (acos c) = c) by (apply cos_acos; lra).
  assert (Ss : sin (acos c) = Rabs s).
  { rewrite sin_acos by lra. rewrite <- sqrt_Rsqr_abs. f_equal. unfold Rsqr. lra. }
  destruct (Rle_bool_spec 0 s) as [Hs|Hs].
  - exists (acos c). split; auto. split; [ lra | ]. rewrite Cc, Ss, Rabs_pos_eq by auto. exact Ev.
  - exists (2 * PI - acos c). split; [ reflexivity | ]. split.
    + assert (acos c <> 0). { intros E. rewrite E, sin_0 in Ss. rewrite Rabs_left in Ss; lra. } lra.
    + replace (2 * PI - acos c) with (- acos c + 2 * PI) by ring.
      rewrite cos_plus, sin_plus, cos_2PI, sin_2PI, cos_neg, sin_neg, Cc, Ss, Rabs_left by auto.
      rewrite Ev at 1. f_equal; f_equal; ring.
Qed.

(** ** IEEE arithmetic *)
Section F.
Variables prec emax : Z.
Context {Hprec : Prec_gt_0 prec} {Hmax : Prec_lt_emax prec emax}.
Notation fl := (binary_float prec emax).

Lemma Bmult_swap : forall x y : fl, o_mul x y = o_mul y x.
Proof.
  intros x y. change (Bmult mode_NE x y = Bmult mode_NE y x).
  destruct (is_finite x) eqn:Fx, (is_finite y) eqn:Fy.
  2-4: destruct x, y; try discriminate; cbn; try reflexivity; now rewrite xorb_comm.
  assert (H1 := Bmult_correct prec emax Hprec Hmax mode_NE x y).
  assert (H2 := Bmult_correct prec emax Hprec Hmax mode_NE y x).
  rewrite (Rmult_comm (B2R y)) in H2. rewrite (xorb_comm (Bsign y)) in H2.
  destruct (Rlt_bool _ _).
  - destruct H1 as (R1 & F1 & S1). destruct H2 as (R2 & F2 & S2).
    rewrite Fx, Fy in F1, F2. apply B2R_Bsign_inj; auto; try congruence.
    rewrite S1, S2; auto; [ destruct (Bmult mode_NE y x) | destruct (Bmult mode_NE x y) ]; auto; discriminate.
  - apply B2SF_inj. congruence.
Qed.
Lemma Bplus_swap : forall x y : fl, o_add x y = o_add y x.
Proof.
  intros x y. change (Bplus mode_NE x y = Bplus mode_NE y x).
  destruct (is_finite x) eqn:Fx, (is_finite y) eqn:Fy.
  2-4: destruct x as [[]|[]| |], y as [[]|[]| |]; try discriminate; reflexivity.
  assert (H1 := Bplus_correct prec emax Hprec Hmax mode_NE x y Fx Fy).
  assert (H2 := Bplus_correct prec emax Hprec Hmax mode_NE y x Fy Fx).
  rewrite (Rplus_comm (B2R y)) in H2.
  destruct (Rlt_bool _ _).
  - destruct H1 as (R1 & F1 & S1). destruct H2 as (R2 & F2 & S2).
    apply B2R_Bsign_inj; auto; try congruence. rewrite S1, S2. rewrite andb_comm. reflexivity.
  - destruct H1 as [E1 S1]. destruct H2 as [E2 S2]. apply B2SF_inj. congruence.
Qed.
Lemma F_add_comm : forall a b : list fl, v_add a b = v_add b a.
Proof. unfold v_add. induction a; intros [|y b]; simpl; auto. rewrite IHa. f_equal. apply Bplus_swap. Qed.
Lemma F_dot_comm : forall a b : list fl, v_dot a b = v_dot b a.
Proof.
  intros a b. unfold v_dot. generalize (cst 0 : fl). revert b.
  induction a; intros [|y b] r; simpl combine; auto. cbn [fold_left fst snd].
  rewrite (Bmult_swap a y). apply IHa.
Qed.

Lemma Bone_val : (1 < prec)%Z \/ True -> is_finite (cst 1 : fl) = true /\ B2R (cst 1 : fl) = 1.
Proof. intros _. apply F_cst1. Qed.
Lemma Bone_sign : Bsign (cst 1 : fl) = false.
Proof.
  destruct (F_cst1 prec emax) as [F1 B1]. destruct (cst 1 : fl) as [|  | |[] m e h]; try discriminate; auto.
  - simpl in B1. lra.
  - exfalso. assert (B2R (B754_finite true m e h : fl) < 0); [ | lra ].
    simpl. apply F2R_lt_0. reflexivity.
Qed.
Lemma Bdiv_1 : forall x : fl, o_div x (cst 1) = x.
Proof.
  intros x. change (Bdiv mode_NE x (cst 1) = x).
  destruct (F_cst1 prec emax) as [F1 B1]. assert (S1 := Bone_sign).
  destruct (is_finite x) eqn:Fx.
  - assert (N : B2R (cst 1 : fl) <> 0) by lra.
    assert (H := Bdiv_correct prec emax Hprec Hmax mode_NE x (cst 1) N).
    rewrite B1 in H. replace (B2R x / 1) with (B2R x) in H by field.
    rewrite round_generic in H; [ | auto with typeclass_instances | apply generic_format_B2R ].
    rewrite Rlt_bool_true in H by apply abs_B2R_lt_emax.
    destruct H as (H1 & H2 & H3). rewrite Fx in H2. apply B2R_Bsign_inj; auto.
    rewrite H3, S1, xorb_false_r; auto.
    destruct (Bdiv mode_NE x (cst 1)); auto; discriminate.
  - destruct (cst 1 : fl) as [|  | |s m e h]; try discriminate.
    { simpl in B1. lra. }
    simpl in S1. subst s. destruct x as [| [] | |]; try discriminate; reflexivity.
Qed.
Lemma F_homogeneous : forall p : list fl, v_to_cartesian (v_to_homogeneous p) = p.
Proof.
  intros p. unfold v_to_cartesian, v_to_homogeneous, v_extend. rewrite map_id, app_length. simpl length.
  replace (length p + 1 - 1)%nat with (length p) by lia.
  assert (E : vget (p ++ [cst 1]) (length p) = cst 1 :> fl).
  { unfold vget. rewrite app_nth2 by lia. rewrite Nat.sub_diag. reflexivity. }
  rewrite E, firstn_app, Nat.sub_diag, firstn_all. simpl. rewrite app_nil_r.
  rewrite <- (map_id p) at 2. apply map_ext. apply Bdiv_1.
Qed.
End F.

Lemma X_cartesian : forall p w, w <> 0 ->
  v_to_cartesian (vS (p ++ [w])) = vS (rscale (/ w) p).
Proof.
  intros p w H. unfold v_to_cartesian. rewrite map_length, app_length. simpl length.
  replace (length p + 1 - 1)%nat with (length p) by lia.
  rewrite X_get, app_nth2 by lia. rewrite Nat.sub_diag. cbn [nth].
  rewrite map_app, firstn_app, map_length, Nat.sub_diag. cbn [firstn]. rewrite app_nil_r.
  replace (firstn (length p) (vS p)) with (vS p).
  2: { rewrite <- (map_length Some p). now rewrite firstn_all. }
  now apply (X_div_s p w).
Qed.

(** ** swizzle *)
Lemma swizzle_inverse : forall T (o : ops T) (p : list T) axis, length p = 3%nat -> (axis <= 3)%nat ->
  (do q <- v_swizzle p axis; v_unswizzle q axis) = Ret p /\ (do q <- v_unswizzle p axis; v_swizzle q axis) = Ret p.
Proof.
  intros T o [|x [|y [|z [|]]]] axis L H; try discriminate.
  destruct axis as [|[|[|[|]]]]; try lia; split; reflexivity.
Qed.
Lemma swizzle_spec : forall T (o : ops T) (x y z : T),
  v_swizzle [x; y; z] 0 = Ret [y; z; x] /\ v_swizzle [x; y; z] 1 = Ret [z; x; y]
  /\ v_swizzle [x; y; z] 2 = Ret [x; y; z] /\ forall n, (3 < n)%nat -> v_swizzle [x; y; z] n = Assert.
Proof.
  intros. repeat split; auto. intros n H. unfold v_swizzle.
  replace (n <=? 3)%nat with false; auto. symmetry. apply Nat.leb_gt. lia.
Qed.

(** ** The theorems in their final form *)
Lemma nth_zip : forall f a b i, length a = length b -> (i < length a)%nat ->
  nth i (vS (zip f a b)) None = Some (f (nth i a 0) (nth i b 0)).
Proof.
  intros f a. induction a; intros b i H Hi; same_len; simpl in *; [ lia | ]. destruct i; auto. apply IHa; auto. lia.
Qed.
Lemma nth_map_S : forall (f : R -> R) a i, (i < length a)%nat -> nth i (vS (map f a)) None = Some (f (nth i a 0)).
Proof. intros f a. induction a; intros i Hi; simpl in *; [ lia | ]. destruct i; auto. apply IHa. lia. Qed.
Lemma componentwise : forall (a b : list R) (k : R), length a = length b ->
  (forall i, (i < length a)%nat ->
     nth i (v_add (vS a) (vS b)) None = Some (nth i a 0 + nth i b 0)
     /\ nth i (v_sub (vS a) (vS b)) None = Some (nth i a 0 - nth i b 0)
     /\ nth i (v_neg (vS a)) None = Some (- nth i a 0)
     /\ nth i (v_mul (vS a) (vS b)) None = Some (nth i a 0 * nth i b 0)
     /\ nth i (v_scale (vS a) (Some k)) None = Some (nth i a 0 * k)
     /\ nth i (v_scale_l (Some k) (vS a)) None = Some (k * nth i a 0)
     /\ (k <> 0 -> nth i (v_div_s (vS a) (Some k)) None = Some (nth i a 0 / k)))
  /\ length (v_add (vS a) (vS b)) = length a /\ length (v_sub (vS a) (vS b)) = length a
  /\ length (v_neg (vS a)) = length a /\ length (v_scale (vS a) (Some k)) = length a.
Proof.
  intros a b k L. split.
  - intros i Hi. rewrite X_add, X_sub, X_neg, X_mul, X_scale, X_scale_l.
    unfold radd, rsub, rneg, rscale. rewrite !nth_zip, !nth_map_S by auto.
    repeat split; auto. { f_equal. ring. }
    intros Hk. rewrite X_div_s by auto. unfold rscale. rewrite nth_map_S by auto. f_equal. field. auto.
  - rewrite X_add, X_sub, X_neg, X_scale. rewrite !map_length.
    rewrite radd_length, rsub_length, rneg_length, rscale_length by auto. auto.
Qed.
Lemma vector_space : forall (a b c : list R) (k l : R),
  length a = length b -> length b = length c ->
  let u := vS a in let v := vS b in let w := vS c in
  v_add u v = v_add v u /\ v_add u (v_add v w) = v_add (v_add u v) w
  /\ v_add u (v_zero (length a)) = u /\ v_add u (v_neg u) = v_zero (length a)
  /\ v_sub u v = v_add u (v_neg v)
  /\ v_scale (v_add u v) (Some k) = v_add (v_scale u (Some k)) (v_scale v (Some k))
  /\ v_scale u (Some (k + l)) = v_add (v_scale u (Some k)) (v_scale u (Some l))
  /\ v_scale (v_scale u (Some k)) (Some l) = v_scale u (Some (k * l)) /\ v_scale u (Some 1) = u.
Proof.
  intros a b c k l H1 H2 u v w. unfold u, v, w.
  assert (Z : v_zero (length a) = vS (rzero (length a))).
  { unfold v_zero, v_fill, rzero. clear. induction (length a) as [|m IH]; [ reflexivity | ]. cbn [repeat map]. now rewrite IH. }
  rewrite Z, !X_neg, !X_sub, !X_scale. repeat rewrite X_add. rewrite ?X_scale, ?X_add.
  repeat split; f_equal.
  - apply radd_comm.
  - apply radd_assoc.
  - apply radd_0_r.
  - apply radd_neg.
  - apply rsub_neg.
  - apply rscale_add.
  - apply rscale_add_l.
  - rewrite rscale_mul. f_equal. ring.
  - apply rscale_1.
Qed.
Lemma Forall_zero : forall a, Forall (fun x => x = 0) a <-> a = rzero (length a).
Proof.
  intros a. split.
  - intros H. induction H; simpl; auto. subst. unfold rzero in *. simpl. now f_equal.
  - intros E. rewrite E. unfold rzero. clear E. induction (length a); simpl; constructor; auto.
Qed.
Lemma dot_inner_product : forall (a b c : list R) (k : R), length a = length b -> length b = length c ->
  v_dot (vS a) (vS b) = Some (rdot a b)
  /\ rdot a b = rdot b a
  /\ rdot (radd a b) c = rdot a c + rdot b c /\ rdot (rscale k a) c = k * rdot a c
  /\ 0 <= rdot a a /\ (rdot a a = 0 <-> Forall (fun x => x = 0) a).
Proof.
  intros a b c k H1 H2. split; [ apply X_dot | ]. split; [ apply rdot_comm | ].
  split; [ apply rdot_add_l; congruence | ]. split; [ apply rdot_scale_l | ].
  split; [ apply rdot_nonneg | ]. rewrite Forall_zero. split; [ apply rdot_zero | ].
  intros ->. apply rdot_rzero.
Qed.
Lemma length_distance : forall (a b : list R),
  v_squared_length (vS a) = v_dot (vS a) (vS a)
  /\ (exists r, v_length (vS a) = Some r /\ 0 <= r /\ v_squared_length (vS a) = Some (r * r))
  /\ (exists r, v_distance (vS a) (vS b) = Some r /\ 0 <= r /\ v_squared_distance (vS a) (vS b) = Some (r * r)).
Proof.
  intros a b. split; [ reflexivity | ]. split.
  - exists (rnorm a). rewrite X_length, X_squared_length, rnorm_sq. auto using rnorm_nonneg.
  - exists (rdist a b). rewrite X_distance, X_squared_distance. unfold rdist. rewrite rnorm_sq. auto using rnorm_nonneg.
Qed.
Lemma distance_metric : forall (a b c : list R), length a = length b -> length b = length c ->
  exists ab bc ac : R,
    v_distance (vS a) (vS b) = Some ab /\ v_distance (vS b) (vS c) = Some bc /\ v_distance (vS a) (vS c) = Some ac
    /\ v_distance (vS b) (vS a) = Some ab /\ (ab = 0 <-> a = b) /\ ac <= ab + bc.
Proof.
  intros a b c H1 H2. exists (rdist a b), (rdist b c), (rdist a c). rewrite !X_distance.
  split; auto. split; auto. split; auto. split; [ now rewrite rdist_sym | ].
  split; [ now apply rdist_zero | now apply rdist_triangle ].
Qed.
Lemma cauchy_schwarz_model : forall (a b : list R), length a = length b ->
  exists d la lb : R, v_dot (vS a) (vS b) = Some d /\ v_length (vS a) = Some la /\ v_length (vS b) = Some lb
    /\ Rabs d <= la * lb.
Proof.
  intros a b H. exists (rdot a b), (rnorm a), (rnorm b). rewrite X_dot, !X_length. auto using abs_dot_le.
Qed.
Lemma cross_product : forall (a b c : list R) (k : R),
  length a = 3%nat -> length b = 3%nat -> length c = 3%nat ->
  let x := v_cross (vS a) (vS b) in
  v_dot x (vS a) = Some 0 /\ v_dot x (vS b) = Some 0
  /\ v_cross (vS b) (vS a) = v_neg x
  /\ v_cross (v_add (vS a) (vS b)) (vS c) = v_add (v_cross (vS a) (vS c)) (v_cross (vS b) (vS c))
  /\ v_cross (v_scale (vS a) (Some k)) (vS b) = v_scale x (Some k)
  /\ (exists n, v_squared_length x = Some n /\ n + rdot a b * rdot a b = rdot a a * rdot b b).
Proof.
  intros a b c k Ha Hb Hc x. unfold x.
  destruct (rcross_props a b Ha Hb) as (P1 & P2 & P3 & P4).
  destruct (rcross_linear a b c k Ha Hb Hc) as (L1 & _). destruct (rcross_linear a b b k Ha Hb Hb) as (_ & L2).
  rewrite !X_add, !X_scale, !X_cross3 by (rewrite ?radd_length by congruence; rewrite ?rscale_length; auto).
  rewrite !X_dot, X_neg, X_add, X_scale, X_squared_length, P1, P2, P3, L1, L2.
  repeat split; auto. eauto.
Qed.
Lemma cross_orientation :
  v_cross (vS [1; 0; 0]) (vS [0; 1; 0]) = vS [0; 0; 1] /\ v_cross (vS [0; 1; 0]) (vS [0; 0; 1]) = vS [1; 0; 0]
  /\ v_cross (vS [0; 0; 1]) (vS [1; 0; 0]) = vS [0; 1; 0].
Proof. rewrite !X_cross3 by reflexivity. repeat split; f_equal; simpl; ringlist. Qed.
Lemma normalize_unit : forall a : list R, ~ Forall (fun x => x = 0) a ->
  exists u, v_normalize (vS a) = vS u /\ v_length (vS u) = Some 1 /\ length u = length a
    /\ exists k, 0 < k /\ a = rscale k u.
Proof.
  intros a H. destruct (X_normalize_unit a) as (u & E & N & L & K).
  { intros E. apply H. now apply Forall_zero. }
  exists u. rewrite X_length, N. auto.
Qed.
Lemma colinear_exact : forall a b c : list R, length a = length b -> length a = length c ->
  (v_is_colinear (vS a) (vS b) (vS c) (Some 0) = true <-> collinear a b c).
Proof.
  intros a b c H1 H2. rewrite X_is_colinear by (auto; lra). rewrite Rle_true. symmetry. now apply collinear_gram_le.
Qed.
Lemma colinear_eps : forall (a b c : list R) e, length a = length b -> length a = length c -> 0 <= e ->
  (v_is_colinear (vS a) (vS b) (vS c) (Some e) = true <->
   rdot (rsub c a) (rsub c a) * rdot (rsub b a) (rsub b a)
   - rdot (rsub c a) (rsub b a) * rdot (rsub c a) (rsub b a) <= e).
Proof.
  intros a b c e H1 H2 He. rewrite X_is_colinear by auto. rewrite Rle_true.
  rewrite (rsub_anti a c). rewrite !rdot_neg_l. rewrite (rdot_comm _ (rneg _)), rdot_neg_l.
  replace (- - rdot (rsub c a) (rsub c a)) with (rdot (rsub c a) (rsub c a)) by ring.
  replace (- rdot (rsub c a) (rsub b a) * - rdot (rsub c a) (rsub b a))
    with (rdot (rsub c a) (rsub b a) * rdot (rsub c a) (rsub b a)) by ring. reflexivity.
Qed.
Lemma abs_abs_1 : forall x e, -1 <= x <= 1 -> (Rabs (Rabs x - 1) <= e <-> Rabs (x - 1) <= e \/ Rabs (x + 1) <= e).
Proof.
  intros x e H. destruct (Rle_or_lt 0 x).
  - rewrite (Rabs_pos_eq x) by auto. rewrite (Rabs_left1 (x - 1)), (Rabs_pos_eq (x + 1)) by lra.
    split; intros; lra.
  - rewrite (Rabs_left x) by auto. rewrite (Rabs_left1 (- x - 1)), (Rabs_pos_eq (x + 1)), (Rabs_left1 (x - 1)) by lra.
    split; intros; lra.
Qed.
Lemma cos_range : forall a b, length a = length b -> a <> rzero (length a) -> b <> rzero (length b) ->
  -1 <= rdot a b / (rnorm a * rnorm b) <= 1.
Proof.
  intros a b L Ha Hb. assert (Pa := rnorm_pos a Ha). assert (Pb := rnorm_pos b Hb).
  assert (C := abs_dot_le a b L). apply Rabs_le_inv in C.
  assert (P : 0 < rnorm a * rnorm b) by (apply Rmult_lt_0_compat; auto).
  split; apply Rmult_le_reg_r with (1 := P); unfold Rdiv; rewrite Rmult_assoc, Rinv_l by lra; lra.
Qed.
Lemma parallel_eps : forall (a b : list R) e, length a = length b ->
  ~ Forall (fun x => x = 0) a -> ~ Forall (fun x => x = 0) b ->
  (v_is_parallel (vS a) (vS b) (Some e) = true <->
   let cos := rdot a b / (rnorm a * rnorm b) in Rabs (cos - 1) <= e \/ Rabs (cos + 1) <= e).
Proof.
  intros a b e L Ha Hb. rewrite Forall_zero in Ha, Hb. rewrite X_is_parallel by auto. rewrite Rle_true.
  apply abs_abs_1. now apply cos_range.
Qed.
Lemma parallel_exact : forall (a b : list R), length a = length b ->
  ~ Forall (fun x => x = 0) a -> ~ Forall (fun x => x = 0) b ->
  (v_is_parallel (vS a) (vS b) (Some 0) = true <-> exists k, k <> 0 /\ a = rscale k b).
Proof.
  intros a b L Ha Hb. rewrite Forall_zero in Ha, Hb. rewrite X_is_parallel by auto. rewrite Rle_true.
  assert (Pa := rnorm_pos a Ha). assert (Pb := rnorm_pos b Hb). 
  assert (P : 0 < rnorm a * rnorm b) by (apply Rmult_lt_0_compat; auto).
  split.
  - intros H. assert (E : Rabs (rdot a b / (rnorm a * rnorm b)) = 1).
    { assert (G := Rabs_pos (Rabs (rdot a b / (rnorm a * rnorm b)) - 1)).
      assert (Z : Rabs (Rabs (rdot a b / (rnorm a * rnorm b)) - 1) = 0) by lra.
      destruct (Req_dec (Rabs (rdot a b / (rnorm a * rnorm b)) - 1) 0) as [|N]; [ lra | ].
      apply Rabs_no_R0 in N. contradiction. }
    assert (E2 : rdot a b / (rnorm a * rnorm b) * (rdot a b / (rnorm a * rnorm b)) = 1).
    { rewrite <- (Rabs_pos_eq (_ * _)). rewrite Rabs_mult, E. ring. apply Rle_0_sqr. }
    assert (E3 : rdot a b * rdot a b = rdot a a * rdot b b).
    { rewrite <- !rnorm_sq.
      replace (rdot a b) with (rdot a b / (rnorm a * rnorm b) * (rnorm a * rnorm b)) by (field; lra).
      replace (_ * _ * (_ * _)) with ((rdot a b / (rnorm a * rnorm b) * (rdot a b / (rnorm a * rnorm b))) * ((rnorm a * rnorm b) * (rnorm a * rnorm b))) by ring.
      rewrite E2. ring. }
    assert (Nb : rdot b b <> 0) by (rewrite <- rnorm_sq; nra).
    assert (K := cauchy_schwarz_eq a b L Nb E3). exists (rdot a b / rdot b b). split; auto.
    intros Z. rewrite Z, rscale_0 in K. apply Ha. rewrite K. f_equal. unfold rzero. now rewrite repeat_length.
  - intros (k & Nk & ->). rewrite rdot_scale_l, rnorm_scale, <- rnorm_sq.
    replace (k * (rnorm b * rnorm b) / (Rabs k * rnorm b * rnorm b)) with (k / Rabs k).
    2: { field. split; [ lra | now apply Rabs_no_R0 ]. }
    unfold Rdiv. rewrite Rabs_mult, Rabs_inv, Rabs_Rabsolu, Rinv_r, Rminus_eq_0, Rabs_R0; try lra; try now apply Rabs_no_R0.
Qed.
Lemma nth_rsum : forall n l i, Forall (fun v => length v = n) l -> (i < n)%nat ->
  nth i (rsum n l) 0 = fold_right Rplus 0 (map (fun v => nth i v 0) l).
Proof.
  intros n l i H Hi. induction H; cbn [rsum map fold_right].
  - unfold rzero. apply nth_repeat.
  - rewrite <- IHForall. unfold radd.
    assert (L : length x = length (rsum n l)) by (rewrite rsum_length; auto).
    assert (Hx : (i < length x)%nat) by congruence.
    generalize (nth_zip Rplus x (rsum n l) i L Hx). intros E.
    rewrite (nth_indep _ None (Some 0)) in E by (rewrite map_length, zip_length; auto).
    rewrite map_nth in E. now injection E.
Qed.
Lemma average_is_mean : forall n (l : list (list R)), l <> [] -> Forall (fun v => length v = n) l ->
  exists m, v_average (map (map Some) l) = Ret (vS m) /\ length m = n
    /\ forall i, (i < n)%nat ->
       nth i m 0 = fold_right Rplus 0 (map (fun v => nth i v 0) l) / INR (length l).
Proof.
  intros n l Hn H. exists (rscale (/ INR (length l)) (rsum n l)). split; [ now apply X_average | ].
  rewrite rscale_length, rsum_length by auto. split; auto. intros i Hi.
  rewrite <- (nth_rsum n) by auto. unfold rscale.
  rewrite (nth_indep _ 0 (/ INR (length l) * 0)) by (rewrite map_length, rsum_length; auto).
  rewrite (map_nth (fun x => / INR (length l) * x)). unfold Rdiv. apply Rmult_comm.
Qed.
Lemma average_perm : forall n (l l' : list (list R)), Permutation l l' ->
  Forall (fun v => length v = n) l -> v_average (map (map Some) l) = v_average (map (map Some) l').
Proof.
  intros n l l' P H. destruct l as [|v l].
  - apply Permutation_nil in P. now subst.
  - destruct l' as [|v' l']. { symmetry in P. apply Permutation_nil in P. discriminate. }
    rewrite !(X_average n); try congruence; auto.
    + rewrite (rsum_perm n _ _ P), (Permutation_length P). reflexivity.
    + rewrite Forall_forall in *. intros x Hx. apply H. apply (Permutation_in x (Permutation_sym P) Hx).
Qed.
Lemma measure_angle_case : measure_angle (vS [0; -1; 0]) (vS [1; 0; 0]) (vS [0; 0; 1]) = Some (3 * (PI / 2)).
Proof.
  unfold measure_angle. rewrite X_dot, X_cross3, X_dot by reflexivity. simpl rdot.
  replace (0 * 1 + (-1 * 0 + (0 * 0 + 0))) with 0 by ring.
  replace ((0 * 0 - 0 * -1) * 0 + ((0 * 0 - 1 * 0) * 0 + ((1 * -1 - 0 * 0) * 1 + 0))) with (-1) by ring.
  assert (Cl : sc_clamp (Some 0) (cst (-1)) (cst 1) = Some 0).
  { unfold sc_clamp. change (cst 1) with (Some 1). change (cst (-1)) with (Some (-1)).
    rewrite X_min2, X_max2. f_equal. rewrite Rmin_left by lra. apply Rmax_left. lra. }
  rewrite Cl. cbn [f_acos XRlibm Xunit]. rewrite Rlt_bool_false by (apply Rabs_le; lra).
  change (cst 0) with (Some 0). cbn [o_le XRops Xcmp]. rewrite Rle_bool_false by lra.
  rewrite acos_0. unfold two_pi. cbn -[PI IZR]. f_equal. lra.
Qed.
