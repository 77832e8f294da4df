(** Proofs about coordinate systems, projections and point sets (C66, C67). *)
From Coq Require Import ZArith Reals List Bool Lia Lra Psatz.
From Flocq Require Import Core.
From Verif Require Import Ops M_scalar M_vec M_mat M_quat M_bbox M_matext Inst_XR S_vec S_mat S_det S_rot S_quat S_affine S_bbox.
From Verif Require Import P_ord P_xr P_vec P_vec2 P_mat P_mat2 P_lup P_ldet P_det P_mat3 P_quat P_affine P_rotmat P_components P_nsatz P_cond P_matext.
Import ListNotations.
Local Open Scope R_scope.
Notation vS := (map (@Some R)).
Notation mS := (map (map (@Some R))).

(** ** coordinate_system_matrix *)
Definition axes4 (x y z p : list R) : list (list R) :=
  M4 (nth 0 x 0) (nth 0 y 0) (nth 0 z 0) (nth 0 p 0)
     (nth 1 x 0) (nth 1 y 0) (nth 1 z 0) (nth 1 p 0)
     (nth 2 x 0) (nth 2 y 0) (nth 2 z 0) (nth 2 p 0)
     0 0 0 1.
Lemma X_coordinate_system : forall x y z p, length x = 3%nat -> length y = 3%nat -> length z = 3%nat -> length p = 3%nat ->
  coordinate_system_matrix (vS x) (vS y) (vS z) (vS p)
  = require (fst (m_invert 4 (mS (axes4 x y z p)))) (Ret (snd (m_invert 4 (mS (axes4 x y z p))))).
Proof. intros x y z p Hx Hy Hz Hp. vec3 x. vec3 y. vec3 z. vec3 p. reflexivity. Qed.
Lemma axes4_mulv : forall x y z p a b c, length x = 3%nat -> length y = 3%nat -> length z = 3%nat -> length p = 3%nat ->
  rmulv 4 4 (axes4 x y z p) [a; b; c; 1] = radd p (radd (rscale a x) (radd (rscale b y) (rscale c z))) ++ [1].
Proof.
  intros x y z p a b c Hx Hy Hz Hp. vec3 x. vec3 y. vec3 z. vec3 p. unfold rmulv, axes4, M4, ent. cbn.
  listeq; try reflexivity; ring.
Qed.
Lemma coordinate_system_acts : forall x y z p m, length x = 3%nat -> length y = 3%nat -> length z = 3%nat -> length p = 3%nat ->
  coordinate_system_matrix (vS x) (vS y) (vS z) (vS p) = Ret m ->
  forall a b c, m_mul_p 4 m (vS (radd p (radd (rscale a x) (radd (rscale b y) (rscale c z))))) = vS [a; b; c].
Proof.
  intros x y z p m Hx Hy Hz Hp E a b c. rewrite X_coordinate_system in E by auto.
  destruct (m_invert 4 (mS (axes4 x y z p))) as [[|] res] eqn:I; cbn [fst snd require] in E; [|discriminate].
  injection E as ->. destruct (invert_correct _ _ _ (M4_shape _ _ _ _ _ _ _ _ _ _ _ _ _ _ _ _) I) as (B & -> & HB & _ & HI).
  pose proof (axes4_mulv x y z p a b c Hx Hy Hz Hp) as V.
  set (q := radd p _) in *. assert (Hq : length q = 3%nat).
  { unfold q. vec3 x. vec3 y. vec3 z. vec3 p. reflexivity. }
  assert (W : rmulv 4 4 B (q ++ [1]) = [a; b; c; 1]).
  { rewrite <- V, <- rmulv_mul. fold (axes4 x y z p) in HI. rewrite HI. now apply rmulv_id. }
  clear V. vec3 q. cbn [app] in W. rewrite X_m_mul_p3; rewrite W; reflexivity.
Qed.
Lemma axes4_inverse : forall x y z p d, length x = 3%nat -> length y = 3%nat -> length z = 3%nat -> length p = 3%nat ->
  d = rdot (rcross x y) z -> d <> 0 ->
  let cx := rcross y z in let cy := rcross z x in let cz := rcross x y in
  inverse 4 (axes4 x y z p)
    (M4 (nth 0 cx 0 / d) (nth 1 cx 0 / d) (nth 2 cx 0 / d) (- rdot cx p / d)
        (nth 0 cy 0 / d) (nth 1 cy 0 / d) (nth 2 cy 0 / d) (- rdot cy p / d)
        (nth 0 cz 0 / d) (nth 1 cz 0 / d) (nth 2 cz 0 / d) (- rdot cz p / d)
        0 0 0 1).
Proof.
  intros x y z p d Hx Hy Hz Hp E N cx cy cz. unfold inverse, axes4. rewrite !M4_mul, M4_id.
  unfold cx, cy, cz. vec3 x. vec3 y. vec3 z. vec3 p. cbn [rcross rdot nth] in *.
  split; apply M4_eq; try reflexivity; field_simplify_eq; try exact N; rewrite ?E; ring.
Qed.
(** Success whenever the inverse is not huge; failure whenever the axes are dependent. *)
Lemma coordinate_system_total : forall x y z p, length x = 3%nat -> length y = 3%nat -> length z = 3%nat -> length p = 3%nat ->
  (dependent x y z -> coordinate_system_matrix (vS x) (vS y) (vS z) (vS p) = Assert) /\
  (let d := rdot (rcross x y) z in let L := 10 ^ 13 * Rabs d in
   d <> 0 ->
   Forall (fun k => Rabs k <= L) (rcross y z ++ rcross z x ++ rcross x y ++ [rdot (rcross y z) p; rdot (rcross z x) p; rdot (rcross x y) p]) ->
   exists M, affine 3 M /\ coordinate_system_matrix (vS x) (vS y) (vS z) (vS p) = Ret (mS M)).
Proof.
  intros x y z p Hx Hy Hz Hp. rewrite X_coordinate_system by auto. split.
  - intros D. rewrite invert_singular; [reflexivity|apply M4_shape|].
    apply (ldet_singular (M4_shape _ _ _ _ _ _ _ _ _ _ _ _ _ _ _ _)).
    unfold dependent in D. vec3 x. vec3 y. vec3 z. vec3 p. cbn [rcross rdot] in D. refine (eq_trans _ D).
    unfold axes4, M4, ent, sgn, skip. cbn. ring.
  - intros d L N F. set (C := M4 (nth 0 (rcross y z) 0 / d) (nth 1 (rcross y z) 0 / d) (nth 2 (rcross y z) 0 / d) (- rdot (rcross y z) p / d)
        (nth 0 (rcross z x) 0 / d) (nth 1 (rcross z x) 0 / d) (nth 2 (rcross z x) 0 / d) (- rdot (rcross z x) p / d)
        (nth 0 (rcross x y) 0 / d) (nth 1 (rcross x y) 0 / d) (nth 2 (rcross x y) 0 / d) (- rdot (rcross x y) p / d)
        0 0 0 1).
    exists C. split; [apply M4_affine|].
    rewrite (invert_complete 4 _ C (10 ^ 13)); [reflexivity|apply M4_shape|apply M4_shape|now apply axes4_inverse| | |].
    + apply pow_le. lra.
    + assert (Pd : 0 < Rabs d) by now apply Rabs_pos_lt.
      assert (Q : forall k, Rabs k <= L -> Rabs (k / d) <= 10 ^ 13).
      { intros k Hk. unfold Rdiv. rewrite Rabs_mult, Rabs_inv. apply Rmult_le_reg_r with (Rabs d); auto.
        rewrite Rmult_assoc, Rinv_l, Rmult_1_r by lra. exact Hk. }
      assert (Z0 : Rabs 0 <= 10 ^ 13) by (rewrite Rabs_R0; apply pow_le; lra).
      assert (Z1 : Rabs 1 <= 10 ^ 13). { rewrite Rabs_R1. apply pow_R1_Rle. lra. }
      revert F. vec3 x. vec3 y. vec3 z. cbn [rcross app]. intros F.
      repeat match goal with H : Forall _ (_ :: _) |- _ => inversion_clear H end.
      assert (Q' : forall k, Rabs k <= L -> Rabs (- k / d) <= 10 ^ 13) by (intros k Hk; apply Q; now rewrite Rabs_Ropp).
      intros r c Hr Hc. destruct r as [|[|[|[|]]]]; try lia; destruct c as [|[|[|[|]]]]; try lia; unfold C, M4, ent; cbn [nth rcross];
        first [assumption | apply Q; assumption | apply Q'; assumption].
    + simpl INR. simpl pow. lra.
Qed.

(** ** plane_projection_matrix *)
Lemma abs_max3 : forall n0 n1 n2, n0 * n0 + n1 * n1 + n2 * n2 = 1 ->
  exists i, find_abs_max_component (vS [n0; n1; n2]) 0 = Ret i /\
    (i = 0%nat -> n0 <> 0) /\ (i <> 0%nat -> n1 <> 0 \/ n2 <> 0).
Proof.
  intros n0 n1 n2 H. destruct (find_abs_max_component_spec (vS [n0; n1; n2]) 0) as (i & E & Li & F & _); [simpl; lia|].
  exists i. split; auto.
  assert (G : forall y, In y [n0; n1; n2] -> Rabs y <= Rabs (nth i [n0; n1; n2] 0)).
  { intros y Hy. rewrite X_get in F. rewrite X_abs in F.
    destruct (Rle_dec (Rabs y) (Rabs (nth i [n0; n1; n2] 0))) as [|N]; auto. exfalso.
    assert (I : In (Some y) (filter (fun y0 => o_lt (Some (Rabs (nth i [n0; n1; n2] 0))) (sc_abs y0)) (vS [n0; n1; n2]))).
    { apply filter_In. split; [now apply in_map|]. rewrite X_abs. cbn [o_lt XRops Xcmp]. apply Rlt_bool_true. lra. }
    destruct (filter _ _); [inversion I|simpl in F; lia]. }
  assert (G0 := G n0 (or_introl eq_refl)). assert (G1 := G n1 (or_intror (or_introl eq_refl))).
  assert (G2 := G n2 (or_intror (or_intror (or_introl eq_refl)))).
  assert (Z : forall a, Rabs a <= Rabs 0 -> a = 0).
  { intros a Ha. rewrite Rabs_R0 in Ha. destruct (Req_dec a 0) as [|N]; auto. apply Rabs_pos_lt in N. lra. }
  simpl in Li. split.
  - intros ->. cbn [nth] in *. intros ->. apply Z in G1, G2. subst. lra.
  - intros N. destruct i as [|[|[|]]]; try lia; cbn [nth] in *.
    + left. intros ->. apply Z in G0, G2. subst. lra.
    + right. intros ->. apply Z in G0, G1. subst. lra.
Qed.
Lemma normalize_nonzero : forall a, length a = 3%nat -> rdot a a <> 0 ->
  v_normalize (vS a) = vS (rscale (/ rnorm a) a) /\ rdot (rscale (/ rnorm a) a) (rscale (/ rnorm a) a) = 1.
Proof.
  intros a L N. assert (rnorm a <> 0). { intros Z. apply N. rewrite <- rnorm_sq. rewrite Z. ring. }
  split; [now apply X_normalize_vec|]. rewrite rdot_scale_l, rdot_scale_r, <- rnorm_sq. field. auto.
Qed.
(** The axes chosen in the plane are orthonormal. *)
Lemma plane_axes : forall n, length n = 3%nat -> rdot n n = 1 ->
  exists i x, find_abs_max_component (vS n) 0 = Ret i /\
    v_normalize (v_cross (vS n) (if Nat.eqb i 0 then pos_z3 else pos_x3)) = vS x /\ length x = 3%nat /\
    rdot x x = 1 /\ rdot n x = 0 /\ v_normalize (v_cross (vS n) (vS x)) = vS (rcross n x) /\ rdot (rcross n x) (rcross n x) = 1.
Proof.
  intros n Ln Un. vec3 n. destruct (abs_max3 n0 n1 n2) as (i & E & H0 & H1); [simpl in Un; lra|].
  exists i. set (e := if Nat.eqb i 0 then [0; 0; 1] else [1; 0; 0]).
  assert (Le : length e = 3%nat) by (unfold e; destruct (Nat.eqb i 0); reflexivity).
  replace (if Nat.eqb i 0 then pos_z3 else pos_x3) with (vS e)
    by (destruct X_pos as (-> & _ & ->); unfold e; destruct (Nat.eqb i 0); reflexivity).
  rewrite X_cross3 by auto.
  assert (N : rdot (rcross [n0; n1; n2] e) (rcross [n0; n1; n2] e) <> 0).
  { unfold e. destruct (Nat.eqb_spec i 0) as [Z|Z]; cbn [rcross rdot].
    - specialize (H0 Z). nra.
    - destruct (H1 Z); nra. }
  assert (Lc : length (rcross [n0; n1; n2] e) = 3%nat) by (apply rcross_length; auto).
  destruct (normalize_nonzero _ Lc N) as (Nx & Ux).
  assert (Px : rdot [n0; n1; n2] (rscale (/ rnorm (rcross [n0; n1; n2] e)) (rcross [n0; n1; n2] e)) = 0).
  { rewrite rdot_scale_r. replace (rdot [n0; n1; n2] (rcross [n0; n1; n2] e)) with 0; [ring|].
    vec3 e. cbn [rcross rdot]. ring. }
  set (x := rscale _ _) in *. assert (Lx : length x = 3%nat) by (unfold x; now rewrite rscale_length).
  exists x. do 5 (split; auto).
  assert (Uy : rdot (rcross [n0; n1; n2] x) (rcross [n0; n1; n2] x) = 1).
  { clearbody x. vec3 x. cbn [rcross rdot] in *. pose proof (cross_unit n0 n1 n2 x0 x1 x2) as C. cbn zeta in C.
    rewrite <- C; lra. }
  split; auto. rewrite X_cross3 by auto.
  assert (Ly : length (rcross [n0; n1; n2] x) = 3%nat) by (apply rcross_length; auto).
  destruct (normalize_nonzero _ Ly) as (-> & _); [lra|]. f_equal.
  apply rdot_rnorm1 in Uy. rewrite Uy, Rinv_1. apply rscale_1.
Qed.
Lemma frame3 : forall n x q, length n = 3%nat -> length x = 3%nat -> length q = 3%nat ->
  rdot n n = 1 -> rdot x x = 1 -> rdot n x = 0 ->
  q = radd (rscale (rdot q n) n) (radd (rscale (rdot q x) x) (rscale (rdot q (rcross n x)) (rcross n x))).
Proof.
  intros n x q Ln Lx Lq Un Ux P. vec3 n. vec3 x. vec3 q. cbn [rcross rdot] in *.
  destruct (frame_complete n0 n1 n2 x0 x1 x2 q0 q1 q2) as (E0 & E1 & E2); try lra.
  unfold radd, rscale. cbn [map zip]. listeq; try reflexivity; lra.
Qed.
Lemma plane_projection_ok : forall d n dir m, length n = 3%nat -> length dir = 3%nat -> rdot n n = 1 ->
  plane_projection_matrix (Some d) (vS n) (vS dir) = Ret m ->
  exists x y, length x = 3%nat /\ length y = 3%nat /\ rdot x x = 1 /\ rdot y y = 1 /\ rdot n x = 0 /\ rdot n y = 0 /\ rdot x y = 0 /\
    forall q t, length q = 3%nat -> rdot n q = d ->
      m_mul_p 4 m (vS (radd q (rscale t dir))) = vS [rdot q x; rdot q y; t].
Proof.
  intros d n dir m Ln Ld Un E. destruct (plane_axes n Ln Un) as (i & x & Ei & Ex & Lx & Ux & Px & Ey & Uy).
  unfold plane_projection_matrix in E. rewrite Ei in E. cbn [bind] in E. rewrite Ex, Ey in E.
  unfold require in E.
  destruct (v_is_unit (vS x) almost_zero); [|discriminate]. destruct (v_is_unit (vS (rcross n x)) almost_zero); [|discriminate].
  destruct (v_is_unit (vS dir) almost_zero); [|discriminate]. rewrite X_scale_l in E.
  assert (Ly : length (rcross n x) = 3%nat) by now apply rcross_length.
  exists x, (rcross n x). split; [exact Lx|]. split; [exact Ly|]. split; [exact Ux|]. split; [exact Uy|]. split; [exact Px|].
  split; [vec3 n; vec3 x; cbn [rcross rdot]; ring|]. split; [vec3 n; vec3 x; cbn [rcross rdot]; ring|].
  intros q t Lq Hq.
  rewrite <- (coordinate_system_acts _ _ _ _ _ Lx Ly Ld (eq_trans (rscale_length d n) Ln) E (rdot q x) (rdot q (rcross n x)) t).
  f_equal. f_equal. rewrite (frame3 n x q) at 1 by auto. rewrite (rdot_comm q n), Hq.
  generalize (rdot q x) (rdot q (rcross n x)). intros u v. clear - Ln Lx Ly Ld. generalize dependent (rcross n x). intros y Ly.
  vec3 n. vec3 x. vec3 y. vec3 dir. unfold radd, rscale. cbn [map zip]. listeq; try reflexivity; ring.
Qed.
Lemma cs_unit : forall a b, length a = length b -> rdot a a = 1 -> rdot b b <= 1 -> Rabs (rdot a b) <= 1.
Proof.
  intros a b L Ua Ub. pose proof (cauchy_schwarz a b L) as C. apply Rabs_le.
  pose proof (rdot_nonneg b). rewrite Ua in C. split; nra.
Qed.
Lemma cross_norm_le : forall a b, length a = 3%nat -> length b = 3%nat -> rdot a a = 1 -> rdot b b = 1 -> rdot (rcross a b) (rcross a b) <= 1.
Proof.
  intros a b La Lb Ua Ub. assert (E : rdot (rcross a b) (rcross a b) = rdot a a * rdot b b - rdot a b * rdot a b).
  { vec3 a. vec3 b. cbn [rcross rdot]. ring. }
  rewrite E, Ua, Ub. nra.
Qed.
Lemma triple_bound : forall a b c, length a = 3%nat -> length b = 3%nat -> length c = 3%nat -> rdot a a = 1 -> rdot b b = 1 -> rdot c c = 1 ->
  Rabs (rdot (rcross a b) c) <= 1.
Proof. intros. rewrite rdot_comm. apply cs_unit; auto using cross_norm_le. rewrite rcross_length; auto. Qed.
Lemma cross_bound : forall a b, length a = 3%nat -> length b = 3%nat -> rdot a a = 1 -> rdot b b = 1 -> Forall (fun k => Rabs k <= 1) (rcross a b).
Proof.
  intros a b La Lb Ua Ub. pose proof (cross_norm_le a b La Lb Ua Ub) as N.
  assert (Lc : length (rcross a b) = 3%nat) by now apply rcross_length. set (c := rcross a b) in *. clearbody c. vec3 c.
  cbn [rdot] in N. repeat apply Forall_cons; try apply Forall_nil; apply Rabs_le; split; nra.
Qed.
(** It succeeds unless the direction is nearly parallel to the plane. *)
Lemma plane_projection_total : forall d n dir, length n = 3%nat -> length dir = 3%nat -> rdot n n = 1 -> rdot dir dir = 1 ->
  (rdot n dir = 0 -> plane_projection_matrix (Some d) (vS n) (vS dir) = Assert) /\
  (1 <= 10 ^ 13 * Rabs (rdot n dir) -> Rabs d <= 10 ^ 13 * Rabs (rdot n dir) ->
   exists M, affine 3 M /\ plane_projection_matrix (Some d) (vS n) (vS dir) = Ret (mS M)).
Proof.
  intros d n dir Ln Ld Un Ud. destruct (plane_axes n Ln Un) as (i & x & Ei & Ex & Lx & Ux & Px & Ey & Uy).
  unfold plane_projection_matrix. rewrite Ei. cbn [bind]. rewrite Ex, Ey. unfold require.
  rewrite !X_is_unit by auto. rewrite X_scale_l.
  assert (Ly : length (rcross n x) = 3%nat) by now apply rcross_length.
  assert (Lp : length (rscale d n) = 3%nat) by now rewrite rscale_length.
  assert (X : rcross x (rcross n x) = n).
  { clear - Ln Lx Ux Px. vec3 n. vec3 x. cbn [rcross rdot] in *.
    assert (A : x0 * x0 + x1 * x1 + x2 * x2 = 1) by lra. assert (B : n0 * x0 + n1 * x1 + n2 * x2 = 0) by lra.
    listeq; try reflexivity.
    - transitivity (n0 * (x0 * x0 + x1 * x1 + x2 * x2) - x0 * (n0 * x0 + n1 * x1 + n2 * x2)); [ring|rewrite A, B; ring].
    - transitivity (n1 * (x0 * x0 + x1 * x1 + x2 * x2) - x1 * (n0 * x0 + n1 * x1 + n2 * x2)); [ring|rewrite A, B; ring].
    - transitivity (n2 * (x0 * x0 + x1 * x1 + x2 * x2) - x2 * (n0 * x0 + n1 * x1 + n2 * x2)); [ring|rewrite A, B; ring]. }
  destruct (coordinate_system_total x (rcross n x) dir (rscale d n) Lx Ly Ld Lp) as (F & G). rewrite X in G. cbn zeta in G.
  split; [intros Z; apply F; unfold dependent; now rewrite X|].
  intros B1 B2. apply G.
  - intros Z. rewrite Z, Rabs_R0 in B1. lra.
  - assert (Cb : forall a b, length a = 3%nat -> length b = 3%nat -> rdot a a = 1 -> rdot b b = 1 -> Forall (fun k => Rabs k <= 1) (rcross a b)).
    { clear. intros a b La Lb Ua Ub. apply cross_bound; auto. }
    assert (U1 : forall k, Rabs k <= 1 -> Rabs k <= 10 ^ 13 * Rabs (rdot n dir)) by (intros; lra).
    apply Forall_app. split; [eapply Forall_impl; [|apply Cb]; auto|].
    apply Forall_app. split; [eapply Forall_impl; [|apply Cb]; auto|].
    apply Forall_app. split.
    { pose proof (Cb x (rcross n x) Lx Ly Ux Uy) as Bn. rewrite X in Bn. eapply Forall_impl; [|exact Bn]; auto. }
    assert (T1 : Rabs (rdot (rcross (rcross n x) dir) n) <= 1).
    { apply triple_bound; auto. }
    assert (T2 : Rabs (rdot (rcross dir x) n) <= 1) by (apply triple_bound; auto).
    assert (K : forall k, Rabs k <= 1 -> Rabs (d * k) <= 10 ^ 13 * Rabs (rdot n dir)).
    { intros k Hk. rewrite Rabs_mult. pose proof (Rabs_pos d). pose proof (Rabs_pos k). nra. }
    repeat apply Forall_cons; try apply Forall_nil; rewrite rdot_scale_r; apply K; auto. rewrite Un, Rabs_R1. lra.
Qed.

(** ** Projections *)
Lemma act4p : forall a b c d e f g h i j k l m n p q x y z, m * x + n * y + p * z + q <> 0 ->
  m_mul_p 4 (mS (M4 a b c d e f g h i j k l m n p q)) (vS [x; y; z])
  = vS [(a * x + b * y + c * z + d) / (m * x + n * y + p * z + q); (e * x + f * y + g * z + h) / (m * x + n * y + p * z + q);
        (i * x + j * y + k * z + l) / (m * x + n * y + p * z + q)].
Proof.
  intros. unfold m_mul_p. change (v_to_homogeneous (vS [x; y; z])) with (vS [x; y; z; 1]). rewrite X_m_mul_v.
  assert (E : rmulv 4 4 (M4 a b c d e f g h i j k l m n p q) [x; y; z; 1]
     = [a * x + b * y + c * z + d; e * x + f * y + g * z + h; i * x + j * y + k * z + l] ++ [m * x + n * y + p * z + q]).
  { unfold rmulv, M4, ent. cbn. listeq; try reflexivity; ring. }
  rewrite E, X_cartesian by auto. apply (f_equal vS). unfold rscale, Rdiv. cbn [map]. listeq; try reflexivity; ring.
Qed.
Lemma X_ortho : forall n f l t r b, l <> r -> b <> t -> n <> f ->
  ortho_matrix (Some n) (Some f) (Some l) (Some t) (Some r) (Some b)
  = mS (M4 (2 / (r - l)) 0 0 (- (l + r) / (r - l)) 0 (2 / (t - b)) 0 (- (t + b) / (t - b))
           0 0 (- 2 / (f - n)) (- (f + n) / (f - n)) 0 0 0 1).
Proof.
  intros. unfold ortho_matrix. cbn [o_add o_sub o_mul o_neg o_of_Z XRops X1 X2 cst].
  rewrite !X_div by lra. apply rows4.
Qed.
Lemma scaled_interval : forall a b x, a < b -> (a <= x <= b <-> -1 <= -1 + 2 * ((x - a) / (b - a)) <= 1).
Proof.
  intros a b x H. assert (E : x - a = (b - a) * ((x - a) / (b - a))) by (field; lra).
  set (t := (x - a) / (b - a)) in *. split; intros; nra.
Qed.
Lemma ortho_ok : forall n f l t r b x y z, l < r -> b < t -> n < f ->
  exists x' y' z', m_mul_p 4 (ortho_matrix (Some n) (Some f) (Some l) (Some t) (Some r) (Some b)) (vS [x; y; z]) = vS [x'; y'; z']
    /\ x' = -1 + 2 * ((x - l) / (r - l)) /\ y' = -1 + 2 * ((y - b) / (t - b)) /\ z' = -1 + 2 * ((- z - n) / (f - n))
    /\ (l <= x <= r <-> -1 <= x' <= 1) /\ (b <= y <= t <-> -1 <= y' <= 1) /\ (n <= - z <= f <-> -1 <= z' <= 1).
Proof.
  intros n f l t r b x y z H1 H2 H3. rewrite X_ortho, act4 by lra.
  do 3 eexists. split; [reflexivity|].
  rewrite (scaled_interval l r x H1), (scaled_interval b t y H2), (scaled_interval n f (- z) H3).
  assert (E1 : 2 / (r - l) * x + 0 * y + 0 * z + - (l + r) / (r - l) = -1 + 2 * ((x - l) / (r - l))) by (field; lra).
  assert (E2 : 0 * x + 2 / (t - b) * y + 0 * z + - (t + b) / (t - b) = -1 + 2 * ((y - b) / (t - b))) by (field; lra).
  assert (E3 : 0 * x + 0 * y + - 2 / (f - n) * z + - (f + n) / (f - n) = -1 + 2 * ((- z - n) / (f - n))) by (field; lra).
  rewrite E1, E2, E3. repeat split; intuition.
Qed.
Lemma same_sign : forall k q f a, 0 < k -> 0 < f -> f * a = k * q -> (0 <= a <-> 0 <= q) /\ (a = 0 <-> q = 0).
Proof. intros k q f a K F E. split; split; intros; nra. Qed.
Lemma perspective_ok : forall fov n f w h x y z, 0 < fov < 180 -> 0 < n < f -> (0 < w)%Z -> (0 < h)%Z -> z < 0 ->
  let vert := tan (fov * PI / 180 / 2) * (3 / 4) in let horiz := vert * (IZR w / IZR h) in
  exists x' y' z', m_mul_p 4 (perspective_matrix (Some fov) (Some n) (Some f) w h) (vS [x; y; z]) = vS [x'; y'; z']
    /\ (Rabs x <= horiz * - z <-> -1 <= x' <= 1) /\ (Rabs y <= vert * - z <-> -1 <= y' <= 1) /\ (n <= - z <= f <-> -1 <= z' <= 1)
    /\ (0 < x <-> 0 < x') /\ (0 < y <-> 0 < y') /\ (z = - n <-> z' = -1) /\ (z = - f <-> z' = 1).
Proof.
  intros fov n f w h x y z Hv Hn Hw Hh Hz vert horiz.
  apply IZR_lt in Hw, Hh.
  assert (Ht : 0 < tan (fov * PI / 180 / 2)).
  { apply tan_gt_0; pose proof PI_RGT_0; nra. }
  assert (Pv : 0 < vert) by (unfold vert; lra).
  assert (Pq : 0 < IZR w / IZR h) by (apply Rdiv_lt_0_compat; auto).
  assert (Ph : 0 < horiz) by (unfold horiz; nra).
  assert (Hc : cos (fov * PI / 180 / 2) <> 0).
  { apply Rgt_not_eq. apply cos_gt_0; pose proof PI_RGT_0; nra. }
  assert (Mx : perspective_matrix (Some fov) (Some n) (Some f) w h
    = mS (M4 (n / (vert * n * IZR w / IZR h)) 0 0 0 0 (n / (vert * n)) 0 0 0 0 (- (f + n) / (f - n)) (- 2 * f * n / (f - n)) 0 0 (-1) 0)).
  { unfold perspective_matrix, to_radians. cbn [k_pi XRlibm o_mul XRops X2 o_of_Z cst].
    rewrite !X_div by lra. cbn [f_tan XRlibm o_mul XRops X2]. rewrite Req_bool_false by auto. rewrite X_lit by discriminate.
    cbn [o_mul o_add o_sub o_neg XRops X1 X2]. fold vert.
    rewrite !X_div; try lra; try (apply Rgt_not_eq; nra).
    - apply rows4.
    - apply Rgt_not_eq. apply Rdiv_lt_0_compat; auto; apply Rmult_lt_0_compat; auto; apply Rmult_lt_0_compat; auto; apply Hn. }
  rewrite Mx. clear Mx.
  do 3 eexists. split.
  - rewrite act4p by lra. reflexivity.
  - assert (Ex : (n / (vert * n * IZR w / IZR h) * x + 0 * y + 0 * z + 0) / (0 * x + 0 * y + -1 * z + 0) = x / (horiz * - z)).
    { unfold horiz. field. repeat split; try lra. }
    assert (Ey : (0 * x + n / (vert * n) * y + 0 * z + 0) / (0 * x + 0 * y + -1 * z + 0) = y / (vert * - z)).
    { field. repeat split; try lra. }
    assert (Ez : (0 * x + 0 * y + - (f + n) / (f - n) * z + - 2 * f * n / (f - n)) / (0 * x + 0 * y + -1 * z + 0)
      = -1 + 2 * (f * (- z - n) / ((f - n) * - z))).
    { field. repeat split; try lra. }
    rewrite Ex, Ey, Ez.
    assert (S : forall k a, 0 < k -> (Rabs a <= k <-> -1 <= a / k <= 1) /\ (0 < a <-> 0 < a / k)).
    { intros k a Hk. assert (E : a = k * (a / k)) by (field; lra). set (q := a / k) in *.
      split; [|split; intros; nra]. split; intros Q.
      - apply Rabs_le_inv in Q. split; nra.
      - apply Rabs_le. split; nra. }
    destruct (S (horiz * - z) x) as [S1 S2]; [apply Rmult_lt_0_compat; lra|]. destruct (S (vert * - z) y) as [S3 S4]; [apply Rmult_lt_0_compat; lra|].
    assert (E : f * (- z - n) = ((f - n) * - z) * (f * (- z - n) / ((f - n) * - z))) by (field; split; lra).
    set (q := f * (- z - n) / ((f - n) * - z)) in *. assert (Pk : 0 < (f - n) * - z) by (apply Rmult_lt_0_compat; lra).
    assert (E1 : n * (f + z) = (f - n) * - z * (1 - q)) by lra.
    destruct (same_sign ((f - n) * - z) q f (- z - n) Pk ltac:(lra) E) as [G1 G2]. destruct (same_sign ((f - n) * - z) (1 - q) n (f + z) Pk ltac:(lra) E1) as [G3 G4].
    split; auto. split; auto. split; [split; intros Q; split; [apply Rplus_le_reg_l with 1; assert (0 <= q) by (apply G1; lra); lra|assert (0 <= 1 - q) by (apply G3; lra); lra|assert (0 <= - z - n) by (apply G1; lra); lra|assert (0 <= f + z) by (apply G3; lra); lra]|]. split; auto. split; auto.
    split; split; intros Q; [assert (q = 0) by (apply G2; lra); lra|assert (- z - n = 0) by (apply G2; lra); lra|assert (1 - q = 0) by (apply G4; lra); lra|assert (f + z = 0) by (apply G4; lra); lra].
Qed.

(** ** view_matrix *)
Lemma view_ok : forall d u, length d = 3%nat -> length u = 3%nat -> rdot d d = 1 -> rdot u u = 1 -> rdot d u = 0 ->
  exists M, view_matrix (vS d) (vS u) = mS M /\ affine 3 M /\ orthogonal 4 M /\ m_det 4 (mS M) = Some 1
    /\ m_mul_p 4 (mS M) (vS d) = vS [0; 0; -1] /\ m_mul_p 4 (mS M) (vS u) = vS [0; 1; 0]
    /\ m_mul_p 4 (mS M) (vS (rcross d u)) = vS [1; 0; 0].
Proof.
  intros d u Ld Lu Ud Uu P. vec3 d. vec3 u. cbn [rdot] in *.
  set (s0 := d1 * u2 - d2 * u1). set (s1 := d2 * u0 - d0 * u2). set (s2 := d0 * u1 - d1 * u0).
  assert (A : d0 * d0 + d1 * d1 + d2 * d2 = 1) by lra. assert (B : u0 * u0 + u1 * u1 + u2 * u2 = 1) by lra.
  assert (C : d0 * u0 + d1 * u1 + d2 * u2 = 0) by lra.
  assert (Us : s0 * s0 + s1 * s1 + s2 * s2 = 1) by (unfold s0, s1, s2; now apply cross_unit).
  (* the second row is the up vector *)
  assert (W0 : s1 * d2 - s2 * d1 = u0).
  { transitivity (u0 * (d0 * d0 + d1 * d1 + d2 * d2) - d0 * (d0 * u0 + d1 * u1 + d2 * u2)); [unfold s1, s2; ring|rewrite A, C; ring]. }
  assert (W1 : s2 * d0 - s0 * d2 = u1).
  { transitivity (u1 * (d0 * d0 + d1 * d1 + d2 * d2) - d1 * (d0 * u0 + d1 * u1 + d2 * u2)); [unfold s0, s2; ring|rewrite A, C; ring]. }
  assert (W2 : s0 * d1 - s1 * d0 = u2).
  { transitivity (u2 * (d0 * d0 + d1 * d1 + d2 * d2) - d2 * (d0 * u0 + d1 * u1 + d2 * u2)); [unfold s0, s1; ring|rewrite A, C; ring]. }
  exists (M4 s0 s1 s2 0 u0 u1 u2 0 (- d0) (- d1) (- d2) 0 0 0 0 1).
  split.
  { transitivity (mS (M4 s0 s1 s2 0 (s1 * d2 - s2 * d1) (s2 * d0 - s0 * d2) (s0 * d1 - s1 * d0) 0 (- d0) (- d1) (- d2) 0 0 0 0 1));
      [reflexivity|now rewrite W0, W1, W2]. }
  split; [apply M4_affine|].
  assert (Od : s0 * d0 + s1 * d1 + s2 * d2 = 0) by (unfold s0, s1, s2; ring).
  assert (Ou : s0 * u0 + s1 * u1 + s2 * u2 = 0) by (unfold s0, s1, s2; ring).
  destruct (frame_cols d0 d1 d2 u0 u1 u2 A B C) as (F1 & F2 & F3 & F4 & F5 & F6). fold s0 s1 s2 in F1, F2, F3, F4, F5, F6.
  split.
  { unfold orthogonal. rewrite M4_trans, M4_id, !M4_mul. split; apply M4_eq; lra. }
  split.
  { rewrite X_det by apply M4_shape. f_equal.
    transitivity (s0 * (d1 * u2 - d2 * u1) + s1 * (d2 * u0 - d0 * u2) + s2 * (d0 * u1 - d1 * u0)); [|unfold s0, s1, s2 in Us; unfold s0, s1, s2; lra].
    unfold M4, ent, sgn, skip. cbn. ring. }
  rewrite !act4. fold s0 s1 s2. cbn [rcross]. fold s0 s1 s2. rewrite act4.
  repeat split; apply (f_equal vS); listeq; try reflexivity; lra.
Qed.
