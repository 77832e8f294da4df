(** Rounding errors of matrix products, cross products, distances and points on lines. *)
From Coq Require Import ZArith Reals List Lia Lra Bool.
From Flocq Require Import Core BinarySingleNaN.
From Verif Require Import Ops M_scalar M_vec M_mat M_bbox M_matext M_geom Inst_F S_order S_vec S_mat S_rnd P_ord P_ieee P_vec P_vec2 P_mat P_fp P_fp2 P_fp3 P_fp4 P_fp6.
Import ListNotations.
Local Open Scope R_scope.

Section FP.
Variables prec emax : Z.
Context {Hprec : Prec_gt_0 prec} {Hmax : Prec_lt_emax prec emax}.
Notation fl := (binary_float prec emax).
Notation u := (unit_roundoff prec).
Notation eta := (underflow_error prec emax).
Notation err := (rounding_error prec emax).

Lemma cst0 : cst 0 = B754_zero false :> fl. Proof. reflexivity. Qed.
Lemma row_get : forall (m : list (list fl)) r c, (c < length m)%nat -> vget (row m r) c = mget m c r.
Proof.
  intros m r c H. unfold row, mget, vget, mcol. rewrite (nth_indep _ _ (nth r [] (B754_zero false))) by now rewrite map_length.
  rewrite (map_nth (fun col => nth r col (B754_zero false))). now rewrite cst0.
Qed.
Lemma row_finite : forall (m : list (list fl)) r, finite_mat m -> all_finite (row m r).
Proof.
  intros m r F. unfold all_finite, row. apply Forall_map. eapply Forall_impl; [|exact F]. intros col Fc. 
  rewrite <- cst0. apply (finite_get prec emax col r Fc).
Qed.
Lemma row_length : forall (m : list (list fl)) r, length (row m r) = length m.
Proof. intros. apply map_length. Qed.
Lemma mul_v_dot : forall n (m : list (list fl)) v r, length m = n -> length v = n -> (r < n)%nat ->
  vget (m_mul_v n m v) r = v_dot (row m r) v.
Proof.
  intros n m v r Lm Lv Hr. rewrite dot_sum by (rewrite row_length; congruence). rewrite row_length, Lm. unfold m_mul_v, vget at 1.
  rewrite nth_map_seq by lia. unfold acc_sum. apply for_ext. intros i s Hi. now rewrite row_get by lia.
Qed.
Lemma mul_m_dot : forall n k l (a b : list (list fl)) r c, is_mat n k a -> is_mat k l b -> (r < n)%nat -> (c < l)%nat ->
  mget (m_mul n k l a b) c r = v_dot (row a r) (mcol b c).
Proof.
  intros n k l a b r c A B Hr Hc. destruct A as [LA A]. rewrite dot_sum by (rewrite row_length, (shape_col k l); auto). rewrite row_length, LA.
  unfold m_mul. rewrite mk_get by lia. unfold acc_sum. apply for_ext. intros i s Hi. now rewrite row_get by lia.
Qed.

Lemma mat_vec_ok : forall n (m : list (list fl)) v r, length m = n -> length v = n -> (r < n)%nat -> finite_mat m -> all_finite v ->
  no_overflow prec emax n (size_dot (values (row m r)) (values v)) ->
  near (vget (m_mul_v n m v) r) (rdot (values (row m r)) (values v)) (err n (size_dot (values (row m r)) (values v))).
Proof.
  intros n m v r Lm Lv Hr Fm Fv H. rewrite mul_v_dot by auto. assert (E : length (row m r) = n) by now rewrite row_length.
  assert (G := dot_ok prec emax (row m r) v). rewrite E in G. apply G; auto. now apply row_finite.
Qed.
Lemma mat_mat_ok : forall n k l (a b : list (list fl)) r c, is_mat n k a -> is_mat k l b -> (r < n)%nat -> (c < l)%nat -> finite_mat a -> finite_mat b ->
  no_overflow prec emax k (size_dot (values (row a r)) (values (nth c b []))) ->
  near (vget (nth c (m_mul n k l a b) []) r) (rdot (values (row a r)) (values (nth c b []))) (err k (size_dot (values (row a r)) (values (nth c b [])))).
Proof.
  intros n k l a b r c A B Hr Hc FA FB H. change (vget (nth c (m_mul n k l a b) []) r) with (mget (m_mul n k l a b) c r). rewrite (mul_m_dot n k l) by auto.
  assert (LA : length a = k) by apply A. assert (E : length (row a r) = k) by now rewrite row_length.
  unfold mcol. assert (G := dot_ok prec emax (row a r) (nth c b [])). rewrite E in G. apply G; auto.
  - symmetry. apply (shape_col k l b c B Hc).
  - now apply row_finite.
  - unfold finite_mat in FB. rewrite Forall_forall in FB. apply FB, nth_In. destruct B as [-> _]. exact Hc.
Qed.
Lemma one_value : forall x : fl, is_finite x = true -> B2R x = 1 -> x = cst 1.
Proof.
  intros x F V. destruct (F_cst1 prec emax) as [F1 B1]. apply B2R_inj; try congruence.
  - destruct x; try discriminate; auto. simpl in V. lra.
  - destruct (cst 1 : fl); try discriminate; auto. simpl in B1. lra.
Qed.
Lemma homogeneous_values : forall p : list fl, values (v_to_homogeneous p) = values p ++ [1].
Proof.
  intros p. unfold v_to_homogeneous, v_extend, values. rewrite map_id, map_app. cbn [map]. destruct (F_cst1 prec emax) as [_ ->]. reflexivity.
Qed.
Lemma homogeneous_finite : forall p : list fl, all_finite p -> all_finite (v_to_homogeneous p).
Proof. intros p F. unfold v_to_homogeneous, v_extend. rewrite map_id. apply Forall_app. split; auto. constructor; [apply F_cst1|constructor]. Qed.
Lemma homogeneous_length : forall p : list fl, length (v_to_homogeneous p) = S (length p).
Proof. intros p. unfold v_to_homogeneous, v_extend. rewrite map_id, app_length. simpl. lia. Qed.
Lemma values_nth : forall (v : list fl) i, nth i (values v) 0 = B2R (vget v i).
Proof. intros v i. unfold values, vget. rewrite cst0. change 0 with (B2R (B754_zero false : fl)). apply map_nth. Qed.
Lemma affine_last : forall n (m : list (list fl)), length m = S n -> finite_mat m -> values (row m n) = repeat 0 n ++ [1] -> last_row prec emax n m.
Proof.
  intros n m L F H. assert (G : forall c, (c < S n)%nat -> is_finite (mget m c n) = true /\ B2R (mget m c n) = nth c (repeat 0 n ++ [1]) 0).
  { intros c Hc. split; [now apply finite_mget|]. rewrite <- H, values_nth. now rewrite row_get by lia. }
  split.
  - destruct (G n) as [A B]; [lia|]. apply one_value; auto. rewrite B, app_nth2 by (rewrite repeat_length; lia). rewrite repeat_length, Nat.sub_diag. reflexivity.
  - intros c Hc. destruct (G c) as [A B]; [lia|]. apply zero_value; auto. rewrite B, app_nth1 by (rewrite repeat_length; lia). apply nth_repeat.
Qed.
Lemma affine_ok : forall n (m : list (list fl)) p r, length m = S n -> length p = n -> (r < n)%nat -> finite_mat m -> all_finite p ->
  values (row m n) = repeat 0 n ++ [1] ->
  no_overflow prec emax (S n) (size_dot (values (row m r)) (values p ++ [1])) ->
  near (vget (m_mul_p (S n) m p) r) (rdot (values (row m r)) (values p ++ [1])) (err (S n) (size_dot (values (row m r)) (values p ++ [1]))).
Proof.
  intros n m p r Lm Lp Hr Fm Fp H O. rewrite (affine_point prec emax n); auto; [|now apply affine_last].
  assert (E : vget (map (fun r0 => acc_sum (S n) 0 (fun c => o_mul (mget m c r0) (vget (v_to_homogeneous p) c)) (cst 0)) (seq 0 n)) r
    = vget (m_mul_v (S n) m (v_to_homogeneous p)) r).
  { unfold m_mul_v, vget at 1 3. now rewrite !nth_map_seq by lia. }
  rewrite E. rewrite <- homogeneous_values in *. apply mat_vec_ok; auto; [now rewrite homogeneous_length, Lp|now apply homogeneous_finite].
Qed.

(** Cross product *)
Lemma near_feq : forall (x y : fl) r e, feq prec emax x y -> near y r e -> near x r e.
Proof. intros x y r e [->|[[s ->] [t ->]]] [A B]; split; auto. Qed.
Lemma two_products : forall a b c d : fl, is_finite a = true -> is_finite b = true -> is_finite c = true -> is_finite d = true ->
  no_overflow prec emax 2 (Rabs (B2R a) * Rabs (B2R b) + Rabs (B2R c) * Rabs (B2R d)) ->
  near (o_add (o_mul a b) (o_mul c d)) (B2R a * B2R b + B2R c * B2R d) (err 2 (Rabs (B2R a) * Rabs (B2R b) + Rabs (B2R c) * Rabs (B2R d))).
Proof.
  intros a b c d Fa Fb Fc Fd H. 
  assert (E1 : rdot (values [a; c]) (values [b; d]) = B2R a * B2R b + B2R c * B2R d) by (cbn; ring).
  assert (E2 : size_dot (values [a; c]) (values [b; d]) = Rabs (B2R a) * Rabs (B2R b) + Rabs (B2R c) * Rabs (B2R d)) by (unfold size_dot; cbn; ring).
  assert (G := dot_ok prec emax [a; c] [b; d] eq_refl). rewrite E1, E2 in G. cbn [length] in G.
  apply near_feq with (v_dot [a; c] [b; d]).
  - change (v_dot [a; c] [b; d]) with (o_add (o_add (cst 0) (o_mul a b)) (o_mul c d)). apply feq_sym. apply add_feq; [|now left].
    apply add_zero_l, cst0_zero.
  - apply G; auto; repeat constructor; auto.
Qed.
Lemma two_products_sub : forall a b c d : fl, is_finite a = true -> is_finite b = true -> is_finite c = true -> is_finite d = true ->
  no_overflow prec emax 2 (Rabs (B2R a) * Rabs (B2R b) + Rabs (B2R c) * Rabs (B2R d)) ->
  near (o_sub (o_mul a b) (o_mul c d)) (B2R a * B2R b - B2R c * B2R d) (err 2 (Rabs (B2R a) * Rabs (B2R b) + Rabs (B2R c) * Rabs (B2R d))).
Proof.
  intros a b c d Fa Fb Fc Fd H. rewrite sub_add, <- (mul_opp_r prec emax).
  assert (G := two_products a b c (Bopp d) Fa Fb Fc). rewrite B2R_Bopp, is_finite_Bopp, Rabs_Ropp in G.
  replace (B2R a * B2R b - B2R c * B2R d) with (B2R a * B2R b + B2R c * - B2R d) by ring. now apply G.
Qed.
Lemma cross_ok : forall (v w : list fl) i, length v = 3%nat -> length w = 3%nat -> (i < 3)%nat -> all_finite v -> all_finite w ->
  no_overflow prec emax 2 (nth i (cross_sizes (values v) (values w)) 0) ->
  near (vget (v_cross v w) i) (nth i (rcross (values v) (values w)) 0) (err 2 (nth i (cross_sizes (values v) (values w)) 0)).
Proof.
  intros v w i Lv Lw Hi Fv Fw.
  destruct v as [|x1 [|y1 [|z1 [|]]]]; try discriminate. destruct w as [|x2 [|y2 [|z2 [|]]]]; try discriminate.
  inversion Fv as [|? ? A1 Fv']; inversion Fv' as [|? ? A2 Fv'']; inversion Fv'' as [|? ? A3 _].
  inversion Fw as [|? ? B1 Fw']; inversion Fw' as [|? ? B2 Fw'']; inversion Fw'' as [|? ? B3 _]. subst.
  destruct i as [|[|[|]]]; try lia; unfold cross_sizes; cbn [nth values map]; intros H.
  - change (vget (v_cross [x1; y1; z1] [x2; y2; z2]) 0) with (o_sub (o_mul y1 z2) (o_mul z1 y2)). now apply two_products_sub.
  - change (vget (v_cross [x1; y1; z1] [x2; y2; z2]) 1) with (o_sub (o_mul z1 x2) (o_mul x1 z2)). now apply two_products_sub.
  - change (vget (v_cross [x1; y1; z1] [x2; y2; z2]) 2) with (o_sub (o_mul x1 y2) (o_mul y1 x2)). now apply two_products_sub.
Qed.
(** Points on lines *)
Lemma point_at_ok : forall (a d : list fl) t i, length a = length d -> (i < length a)%nat -> all_finite a -> all_finite d -> is_finite t = true ->
  let A := B2R (vget a i) in let D := B2R (vget d i) in
  no_overflow prec emax 2 (Rabs A + Rabs D * Rabs (B2R t)) ->
  near (vget (al_point_at_distance a d t) i) (A + D * B2R t) (err 2 (Rabs A + Rabs D * Rabs (B2R t))).
Proof.
  intros a d t i L Hi Fa Fd Ft A D H. unfold al_point_at_distance.
  assert (Ls : length (v_scale d t) = length d) by (unfold v_scale; apply map_length).
  rewrite vadd_get by congruence.
  assert (E : vget (v_scale d t) i = o_mul (vget d i) t).
  { unfold vget, v_scale. rewrite (nth_indep _ _ (o_mul (cst 0) t)) by (rewrite map_length; lia). now rewrite (map_nth (fun x => o_mul x t)). }
  rewrite E. destruct (F_cst1 prec emax) as [F1 V1].
  assert (G := two_products (vget a i) (cst 1) (vget d i) t). rewrite mul_1_r, V1, Rabs_R1, !Rmult_1_r in G. apply G; auto; now apply finite_get.
Qed.

(** Distance of points *)
Lemma sub_rel : forall a b : list fl, length a = length b -> all_finite a -> all_finite b ->
  Forall (fun z => Rabs z * (1 + u) < bpow radix2 emax) (rsub (values a) (values b)) ->
  all_finite (v_sub a b) /\ Forall2 (fun x y => Rabs (y - x) <= u * Rabs x + 0) (rsub (values a) (values b)) (values (v_sub a b)).
Proof.
  intros a. induction a as [|x a IH]; intros [|y b] L Fa Fb H; try discriminate; [split; constructor|].
  inversion Fa; inversion Fb; subst. cbn in H. inversion H; subst. destruct (IH b) as [I1 I2]; auto.
  destruct (minus_ok prec emax x y) as (M1 & d & M2 & M3); auto. unfold v_sub, values in *. cbn [map2 map rsub]. split; [now constructor|].
  constructor; auto. rewrite M3. replace ((B2R x - B2R y) * (1 + d) - (B2R x - B2R y)) with (d * (B2R x - B2R y)) by ring.
  rewrite Rabs_mult, Rplus_0_r. apply Rmult_le_compat_r; auto using Rabs_pos.
Qed.
Lemma rsub_length : forall a b : list fl, length a = length b -> length (v_sub a b) = length a.
Proof. intros. unfold v_sub. now apply map2_len. Qed.
Lemma distance_ok : forall a b : list fl, length a = length b -> all_finite a -> all_finite b -> few prec (length a) ->
  bpow radix2 (5 - emax / 2) <= rnorm (rsub (values a) (values b)) <= bpow radix2 (emax / 2 - 2) ->
  near (v_distance a b) (rnorm (rsub (values a) (values b))) (INR (length a + 3) * u * rnorm (rsub (values a) (values b))).
Proof.
  intros a b L Fa Fb Few [H1 H2]. set (D := rnorm (rsub (values a) (values b))) in *.
  assert (D0 : 0 < D) by (eapply Rlt_le_trans; [apply bpow_gt_0|exact H1]).
  assert (U0 := u_pos prec). assert (EB := emax_big prec emax). assert (HR := half_range emax).
  assert (Ln : (0 < length a)%nat).
  { destruct a as [|x a]; [|simpl; lia]. exfalso. destruct b; [|discriminate]. unfold D, rnorm in D0. simpl in D0. rewrite sqrt_0 in D0. lra. }
  assert (U1 : u <= / 16) by (eapply few_u; eauto).
  assert (K : INR (length a) * u <= / 16) by exact Few.
  assert (BB : 4 * bpow radix2 (emax / 2 - 2) <= bpow radix2 emax).
  { change 4 with (bpow radix2 2). rewrite <- bpow_plus. apply bpow_le. lia. }
  assert (BP : 0 < bpow radix2 (emax / 2 - 2)) by apply bpow_gt_0.
  destruct (sub_rel a b L Fa Fb) as [F R].
  { apply Forall_forall. intros z Hz. assert (C := component_le_norm _ z Hz). fold D in C. assert (Z := Rabs_pos z). nra. }
  apply norm_close in R; try lra. fold D in R.
  assert (E : Rabs (rnorm (values (v_sub a b)) - D) <= u * D).
  { eapply Rle_trans; [exact R|]. rewrite Rmult_0_r. lra. }
  apply Rabs_le_inv in E. set (W := rnorm (values (v_sub a b))) in *.
  destruct (length_ok prec emax (v_sub a b) F) as [G1 G2].
  { now rewrite rsub_length. }
  { unfold moderate. fold W. assert (B1 : bpow radix2 (5 - emax / 2) = 2 * bpow radix2 (4 - emax / 2)).
    { replace (5 - emax / 2)%Z with (1 + (4 - emax / 2))%Z by lia. rewrite bpow_plus. reflexivity. }
    assert (B2 : bpow radix2 (emax / 2 - 1) = 2 * bpow radix2 (emax / 2 - 2)).
    { replace (emax / 2 - 1)%Z with (1 + (emax / 2 - 2))%Z by lia. rewrite bpow_plus. reflexivity. }
    assert (P1 : 0 < bpow radix2 (4 - emax / 2)) by apply bpow_gt_0. nra. }
  rewrite rsub_length in G2 by auto. fold W in G2. split; [exact G1|]. change (v_distance a b) with (v_length (v_sub a b)).
  replace (B2R (v_length (v_sub a b)) - D) with ((B2R (v_length (v_sub a b)) - W) + (W - D)) by ring.
  eapply Rle_trans; [apply Rabs_triang|]. assert (EW : Rabs (W - D) <= u * D) by (apply Rabs_le; lra).
  rewrite plus_INR in *. change (INR 3) with (1 + 1 + 1) in *. change (INR 1) with 1 in *.
  set (N := INR (length a)) in *. assert (N0 : 0 <= N) by apply pos_INR.
  assert (G3 : (N + 1) * u * W <= (N + 1) * u * ((1 + u) * D)).
  { apply Rmult_le_compat_l; [nra|]. lra. }
  assert (G4 : (N + 1) * u * u * D <= u * D). { apply Rmult_le_compat_r; [lra|]. nra. }
  nra.
Qed.
End FP.
