(** Coordinates on a grid: the final form of the statements. *)
From Coq Require Import ZArith Reals List Lia Lra Bool Psatz Factorial.
From Flocq Require Import Core BinarySingleNaN.
From Verif Require Import Ops M_scalar M_vec M_mat M_bbox M_geom Inst_F Inst_XR S_vec S_mat S_affine S_bbox S_det S_geom S_rnd S_grid.
From Verif Require Import P_ord P_ieee P_xr P_vec P_vec2 P_mat P_mat2 P_mat3 P_affine P_bbox2 P_bbox3 P_fp P_fp6 P_fp7 P_grid P_grid2 P_grid3.
Import ListNotations.
Local Open Scope R_scope.

Section Grid.
Variables prec emax : Z.
Context {Hprec : Prec_gt_0 prec} {Hmax : Prec_lt_emax prec emax}.
Notation fl := (binary_float prec emax).
Notation fits := (representable prec emax).
Notation rel := (rel prec emax).
Notation vrel := (vrel prec emax).
Notation mrel := (mrel prec emax).
Notation vS := (map (@Some R)).
Notation mS := (map (map (@Some R))).

Lemma vrel_grid : forall e K v w, vrel e K v w -> grid_vec e K v.
Proof. intros e K v w H. induction H as [|x y v w [G _] H IH]; constructor; auto. Qed.
Lemma got_of : forall e K v r, vrel e K v (vS r) -> exact_vec v r /\ grid_vec e K v.
Proof. intros e K v r H. split; [eapply vrel_exact; eauto|eapply vrel_grid; eauto]. Qed.
Lemma got1 : forall e K x r, rel e K x (Some r) -> exactly x r /\ on_grid e K x.
Proof. intros e K x r H. split; [eapply rel_exact; eauto|apply H]. Qed.
Lemma rel_value : forall e K (x : fl), on_grid e K x -> rel e K x (Some (B2R x)).
Proof. intros. now split. Qed.

Lemma grid_sums : forall e A B (v w : list fl), grid_vec e A v -> grid_vec e B w -> fits e (A + B) ->
  (exact_vec (v_add v w) (radd (values v) (values w)) /\ grid_vec e (A + B) (v_add v w))
  /\ (exact_vec (v_sub v w) (rsub (values v) (values w)) /\ grid_vec e (A + B) (v_sub v w))
  /\ (exact_vec (v_neg v) (rneg (values v)) /\ grid_vec e A (v_neg v)).
Proof.
  intros e A B v w V W F. apply vrel_values in V, W. split; [|split]; apply got_of.
  - rewrite <- X_add. now apply vrel_add.
  - rewrite <- X_sub. now apply vrel_sub.
  - rewrite <- X_neg. now apply vrel_neg.
Qed.
Lemma grid_products : forall e f A B (v w : list fl) x, grid_vec e A v -> grid_vec f B w -> on_grid f B x -> fits (e + f) (A * B) ->
  (exact_vec (v_mul v w) (zip Rmult (values v) (values w)) /\ grid_vec (e + f) (A * B) (v_mul v w))
  /\ (exact_vec (v_scale v x) (rscale (B2R x) (values v)) /\ grid_vec (e + f) (A * B) (v_scale v x)).
Proof.
  intros e f A B v w x V W X F. apply vrel_values in V, W. apply rel_value in X. split; apply got_of.
  - rewrite <- X_mul. now apply vrel_mul.
  - rewrite <- X_scale. now apply vrel_scale.
Qed.
Lemma grid_dot : forall e f A B (v w : list fl), grid_vec e A v -> grid_vec f B w -> length v = length w -> fits (e + f) (Z.of_nat (length v) * (A * B)) ->
  exactly (v_dot v w) (rdot (values v) (values w)) /\ on_grid (e + f) (Z.of_nat (length v) * (A * B)) (v_dot v w).
Proof. intros e f A B v w V W L F. apply vrel_values in V, W. apply got1. rewrite <- X_dot. now apply rel_dot. Qed.
Lemma grid_distance : forall e A B (v w : list fl), grid_vec e A v -> grid_vec e B w -> length v = length w -> fits e (A + B) ->
  fits (e + e) (Z.of_nat (length v) * ((A + B) * (A + B))) ->
  exactly (v_squared_distance v w) (rdot (rsub (values v) (values w)) (rsub (values v) (values w)))
  /\ on_grid (e + e) (Z.of_nat (length v) * ((A + B) * (A + B))) (v_squared_distance v w).
Proof.
  intros e A B v w V W L F F'. apply vrel_values in V, W. apply got1. rewrite <- X_squared_distance. unfold v_squared_distance, v_squared_length.
  assert (S := vrel_sub prec emax e A B v w _ _ V W F). assert (LS : length (v_sub v w) = length v) by (unfold v_sub; now apply map2_len).
  rewrite <- LS in *. now apply rel_dot.
Qed.
Lemma grid_cross : forall e f A B (v w : list fl), grid_vec e A v -> grid_vec f B w -> length v = 3%nat -> length w = 3%nat -> (0 <= A)%Z -> (0 <= B)%Z -> fits (e + f) (2 * (A * B)) ->
  exact_vec (v_cross v w) (rcross (values v) (values w)) /\ grid_vec (e + f) (2 * (A * B)) (v_cross v w).
Proof.
  intros e f A B v w V W L L' HA HB F. apply vrel_values in V, W. apply got_of. rewrite <- X_cross3 by (unfold values; now rewrite map_length). now apply rel_cross.
Qed.
Lemma grid_mat_vec : forall n e f A B (m : list (list fl)) v, grid_mat e A m -> grid_vec f B v -> (0 <= A)%Z -> (0 <= B)%Z -> fits (e + f) (Z.of_nat n * (A * B)) ->
  exact_vec (m_mul_v n m v) (rmulv n n (map values m) (values v)) /\ grid_vec (e + f) (Z.of_nat n * (A * B)) (m_mul_v n m v).
Proof. intros n e f A B m v M V HA HB F. apply mrel_values in M. apply vrel_values in V. apply got_of. rewrite <- X_m_mul_v. now apply rel_mul_v. Qed.
Lemma grid_mat_mat : forall n k l e f A B (m p : list (list fl)), grid_mat e A m -> grid_mat f B p -> (0 <= A)%Z -> (0 <= B)%Z -> fits (e + f) (Z.of_nat k * (A * B)) ->
  exact_mat (m_mul n k l m p) (rmul n k l (map values m) (map values p)).
Proof. intros n k l e f A B m p M V HA HB F. apply mrel_values in M, V. apply (mrel_exact prec emax (e + f) (Z.of_nat k * (A * B))). rewrite <- X_m_mul. now apply rel_m_mul. Qed.
Lemma values_mat : forall R C (m : list (list fl)), is_mat R C m -> is_mat R C (map values m).
Proof. intros R C m [H1 H2]. split; [now rewrite map_length|]. rewrite Forall_map. eapply Forall_impl; [|exact H2]. intros c Hc. unfold values. now rewrite map_length. Qed.
Lemma mS_mat : forall r c A, is_mat r c A -> is_mat r c (mS A).
Proof. intros r c A [H1 H2]. split; [now rewrite map_length|]. rewrite Forall_map. eapply Forall_impl; [|exact H2]. intros l Hl. now rewrite map_length. Qed.
Lemma grid_det : forall n e K (m : list (list fl)), is_mat (S n) (S n) m -> grid_mat e K m -> (0 <= K)%Z ->
  fits (Z.of_nat (S n) * e) (Z.of_nat (fact (S n)) * K ^ Z.of_nat (S n)) ->
  exactly (m_det (S n) m) (leibniz (S n) (ent (map values m))).
Proof.
  intros n e K m M G HK F. assert (GG := mrel_values prec emax e K m G). eapply rel_exact. rewrite <- det_leibniz by now apply values_mat.
  apply (rel_det prec emax n e K HK); auto. apply mS_mat, values_mat, M.
Qed.
Lemma grid_affine_point : forall n e A f T B m (p : list fl), grid_affine e A (e + f) T n m -> length p = n -> grid_vec f B p -> (0 <= A)%Z -> (0 <= B)%Z -> (0 <= T)%Z ->
  fits (e + f) (Z.of_nat n * (A * B) + T) ->
  exact_vec (m_mul_p (S n) m p) (raffine n (map values m) (values p)) /\ grid_vec (e + f) (Z.of_nat n * (A * B) + T) (m_mul_p (S n) m p).
Proof. intros. apply got_of. now apply rel_affine. Qed.
Lemma grid_plane : forall e f A B D (p : plane fl) q, grid_vec e A q -> grid_vec f B (pl_normal p) -> on_grid (e + f) D (pl_dist p) -> length q = length (pl_normal p) -> (0 <= A)%Z -> (0 <= B)%Z ->
  fits (e + f) (Z.of_nat (length q) * (A * B) + D) ->
  exactly (pl_point_distance p q) (plane_distance p q) /\ on_grid (e + f) (Z.of_nat (length q) * (A * B) + D) (pl_point_distance p q).
Proof.
  intros e f A B D p q Q N HD L HA HB F. apply vrel_values in Q, N. apply rel_value in HD. apply got1. unfold pl_point_distance, plane_distance.
  assert (0 <= D)%Z by (destruct HD as [[_ (k & _ & ?)] _]; lia).
  replace (Some (rdot (values q) (values (pl_normal p)) - B2R (pl_dist p))) with (o_sub (v_dot (vS (values q)) (vS (values (pl_normal p)))) (Some (B2R (pl_dist p)))) by (now rewrite X_dot).
  apply rel_sub; auto. apply rel_dot; auto. eapply fits_le; eauto. lia.
Qed.

(** Colinearity *)
Definition jrel e K (s : fl * fl * fl) (t : XR * XR * XR) : Prop := rel e K (fst (fst s)) (fst (fst t)) /\ rel e K (snd (fst s)) (snd (fst t)) /\ rel e K (snd s) (snd t).
Lemma colinear_fold : forall e K a p, vrel e K a p -> forall b q c r, vrel e K b q -> vrel e K c r -> (0 <= K)%Z -> fits e (K + K) -> length a = length b -> length a = length c ->
  forall S s t, (0 <= S)%Z -> jrel (e + e) S s t -> fits (e + e) (S + Z.of_nat (length a) * ((K + K) * (K + K))) ->
  jrel (e + e) (S + Z.of_nat (length a) * ((K + K) * (K + K)))
   (fold_left (fun jkl abc => let '(j, k, l) := jkl in let '(ai, bi, ci) := abc in let ac := o_sub ai ci in let ba := o_sub bi ai in
      (o_add j (o_mul ac ba), o_add k (o_mul ac ac), o_add l (o_mul ba ba))) (combine (combine a b) c) s)
   (fold_left (fun jkl abc => let '(j, k, l) := jkl in let '(ai, bi, ci) := abc in let ac := o_sub ai ci in let ba := o_sub bi ai in
      (o_add j (o_mul ac ba), o_add k (o_mul ac ac), o_add l (o_mul ba ba))) (combine (combine p q) r) t).
Proof.
  intros e K a p HA. induction HA as [|x x' a p R HA IH]; intros b q c r HB HC HK F Lb Lc S s t HS J FS.
  - cbn. now rewrite Z.add_0_r.
  - destruct HB as [|y y' b q R' HB]; [discriminate|]. destruct HC as [|z z' c r R'' HC]; [discriminate|]. cbn [combine fold_left].
    assert (Q : (0 <= (K + K) * (K + K))%Z) by nia. cbn [length] in *.
    replace (S + Z.of_nat (Datatypes.S (length a)) * ((K + K) * (K + K)))%Z with (S + (K + K) * (K + K) + Z.of_nat (length a) * ((K + K) * (K + K)))%Z in * by lia.
    assert (F1 : fits (e + e) (S + (K + K) * (K + K))) by (eapply fits_le; eauto; nia). assert (F2 : fits (e + e) ((K + K) * (K + K))) by (eapply fits_le; eauto; nia).
    destruct s as [[j k] l], t as [[j' k'] l'], J as (J1 & J2 & J3). cbn [fst snd] in *.
    assert (AC := rel_sub prec emax e K K x z x' z' R R'' F). assert (BA := rel_sub prec emax e K K y x y' x' R' R F).
    apply IH; auto; try lia. split; [|split]; cbn [fst snd]; apply rel_add; auto; apply rel_mul; auto.
Qed.
Lemma grid_gram : forall e K n (a b c : list fl), grid_vec e K a -> grid_vec e K b -> grid_vec e K c -> length a = n -> length b = n -> length c = n -> (0 <= K)%Z ->
  fits e (K + K) -> let M := (Z.of_nat n * ((K + K) * (K + K)))%Z in fits (e + e) M -> fits (e + e + (e + e)) (2 * (M * M)) ->
  exists g, on_grid (e + e + (e + e)) (2 * (M * M)) g /\ (forall eps, v_is_colinear a b c eps = sc_is_zero g eps)
    /\ forall eps, v_is_colinear (vS (values a)) (vS (values b)) (vS (values c)) eps = sc_is_zero (Some (B2R g)) eps.
Proof.
  intros e K n a b c GA GB GC La Lb Lc HK F M FM FG. apply vrel_values in GA, GB, GC.
  assert (J := colinear_fold e K a _ GA b _ c _ GB GC HK F ltac:(lia) ltac:(lia) 0%Z (cst 0, cst 0, cst 0) (cst 0, cst 0, cst 0) ltac:(lia)).
  rewrite La in J. fold M in J. rewrite Z.add_0_l in J.
  assert (J0 : jrel (e + e) 0 (cst 0, cst 0, cst 0) (cst 0, cst 0, cst 0)) by (split; [|split]; cbn [fst snd]; apply rel_zero; lia).
  specialize (J J0 FM). unfold v_is_colinear.
  destruct (fold_left _ (combine (combine a b) c) _) as [[j k] l] eqn:E1. destruct (fold_left _ (combine (combine (vS (values a)) (vS (values b))) _) _) as [[j' k'] l'] eqn:E2.
  destruct J as (J1 & J2 & J3). cbn [fst snd] in *.
  assert (0 <= M * M)%Z by nia.
  assert (G : rel (e + e + (e + e)) (2 * (M * M)) (o_sub (o_mul j j) (o_mul k l)) (o_sub (o_mul j' j') (o_mul k' l'))).
  { replace (2 * (M * M))%Z with (M * M + M * M)%Z in * by lia. assert (fits (e + e + (e + e)) (M * M)) by (eapply fits_le; eauto; lia). apply rel_sub; auto; apply rel_mul; auto. }
  destruct G as [G1 G2]. exists (o_sub (o_mul j j) (o_mul k l)). split; [exact G1|]. split; [reflexivity|]. intros eps. now rewrite G2.
Qed.
(** The Gram determinant is zero or at least one unit. *)
Lemma grid_zero : forall e K (g : fl) (eps : fl), on_grid e K g -> is_finite eps = true -> 0 <= B2R eps < bpow radix2 e -> (sc_is_zero g eps = true <-> B2R g = 0).
Proof.
  intros e K g eps [Fg (k & V & L)] Fe [E0 E1]. assert (P := bpow_gt_0 radix2 e).
  assert (R : rel e (Z.max 0 K) g (Some (B2R g))) by (split; auto; split; auto; exists k; split; auto; lia).
  assert (S : sc_is_zero g eps = Rle_bool (Rabs (B2R g)) (B2R eps)).
  { rewrite <- X_is_zero by auto. unfold sc_is_zero.
    assert (A := rel_abs prec emax e (Z.max 0 K) g (Some (B2R g)) R). destruct A as [[FA _] EA].
    assert (Z0 := F_cst0 prec emax). f_equal.
    - cbn. change (Beqb g (cst 0) = Req_bool (B2R g) 0). destruct Z0 as [F0 B0]. rewrite Beqb_correct by auto. now rewrite B0.
    - rewrite EA. cbn. now apply Bleb_correct. }
  rewrite S, Rle_true. rewrite V in *. split; intros H.
  - destruct (Z.eq_dec k 0) as [->|N]; [simpl; ring|exfalso]. rewrite Rabs_mult, (Rabs_pos_eq (bpow radix2 e)), <- abs_IZR in H by lra.
    assert (1 <= IZR (Z.abs k)) by (apply IZR_le; lia). nra.
  - rewrite H, Rabs_R0. exact E0.
Qed.
Lemma grid_colinear : forall e K n (a b c : list fl) eps, grid_vec e K a -> grid_vec e K b -> grid_vec e K c -> length a = n -> length b = n -> length c = n -> (0 <= K)%Z ->
  fits e (K + K) -> let M := (Z.of_nat n * ((K + K) * (K + K)))%Z in fits (e + e) M -> fits (e + e + (e + e)) (2 * (M * M)) ->
  is_finite eps = true -> 0 <= B2R eps < bpow radix2 (e + e + (e + e)) ->
  (v_is_colinear a b c eps = true <-> collinear (values a) (values b) (values c)).
Proof.
  intros e K n a b c eps GA GB GC La Lb Lc HK F M FM FG Fe He.
  destruct (grid_gram e K n a b c GA GB GC La Lb Lc HK F FM FG) as (g & Gg & E1 & E2). rewrite E1.
  rewrite (grid_zero _ _ g eps Gg Fe He). rewrite <- colinear_exact by (unfold values; rewrite !map_length; lia). rewrite E2, X_is_zero by lra.
  rewrite Rle_true. split; intros H.
  - rewrite H, Rabs_R0. lra.
  - assert (Q := Rabs_pos (B2R g)). destruct (Req_dec (B2R g) 0) as [|N]; auto. apply Rabs_pos_lt in N. lra.
Qed.
End Grid.
