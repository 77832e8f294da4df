(** Vectors in exact arithmetic. *)
From Coq Require Import ZArith Reals List Bool Lra Lia Psatz.
From Flocq Require Import Core.
From Verif Require Import Ops M_scalar M_vec Inst_XR P_xr S_vec.
Import ListNotations.
Local Open Scope R_scope.

Notation vS := (map (@Some R)).

(** ** Translation of the model's vector functions *)
Lemma X_map2 : forall (f : option R -> option R -> option R) g a b,
  (forall x y, f (Some x) (Some y) = Some (g x y)) ->
  map2 f (vS a) (vS b) = vS (zip g a b).
Proof. intros f g a b H. revert b. induction a; intros [|y b]; simpl; auto. now rewrite H, IHa. Qed.
Lemma X_add : forall a b, v_add (vS a) (vS b) = vS (radd a b).
Proof. intros. now apply X_map2. Qed.
Lemma X_sub : forall a b, v_sub (vS a) (vS b) = vS (rsub a b).
Proof. intros. now apply X_map2. Qed.
Lemma X_mul : forall a b, v_mul (vS a) (vS b) = vS (zip Rmult a b).
Proof. intros. now apply X_map2. Qed.
Lemma X_neg : forall a, v_neg (vS a) = vS (rneg a).
Proof. intros. unfold v_neg, rneg. rewrite !map_map. now apply map_ext. Qed.
Lemma X_scale : forall a k, v_scale (vS a) (Some k) = vS (rscale k a).
Proof.
  intros. unfold v_scale, rscale. rewrite !map_map. apply map_ext. intros. simpl. now rewrite Rmult_comm.
Qed.
Lemma X_scale_l : forall a k, v_scale_l (Some k) (vS a) = vS (rscale k a).
Proof. intros. apply X_scale. Qed.
Lemma X_div_s : forall a k, k <> 0 -> v_div_s (vS a) (Some k) = vS (rscale (/ k) a).
Proof.
  intros a k H. unfold v_div_s, rscale. rewrite !map_map. apply map_ext. intros x.
  rewrite X_div by auto. unfold Rdiv. now rewrite Rmult_comm.
Qed.
Lemma X_div_s0 : forall a, v_div_s (vS a) (Some 0) = repeat None (length a).
Proof.
  intros a. unfold v_div_s. rewrite map_map. induction a; cbn [map repeat length]; auto.
  rewrite X_div0. now rewrite IHa.
Qed.
Lemma X_dot_acc : forall a b r,
  fold_left (fun result p => o_add result (o_mul (fst p) (snd p))) (combine (vS a) (vS b)) (Some r)
  = Some (r + rdot a b).
Proof.
  induction a as [|x a IH]; intros [|y b] r; cbn [map combine fold_left rdot fst snd];
    try (now rewrite Rplus_0_r).
  change (o_add (Some r) (o_mul (Some x) (Some y))) with (Some (r + x * y)).
  rewrite IH. f_equal. ring.
Qed.
Lemma X_dot : forall a b, v_dot (vS a) (vS b) = Some (rdot a b).
Proof.
  intros. unfold v_dot. change (cst 0) with (Some 0).
  rewrite X_dot_acc. f_equal. ring.
Qed.
Lemma X_get : forall a i, vget (vS a) i = Some (nth i a 0).
Proof. intros. unfold vget. change (cst 0) with (Some 0). apply map_nth. Qed.
Lemma X_cross3 : forall a b, length a = 3%nat -> length b = 3%nat ->
  v_cross (vS a) (vS b) = vS (rcross a b).
Proof.
  intros [|a0 [|a1 [|a2 [|]]]] [|b0 [|b1 [|b2 [|]]]] Ha Hb; try discriminate. reflexivity.
Qed.
Lemma X_squared_length : forall a, v_squared_length (vS a) = Some (rdot a a).
Proof. intros. apply X_dot. Qed.
Lemma rdot_nonneg : forall a, 0 <= rdot a a.
Proof. induction a; simpl; [ lra | ]. assert (0 <= a * a) by nra. lra. Qed.
Lemma X_length : forall a, v_length (vS a) = Some (rnorm a).
Proof. intros. unfold v_length. rewrite X_squared_length. apply X_sqrt, rdot_nonneg. Qed.
Lemma X_distance : forall a b, v_distance (vS a) (vS b) = Some (rdist a b).
Proof. intros. unfold v_distance. rewrite X_sub. apply X_length. Qed.
Lemma X_squared_distance : forall a b, v_squared_distance (vS a) (vS b) = Some (rdot (rsub a b) (rsub a b)).
Proof. intros. unfold v_squared_distance. rewrite X_sub. apply X_squared_length. Qed.

(** ** Lengths of vectors *)
Lemma zip_length : forall f a b, length a = length b -> length (zip f a b) = length a.
Proof. intros f a. induction a; intros [|y b] H; simpl in *; auto; try lia. Qed.
Lemma radd_length : forall a b, length a = length b -> length (radd a b) = length a.
Proof. intros. now apply zip_length. Qed.
Lemma rsub_length : forall a b, length a = length b -> length (rsub a b) = length a.
Proof. intros. now apply zip_length. Qed.
Lemma rscale_length : forall k a, length (rscale k a) = length a.
Proof. intros. apply map_length. Qed.
Lemma rneg_length : forall a, length (rneg a) = length a.
Proof. intros. apply map_length. Qed.
Lemma rcross_length : forall a b, length a = 3%nat -> length b = 3%nat -> length (rcross a b) = 3%nat.
Proof. intros [|a0 [|a1 [|a2 [|]]]] [|b0 [|b1 [|b2 [|]]]] Ha Hb; try discriminate. reflexivity. Qed.

(** Goals about vectors of the same length by induction on one of them. *)
Ltac same_len := repeat match goal with
  | H : length (_ :: _) = length ?b |- _ => is_var b; destruct b; [ discriminate H | injection H as H ]
  | H : length [] = length ?b |- _ => is_var b; destruct b; [ clear H | discriminate H ]
  end.

(** ** Laws *)
Lemma rdot_comm : forall a b, rdot a b = rdot b a.
Proof. induction a; intros [|y b]; simpl; auto. rewrite IHa. ring. Qed.
Lemma rdot_add_l : forall a b c, length a = length b -> length a = length c ->
  rdot (radd a b) c = rdot a c + rdot b c.
Proof.
  induction a; intros b c H1 H2; same_len; simpl; [ ring | ].
  unfold radd in IHa. rewrite IHa by auto. ring.
Qed.
Lemma rdot_sub_l : forall a b c, length a = length b -> length a = length c ->
  rdot (rsub a b) c = rdot a c - rdot b c.
Proof.
  induction a; intros b c H1 H2; same_len; simpl; [ ring | ].
  unfold rsub in IHa. rewrite IHa by auto. ring.
Qed.
Lemma rdot_scale_l : forall k a b, rdot (rscale k a) b = k * rdot a b.
Proof. intros k. induction a; intros [|y b]; simpl; try ring. rewrite IHa. ring. Qed.
Lemma rdot_neg_l : forall a b, rdot (rneg a) b = - rdot a b.
Proof. induction a; intros [|y b]; simpl; try ring. rewrite IHa. ring. Qed.
Lemma rdot_add_r : forall a b c, length a = length b -> length a = length c ->
  rdot c (radd a b) = rdot c a + rdot c b.
Proof. intros. rewrite rdot_comm, rdot_add_l, (rdot_comm a), (rdot_comm b); auto. Qed.
Lemma rdot_sub_r : forall a b c, length a = length b -> length a = length c ->
  rdot c (rsub a b) = rdot c a - rdot c b.
Proof. intros. rewrite rdot_comm, rdot_sub_l, (rdot_comm a), (rdot_comm b); auto. Qed.
Lemma rdot_scale_r : forall k a b, rdot b (rscale k a) = k * rdot b a.
Proof. intros. rewrite rdot_comm, rdot_scale_l, rdot_comm. reflexivity. Qed.
Lemma rdot_zero : forall a, rdot a a = 0 -> a = rzero (length a).
Proof.
  induction a; simpl; auto. intros H. assert (0 <= a * a) by nra. assert (P := rdot_nonneg a0).
  assert (rdot a0 a0 = 0) by lra. assert (a * a = 0) by lra.
  assert (a = 0) by nra. subst. unfold rzero in *. simpl. f_equal. auto.
Qed.
Lemma rdot_rzero : forall n a, rdot (rzero n) a = 0.
Proof. induction n; intros [|x a]; simpl; auto. unfold rzero in IHn. rewrite IHn. ring. Qed.
Lemma rnorm_sq : forall a, rnorm a * rnorm a = rdot a a.
Proof. intros. apply sqrt_sqrt, rdot_nonneg. Qed.
Lemma rnorm_nonneg : forall a, 0 <= rnorm a.
Proof. intros. apply sqrt_pos. Qed.
Lemma rnorm_zero : forall a, rnorm a = 0 -> a = rzero (length a).
Proof. intros a H. apply rdot_zero. rewrite <- rnorm_sq, H. ring. Qed.
Lemma rnorm_pos : forall a, a <> rzero (length a) -> 0 < rnorm a.
Proof. intros a H. destruct (rnorm_nonneg a) as [|E]; auto. exfalso. apply H. now apply rnorm_zero. Qed.

Lemma radd_comm : forall a b, radd a b = radd b a.
Proof. unfold radd. induction a; intros [|y b]; simpl; auto. rewrite IHa. f_equal. ring. Qed.
Lemma radd_assoc : forall a b c, radd a (radd b c) = radd (radd a b) c.
Proof.
  unfold radd. induction a; intros [|y b] [|z c]; simpl; auto. rewrite IHa. f_equal. ring.
Qed.
Lemma radd_0_r : forall a, radd a (rzero (length a)) = a.
Proof. unfold radd, rzero. induction a; simpl; auto. rewrite IHa. f_equal. ring. Qed.
Lemma radd_neg : forall a, radd a (rneg a) = rzero (length a).
Proof. unfold radd, rneg, rzero. induction a; simpl; auto. rewrite IHa. f_equal. ring. Qed.
Lemma rsub_neg : forall a b, rsub a b = radd a (rneg b).
Proof. unfold rsub, radd, rneg. induction a; intros [|y b]; simpl; auto. now rewrite IHa. Qed.
Lemma rscale_add : forall k a b, rscale k (radd a b) = radd (rscale k a) (rscale k b).
Proof.
  unfold rscale, radd. intros k. induction a; intros [|y b]; simpl; auto. rewrite IHa. f_equal. ring.
Qed.
Lemma rscale_add_l : forall k l a, rscale (k + l) a = radd (rscale k a) (rscale l a).
Proof. unfold rscale, radd. intros k l. induction a; simpl; auto. rewrite IHa. f_equal. ring. Qed.
Lemma rscale_mul : forall k l a, rscale k (rscale l a) = rscale (k * l) a.
Proof. unfold rscale. intros. rewrite map_map. apply map_ext. intros. ring. Qed.
Lemma rscale_1 : forall a, rscale 1 a = a.
Proof. unfold rscale. intros. rewrite <- (map_id a) at 2. apply map_ext. intros. ring. Qed.
Lemma rscale_0 : forall a, rscale 0 a = rzero (length a).
Proof. unfold rscale, rzero. induction a; simpl; auto. rewrite IHa. f_equal. ring. Qed.
Lemma rscale_neg1 : forall a, rscale (-1) a = rneg a.
Proof. unfold rscale, rneg. intros. apply map_ext. intros. ring. Qed.
Lemma rsub_self : forall a, rsub a a = rzero (length a).
Proof. intros. rewrite rsub_neg. apply radd_neg. Qed.
Lemma rsub_eq : forall a b, length a = length b -> rsub a b = rzero (length a) -> a = b.
Proof.
  unfold rsub, rzero. induction a; intros b H E; same_len; simpl in *; auto.
  injection E as E1 E2. f_equal; [ lra | auto ].
Qed.
Lemma rsub_anti : forall a b, rsub a b = rneg (rsub b a).
Proof. unfold rsub, rneg. induction a; intros [|y b]; simpl; auto. rewrite IHa. f_equal. ring. Qed.
Lemma radd_sub : forall a b, length a = length b -> radd b (rsub a b) = a.
Proof. unfold radd, rsub. induction a; intros b H; same_len; simpl; auto. rewrite IHa by auto. f_equal. ring. Qed.
Lemma rsub_split : forall a b c, length a = length b -> length b = length c ->
  rsub a c = radd (rsub a b) (rsub b c).
Proof.
  unfold radd, rsub. induction a; intros b c H1 H2; same_len; simpl; auto.
  same_len. rewrite (IHa b c) by auto. simpl. f_equal. ring.
Qed.
Lemma rnorm_neg : forall a, rnorm (rneg a) = rnorm a.
Proof.
  intros. unfold rnorm. f_equal. rewrite rdot_neg_l, rdot_comm, rdot_neg_l. ring.
Qed.
Lemma rnorm_scale : forall k a, rnorm (rscale k a) = Rabs k * rnorm a.
Proof.
  intros. unfold rnorm. rewrite rdot_scale_l, rdot_scale_r.
  replace (k * (k * rdot a a)) with (Rsqr k * rdot a a) by (unfold Rsqr; ring).
  rewrite sqrt_mult by (apply Rle_0_sqr || apply rdot_nonneg). now rewrite sqrt_Rsqr_abs.
Qed.

(** ** Cauchy-Schwarz and its equality case *)
Lemma lagrange_comb : forall a b, length a = length b ->
  let w := rsub (rscale (rdot b b) a) (rscale (rdot a b) b) in
  rdot w w = rdot b b * (rdot a a * rdot b b - rdot a b * rdot a b).
Proof.
  intros a b H w. unfold w.
  rewrite rdot_sub_l, !rdot_sub_r; rewrite ?rsub_length; rewrite ?rscale_length; auto.
  rewrite !rdot_scale_l, !rdot_scale_r. rewrite (rdot_comm b a). ring.
Qed.
Lemma cauchy_schwarz : forall a b, length a = length b ->
  rdot a b * rdot a b <= rdot a a * rdot b b.
Proof.
  intros a b H. destruct (rdot_nonneg b) as [P|Z].
  - assert (L := lagrange_comb a b H). simpl in L.
    assert (N := rdot_nonneg (rsub (rscale (rdot b b) a) (rscale (rdot a b) b))). rewrite L in N.
    apply Rmult_le_reg_l with (rdot b b); auto. lra.
  - rewrite <- Z. symmetry in Z. apply rdot_zero in Z. rewrite Z, rdot_comm, rdot_rzero. lra.
Qed.
Lemma cauchy_schwarz_eq : forall a b, length a = length b -> rdot b b <> 0 ->
  rdot a b * rdot a b = rdot a a * rdot b b -> a = rscale (rdot a b / rdot b b) b.
Proof.
  intros a b H N E. assert (L := lagrange_comb a b H). simpl in L. rewrite <- E in L.
  replace (rdot b b * (rdot a b * rdot a b - rdot a b * rdot a b)) with 0 in L by ring.
  apply rdot_zero in L. rewrite rsub_length in L by (rewrite !rscale_length; auto).
  apply rsub_eq in L; [ | rewrite !rscale_length; auto ].
  assert (K : rscale (/ rdot b b) (rscale (rdot b b) a) = rscale (/ rdot b b) (rscale (rdot a b) b)) by now f_equal.
  rewrite !rscale_mul, Rinv_l, rscale_1 in K by auto. etransitivity; [ exact K | ]. unfold Rdiv. f_equal. apply Rmult_comm.
Qed.
Lemma abs_dot_le : forall a b, length a = length b -> Rabs (rdot a b) <= rnorm a * rnorm b.
Proof.
  intros a b H. unfold rnorm. rewrite <- sqrt_mult by apply rdot_nonneg. rewrite <- sqrt_Rsqr_abs.
  apply sqrt_le_1_alt. now apply cauchy_schwarz.
Qed.
Lemma triangle : forall a b, length a = length b -> rnorm (radd a b) <= rnorm a + rnorm b.
Proof.
  intros a b H. apply Rsqr_incr_0.
  - unfold Rsqr. rewrite rnorm_sq. rewrite rdot_add_l, !rdot_add_r by (rewrite ?radd_length by auto; auto).
    assert (C := abs_dot_le a b H). assert (A := Rle_abs (rdot a b)).
    rewrite (rdot_comm b a). rewrite <- !rnorm_sq. lra.
  - apply rnorm_nonneg.
  - generalize (rnorm_nonneg a) (rnorm_nonneg b). lra.
Qed.
Lemma rdist_triangle : forall a b c, length a = length b -> length b = length c ->
  rdist a c <= rdist a b + rdist b c.
Proof.
  intros a b c H1 H2. unfold rdist. rewrite (rsub_split a b c) by auto.
  apply triangle. rewrite !rsub_length; congruence.
Qed.
Lemma rdist_sym : forall a b, rdist a b = rdist b a.
Proof. intros. unfold rdist. rewrite rsub_anti. apply rnorm_neg. Qed.
Lemma rdist_zero : forall a b, length a = length b -> (rdist a b = 0 <-> a = b).
Proof.
  intros a b H. split.
  - intros E. apply rnorm_zero in E. apply rsub_eq; auto. rewrite E. rewrite rsub_length by auto. reflexivity.
  - intros <-. unfold rdist. rewrite rsub_self. unfold rnorm. rewrite rdot_rzero. apply sqrt_0.
Qed.

(** ** normalize *)
Lemma X_normalize_vec : forall a, rnorm a <> 0 -> v_normalize (vS a) = vS (rscale (/ rnorm a) a).
Proof. intros a H. unfold v_normalize. rewrite X_length. now apply X_div_s. Qed.
Lemma X_normalize_unit : forall a, a <> rzero (length a) ->
  exists u, v_normalize (vS a) = vS u /\ rnorm u = 1 /\ length u = length a
    /\ exists k, 0 < k /\ a = rscale k u.
Proof.
  intros a H. assert (P := rnorm_pos a H). exists (rscale (/ rnorm a) a).
  split; [ apply X_normalize_vec; lra | ].
  split.
  { rewrite rnorm_scale. rewrite Rabs_pos_eq by (left; now apply Rinv_0_lt_compat). field. lra. }
  split; [ apply rscale_length | ].
  exists (rnorm a). split; auto. rewrite rscale_mul, Rinv_r, rscale_1 by lra. reflexivity.
Qed.
Lemma rnorm_rzero : forall n, rnorm (rzero n) = 0.
Proof. intros. unfold rnorm. rewrite rdot_rzero. apply sqrt_0. Qed.
Lemma X_normalize_zero : forall n, v_normalize (vS (rzero n)) = repeat None n.
Proof.
  intros. unfold v_normalize. rewrite X_length, rnorm_rzero, X_div_s0. unfold rzero.
  now rewrite repeat_length.
Qed.

(** ** cross *)
(** Equality of lists, component by component. *)
Ltac ringlist := repeat match goal with
  | |- _ :: _ = _ :: _ => apply f_equal2
  | |- @nil _ = @nil _ => reflexivity
  end; try ring.
Ltac vec3 a := let x := fresh a "0" in let y := fresh a "1" in let z := fresh a "2" in
  destruct a as [|x [|y [|z [|]]]]; try discriminate.
Lemma rcross_props : forall a b, length a = 3%nat -> length b = 3%nat ->
  rdot (rcross a b) a = 0 /\ rdot (rcross a b) b = 0 /\ rcross b a = rneg (rcross a b)
  /\ rdot (rcross a b) (rcross a b) + rdot a b * rdot a b = rdot a a * rdot b b.
Proof.
  intros a b Ha Hb. vec3 a. vec3 b. simpl. repeat split; try ring.
  unfold rneg. simpl. ringlist.
Qed.
Lemma rcross_linear : forall a b c k, length a = 3%nat -> length b = 3%nat -> length c = 3%nat ->
  rcross (radd a b) c = radd (rcross a c) (rcross b c) /\ rcross (rscale k a) c = rscale k (rcross a c).
Proof.
  intros a b c k Ha Hb Hc. vec3 a. vec3 b. vec3 c. simpl. split; unfold radd, rscale; simpl; ringlist.
Qed.

(** ** colinearity *)
Lemma X_colinear_acc : forall a b c j k l, length a = length b -> length a = length c ->
  fold_left (fun jkl abc =>
      let '(j, k, l) := jkl in
      let '(ai, bi, ci) := abc in
      let ac := o_sub ai ci in
      let ba := o_sub bi ai in
      (o_add j (o_mul ac ba), o_add k (o_mul ac ac), o_add l (o_mul ba ba)))
      (combine (combine (vS a) (vS b)) (vS c)) (Some j, Some k, Some l)
  = (Some (j + rdot (rsub a c) (rsub b a)), Some (k + rdot (rsub a c) (rsub a c)),
     Some (l + rdot (rsub b a) (rsub b a))).
Proof.
  induction a; intros b c j k l H1 H2; same_len; simpl.
  - now rewrite !Rplus_0_r.
  - rewrite IHa by auto. f_equal; [ f_equal | ]; f_equal; unfold rsub; ring.
Qed.
Lemma X_is_colinear : forall a b c e, length a = length b -> length a = length c -> 0 <= e ->
  v_is_colinear (vS a) (vS b) (vS c) (Some e) =
  Rle_bool (rdot (rsub a c) (rsub a c) * rdot (rsub b a) (rsub b a)
            - rdot (rsub a c) (rsub b a) * rdot (rsub a c) (rsub b a)) e.
Proof.
  intros a b c e H1 H2 He. unfold v_is_colinear. change (cst 0) with (Some 0).
  rewrite X_colinear_acc by auto. cbn [o_mul o_sub XRops X2]. rewrite !Rplus_0_l.
  rewrite X_is_zero by auto. f_equal.
  assert (C := cauchy_schwarz (rsub a c) (rsub b a)). rewrite !rsub_length in C by congruence.
  specialize (C H1).
  rewrite Rabs_left1; [ ring | lra ].
Qed.

Lemma rpoint_length : forall p d t, length p = length d -> length (rpoint p d t) = length p.
Proof. intros. unfold rpoint. apply radd_length. rewrite rscale_length. auto. Qed.
Lemma rsub_rpoint : forall p d s t, length p = length d -> rsub (rpoint p d s) (rpoint p d t) = rscale (s - t) d.
Proof.
  unfold rsub, rpoint, radd, rscale. induction p; intros d s t H; same_len; simpl; auto.
  rewrite IHp by auto. f_equal. ring.
Qed.
Lemma rpoint_0 : forall p d, length p = length d -> rpoint p d 0 = p.
Proof. intros. unfold rpoint. rewrite rscale_0, <- H. apply radd_0_r. Qed.
Lemma collinear_gram : forall a b c, length a = length b -> length a = length c ->
  (collinear a b c <->
   rdot (rsub a c) (rsub a c) * rdot (rsub b a) (rsub b a)
   - rdot (rsub a c) (rsub b a) * rdot (rsub a c) (rsub b a) = 0).
Proof.
  intros a b c H1 H2. split.
  - intros (p & d & r & s & t & Hp & Hd & Ea & Eb & Ec).
    assert (L : length p = length d) by congruence. subst a b c.
    rewrite !rsub_rpoint by auto.
    rewrite !rdot_scale_l, !rdot_scale_r. ring.
  - intros E. destruct (Req_dec (rdot (rsub b a) (rsub b a)) 0) as [Z|N].
    + assert (b = a).
      { apply rdot_zero in Z. rewrite rsub_length in Z by auto. apply rsub_eq in Z; auto. }
      subst b. exists a, (rsub c a), 0, 0, 1.
      assert (L : length a = length (rsub c a)) by (rewrite rsub_length; congruence).
      split; auto. split; auto.
      rewrite !rpoint_0 by auto. split; auto. split; auto.
      unfold rpoint. rewrite rscale_1. symmetry. apply radd_sub. congruence.
    + assert (K := cauchy_schwarz_eq (rsub a c) (rsub b a)).
      assert (L : length a = length (rsub b a)) by (rewrite rsub_length; congruence).
      exists a, (rsub b a), 0, 1, (- (rdot (rsub a c) (rsub b a) / rdot (rsub b a) (rsub b a))).
      split; auto. split; auto. rewrite !rpoint_0 by auto. split; auto.
      split. { unfold rpoint. rewrite rscale_1. symmetry. apply radd_sub. congruence. }
      unfold rpoint. rewrite <- (radd_sub c a) at 1 by congruence. f_equal.
      rewrite rsub_anti. rewrite K at 1; [ | rewrite !rsub_length; congruence | exact N | lra ].
      rewrite <- rscale_neg1, rscale_mul. f_equal. ring.
Qed.
Lemma collinear_gram_le : forall a b c, length a = length b -> length a = length c ->
  (collinear a b c <->
   rdot (rsub a c) (rsub a c) * rdot (rsub b a) (rsub b a)
   - rdot (rsub a c) (rsub b a) * rdot (rsub a c) (rsub b a) <= 0).
Proof.
  intros a b c H1 H2. rewrite collinear_gram by auto.
  assert (C := cauchy_schwarz (rsub a c) (rsub b a)). rewrite !rsub_length in C by congruence.
  specialize (C H1). split; lra.
Qed.

Lemma X_is_parallel : forall a b e, a <> rzero (length a) -> b <> rzero (length b) ->
  v_is_parallel (vS a) (vS b) (Some e)
  = Rle_bool (Rabs (Rabs (rdot a b / (rnorm a * rnorm b)) - 1)) e.
Proof.
  intros a b e Ha Hb. unfold v_is_parallel.
  assert (Pa := rnorm_pos a Ha). assert (Pb := rnorm_pos b Hb).
  rewrite !X_normalize_vec by lra. rewrite X_dot, X_abs. change (cst 1) with (Some 1).
  rewrite X_is_equal. rewrite rdot_scale_l, rdot_scale_r.
  do 4 f_equal. field. lra.
Qed.
