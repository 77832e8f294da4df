(** Final theorems: vectors (C19 to C26, C69). *)
From Coq Require Import ZArith Reals List Bool Lia Lra Permutation.
From Flocq Require Import Core BinarySingleNaN.
From Verif Require Import Ops M_scalar M_vec Inst_F Inst_XR S_vec.
From Verif Require Import P_xr P_vec P_vec2.
Import ListNotations.
Local Open Scope R_scope.

(** [vS a] is the vector with the real components [a]. *)
Notation vS := (map (@Some R)).

(** C19 *)
Theorem C19_componentwise : forall (a b : list R) (k : R), length a = length b ->
  (forall i, (i < length a)%nat ->
     nth i (v_add (vS a) (vS b)) None = Some (nth i a 0 + nth i b 0)
     /\ nth i (v_sub (vS a) (vS b)) None = Some (nth i a 0 - nth i b 0)
     /\ nth i (v_neg (vS a)) None = Some (- nth i a 0)
     /\ nth i (v_mul (vS a) (vS b)) None = Some (nth i a 0 * nth i b 0)
     /\ nth i (v_scale (vS a) (Some k)) None = Some (nth i a 0 * k)
     /\ nth i (v_scale_l (Some k) (vS a)) None = Some (k * nth i a 0)
     /\ (k <> 0 -> nth i (v_div_s (vS a) (Some k)) None = Some (nth i a 0 / k)))
  /\ length (v_add (vS a) (vS b)) = length a /\ length (v_sub (vS a) (vS b)) = length a
  /\ length (v_neg (vS a)) = length a /\ length (v_scale (vS a) (Some k)) = length a.
Proof. exact componentwise. Qed.
Theorem C19_vector_space : forall (a b c : list R) (k l : R),
  length a = length b -> length b = length c ->
  let u := vS a in let v := vS b in let w := vS c in
  v_add u v = v_add v u /\ v_add u (v_add v w) = v_add (v_add u v) w
  /\ v_add u (v_zero (length a)) = u /\ v_add u (v_neg u) = v_zero (length a)
  /\ v_sub u v = v_add u (v_neg v)
  /\ v_scale (v_add u v) (Some k) = v_add (v_scale u (Some k)) (v_scale v (Some k))
  /\ v_scale u (Some (k + l)) = v_add (v_scale u (Some k)) (v_scale u (Some l))
  /\ v_scale (v_scale u (Some k)) (Some l) = v_scale u (Some (k * l)) /\ v_scale u (Some 1) = u.
Proof. exact vector_space. Qed.
Theorem C19_ieee_commutative : forall prec emax (Hprec : Prec_gt_0 prec) (Hmax : Prec_lt_emax prec emax)
  (a b : list (binary_float prec emax)), v_add a b = v_add b a /\ v_dot a b = v_dot b a.
Proof. intros prec emax Hp Hm a b. exact (conj (F_add_comm prec emax a b) (F_dot_comm prec emax a b)). Qed.
Example C19_case : v_scale (v_add (vS [1; 2]) (vS [3; 5])) (Some 2) = vS [8; 14].
Proof. rewrite X_add, X_scale. unfold radd, rscale. simpl. repeat f_equal; ring. Qed.

(** C20 *)
Theorem C20_dot_inner_product : forall (a b c : list R) (k : R), length a = length b -> length b = length c ->
  v_dot (vS a) (vS b) = Some (rdot a b)
  /\ rdot a b = rdot b a
  /\ rdot (radd a b) c = rdot a c + rdot b c /\ rdot (rscale k a) c = k * rdot a c
  /\ 0 <= rdot a a /\ (rdot a a = 0 <-> Forall (fun x => x = 0) a).
Proof. exact dot_inner_product. Qed.
Theorem C20_length_distance : forall (a b : list R),
  v_squared_length (vS a) = v_dot (vS a) (vS a)
  /\ (exists r, v_length (vS a) = Some r /\ 0 <= r /\ v_squared_length (vS a) = Some (r * r))
  /\ (exists r, v_distance (vS a) (vS b) = Some r /\ 0 <= r /\ v_squared_distance (vS a) (vS b) = Some (r * r)).
Proof. exact length_distance. Qed.
Theorem C20_distance_metric : forall (a b c : list R), length a = length b -> length b = length c ->
  exists ab bc ac : R,
    v_distance (vS a) (vS b) = Some ab /\ v_distance (vS b) (vS c) = Some bc /\ v_distance (vS a) (vS c) = Some ac
    /\ v_distance (vS b) (vS a) = Some ab /\ (ab = 0 <-> a = b) /\ ac <= ab + bc.
Proof. exact distance_metric. Qed.
Theorem C20_cauchy_schwarz : forall (a b : list R), length a = length b ->
  exists d la lb : R, v_dot (vS a) (vS b) = Some d /\ v_length (vS a) = Some la /\ v_length (vS b) = Some lb
    /\ Rabs d <= la * lb.
Proof. exact cauchy_schwarz_model. Qed.
Theorem C20_cross_product : forall (a b c : list R) (k : R),
  length a = 3%nat -> length b = 3%nat -> length c = 3%nat ->
  let x := v_cross (vS a) (vS b) in
  v_dot x (vS a) = Some 0 /\ v_dot x (vS b) = Some 0
  /\ v_cross (vS b) (vS a) = v_neg x
  /\ v_cross (v_add (vS a) (vS b)) (vS c) = v_add (v_cross (vS a) (vS c)) (v_cross (vS b) (vS c))
  /\ v_cross (v_scale (vS a) (Some k)) (vS b) = v_scale x (Some k)
  /\ (exists n, v_squared_length x = Some n /\ n + rdot a b * rdot a b = rdot a a * rdot b b).
Proof. exact cross_product. Qed.
(** The orientation: x, y and z form a right handed system. *)
Theorem C20_cross_orientation :
  v_cross (vS [1; 0; 0]) (vS [0; 1; 0]) = vS [0; 0; 1] /\ v_cross (vS [0; 1; 0]) (vS [0; 0; 1]) = vS [1; 0; 0]
  /\ v_cross (vS [0; 0; 1]) (vS [1; 0; 0]) = vS [0; 1; 0].
Proof. exact cross_orientation. Qed.
Example C20_case : v_length (vS [3; 4]) = Some 5.
Proof.
  rewrite X_length. f_equal. unfold rnorm. simpl. replace (3 * 3 + (4 * 4 + 0)) with (5 * 5) by ring.
  apply sqrt_square. lra.
Qed.

(** C21 *)
Theorem C21_normalize_unit : forall a : list R, ~ Forall (fun x => x = 0) a ->
  exists u, v_normalize (vS a) = vS u /\ v_length (vS u) = Some 1 /\ length u = length a
    /\ exists k, 0 < k /\ a = rscale k u.
Proof. exact normalize_unit. Qed.
Theorem C21_normalize_zero : forall n, v_normalize (vS (repeat 0 n)) = v_nan n.
Proof. exact X_normalize_zero. Qed.
Example C21_case : exists u, v_normalize (vS [0; -3]) = vS u /\ v_length (vS u) = Some 1.
Proof.
  destruct (C21_normalize_unit [0; -3]) as (u & E & L & _).
  - intros H. inversion H; subst. inversion H3; subst. lra.
  - eauto.
Qed.

(** C22, for any scalar type *)
Theorem C22_swizzle_inverse : forall T (o : ops T) (p : list T) axis, length p = 3%nat -> (axis <= 3)%nat ->
  (do q <- v_swizzle p axis; v_unswizzle q axis) = Ret p /\ (do q <- v_unswizzle p axis; v_swizzle q axis) = Ret p.
Proof. exact swizzle_inverse. Qed.
Theorem C22_swizzle_last : forall T (o : ops T) (x y z : T),
  v_swizzle [x; y; z] 0 = Ret [y; z; x] /\ v_swizzle [x; y; z] 1 = Ret [z; x; y]
  /\ v_swizzle [x; y; z] 2 = Ret [x; y; z] /\ forall n, (3 < n)%nat -> v_swizzle [x; y; z] n = Assert.
Proof. exact swizzle_spec. Qed.
Example C22_case : (do q <- v_swizzle [D 1 0; D 2 0; D 3 0] 1; v_unswizzle q 1) = Ret [D 1 0; D 2 0; D 3 0].
Proof. reflexivity. Qed.

(** C23 *)
Theorem C23_homogeneous_round_trip : forall prec emax (Hprec : Prec_gt_0 prec) (Hmax : Prec_lt_emax prec emax)
  (p : list (binary_float prec emax)),
  v_to_cartesian (v_to_homogeneous p) = p /\ length (v_to_homogeneous p) = S (length p).
Proof.
  intros prec emax Hp Hm p. split; [ exact (F_homogeneous prec emax p) | ].
  unfold v_to_homogeneous, v_extend. rewrite map_id, app_length. simpl. lia.
Qed.
Theorem C23_cartesian_divides : forall (p : list R) w, w <> 0 ->
  v_to_cartesian (vS (p ++ [w])) = vS (map (fun x => x / w) p).
Proof.
  intros p w H. rewrite (X_cartesian p w H). f_equal. apply map_ext. intros. unfold Rdiv. apply Rmult_comm.
Qed.
Example C23_case : v_to_cartesian (v_to_homogeneous [D 1 (-1); B754_nan; B754_zero true]) = [D 1 (-1); B754_nan; B754_zero true].
Proof. apply C23_homogeneous_round_trip. Qed.

(** C24 *)
Theorem C24_colinear_exact : forall a b c : list R, length a = length b -> length a = length c ->
  (v_is_colinear (vS a) (vS b) (vS c) (Some 0) = true <-> collinear a b c).
Proof. exact colinear_exact. Qed.
Theorem C24_colinear_epsilon : forall (a b c : list R) e, length a = length b -> length a = length c -> 0 <= e ->
  (v_is_colinear (vS a) (vS b) (vS c) (Some e) = true <->
   rdot (rsub c a) (rsub c a) * rdot (rsub b a) (rsub b a)
   - rdot (rsub c a) (rsub b a) * rdot (rsub c a) (rsub b a) <= e).
Proof. exact colinear_eps. Qed.
Theorem C24_parallel : forall (a b : list R) e, length a = length b ->
  ~ Forall (fun x => x = 0) a -> ~ Forall (fun x => x = 0) b ->
  (v_is_parallel (vS a) (vS b) (Some e) = true <->
   let cos := rdot a b / (rnorm a * rnorm b) in Rabs (cos - 1) <= e \/ Rabs (cos + 1) <= e).
Proof. exact parallel_eps. Qed.
Theorem C24_parallel_exact : forall (a b : list R), length a = length b ->
  ~ Forall (fun x => x = 0) a -> ~ Forall (fun x => x = 0) b ->
  (v_is_parallel (vS a) (vS b) (Some 0) = true <-> exists k, k <> 0 /\ a = rscale k b).
Proof. exact parallel_exact. Qed.
Example C24_case : v_is_colinear (vS [0; 0; 0]) (vS [1; 2; 3]) (vS [-2; -4; -6]) (Some 0) = true
  /\ v_is_colinear (vS [0; 0]) (vS [1; 0]) (vS [0; 1]) (Some 0) = false.
Proof.
  split.
  - apply C24_colinear_exact; auto. exists [0; 0; 0], [1; 2; 3], 0, 1, (-2).
    unfold rpoint, radd, rscale. simpl. repeat split; repeat f_equal; ring.
  - apply not_true_is_false. intros H. apply C24_colinear_epsilon in H; auto; [ | lra ].
    unfold rsub in H. simpl in H. lra.
Qed.

(** C25 *)
Theorem C25_between_iff_on_segment : forall p s e : list R, length p = length s -> length p = length e ->
  collinear p s e ->
  exists r, v_is_between (vS p) (vS s) (vS e) = Ret r /\ (r = true <-> on_segment p s e).
Proof. exact X_is_between. Qed.
Example C25_case : v_is_between (vS [2; 4]) (vS [1; 2]) (vS [3; 6]) = Ret true
  /\ v_is_between (vS [4; 8]) (vS [1; 2]) (vS [3; 6]) = Ret false.
Proof.
  split.
  - destruct (C25_between_iff_on_segment [2; 4] [1; 2] [3; 6]) as (r & E & H); auto.
    + exists [0; 0], [1; 2], 2, 1, 3. unfold rpoint, radd, rscale. simpl. repeat split; repeat f_equal; ring.
    + rewrite E. f_equal. apply H. exists (/ 2). split; [ lra | ].
      unfold rlerp, rpoint, radd, rscale, rsub. simpl. repeat f_equal; field.
  - destruct (C25_between_iff_on_segment [4; 8] [1; 2] [3; 6]) as (r & E & H); auto.
    + exists [0; 0], [1; 2], 4, 1, 3. unfold rpoint, radd, rscale. simpl. repeat split; repeat f_equal; ring.
    + rewrite E. f_equal. apply not_true_is_false. intros Hr. apply H in Hr. destruct Hr as (t & Ht & Ep).
      unfold rlerp, rpoint, radd, rscale, rsub in Ep. simpl in Ep. injection Ep. intros. lra.
Qed.

(** C26 *)
Theorem C26_average_is_mean : forall n (l : list (list R)), l <> [] -> Forall (fun v => length v = n) l ->
  exists m, v_average (map vS l) = Ret (vS m) /\ length m = n
    /\ forall i, (i < n)%nat ->
       nth i m 0 = fold_right Rplus 0 (map (fun v => nth i v 0) l) / INR (length l).
Proof. exact average_is_mean. Qed.
Theorem C26_average_in_bounds : forall (lo hi : list R) (l : list (list R)), l <> [] -> length lo = length hi ->
  Forall (fun v => in_box v lo hi) l ->
  exists m, v_average (map vS l) = Ret (vS m) /\ in_box m lo hi.
Proof. exact X_average_in_box. Qed.
Theorem C26_average_order_irrelevant : forall n (l l' : list (list R)), Permutation l l' ->
  Forall (fun v => length v = n) l -> v_average (map vS l) = v_average (map vS l').
Proof. exact average_perm. Qed.
Theorem C26_average_empty : forall T (o : ops T), v_average (@nil (list T)) = Assert.
Proof. reflexivity. Qed.
Example C26_case : v_average (map vS [[1; 2]; [3; 6]]) = Ret (vS [2; 4]).
Proof.
  rewrite (X_average 2) by (try congruence; repeat constructor).
  unfold rscale, radd, rzero. simpl. unfold radd. simpl. repeat f_equal; field.
Qed.

(** C69 *)
Theorem C69_measure_angle : forall v axis up : list R,
  length v = 3%nat -> length axis = 3%nat -> length up = 3%nat ->
  rdot v v = 1 -> rdot axis axis = 1 -> rdot up up = 1 -> rdot v up = 0 -> rdot axis up = 0 ->
  exists th, measure_angle (vS v) (vS axis) (vS up) = Some th /\ 0 <= th < 2 * PI
    /\ v = radd (rscale (cos th) axis) (rscale (sin th) (rcross up axis)).
Proof. exact X_measure_angle. Qed.
Example C69_case : measure_angle (vS [0; -1; 0]) (vS [1; 0; 0]) (vS [0; 0; 1]) = Some (3 * (PI / 2)).
Proof. exact measure_angle_case. Qed.
Print Assumptions C19_componentwise.
Print Assumptions C19_vector_space.
Print Assumptions C19_ieee_commutative.
Print Assumptions C20_dot_inner_product.
Print Assumptions C20_length_distance.
Print Assumptions C20_distance_metric.
Print Assumptions C20_cauchy_schwarz.
Print Assumptions C20_cross_product.
Print Assumptions C20_cross_orientation.
Print Assumptions C21_normalize_unit.
Print Assumptions C21_normalize_zero.
Print Assumptions C22_swizzle_inverse.
Print Assumptions C22_swizzle_last.
Print Assumptions C23_homogeneous_round_trip.
Print Assumptions C23_cartesian_divides.
Print Assumptions C24_colinear_exact.
Print Assumptions C24_colinear_epsilon.
Print Assumptions C24_parallel.
Print Assumptions C24_parallel_exact.
Print Assumptions C25_between_iff_on_segment.
Print Assumptions C26_average_is_mean.
Print Assumptions C26_average_in_bounds.
Print Assumptions C26_average_order_irrelevant.
Print Assumptions C26_average_empty.
Print Assumptions C69_measure_angle.
