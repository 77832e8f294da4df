(** Final theorems: polygons (C61, C62). *)
From Coq Require Import ZArith Reals List Bool Lia Lra Arith Permutation.
From Flocq Require Import Core BinarySingleNaN.
From Verif Require Import Ops M_scalar M_vec M_mat M_matext M_polygon Inst_F Inst_XR Inst_conv S_order S_vec S_mat S_affine S_pgon.
From Verif Require Import P_ord P_compare P_pgon P_pgon2.
Import ListNotations.
Local Open Scope R_scope.
Notation vS := (map (@Some R)).
Notation mS := (map (map (@Some R))).

Section IEEE.
Variables prec emax : Z.
Context {Hprec : FLX.Prec_gt_0 prec} {Hmax : Prec_lt_emax prec emax}.
Notation fl := (binary_float prec emax).
Notation vertices := (list (list (binary_float prec emax))).

(** C61. NaN components are allowed: they count as greater than all numbers (C01). *)
Theorem C61_first_vertex_least : forall n (vs : vertices), vertices_of_dim n vs ->
  rotation_of vs (pg_make vs) /\ least_first (pg_make vs).
Proof. exact pg_normal_form. Qed.
(** Missing: sequences in which a vertex occurs twice (refuted below). *)
Theorem C61_rotations_equal_partial : forall n (vs ws : vertices), vertices_of_dim n vs -> distinct vs -> rotation_of vs ws ->
  pg_make vs = pg_make ws.
Proof. exact pg_rotation_equal. Qed.
Theorem C61_invert : forall n (vs : vertices), vertices_of_dim n vs -> let p := pg_make vs in
  pg_invert (pg_invert p) = p /\ Permutation (pg_invert p) p /\ least_first (pg_invert p)
  /\ (forall v l, p = v :: l -> pg_invert p = v :: rev l).
Proof. exact pg_invert_spec. Qed.
Theorem C61_operators : forall n (p q : vertices), vertices_of_dim n p -> vertices_of_dim n q ->
  (pg_lt p q = true <-> seq_lt p q) /\ (pg_eq p q = true <-> seq_eq p q) /\ (pg_gt p q = true <-> seq_lt q p)
  /\ (pg_ne p q = true <-> ~ seq_eq p q)
  /\ (pg_le p q = true <-> seq_lt p q \/ seq_eq p q) /\ (pg_ge p q = true <-> seq_lt q p \/ seq_eq p q).
Proof. exact pg_ops_spec. Qed.
Theorem C61_total_order :
  (forall p q : vertices,
    (pg_lt p q = true /\ pg_eq p q = false /\ pg_gt p q = false)
    \/ (pg_lt p q = false /\ pg_eq p q = true /\ pg_gt p q = false)
    \/ (pg_lt p q = false /\ pg_eq p q = false /\ pg_gt p q = true))
  /\ forall n (p q r : vertices), vertices_of_dim n p -> vertices_of_dim n q -> vertices_of_dim n r ->
    (pg_lt p q = true -> pg_lt q r = true -> pg_lt p r = true)
    /\ (pg_eq p q = true -> pg_eq q r = true -> pg_eq p r = true)
    /\ pg_lt p p = false /\ pg_eq p p = true /\ pg_eq q p = pg_eq p q /\ pg_gt q p = pg_lt p q.
Proof. exact (conj pg_total pg_order_trans). Qed.
Theorem C61_has_vertex : forall n (p : vertices) v, vertices_of_dim n p -> length v = n ->
  (pg_has_vertex p v = true <-> exists w, In w p /\ vec_eq w v).
Proof. exact pg_has_vertex_spec. Qed.
Theorem C61_get_vertices : forall ps : list vertices, pg_get_vertices ps = concat ps.
Proof. exact pg_get_vertices_spec. Qed.

(** C62 *)
Theorem C62_swap_negates : forall n (p q : vertices), vertices_of_dim n p -> vertices_of_dim n q ->
  exists z, pg_compare_unoriented p q (cst 0) = Ret z /\ pg_compare_unoriented q p (cst 0) = Ret (- z)%Z
    /\ (z = -1 \/ z = 0 \/ z = 1)%Z.
Proof. exact unoriented_anti. Qed.
(** The full property has "same or reverse order" only; polygons that differ in just the second vertex
    are reported equal, too. Missing: polygons with a repeated vertex (both refuted below). *)
Theorem C62_zero_partial : forall n (p q : vertices), vertices_of_dim n p -> vertices_of_dim n q -> distinct p ->
  (pg_compare_unoriented p q (cst 0) = Ret 0%Z <-> seq_eq p q \/ reverse_order p q \/ same_except_second p q).
Proof. exact unoriented_zero. Qed.
End IEEE.

(** C61: converting to a wider format keeps the normal form, to a narrower one not. *)
Theorem C61_convert_partial : forall p1 e1 p2 e2 : Z,
  forall (Hp1 : Prec_gt_0 p1) (Hm1 : Prec_lt_emax p1 e1) (Hp2 : Prec_gt_0 p2) (Hm2 : Prec_lt_emax p2 e2),
  (p1 <= p2)%Z -> (e1 <= e2)%Z -> forall n (p : list (list (binary_float p1 e1))),
  vertices_of_dim n p -> least_first p -> least_first (pg_convert (F_conv p2 e2 Hp2 Hm2) p).
Proof. intros p1 e1 p2 e2 Hp1 Hm1 Hp2 Hm2. exact (pg_convert_ok p1 e1 p2 e2). Qed.
Theorem C61_convert_refuted : exists p : list (list double), p = pg_make p /\ ~ least_first (pg_convert to_single p).
Proof. exact pg_convert_refuted. Qed.
Theorem C61_rotations_equal_refuted : exists vs ws : list (list double), rotation_of vs ws /\ pg_eq (pg_make vs) (pg_make ws) = false.
Proof. exact pg_rotation_refuted. Qed.
(** The comment on [compare] says that a polygon with fewer vertices is less. *)
Theorem C61_fewer_vertices_refuted : exists p q : list (list double), (length q < length p)%nat /\ pg_lt p q = true.
Proof. exact pg_fewer_vertices_refuted. Qed.
Theorem C62_zero_refuted : exists p q : list (list double),
  pg_make p = p /\ pg_make q = q /\ distinct p /\ distinct q
  /\ pg_compare_unoriented p q (cst 0) = Ret 0%Z /\ ~ seq_eq p q /\ ~ reverse_order p q.
Proof. exact pg_unoriented_refuted. Qed.
Theorem C62_repeated_vertex_refuted : exists p q : list (list double),
  pg_make p = p /\ q = pg_invert p /\ exists z, z <> 0%Z /\ pg_compare_unoriented p q (cst 0) = Ret z.
Proof. exact pg_unoriented_repeated_refuted. Qed.

(** C61 over the reals: center, translate and transform. *)
Theorem C61_center : forall n p, p <> [] -> Forall (fun v => length v = n) p ->
  exists m, pg_center n (map vS p) = vS m /\ length m = n
    /\ forall i, (i < n)%nat -> nth i m 0 = fold_right Rplus 0 (map (fun v => nth i v 0) p) / INR (length p).
Proof. exact pg_center_mean. Qed.
Theorem C61_translate : forall n vs d, Forall (fun v => length v = n) vs -> length d = n ->
  let p := pg_make (map vS vs) in
  exists q, p = map vS q /\ Permutation vs q /\ pg_translate p (vS d) = map vS (map (fun v => radd v d) q).
Proof. exact pg_translate_spec. Qed.
Theorem C61_transform : forall n M p, affine n M -> Forall (fun v => length v = n) p ->
  exists q, pg_transform n (map vS p) (mS M) = map vS q /\ rotation_of (map (raffine n M) p) q
    /\ least_first (map vS q).
Proof. exact pg_transform_spec. Qed.

(** ** Instances *)
Example ex_C61_square : let vs := [[D 1 0; D 0 0]; [D 1 0; D 1 0]; [D 0 0; D 1 0]; [D 0 0; D 0 0]] in
  vertices_of_dim 2 vs /\ distinct vs
  /\ pg_make vs = [[D 0 0; D 0 0]; [D 1 0; D 0 0]; [D 1 0; D 1 0]; [D 0 0; D 1 0]].
Proof.
  cbv zeta. split; [ repeat constructor | split ].
  - apply (distinct_bool _ 2); [ repeat constructor | vm_compute; reflexivity ].
  - cbn [pg_make]. match goal with |- rotate ?k _ = _ => assert (H : (k =? 3)%nat = true) by (vm_compute; reflexivity) end.
    apply Nat.eqb_eq in H. rewrite H. reflexivity.
Qed.
Example ex_C62_reverse : exists p q : list (list double), vertices_of_dim 2 p /\ vertices_of_dim 2 q /\ distinct p
  /\ reverse_order p q /\ ~ seq_eq p q.
Proof.
  exists cu_p, (pg_invert cu_p). assert (E : pg_invert cu_p = [[D 0 0; D 0 0]; [D 2 0; D 5 0]; [D 1 0; D 0 0]]).
  { unfold pg_invert, cu_p. cbn [length Nat.ltb Nat.leb rev app]. apply make_bool. vm_compute. reflexivity. }
  rewrite E. split; [ repeat constructor | ]. split; [ repeat constructor | ].
  split; [ apply (distinct_bool _ 2); [ repeat constructor | vm_compute; reflexivity ] | ]. split.
  - assert (R : forall v : list double, vec_eq v v). { intros v. apply v_compare_eq; [ reflexivity | apply v_compare_refl ]. }
    split; [ apply R | ]. repeat (constructor; [ apply R | ]). constructor.
  - intros H. inversion H as [|? ? ? ? _ H2]; subst. inversion H2 as [|? ? ? ? H3 _]; subst.
    revert H3. apply neg_veq; [ reflexivity | ]. vm_compute. reflexivity.
Qed.
Example ex_C61_center : exists m, pg_center 2 (map vS [[0; 0]; [4; 0]; [2; 3]]) = vS m /\ nth 0 m 0 = 2 /\ nth 1 m 0 = 1.
Proof.
  destruct (pg_center_mean 2 [[0; 0]; [4; 0]; [2; 3]]) as (m & E & _ & N); [ discriminate | repeat constructor | ].
  exists m. split; [ exact E | ]. rewrite !N by lia. cbn. lra.
Qed.
Print Assumptions C61_first_vertex_least.
Print Assumptions C61_rotations_equal_partial.
Print Assumptions C61_invert.
Print Assumptions C61_operators.
Print Assumptions C61_total_order.
Print Assumptions C61_has_vertex.
Print Assumptions C61_get_vertices.
Print Assumptions C62_swap_negates.
Print Assumptions C62_zero_partial.
Print Assumptions C61_convert_partial.
Print Assumptions C61_convert_refuted.
Print Assumptions C61_rotations_equal_refuted.
Print Assumptions C61_fewer_vertices_refuted.
Print Assumptions C62_zero_refuted.
Print Assumptions C62_repeated_vertex_refuted.
Print Assumptions C61_center.
Print Assumptions C61_translate.
Print Assumptions C61_transform.
