(** Proofs about polygon.h: center, translate, transform over the reals; conversion; counterexamples. *)
From Coq Require Import ZArith Reals List Bool Arith Lia Lra Permutation.
From Flocq Require Import Core BinarySingleNaN.
From Verif Require Import Ops M_scalar M_vec M_mat M_quat M_bbox M_matext M_polygon Inst_F Inst_XR Inst_conv S_order S_vec S_mat S_affine S_pgon.
From Verif Require Import P_ord P_compare P_order_final P_xr P_vec P_vec2 P_mat P_mat2 P_affine P_lists P_seg P_pgon.
Import ListNotations.

Local Open Scope R_scope.
(** ** center *)
Lemma center_acc : forall n l acc, length acc = n -> Forall (fun v => length v = n) l ->
  fold_left v_add (map vS l) (vS acc) = vS (radd acc (rsum n l)).
Proof.
  intros n. induction l as [|v l IH]; intros acc La H.
  - cbn [map fold_left rsum]. subst n. now rewrite radd_0_r.
  - inversion H as [|? ? Lv H']; subst. cbn [map fold_left]. rewrite X_add.
    rewrite IH; [ | now rewrite radd_length | exact H' ]. cbn [rsum]. now rewrite radd_assoc.
Qed.
Lemma pg_center_mean : forall n p, p <> [] -> Forall (fun v => length v = n) p ->
  exists m, pg_center n (map vS p) = vS m /\ length m = n
    /\ forall i, (i < n)%nat -> nth i m 0 = fold_right Rplus 0 (map (fun v => nth i v 0) p) / INR (length p).
Proof.
  intros n p N H. exists (rscale (/ INR (length p)) (rsum n p)). split.
  - unfold pg_center, pg_vertex_count. rewrite map_length.
    assert (Z : v_zero n = vS (rzero n)). { unfold v_zero, v_fill, rzero. clear. induction n as [|n IH]; cbn [repeat map]; [ reflexivity | ]. now rewrite <- IH. }
    rewrite Z, (center_acc n) by (auto; unfold rzero; apply repeat_length).
    assert (A : radd (rzero n) (rsum n p) = rsum n p).
    { rewrite radd_comm. generalize (radd_0_r (rsum n p)). now rewrite rsum_length. }
    rewrite A. change (cst (Z.of_nat (length p)) : XR) with (Some (IZR (Z.of_nat (length p)))). rewrite <- INR_IZR_INZ.
    apply X_div_s. apply not_0_INR. destruct p; [ congruence | discriminate ].
  - rewrite rscale_length, rsum_length by auto. split; auto. intros i Hi.
    rewrite <- (nth_rsum n) by auto. unfold rscale.
    rewrite (nth_indep _ 0 (/ INR (length p) * 0)) by (rewrite map_length, rsum_length; auto).
    rewrite (map_nth (fun x => / INR (length p) * x)). unfold Rdiv. apply Rmult_comm.
Qed.
(** ** translate *)
Lemma X_compare_translate : forall a b d, length a = length d -> length b = length d ->
  v_compare (vS (radd a d)) (vS (radd b d)) (cst 0) = v_compare (vS a) (vS b) (cst 0).
Proof.
  induction a as [|x a IH]; intros [|y b] [|z d] La Lb; try discriminate; [ reflexivity | ].
  unfold radd. cbn [zip map].
  rewrite !v_compare_cons. fold (radd a d) (radd b d). rewrite IH by (cbn [length] in *; lia).
  assert (C : ccmp (Some (x + z)) (Some (y + z)) = ccmp (Some x) (Some y)).
  { unfold ccmp. rewrite !X_nan. cbn. destruct (Rcompare_spec x y), (Rcompare_spec (x + z) (y + z)); try reflexivity; lra. }
  now rewrite C.
Qed.
Lemma pg_translate_spec : forall n vs d, Forall (fun v => length v = n) vs -> length d = n ->
  let p := pg_make (map vS vs) in
  exists q, p = map vS q /\ Permutation vs q /\ pg_translate p (vS d) = map vS (map (fun v => radd v d) q).
Proof.
  intros n vs d H Ld p.
  assert (D : vertices_of_dim n (map vS vs)).
  { unfold vertices_of_dim. rewrite Forall_map. revert H. apply Forall_impl. intros v E. cbv beta. now rewrite map_length. }
  destruct (pg_normal_form n _ D) as [R LF]. destruct R as (a & b & E1 & E2). fold p in LF, E2.
  apply map_eq_app in E1. destruct E1 as (a' & b' & -> & <- & <-). rewrite <- map_app in E2.
  exists (b' ++ a'). split; [ exact E2 | ]. split; [ apply Permutation_app_comm | ].
  assert (H' : Forall (fun v => length v = n) (b' ++ a')). { eapply Permutation_Forall; [ apply Permutation_app_comm | exact H ]. }
  rewrite E2 in *. clear E2 H D. clearbody p. clear p. generalize dependent (b' ++ a'). intros q LF H.
  unfold pg_translate. destruct (lists_elementwise _ _ (map vS q) (vS d) (Some 0) [] 0) as (-> & _).
  assert (EM : map (fun x => v_add x (vS d)) (map vS q) = map vS (map (fun v => radd v d) q)).
  { rewrite !map_map. apply map_ext. intros v. apply X_add. }
  rewrite EM. apply (make_least_id n).
  - unfold vertices_of_dim. rewrite Forall_map, Forall_map. revert H. apply Forall_impl. intros v E. cbv beta. rewrite map_length, radd_length; congruence.
  - destruct q as [|v q]; [ exact I | ]. cbn [map least_first] in *. intros w I. rewrite map_map in I. apply in_map_iff in I.
    destruct I as (u & <- & I). inversion H as [|? ? Lv H']; subst. rewrite Forall_forall in H'. assert (Lu := H' u I).
    rewrite <- v_compare_lt by (rewrite !map_length, !radd_length; congruence).
    rewrite X_compare_translate by congruence. rewrite v_compare_lt by (rewrite !map_length; congruence).
    apply LF. now apply in_map.
Qed.
(** ** transform *)
Lemma pg_transform_spec : forall n M p, affine n M -> Forall (fun v => length v = n) p ->
  exists q, pg_transform n (map vS p) (mS M) = map vS q /\ rotation_of (map (raffine n M) p) q
    /\ least_first (map vS q).
Proof.
  intros n M p A H. unfold pg_transform. destruct (lists_elementwise _ _ (map vS p) (vS []) (Some 0) (mS M) (S n)) as (_ & _ & _ & _ & _ & _ & _ & _ & _ & _ & -> & _).
  assert (E : map (m_mul_p (S n) (mS M)) (map vS p) = map vS (map (raffine n M) p)).
  { rewrite !map_map. apply map_ext_in. intros v I. rewrite Forall_forall in H. apply X_affine; auto. }
  rewrite E. assert (D : vertices_of_dim n (map vS (map (raffine n M) p))).
  { unfold vertices_of_dim. rewrite Forall_map, Forall_map. apply Forall_forall. intros v _. cbv beta. rewrite map_length. apply raffine_length. }
  destruct (pg_normal_form n _ D) as [(a & b & E1 & E2) LF].
  apply map_eq_app in E1. destruct E1 as (a' & b' & E3 & <- & <-). rewrite <- map_app in E2.
  exists (b' ++ a'). split; [ exact E2 | ]. split; [ exists a', b'; auto | ]. now rewrite <- E2.
Qed.
(** ** The converting constructor *)
Section Conv.
Variables p1 e1 p2 e2 : Z.
Context {Hp1 : Prec_gt_0 p1} {Hm1 : Prec_lt_emax p1 e1} {Hp2 : Prec_gt_0 p2} {Hm2 : Prec_lt_emax p2 e2}.
Lemma pg_convert_ok : (p1 <= p2)%Z -> (e1 <= e2)%Z -> forall n (p : list (list (binary_float p1 e1))),
  vertices_of_dim n p -> least_first p -> least_first (pg_convert (F_conv p2 e2 Hp2 Hm2) p).
Proof.
  intros P E n p D H. unfold pg_convert. rewrite push_loop_map. destruct p as [|v l]; [ exact I | ].
  cbn [map least_first] in *. intros w I. apply in_map_iff in I. destruct I as (u & <- & I).
  inversion D as [|? ? Lv D']; subst. rewrite Forall_forall in D'. assert (Lu := D' u I).
  rewrite <- v_compare_lt by (rewrite !map_length; congruence). rewrite (@conv_v_compare p1 e1 p2 e2 Hp1 Hm1 Hp2 Hm2 P E).
  rewrite v_compare_lt by congruence. now apply H.
Qed.
End Conv.
Lemma pg_convert_refuted : exists p : list (list double), p = pg_make p /\ ~ least_first (pg_convert to_single p).
Proof.
  exists [[D 1 0; D 5 0]; [D (2 ^ 40 + 1) (-40); D 0 0]]. split.
  - cbn [pg_make min_element].
    assert (H : v_lt [D (2 ^ 40 + 1) (-40); D 0 0] [D 1 0; D 5 0] = false) by (vm_compute; reflexivity).
    now rewrite H.
  - intros H. cbn [pg_convert push_loop map app fold_left least_first] in H. refine (H _ (or_introl eq_refl) _).
    rewrite <- v_compare_lt by reflexivity. apply Z.eqb_eq. vm_compute. reflexivity.
Qed.
(** ** Counterexamples *)
(** Two copies of the least vertex: rotations give different polygons. *)
Lemma pg_rotation_refuted : exists vs ws : list (list double), rotation_of vs ws /\ pg_eq (pg_make vs) (pg_make ws) = false.
Proof.
  exists [[D 0 0; D 0 0]; [D 0 0; D 0 0]; [D 1 0; D 0 0]], [[D 0 0; D 0 0]; [D 1 0; D 0 0]; [D 0 0; D 0 0]]. split.
  - exists [[D 0 0; D 0 0]], [[D 0 0; D 0 0]; [D 1 0; D 0 0]]. split; reflexivity.
  - vm_compute. reflexivity.
Qed.
Lemma neg_veq : forall a b : list double, length a = length b -> v_eq a b = false -> ~ vec_eq a b.
Proof. intros a b E H C. destruct (v_ops_spec a b E) as (_ & W & _). apply W in C. congruence. Qed.
(** More vertices, yet less. *)
Lemma pg_fewer_vertices_refuted : exists p q : list (list double), (length q < length p)%nat /\ pg_lt p q = true.
Proof.
  exists [[D 0 0; D 0 0]; [D 1 0; D 0 0]; [D 1 0; D 1 0]; [D 0 0; D 1 0]], [[D 1 0; D 0 0]; [D 2 0; D 0 0]; [D 2 0; D 1 0]].
  split; [ cbn; lia | vm_compute; reflexivity ].
Qed.
(** Triangles that differ in one vertex are unoriented-equal. *)
Definition cu_p : list (list double) := [[D 0 0; D 0 0]; [D 1 0; D 0 0]; [D 2 0; D 5 0]].
Definition cu_q : list (list double) := [[D 0 0; D 0 0]; [D 1 0; D 1 0]; [D 2 0; D 5 0]].
Definition ret_z (x : outcome Z) (z : Z) : bool := match x with Ret y => (y =? z)%Z | _ => false end.
Lemma ret_z_true : forall x z, ret_z x z = true -> x = Ret z.
Proof. intros [y| | |] z H; try discriminate. apply Z.eqb_eq in H. now subst. Qed.
Lemma make_bool : forall p : list (list double), match p with [] => true | v :: l => (min_element v 0 1 l =? 0)%nat end = true -> pg_make p = p.
Proof.
  intros [|v l] H; [ reflexivity | ]. apply Nat.eqb_eq in H. unfold pg_make. rewrite H. unfold rotate. cbn [skipn firstn]. apply app_nil_r.
Qed.
Lemma distinct_bool : forall p : list (list double), (forall n, vertices_of_dim n p ->
  forallb (fun i => forallb (fun j => negb (v_eq (nth i p []) (nth j p []))) (seq (S i) (length p - S i))) (seq 0 (length p)) = true -> distinct p).
Proof.
  induction p as [|v l IH]; intros n Dm H; [ constructor | ].
  inversion Dm as [|? ? Lv Dm']; subst. cbn [length seq forallb nth] in H. apply andb_prop in H. destruct H as [H1 H2].
  rewrite forallb_forall in H1. constructor.
  - apply Forall_forall. intros w I. destruct (In_nth _ _ [] I) as (k & K & <-).
    assert (W := H1 (S k)). cbn [nth] in W. apply neg_veq.
    + rewrite Forall_forall in Dm'. symmetry. now apply Dm'.
    + apply negb_true_iff. apply W. apply in_seq. lia.
  - apply (IH (length v)); [ exact Dm' | ]. apply forallb_forall. intros i I. rewrite forallb_forall in H2.
    assert (W := H2 (S i)). cbn [nth] in W. apply in_seq in I. assert (W' := W ltac:(apply in_seq; lia)).
    rewrite forallb_forall in W'. apply forallb_forall. intros j J. apply in_seq in J. apply (W' (S j)). apply in_seq. lia.
Qed.
Lemma pg_unoriented_refuted : exists p q : list (list double),
  pg_make p = p /\ pg_make q = q /\ distinct p /\ distinct q
  /\ pg_compare_unoriented p q (cst 0) = Ret 0%Z /\ ~ seq_eq p q /\ ~ reverse_order p q.
Proof.
  exists cu_p, cu_q. split; [ | split; [ | split; [ | split; [ | split; [ | split ] ] ] ] ].
  - apply make_bool. vm_compute. reflexivity.
  - apply make_bool. vm_compute. reflexivity.
  - apply (distinct_bool _ 2). { repeat constructor. } vm_compute. reflexivity.
  - apply (distinct_bool _ 2). { repeat constructor. } vm_compute. reflexivity.
  - apply ret_z_true. vm_compute. reflexivity.
  - intros H. inversion H as [|? ? ? ? _ H2]; subst. inversion H2 as [|? ? ? ? H3 _]; subst.
    revert H3. apply neg_veq; [ reflexivity | ]. vm_compute. reflexivity.
  - intros [_ H]. inversion H as [|? ? ? ? H3 _]; subst.
    revert H3. apply neg_veq; [ reflexivity | ]. vm_compute. reflexivity.
Qed.
(** With a repeated vertex a polygon and its reverse are not unoriented-equal. *)
Lemma pg_unoriented_repeated_refuted : exists p q : list (list double),
  pg_make p = p /\ q = pg_invert p /\ exists z, z <> 0%Z /\ pg_compare_unoriented p q (cst 0) = Ret z.
Proof.
  exists [[D 0 0; D 0 0]; [D 1 0; D 0 0]; [D 2 0; D 1 0]; [D 3 0; D 1 0]; [D 1 0; D 0 0]].
  eexists. split; [ apply make_bool; vm_compute; reflexivity | ]. split; [ reflexivity | ].
  exists (-1)%Z. split; [ discriminate | ]. apply ret_z_true. vm_compute. reflexivity.
Qed.
