(** Proofs about planes and about transforming lines, rays, segments and planes (C49-C51, C73). *)
From Coq Require Import ZArith Reals List Bool Lia Lra Psatz.
From Flocq Require Import Core BinarySingleNaN.
From Verif Require Import Ops M_scalar M_vec M_mat M_matext M_geom Inst_F Inst_XR S_order S_vec S_mat S_affine S_geom.
From Verif Require Import P_ord P_compare P_order_final P_xr P_vec P_vec2 P_mat P_affine P_ieee P_bbox3 P_line P_seg.
Import ListNotations.
Local Open Scope R_scope.
Notation mS := (map (map (@Some R))).

(** ** Queries *)
Lemma X_pdist : forall p q, pl_point_distance (plane_lift p) (vS q) = Some (rdot q (pl_normal p) - pl_dist p).
Proof. intros p q. unfold pl_point_distance, plane_lift. cbn [pl_dist pl_normal]. rewrite X_dot. reflexivity. Qed.
Lemma X_pproj : forall p q,
  pl_project_point (plane_lift p) (vS q)
  = vS (radd (rsub q (rscale (rdot q (pl_normal p)) (pl_normal p))) (rscale (pl_dist p) (pl_normal p))).
Proof. intros p q. unfold pl_project_point, plane_lift. cbn [pl_dist pl_normal]. now rewrite X_dot, !X_scale_l, X_sub, X_add. Qed.

Lemma rdist_foot : forall a n t, length a = length n -> rdot n n = 1 -> rdist a (rsub a (rscale t n)) = Rabs t.
Proof.
  intros a n t L U. unfold rdist, rnorm. replace (rdot _ _) with (t * t).
  - change (t * t) with (Rsqr t). apply sqrt_Rsqr_abs.
  - dots. rewrite U, !(rdot_comm n a). ring.
Qed.
(** The signed distance, the nearest point and the side. *)
Lemma plane_point_ok : forall n p q eps, is_plane n p -> length q = n -> 0 <= eps ->
  exists t f, pl_point_distance (plane_lift p) (vS q) = Some t
    /\ pl_project_point (plane_lift p) (vS q) = vS f
    /\ nearest (on_plane n p) q f /\ (forall f', nearest (on_plane n p) q f' -> f' = f)
    /\ q = rpoint f (pl_normal p) t /\ Rabs t = rdist q f
    /\ (pl_point_status (plane_lift p) (vS q) (Some eps) = Above <-> eps < t)
    /\ (pl_point_status (plane_lift p) (vS q) (Some eps) = Below <-> t < - eps)
    /\ (pl_point_status (plane_lift p) (vS q) (Some eps) = Inside <-> - eps <= t <= eps).
Proof.
  intros n [d v] q eps [L U] LQ HE. cbn [pl_dist pl_normal] in *.
  set (t := rdot q v - d). set (f := rsub q (rscale t v)). exists t, f.
  assert (EF : f = radd (rsub q (rscale (rdot q v) v)) (rscale d v)). { unfold f, t. vext. ring. }
  assert (LF : length f = n) by (unfold f; len).
  assert (OF : on_plane n (Pl d v) f).
  { split; [ exact LF | ]. cbn [pl_dist pl_normal]. unfold f, t. dots. rewrite U. ring. }
  assert (PY : forall g, on_plane n (Pl d v) g -> rdot (rsub q g) (rsub q g) = t * t + rdot (rsub f g) (rsub f g)).
  { intros g [LG EG]. cbn [pl_dist pl_normal] in EG. replace (rsub q g) with (radd (rscale t v) (rsub f g)) by (unfold f; vext; ring).
    dots. rewrite U. destruct OF as [_ OF]. cbn [pl_dist pl_normal] in OF.
    rewrite !(rdot_comm v), OF, EG. ring. }
  split; [ apply X_pdist | ]. split; [ rewrite X_pproj; cbn [pl_dist pl_normal]; now rewrite EF | ].
  assert (DF : rdot (rsub q f) (rsub q f) = t * t).
  { rewrite (PY f OF), rsub_self, rdot_rzero. ring. }
  split; [ | split; [ | split; [ | split ] ] ].
  - split; [ exact OF | ]. intros g G. apply rdist_le. rewrite DF, (PY g G). assert (H := rdot_nonneg (rsub f g)). lra.
  - intros g [G1 G2]. specialize (G2 f OF). unfold rdist, rnorm in G2. apply sqrt_le_0 in G2; try apply rdot_nonneg.
    rewrite DF, (PY g G1) in G2. symmetry. destruct G1 as [G1 _]. apply rsub_eq; [ congruence | ].
    rewrite (rdot_zero (rsub f g)) at 1. { now rewrite rsub_length by congruence. } assert (H := rdot_nonneg (rsub f g)). lra.
  - unfold f. vext. ring.
  - unfold f. symmetry. apply rdist_foot; congruence.
  - unfold pl_point_status. rewrite X_pdist. cbn [pl_dist pl_normal]. fold t. cbn [o_lt o_neg XRops Xcmp X1].
    destruct (Rlt_bool_spec eps t); [ intuition (try easy; try lra) | ].
    destruct (Rlt_bool_spec t (- eps)); intuition (try easy; try lra).
Qed.
Lemma anchor_ok : forall n p, is_plane n p -> exists a, pl_anchor (plane_lift p) = vS a
  /\ nearest (on_plane n p) (rzero n) a /\ Rabs (pl_dist p) = rnorm a.
Proof.
  intros n p HP. destruct (plane_point_ok n p (rzero n) 0 HP) as (t & f & E1 & E2 & E3 & _ & E5 & E6 & _); [ apply repeat_length | lra | ].
  rewrite X_pdist, rdot_rzero in E1. injection E1 as E1. rewrite X_pproj, rdot_rzero, rscale_0 in E2. apply map_Some_inj in E2.
  exists f. destruct p as [d v], HP as [L U]. unfold pl_anchor, plane_lift. cbn [pl_dist pl_normal] in *. rewrite X_scale.
  assert (EF : rscale d v = f).
  { rewrite <- E2. rewrite L. unfold rzero. vext. rewrite !nth_repeat. ring. }
  rewrite EF. split; [ reflexivity | ]. split; [ exact E3 | ].
  rewrite <- EF, rnorm_scale. unfold rnorm. rewrite U, sqrt_1. ring.
Qed.
(** The plane through a point with a given normal. *)
Lemma make_plane_ok : forall n a v, length a = n -> length v = n ->
  exists p, pl_make (vS a) (vS v) = plane_lift p /\ pl_normal p = v /\ on_plane n p a.
Proof. intros n a v L1 L2. exists (Pl (rdot a v) v). unfold pl_make, plane_lift. rewrite X_dot. repeat split; auto. Qed.

(** Projection along a direction. *)
Lemma project_dir_ok : forall n p q d, is_plane n p -> length q = n -> length d = n ->
  (/ 1000 < Rabs (rdot d (pl_normal p)) ->
     exists f s, pl_project_point_dir (plane_lift p) (vS q) (vS d) = vS f /\ on_plane n p f /\ f = rpoint q d s)
  /\ (Rabs (rdot d (pl_normal p)) <= / 1000 -> pl_project_point_dir (plane_lift p) (vS q) (vS d) = repeat None n).
Proof.
  intros n [k v] q d [L U] L1 L2. cbn [pl_dist pl_normal] in *. unfold pl_project_point_dir, plane_lift, almost_zero. cbn [pl_dist pl_normal].
  rewrite X_dot, X_lit by lia. rewrite X_is_zero by (simpl; lra). replace (IZR 1 / IZR 1000) with (/ 1000) by (simpl; lra). split; intros H.
  - rewrite Rle_bool_false by exact H. rewrite X_scale_l, X_sub, X_dot.
    assert (N : rdot d v <> 0). { intros E. rewrite E, Rabs_R0 in H. lra. }
    rewrite X_div by exact N. cbv zeta. rewrite X_scale, X_add. eexists _, _. split; [ reflexivity | ]. split; [ | unfold rpoint; reflexivity ].
    split; [ len | ]. cbn [pl_dist pl_normal]. dots. rewrite U. field. exact N.
  - rewrite Rle_bool_true by exact H. unfold v_nan, v_fill. rewrite map_length, L1. reflexivity.
Qed.
Lemma project_vector_ok : forall n p w, is_plane n p -> length w = n ->
  exists f, pl_project_vector (plane_lift p) (vS w) = vS f /\ rdot f (pl_normal p) = 0
    /\ f = rsub w (rscale (rdot w (pl_normal p)) (pl_normal p)).
Proof.
  intros n [k v] w [L U] L1. cbn [pl_dist pl_normal] in *. unfold pl_project_vector, pl_anchor. change (pl_normal (plane_lift (Pl k v))) with (vS v).
  change (pl_dist (plane_lift (Pl k v))) with (Some k). rewrite X_scale, X_add, X_pproj. cbn [pl_dist pl_normal]. rewrite X_sub.
  eexists. split; [ reflexivity | ]. assert (E : rdot (radd (rscale k v) w) v = k + rdot w v) by (dots; rewrite U; ring). rewrite E.
  assert (E2 : rsub (radd (rsub (radd (rscale k v) w) (rscale (k + rdot w v) v)) (rscale k v)) (rscale k v) = rsub w (rscale (rdot w v) v)) by (vext; ring).
  rewrite E2. split; [ | reflexivity ]. dots. rewrite U. ring.
Qed.

(** The missing coordinate. *)
Lemma at_loop : forall v q axis i t, length v = S (length q) -> (i <= axis)%nat -> (axis - i < length v)%nat ->
  pl_at_loop axis i (vS v) (vS q) (Some t) = Some (t + rdot (insert (axis - i) 0 q) v).
Proof.
  assert (A : forall v q axis i t, length v = length q -> (axis < i)%nat ->
    pl_at_loop axis i (vS v) (vS q) (Some t) = Some (t + rdot q v)).
  { induction v as [|x v IH]; intros [|y q] axis i t L H; try discriminate; [ simpl; f_equal; ring | ].
    cbn [map pl_at_loop]. replace (i =? axis)%nat with false by (symmetry; apply Nat.eqb_neq; lia). cbn [negb tl hd].
    change (o_add (Some t) (o_mul (Some x) (Some y))) with (Some (t + x * y)). rewrite IH by (try lia; now injection L).
    f_equal. simpl. ring. }
  induction v as [|x v IH]; intros q axis i t L H1 H2; [ simpl in H2; lia | ]. cbn [map pl_at_loop].
  destruct (Nat.eqb_spec i axis) as [->|N]; cbn [negb].
  - rewrite A by (try lia; now injection L). f_equal. rewrite Nat.sub_diag. unfold insert. cbn [firstn skipn app rdot]. ring.
  - destruct q as [|y q]. { simpl in L, H2. lia. }
    cbn [tl hd map]. change (o_add (Some t) (o_mul (Some x) (Some y))) with (Some (t + x * y)).
    simpl in L, H2. rewrite IH by (simpl; lia). f_equal. replace (axis - i)%nat with (S (axis - S i)) by lia.
    unfold insert. cbn [firstn skipn app rdot]. ring.
Qed.
Lemma insert_length : forall i x q, (i <= length q)%nat -> length (insert i x q) = S (length q).
Proof. intros. unfold insert. rewrite app_length, firstn_length. cbn [length]. rewrite skipn_length. lia. Qed.
Lemma rdot_insert : forall i x q v, (i <= length q)%nat -> length v = S (length q) ->
  rdot (insert i x q) v = rdot (insert i 0 q) v + x * nth i v 0.
Proof.
  unfold insert. induction i; intros x q v H L; destruct v as [|y v]; try discriminate.
  - cbn [firstn skipn app rdot nth]. ring.
  - destruct q as [|z q]; [ simpl in H; lia | ]. cbn [firstn skipn app rdot nth]. simpl in H, L. rewrite (IHi x) by lia. ring.
Qed.
Lemma at_ok : forall n p q axis, length (pl_normal p) = S n -> length q = n -> (axis <= n)%nat ->
  (nth axis (pl_normal p) 0 <> 0 -> exists t, pl_at (plane_lift p) (vS q) axis = Some t
     /\ forall s, on_plane (S n) p (insert axis s q) <-> s = t)
  /\ (nth axis (pl_normal p) 0 = 0 -> pl_at (plane_lift p) (vS q) axis = Some 0).
Proof.
  intros n [k v] q axis L1 L2 H. cbn [pl_dist pl_normal] in *. unfold pl_at, plane_lift. cbn [pl_dist pl_normal].
  rewrite X_get. cbn [o_eq XRops Xcmp cst o_of_Z]. split; intros N.
  - rewrite Req_bool_false by exact N. change (cst 0 : XR) with (Some 0). rewrite at_loop by lia. rewrite Nat.sub_0_r.
    cbn [o_sub XRops X2]. rewrite X_div by exact N. eexists. split; [ reflexivity | ]. intros s. unfold on_plane. cbn [pl_dist pl_normal].
    rewrite rdot_insert by lia. split.
    + intros [_ E]. apply Rmult_eq_reg_r with (nth axis v 0); [ | exact N ]. unfold Rdiv. rewrite Rmult_assoc, Rinv_l by exact N. lra.
    + intros ->. split; [ rewrite insert_length; lia | ]. field. exact N.
  - rewrite Req_bool_true by exact N. reflexivity.
Qed.

(** ** Flipping in floating point arithmetic *)
Section Flip.
Variables prec emax : Z.
Context {Hprec : Prec_gt_0 prec} {Hmax : Prec_lt_emax prec emax}.
Notation fl := (binary_float prec emax).
#[local] Existing Instance fexp_correct.

(** Opposite values, up to the sign of zero. *)
Definition opp_of (x y : fl) : Prop :=
  match x, y with
  | B754_nan, B754_nan => True
  | B754_infinity s, B754_infinity t => s = negb t
  | B754_nan, _ | _, B754_nan | B754_infinity _, _ | _, B754_infinity _ => False
  | _, _ => B2R x = - B2R y
  end.
Lemma opp_of_finite : forall x y : fl, is_finite x = true -> is_finite y = true -> (opp_of x y <-> B2R x = - B2R y).
Proof. intros [| | |] [| | |] H1 H2; try discriminate; reflexivity. Qed.
Lemma opp_of_opp : forall x : fl, opp_of (Bopp x) x.
Proof.
  intros x. destruct (is_finite x) eqn:Fx.
  - apply opp_of_finite; [ now rewrite is_finite_Bopp | exact Fx | ]. now rewrite B2R_Bopp.
  - destruct x; try discriminate; simpl; auto.
Qed.
Lemma opp_add : forall a b a' b' : fl, opp_of a a' -> opp_of b b' -> opp_of (o_add a b) (o_add a' b').
Proof.
  intros a b a' b' HA HB.
  destruct (is_finite a) eqn:Fa.
  - assert (Fa' : is_finite a' = true) by (destruct a, a'; simpl in *; auto; contradiction).
    destruct (is_finite b) eqn:Fb.
    + assert (Fb' : is_finite b' = true) by (destruct b, b'; simpl in *; auto; contradiction).
      apply opp_of_finite in HA; [ | assumption .. ]. apply opp_of_finite in HB; [ | assumption .. ].
      assert (C := Bplus_correct prec emax _ _ mode_NE a b Fa Fb). assert (C' := Bplus_correct prec emax _ _ mode_NE a' b' Fa' Fb').
      change (o_add a b) with (Bplus mode_NE a b). change (o_add a' b') with (Bplus mode_NE a' b').
      replace (B2R a + B2R b) with (- (B2R a' + B2R b')) in C by lra. cbn [round_mode] in C, C'.
      rewrite round_NE_opp, Rabs_Ropp in C.
      destruct (Rlt_bool_spec (Rabs (round radix2 (SpecFloat.fexp prec emax) ZnearestE (B2R a' + B2R b'))) (bpow radix2 emax)) as [L|L].
      * destruct C as (C1 & C2 & _), C' as (C1' & C2' & _). apply opp_of_finite; auto. now rewrite C1, C1'.
      * destruct C as (C1 & C2), C' as (C1' & C2'). 
        assert (NZ : B2R a' + B2R b' <> 0).
        { intros E. rewrite E, round_0, Rabs_R0 in L by typeclasses eauto. assert (P := bpow_gt_0 radix2 emax). lra. }
        assert (SG : Bsign a = negb (Bsign a')).
        { assert (Sa : B2R a' <> 0).
          { intros E. assert (G := generic_format_B2R prec emax b'). rewrite E, Rplus_0_l, round_generic in L by (auto with typeclass_instances).
            assert (M := abs_B2R_lt_emax prec emax b'). lra. }
          assert (Q1 := sign_le prec emax a Fa). assert (Q2 := sign_le prec emax a' Fa').
          destruct (Bsign a), (Bsign a'); try reflexivity; exfalso; apply Sa; lra. }
        destruct (Bplus mode_NE a b), (Bplus mode_NE a' b'); cbn in C1, C1'; try discriminate. 
        injection C1 as ->. injection C1' as ->. simpl. now rewrite SG.
    + destruct a, a', b, b'; simpl in *; try discriminate; try contradiction; auto.
  - destruct a as [|[|]| |], a' as [|[|]| |], b as [|[|]| |], b' as [|[|]| |]; simpl in *; try discriminate; try contradiction; auto.
Qed.
Lemma opp_mul : forall a b : fl, opp_of (o_mul a (Bopp b)) (o_mul a b).
Proof.
  intros a b. destruct (is_finite a) eqn:Fa, (is_finite b) eqn:Fb.
  2-4: destruct a as [[|]|[|]| |[|]], b as [[|]|[|]| |[|]]; try discriminate; cbn; auto.
  assert (C := Bmult_correct prec emax _ _ mode_NE a b). assert (C' := Bmult_correct prec emax _ _ mode_NE a (Bopp b)).
  change (o_mul a b) with (Bmult mode_NE a b). change (o_mul a (Bopp b)) with (Bmult mode_NE a (Bopp b)).
  rewrite B2R_Bopp, is_finite_Bopp in C'. replace (B2R a * - B2R b) with (- (B2R a * B2R b)) in C' by ring.
  cbn [round_mode] in C, C'. rewrite round_NE_opp, Rabs_Ropp in C'.
  destruct (Rlt_bool_spec (Rabs (round radix2 (SpecFloat.fexp prec emax) ZnearestE (B2R a * B2R b))) (bpow radix2 emax)) as [L|L].
  - destruct C as (C1 & C2 & _), C' as (C1' & C2' & _). rewrite Fa, Fb in C2, C2'. apply opp_of_finite; auto. now rewrite C1, C1'.
  - assert (SB : Bsign (Bopp b) = negb (Bsign b)) by (destruct b; try discriminate; reflexivity). rewrite SB in C'.
    destruct (Bmult mode_NE a b), (Bmult mode_NE a (Bopp b)); cbn in C, C'; try discriminate.
    injection C as ->. injection C' as ->. simpl. now destruct (Bsign a), (Bsign b).
Qed.
Lemma opp_dot : forall q v : list fl, opp_of (v_dot q (v_neg v)) (v_dot q v).
Proof.
  intros q v. unfold v_dot, v_neg.
  assert (A : forall q v (r r' : fl), opp_of r r' ->
    opp_of (fold_left (fun result p => o_add result (o_mul (fst p) (snd p))) (combine q (map o_neg v)) r)
           (fold_left (fun result p => o_add result (o_mul (fst p) (snd p))) (combine q v) r')).
  { induction q0 as [|x q0 IH]; intros [|y v0] r r' H; try exact H. cbn [map combine fold_left fst snd]. apply IH.
    apply opp_add; [ exact H | apply opp_mul ]. }
  apply A. unfold cst. cbn [o_of_Z Fops]. 
  destruct (F_of_Z_exact prec emax 0) as [C1 C2]. { apply generic_format_0. } { rewrite Rabs_R0. apply bpow_gt_0. }
  apply opp_of_finite; auto. rewrite C2. ring.
Qed.
Lemma opp_key : forall x y : fl, opp_of x y -> is_nan x = is_nan y /\ (is_nan y = false -> key x = - key y).
Proof.
  intros x y H. rewrite !F_is_nan. change (key x) with (Fkey prec emax x). change (key y) with (Fkey prec emax y).
  destruct (is_finite y) eqn:Fy.
  - assert (Fx : is_finite x = true) by (destruct x, y; simpl in *; auto; contradiction). apply opp_of_finite in H; auto.
    rewrite !Fkey_finite by assumption. destruct x, y; try discriminate; simpl; auto.
  - destruct x as [|[|]| |], y as [|[|]| |]; try discriminate; simpl in *; try contradiction; try discriminate; split; auto; intros; try discriminate; unfold Fkey; lra.
Qed.
Lemma opp_sub : forall a b a' b' : fl, opp_of a a' -> opp_of b b' -> opp_of (o_sub a b) (o_sub a' b').
Proof.
  intros a b a' b' HA HB.
  assert (E : forall x y : fl, o_sub x y = o_add x (Bopp y)) by (intros [| | |] [| | |]; reflexivity).
  rewrite !E. apply opp_add; [ exact HA | ].
  destruct (is_finite b) eqn:Fb.
  - assert (Fb' : is_finite b' = true) by (destruct b, b'; simpl in *; auto; contradiction).
    apply opp_of_finite in HB; auto. apply opp_of_finite; rewrite ?is_finite_Bopp; auto. rewrite !B2R_Bopp, HB. ring.
  - destruct b as [|[|]| |], b' as [|[|]| |]; try discriminate; simpl in *; auto; discriminate.
Qed.
Lemma flip_status : forall (p : plane fl) (q : list fl) (eps : fl), o_lt eps (cst 0) = false ->
  pl_point_status (pl_flip p) q eps = opposite (pl_point_status p q eps).
Proof.
  intros [d v] q eps HE. unfold pl_point_status, pl_point_distance, pl_flip. cbn [pl_dist pl_normal].
  assert (H : opp_of (o_sub (v_dot q (v_neg v)) (o_neg d)) (o_sub (v_dot q v) d)).
  { apply opp_sub; [ apply opp_dot | apply opp_of_opp ]. }
  set (x := o_sub (v_dot q (v_neg v)) (o_neg d)) in *. set (y := o_sub (v_dot q v) d) in *.
  apply opp_key in H as [N K]. 
  destruct (is_nan y) eqn:Ny. { destruct (nan_r eps y Ny) as (-> & _), (nan_l y (o_neg eps) Ny) as (-> & _).
    destruct (nan_r eps x N) as (-> & _), (nan_l x (o_neg eps) N) as (-> & _). reflexivity. }
  specialize (K eq_refl). destruct (is_nan eps) eqn:Ne.
  { destruct (num_neg eps) as [NE _]. rewrite Ne in NE.
    destruct (nan_l eps y Ne) as (-> & _), (nan_r y (o_neg eps) NE) as (-> & _).
    destruct (nan_l eps x Ne) as (-> & _), (nan_r x (o_neg eps) NE) as (-> & _). reflexivity. }
  destruct (num_neg eps) as [NE KE]. rewrite Ne in NE. specialize (KE Ne).
  apply lt_false in HE; [ | exact Ne | apply num_of_Z; simpl; lia ]. rewrite (proj2 (num_of_Z 0 ltac:(simpl; lia))) in HE.
  rewrite !lt_key by assumption. rewrite K, KE.
  destruct (Rlt_bool_spec (key eps) (key y)), (Rlt_bool_spec (key eps) (- key y)), (Rlt_bool_spec (key y) (- key eps)), (Rlt_bool_spec (- key y) (- key eps));
    try reflexivity; lra.
Qed.
End Flip.

(** ** Transformation *)
Definition rlin (n : nat) (M : list (list R)) (d : list R) : list R := rsub (raffine n M d) (raffine n M (rzero n)).
Lemma rlin_length : forall n M d, length (rlin n M d) = n.
Proof. intros. unfold rlin. rewrite rsub_length; rewrite !raffine_length; reflexivity. Qed.
Lemma raffine_point : forall n M p d t, length p = n -> length d = n ->
  raffine n M (rpoint p d t) = rpoint (raffine n M p) (rlin n M d) t.
Proof.
  intros n M p d t L1 L2. apply rlist_ext.
  { rewrite rpoint_length; rewrite !raffine_length; [ reflexivity | ]. now rewrite rlin_length. }
  rewrite raffine_length. intros i Hi. unfold rpoint at 2. rewrite nth_radd by (rewrite raffine_length, rscale_length, rlin_length; reflexivity).
  rewrite nth_rscale. unfold rlin. rewrite nth_rsub by (rewrite !raffine_length; reflexivity).
  unfold raffine. rewrite !nth_map_seq by assumption.
  replace (Rsum n (fun c => ent M i c * nth c (rpoint p d t) 0)) with
    (Rsum n (fun c => ent M i c * nth c p 0) + t * Rsum n (fun c => ent M i c * nth c d 0)).
  - replace (Rsum n (fun c => ent M i c * nth c (rzero n) 0)) with 0; [ ring | ].
    symmetry. clear. unfold rzero. assert (A : forall k, Rsum k (fun c => ent M i c * nth c (repeat 0 n) 0) = 0); [ | apply A ].
    induction k; simpl; [ reflexivity | ]. rewrite IHk, nth_repeat. ring.
  - assert (A : forall k, Rsum k (fun c => ent M i c * nth c p 0) + t * Rsum k (fun c => ent M i c * nth c d 0)
      = Rsum k (fun c => ent M i c * nth c (rpoint p d t) 0)); [ | apply A ].
    induction k; simpl; [ ring | ]. rewrite <- IHk. unfold rpoint. rewrite nth_radd by len. rewrite nth_rscale. ring.
Qed.
Lemma X_lin : forall n M d, affine n M -> length d = n -> m_mul_p (S n) (strip_translation (S n) (mS M)) (vS d) = vS (rlin n M d).
Proof.
  intros n M d HM L. rewrite X_strip by apply HM. rewrite X_affine by (auto using strip_affine). now rewrite raffine_strip.
Qed.
Lemma unit_normalize : forall n v, length v = n -> v <> rzero n -> exists u k, v_normalize (vS v) = vS u /\ unit_vec n u /\ 0 < k /\ v = rscale k u.
Proof.
  intros n v L N. destruct (X_normalize_unit v) as (u & E & U & Lu & k & K & EK); [ now rewrite L | ].
  exists u, k. split; [ exact E | ]. split; [ split; [ congruence | ] | auto ]. rewrite <- rnorm_sq, U. ring.
Qed.
Lemma rpoint_scale : forall p k u t, rpoint p (rscale k u) t = rpoint p u (t * k).
Proof. intros. unfold rpoint. now rewrite rscale_mul. Qed.
Lemma keeps_lin : forall n M d, length d = n -> keeps n M d -> rlin n M d <> rzero n.
Proof.
  intros n M d L K E. apply K. apply rsub_eq; [ now rewrite !raffine_length | ]. now rewrite raffine_length.
Qed.
Lemma ln_transform_ok : forall n l M, is_line n l -> affine n M -> keeps n M (ln_dir l) ->
  exists l', ln_transform (S n) (line_lift l) (mS M) = line_lift l' /\ is_line n l'
    /\ forall q, on_line l' q <-> exists q0, on_line l q0 /\ q = raffine n M q0.
Proof.
  intros n [p d] M [L [L2 U]] HM K. cbn [ln_point ln_dir] in *.
  destruct (unit_normalize n (rlin n M d)) as (u & k & E & [LU U1] & K1 & EK); [ apply rlin_length | now apply keeps_lin | ].
  unfold ln_transform, line_lift. cbn [ln_point ln_dir]. rewrite X_affine by assumption. rewrite X_lin by assumption. rewrite E.
  exists (Ln (raffine n M p) u). split; [ reflexivity | ].
  split; [ split; [ apply raffine_length | split; assumption ] | ].
  intros q. unfold on_line. cbn [ln_point ln_dir]. split.
  - intros (t & ->). exists (rpoint p d (t / k)). split; [ eauto | ]. rewrite raffine_point by congruence. rewrite EK, rpoint_scale.
    f_equal. field. lra.
  - intros (q0 & (t & ->) & ->). rewrite raffine_point by congruence. rewrite EK, rpoint_scale. eauto.
Qed.
Lemma ray_transform_ok : forall n r M, is_ray n r -> affine n M -> keeps n M (ray_dir r) ->
  exists r', ray_transform (S n) (ray_lift r) (mS M) = ray_lift r' /\ is_ray n r' /\ ray_origin r' = raffine n M (ray_origin r)
    /\ forall q, on_ray r' q <-> exists q0, on_ray r q0 /\ q = raffine n M q0.
Proof.
  intros n [p d] M [L [L2 U]] HM K. cbn [ray_origin ray_dir] in *.
  destruct (unit_normalize n (rlin n M d)) as (u & k & E & [LU U1] & K1 & EK); [ apply rlin_length | now apply keeps_lin | ].
  unfold ray_transform, ray_lift. cbn [ray_origin ray_dir]. rewrite X_affine by assumption. rewrite X_lin by assumption. rewrite E.
  exists (Ray (raffine n M p) u). split; [ reflexivity | ].
  split; [ split; [ apply raffine_length | split; assumption ] | ]. split; [ reflexivity | ].
  intros q. unfold on_ray. cbn [ray_origin ray_dir]. assert (I := Rinv_0_lt_compat k K1). split.
  - intros (t & T & ->). exists (rpoint p d (t / k)). split. { exists (t / k). split; [ unfold Rdiv; nra | reflexivity ]. }
    rewrite raffine_point by congruence. rewrite EK, rpoint_scale. f_equal. field. lra.
  - intros (q0 & (t & T & ->) & ->). rewrite raffine_point by congruence. rewrite EK, rpoint_scale. exists (t * k). split; [ nra | reflexivity ].
Qed.
Lemma on_segment_sym : forall a b q, length a = length b -> on_segment q a b -> on_segment q b a.
Proof.
  intros a b q L (t & T & ->). exists (1 - t). split; [ lra | ]. unfold rlerp. vext. ring.
Qed.
Lemma seg_transform_image : forall n s M, is_segment n s -> affine n M ->
  exists s', seg_transform (S n) (seg_lift s) (mS M) = seg_lift s' /\ is_segment n s'
    /\ (forall q, on_seg s' q <-> exists q0, on_seg s q0 /\ q = raffine n M q0)
    /\ ~ vec_lt (vS (seg_end s')) (vS (seg_start s')).
Proof.
  intros n [a b] M [L1 L2] HM. cbn [seg_start seg_end] in *.
  destruct (seg_make_ok (m_mul_p (S n) (mS M) (vS a)) (m_mul_p (S n) (mS M) (vS b))) as (A & B & _).
  { rewrite !X_affine by assumption. rewrite !map_length, !raffine_length. reflexivity. }
  unfold seg_transform, seg_lift. cbn [seg_start seg_end]. rewrite !X_affine in * by assumption.
  assert (LA := raffine_length n M a). assert (LB := raffine_length n M b).
  assert (IM : forall q, on_segment q (raffine n M a) (raffine n M b) <-> exists q0, on_segment q0 a b /\ q = raffine n M q0).
  { assert (E : forall t, raffine n M (rlerp a b t) = rlerp (raffine n M a) (raffine n M b) t).
    { intros t. unfold rlerp. rewrite raffine_point by len. f_equal.
      assert (Q : raffine n M b = rpoint (raffine n M a) (rlin n M (rsub b a)) 1).
      { rewrite <- raffine_point by len. f_equal. vext. ring. }
      assert (LR := rlin_length n M (rsub b a)). rewrite Q. vext. ring. }
    intros q. split.
    - intros (t & T & ->). exists (rlerp a b t). split; [ exists t; auto | now rewrite E ].
    - intros (q0 & (t & T & ->) & ->). exists t. split; [ exact T | apply E ]. }
  destruct A as [A|A]; rewrite A in *; cbn [seg_start seg_end] in B.
  - exists (Seg (raffine n M a) (raffine n M b)). repeat split; auto; apply IM.
  - exists (Seg (raffine n M b) (raffine n M a)). repeat split; auto; cbn [seg_start seg_end]; intros H.
    + apply (on_segment_sym (raffine n M b) (raffine n M a)) in H; [ | congruence ]. now apply IM.
    + apply (on_segment_sym (raffine n M a) (raffine n M b)); [ congruence | ]. now apply IM.
Qed.

(** Planes: for maps that preserve angles. *)
Lemma similarity_dot : forall n M k v w, similarity n M k -> length v = n -> length w = n ->
  rdot (rlin n M v) (rlin n M w) = k * k * rdot v w.
Proof.
  intros n M k v w (HM & K & H) L1 L2.
  assert (Z : length (rzero n) = n) by apply repeat_length.
  assert (SQ : forall x, length x = n -> rdot (rlin n M x) (rlin n M x) = k * k * rdot x x).
  { intros x Lx. specialize (H x (rzero n) Lx Z). unfold rdist in H. fold (rlin n M x) in H.
    assert (E : rsub x (rzero n) = x) by (unfold rzero; vext; rewrite nth_repeat; ring). rewrite E in H.
    rewrite <- !rnorm_sq, H. ring. }
  assert (LIN : rlin n M (rsub v w) = rsub (rlin n M v) (rlin n M w)).
  { assert (E : rsub v w = rpoint v w (-1)) by (vext; ring). unfold rlin at 1. rewrite E, raffine_point by assumption.
    unfold rlin at 2. assert (A1 := raffine_length n M v). assert (A2 := raffine_length n M (rzero n)). assert (A3 := rlin_length n M w). vext. ring. }
  assert (S3 := SQ (rsub v w) ltac:(len)). rewrite LIN in S3.
  assert (A1 := rlin_length n M v). assert (A2 := rlin_length n M w).
  repeat first [ rewrite rdot_sub_l in S3 by len | rewrite rdot_sub_r in S3 by len ].
  rewrite (SQ v L1), (SQ w L2) in S3. rewrite (rdot_comm (rlin n M w)), (rdot_comm w v) in S3. lra.
Qed.
Lemma pl_transform_ok : forall n p M k, is_plane n p -> similarity n M k ->
  exists p', pl_transform (S n) (plane_lift p) (mS M) = plane_lift p' /\ is_plane n p'
    /\ (forall q, length q = n -> (on_plane n p q <-> on_plane n p' (raffine n M q)))
    /\ forall q, length q = n -> rdot (raffine n M q) (pl_normal p') - pl_dist p' = k * (rdot q (pl_normal p) - pl_dist p).
Proof.
  intros n [d v] M k [L U] HS. cbn [pl_dist pl_normal] in *. assert (HM := proj1 HS). assert (K := proj1 (proj2 HS)).
  assert (NV := similarity_dot n M k v v HS L L). rewrite U in NV.
  destruct (unit_normalize n (rlin n M v)) as (u & j & E & [LU U1] & J & EJ); [ apply rlin_length | | ].
  { intros Z. rewrite Z, rdot_rzero in NV. nra. }
  assert (JK : j = k). { rewrite EJ, rdot_scale_l, rdot_scale_r, U1 in NV. nra. } subst j.
  unfold pl_transform, pl_anchor. change (pl_normal (plane_lift (Pl d v))) with (vS v). change (pl_dist (plane_lift (Pl d v))) with (Some d).
  rewrite X_scale, X_affine by (auto; len). rewrite X_lin by assumption. rewrite E. unfold pl_make. rewrite X_dot.
  exists (Pl (rdot (raffine n M (rscale d v)) u) u). split; [ reflexivity | ]. split; [ split; assumption | ].
  assert (SD : forall q, length q = n -> rdot (raffine n M q) u - rdot (raffine n M (rscale d v)) u = k * (rdot q v - d)).
  { intros q LQ. assert (Q : q = rpoint (rscale d v) (rsub q (rscale d v)) 1) by (vext; ring).
    assert (A1 := rlin_length n M (rsub q (rscale d v))). assert (A2 := raffine_length n M (rscale d v)).
    rewrite Q at 1. rewrite raffine_point by len. unfold rpoint. rewrite rdot_add_l, rdot_scale_l by len.
    assert (D := similarity_dot n M k (rsub q (rscale d v)) v HS ltac:(len) L). rewrite EJ, rdot_scale_r in D.
    rewrite rdot_sub_l, rdot_scale_l, U in D by len. apply Rmult_eq_reg_l with k; [ | lra ]. nra. }
  split; cbn [pl_dist pl_normal]; [ | exact SD ].
  intros q LQ. specialize (SD q LQ). unfold on_plane. cbn [pl_dist pl_normal]. rewrite raffine_length. split; intros [_ H]; split; auto; nra.
Qed.
Lemma pl_transform_refuted : exists (f : list R) (p p' : plane R) (q q' : list R),
  Forall (fun x => 0 < x) f /\ is_plane 3 p /\ on_plane 3 p q
  /\ pl_transform 4 (plane_lift p) (scaling_matrix (vS f)) = plane_lift p'
  /\ m_mul_p 4 (scaling_matrix (vS f)) (vS q) = vS q' /\ length q' = 3%nat /\ ~ on_plane 3 p' q'.
Proof.
  pose (f := [2; 1; 1]). pose (v := [3 / 5; 4 / 5; 0]). pose (q := [4; -3; 0]).
  assert (HM := scaling_affine f). change (length f) with 3%nat in HM.
  assert (SC : forall p, length p = 3%nat -> raffine 3 (rscaling f) p = zip Rmult f p) by (intros; now apply (raffine_scaling f)).
  assert (LV : rlin 3 (rscaling f) v = [6 / 5; 4 / 5; 0]).
  { unfold rlin. rewrite !SC by reflexivity. unfold f, v, rsub, rzero. cbn [zip repeat]. repeat (apply f_equal2; [ lra | ]). reflexivity. }
  destruct (unit_normalize 3 (rlin 3 (rscaling f) v)) as (u & k & E & [LU U1] & K & EK).
  { rewrite LV. reflexivity. } { rewrite LV. intros H. injection H. lra. }
  exists f, (Pl 0 v), (Pl (rdot (raffine 3 (rscaling f) (rscale 0 v)) u) u), q, (zip Rmult f q).
  split. { unfold f. repeat (apply Forall_cons; [ lra | ]). constructor. }
  split. { split; [ reflexivity | ]. unfold v. simpl. lra. }
  split. { split; [ reflexivity | ]. unfold v, q. simpl. lra. }
  rewrite X_scaling. split.
  { unfold pl_transform, pl_anchor. change (pl_normal (plane_lift (Pl 0 v))) with (vS v). change (pl_dist (plane_lift (Pl 0 v))) with (Some 0).
    rewrite X_scale, X_affine by (auto; len). rewrite X_lin by auto. rewrite E. unfold pl_make. now rewrite X_dot. }
  split. { rewrite X_affine by auto. now rewrite SC by reflexivity. }
  split; [ reflexivity | ].
  intros [_ H]. cbn [pl_dist pl_normal] in H. rewrite SC in H by (now rewrite rscale_length).
  assert (H2 : rdot (zip Rmult f q) (rscale k u) = rdot (zip Rmult f (rscale 0 v)) (rscale k u)) by (rewrite !rdot_scale_r; now rewrite H).
  rewrite <- EK, LV in H2. unfold f, v, q, rscale in H2. simpl in H2. lra.
Qed.

(** ** Planes from three points *)
Lemma from_points_ok : forall p1 p2 p3, length p1 = 3%nat -> length p2 = 3%nat -> length p3 = 3%nat ->
  let c := cross_of p1 p2 p3 in
  let s := rnorm (rsub p3 p1) * rnorm (rsub p2 p1) in
  (s <> 0 /\ / 100000000 * s <= rnorm c ->
     exists p, pl_from_points (vS p1) (vS p2) (vS p3) = (true, plane_lift p) /\ is_plane 3 p
       /\ on_plane 3 p p1 /\ on_plane 3 p p2 /\ on_plane 3 p p3
       /\ exists k, 0 < k /\ c = rscale k (pl_normal p))
  /\ (s = 0 \/ rnorm c < / 100000000 * s ->
      pl_from_points (vS p1) (vS p2) (vS p3) = (false, Pl (Some 0) (vS (rzero 3)))).
Proof.
  intros p1 p2 p3 L1 L2 L3 c s. 
  assert (A1 : length (rsub p3 p1) = 3%nat) by len. assert (A2 : length (rsub p2 p1) = 3%nat) by len.
  assert (LC : length c = 3%nat) by (unfold c, cross_of; now rewrite rcross_length).
  assert (PS : 0 <= s). { unfold s. apply Rmult_le_pos; apply rnorm_nonneg. } assert (PC := rnorm_nonneg c).
  unfold pl_from_points, plane_normal. rewrite !X_sub, X_cross3 by assumption. rewrite !X_length. fold (cross_of p1 p2 p3). fold c.
  change (o_mul (Some (rnorm (rsub p3 p1))) (Some (rnorm (rsub p2 p1)))) with (Some s). cbv zeta.
  unfold angle_epsilon. rewrite X_lit by lia. replace (IZR 1 / IZR 100000000) with (/ 100000000) by (simpl; lra). split.
  - intros [S0 H]. assert (S1 : 0 < s) by lra. rewrite X_div by exact S0. rewrite X_abs.
    assert (SI : / 100000000 <= rnorm c / s). { apply Rmult_le_reg_r with s; [ exact S1 | ]. unfold Rdiv. rewrite Rmult_assoc, Rinv_l by lra. lra. }
    rewrite Rabs_pos_eq by lra.
    rewrite X_nan. assert (INF : is_inf (Some (rnorm c / s)) = false) by reflexivity. rewrite INF. cbn [orb o_lt XRops Xcmp].
    rewrite Rlt_bool_false by lra. cbn [negb].
    assert (NC : c <> rzero 3). { intros E. rewrite E, rnorm_rzero in H. nra. }
    destruct (unit_normalize 3 c LC NC) as (u & k & E & [LU U] & K & EK). rewrite E. unfold pl_make. rewrite X_dot.
    exists (Pl (rdot p1 u) u). split; [ reflexivity | ]. split; [ split; assumption | ]. cbn [pl_normal].
    destruct (rcross_props (rsub p3 p1) (rsub p2 p1) A1 A2) as (P1 & P2 & _).
    change (rcross (rsub p3 p1) (rsub p2 p1)) with c in P1, P2. rewrite EK in P1, P2.
    repeat split; try assumption; cbn [pl_dist pl_normal]; try (exists k; auto); revert P1 P2; dots; rewrite ?(rdot_comm u); intros P1 P2; nra.
  - intros H. destruct (Req_dec s 0) as [Z|NZ].
    + rewrite Z, X_div0. reflexivity.
    + destruct H as [H|H]; [ contradiction | ]. assert (S1 : 0 < s) by lra. rewrite X_div by exact NZ. rewrite X_abs.
      assert (SI : rnorm c / s < / 100000000). { apply Rmult_lt_reg_r with s; [ exact S1 | ]. unfold Rdiv. rewrite Rmult_assoc, Rinv_l by lra. lra. }
      assert (S2 : 0 <= rnorm c / s). { apply Rmult_le_pos; [ lra | left; now apply Rinv_0_lt_compat ]. }
      rewrite Rabs_pos_eq by lra. cbn [o_lt XRops Xcmp]. rewrite (Rlt_bool_true _ _ SI), orb_true_r. reflexivity.
Qed.
Lemma from_points_collinear : forall p1 p2 p3, length p1 = 3%nat -> length p2 = 3%nat -> length p3 = 3%nat ->
  collinear p1 p2 p3 -> pl_from_points (vS p1) (vS p2) (vS p3) = (false, Pl (Some 0) (vS (rzero 3))).
Proof.
  intros p1 p2 p3 L1 L2 L3 (p & d & r & s & t & Lp & Ld & E1 & E2 & E3). apply from_points_ok; try assumption.
  destruct (Req_dec (rnorm (rsub p3 p1) * rnorm (rsub p2 p1)) 0) as [Z|NZ]; [ auto | ]. right.
  assert (C : cross_of p1 p2 p3 = rzero 3).
  { unfold cross_of. rewrite E1, E2, E3. rewrite !rsub_rpoint by congruence.
    assert (L : length d = 3%nat) by congruence. destruct d as [|x [|y [|z [|]]]]; try discriminate.
    unfold rscale, rzero. simpl. repeat (apply f_equal2; [ ring | ]). reflexivity. }
  rewrite C, rnorm_rzero. assert (A := rnorm_nonneg (rsub p3 p1)). assert (B := rnorm_nonneg (rsub p2 p1)). 
  apply Rmult_lt_0_compat; [ lra | ]. nra.
Qed.
Lemma from_points_range_ok : forall (l : list (list XR)), 
  pl_from_points_range l = match l with p1 :: p2 :: p3 :: _ => pl_from_points p1 p2 p3 | _ => (false, Pl (Some 0) (vS (rzero 3))) end.
Proof. intros [|? [|? [|? ?]]]; reflexivity. Qed.
