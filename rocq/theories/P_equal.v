(** Conversion and equality of boxes (C79), equality of rays, planes, segments, quaternions and polygons (C80),
    named planes (C81), simple functions of segments (C82). *)
From Coq Require Import ZArith Reals List Bool Lia Lra.
From Flocq Require Import Core BinarySingleNaN.
From Verif Require Import Ops M_scalar M_vec M_mat M_bbox M_quat M_geom M_polygon Inst_F Inst_XR Inst_conv S_order S_vec S_geom S_boxset S_approx S_comp M_intersect S_intersect.
From Verif Require Import M_matext M_dist M_approx S_quat P_matext2 S_dist P_quat P_components P_dist P_approx P_ord P_compare P_order_final P_scalar_ord P_xr P_ieee P_misc P_vec P_vec2 P_line P_seg P_plane P_bbox P_comp.
Import ListNotations.
Local Open Scope R_scope.
Notation vS := (map (@Some R)).

(** ** Rounding to another format preserves the order *)
Section Conv.
Variables p1 e1 p2 e2 : Z.
Context {Hp1 : Prec_gt_0 p1} {Hm1 : Prec_lt_emax p1 e1} {Hp2 : Prec_gt_0 p2} {Hm2 : Prec_lt_emax p2 e2}.
#[local] Existing Instance fexp_correct.
Notation f1 := (binary_float p1 e1).
Notation f2 := (binary_float p2 e2).
Notation conv := (F_conv p2 e2 Hp2 Hm2).
Notation rnd := (round radix2 (SpecFloat.fexp p2 e2) ZnearestE).

Definition clamp (b x : R) : R := Rmax (- b) (Rmin b x).
Lemma clamp_mono : forall b x y, x <= y -> clamp b x <= clamp b y.
Proof. intros b x y H. unfold clamp. apply Rle_max_compat_l. apply Rle_min_compat_l. exact H. Qed.
Lemma clamp_range : forall b x, 0 < b -> - b <= clamp b x <= b.
Proof. intros b x B. unfold clamp. split; [apply Rmax_l|]. apply Rmax_lub; [lra|apply Rmin_l]. Qed.
Lemma conv_clamp : forall x : f1, is_finite x = true -> Fkey p2 e2 (conv x) = clamp (bpow radix2 e2) (rnd (B2R x)).
Proof.
  intros x Hx. assert (B := bpow_gt_0 radix2 e2). destruct x as [s|s| |s m e H]; try discriminate.
  - cbn. rewrite round_0 by typeclasses eauto. unfold clamp. rewrite Rmin_right, Rmax_right by lra. reflexivity.
  - generalize (binary_normalize_correct p2 e2 Hp2 Hm2 mode_NE (cond_Zopp s (Zpos m)) e s). cbv zeta.
    change (F2R {| Fnum := cond_Zopp s (Zpos m); Fexp := e |}) with (B2R (B754_finite s m e H)).
    change (round_mode mode_NE) with ZnearestE. change (conv (B754_finite s m e H)) with (binary_normalize p2 e2 Hp2 Hm2 mode_NE (cond_Zopp s (Zpos m)) e s).
    set (y := binary_normalize p2 e2 Hp2 Hm2 mode_NE (cond_Zopp s (Zpos m)) e s). set (r := rnd (B2R (B754_finite s m e H))).
    destruct (Rlt_bool_spec (Rabs r) (bpow radix2 e2)) as [L|L].
    + intros (C1 & C2 & _). rewrite Fkey_finite by exact C2. rewrite C1. apply Rabs_lt_inv in L. unfold clamp.
      rewrite Rmin_right, Rmax_right by lra. reflexivity.
    + intros C. unfold binary_overflow, overflow_to_inf in C. cbn in C. 
      assert (SG : if s then r <= 0 else 0 <= r).
      { destruct s.
        - unfold r. rewrite <- (round_0 radix2 (SpecFloat.fexp p2 e2) ZnearestE). apply round_le; try typeclasses eauto. cbn. apply F2R_le_0. cbn. lia.
        - unfold r. rewrite <- (round_0 radix2 (SpecFloat.fexp p2 e2) ZnearestE). apply round_le; try typeclasses eauto. cbn. apply F2R_ge_0. cbn. lia. }
      destruct s.
      * rewrite Rlt_bool_true in C. 2: { cbn. apply F2R_lt_0. cbn. lia. }
        replace y with (B754_infinity true : f2). 2: { destruct y as [z|z| |z mm ee HH]; try discriminate C. injection C as ->. reflexivity. }
        cbn. rewrite Rabs_left1 in L by exact SG. unfold clamp. rewrite Rmin_right by lra. rewrite Rmax_left by lra. reflexivity.
      * rewrite Rlt_bool_false in C. 2: { cbn. apply F2R_ge_0. cbn. lia. }
        replace y with (B754_infinity false : f2). 2: { destruct y as [z|z| |z mm ee HH]; try discriminate C. injection C as ->. reflexivity. }
        cbn. rewrite Rabs_pos_eq in L by exact SG. unfold clamp. rewrite Rmin_left by lra. rewrite Rmax_right by lra. reflexivity.
Qed.
Lemma conv_range : forall x : f1, - bpow radix2 e2 <= Fkey p2 e2 (conv x) <= bpow radix2 e2.
Proof.
  intros x. assert (B := bpow_gt_0 radix2 e2). destruct (is_finite x) eqn:F.
  - rewrite conv_clamp by exact F. now apply clamp_range.
  - destruct x as [s|[|]| |]; try discriminate; cbn; lra.
Qed.
Lemma conv_num : forall x : f1, ~ NaN x -> ~ NaN (conv x).
Proof.
  intros x H E. apply H. unfold NaN in *. 
  assert (K := F_is_nan p2 e2 _ _ (conv x)). rewrite conv_nan in K. assert (K1 := F_is_nan p1 e1 _ _ x).
  unfold is_nan in K, K1. rewrite E in K. cbn [negb] in K. rewrite <- K in K1. 
  destruct (o_eq x x); [discriminate K1|reflexivity].
Qed.
Lemma conv_le : forall x y : f1, o_le x y = true -> o_le (conv x) (conv y) = true.
Proof.
  intros x y H.
  assert (Nx : is_nan x = false). { destruct (is_nan x) eqn:N; [|reflexivity]. apply (nan_l x y) in N as (_ & N & _). congruence. }
  assert (Ny : is_nan y = false). { destruct (is_nan y) eqn:N; [|reflexivity]. apply (nan_r x y) in N as (_ & N & _). congruence. }
  rewrite le_key in H by assumption. rewrite le_key.
  2,3: rewrite (F_is_nan p2 e2), conv_nan, <- (F_is_nan p1 e1 _ _); assumption.
  change (Rle_bool (Fkey p2 e2 (conv x)) (Fkey p2 e2 (conv y)) = true).
  change (Rle_bool (Fkey p1 e1 x) (Fkey p1 e1 y) = true) in H.
  apply Rle_bool_true. revert H. case Rle_bool_spec; [intros H _|discriminate].
  rewrite F_is_nan in Nx, Ny. assert (Rx := conv_range x). assert (Ry := conv_range y). assert (B := bpow_gt_0 radix2 e1).
  destruct (is_finite x) eqn:Fx, (is_finite y) eqn:Fy.
  - rewrite !conv_clamp by assumption. apply clamp_mono. rewrite !Fkey_finite in H by assumption. apply round_le; try typeclasses eauto. exact H.
  - assert (K := Fkey_bound p1 e1 x Fx). destruct y as [s|[|]| |]; try discriminate; cbn in *; lra.
  - assert (K := Fkey_bound p1 e1 y Fy). destruct x as [s|[|]| |]; try discriminate; cbn in *; lra.
  - destruct x as [s|[|]| |], y as [s'|[|]| |]; try discriminate; cbn in *; lra.
Qed.
Lemma conv_below : forall a b : list f1, vec_below a b -> vec_below (map conv a) (map conv b).
Proof. intros a b H. induction H; constructor; auto using conv_le. Qed.
Lemma conv_point : forall n (a : list f1), point_of n a -> point_of n (map conv a).
Proof. intros n a [L H]. split; [now rewrite map_length|]. apply Forall_map. eapply Forall_impl; [|exact H]. intros x. apply conv_num. Qed.
Lemma box_convert : forall n (b : bbox f1), box_of n b -> exists c, bb_convert conv b = Ret c /\ box_of n c
  /\ bb_min c = map conv (bb_min b) /\ bb_max c = map conv (bb_max b)
  /\ forall p, in_set b p -> in_set c (map conv p).
Proof.
  intros n [l u] (H1 & H2 & H3). cbn [bb_min bb_max] in *.
  destruct (make_ok n (map conv l) (map conv u)) as [E K]; auto using conv_point, conv_below.
  exists (BB (map conv l) (map conv u)). unfold bb_convert. cbn [bb_min bb_max]. split; [exact E|]. split; [exact K|].
  split; [reflexivity|]. split; [reflexivity|]. intros p [P1 P2]. split; cbn [bb_min bb_max] in *; auto using conv_below.
Qed.
End Conv.

(** ** Operators, any scalar type *)
Section Ord.
Context {T : Type} {o : ops T} {ol : ordlaws o}.

Lemma fill_point : forall n (x : T), ~ NaN x -> point_of n (v_fill n x).
Proof. intros n x N. split; [apply repeat_length|]. unfold v_fill. apply Forall_forall. intros y I. apply repeat_spec in I. now subst. Qed.
Lemma fill_below : forall n (x y : T), o_le x y = true -> vec_below (v_fill n x) (v_fill n y).
Proof. intros n x y H. unfold v_fill. induction n; cbn; constructor; auto. Qed.
Lemma make_values : forall n (mn mx : T), ~ NaN mn -> ~ NaN mx ->
  (o_le mn mx = true -> exists b, bb_make_values n mn mx = Ret b /\ box_of n b
     /\ forall p, in_set b p <-> length p = n /\ Forall (fun x => o_le mn x = true /\ o_le x mx = true) p)
  /\ ((0 < n)%nat -> o_lt mx mn = true -> bb_make_values n mn mx = Assert).
Proof.
  intros n mn mx N1 N2. split.
  - intros H. destruct (make_ok n (v_fill n mn) (v_fill n mx)) as [E K]; auto using fill_point, fill_below.
    exists (BB (v_fill n mn) (v_fill n mx)). unfold bb_make_values. split; [exact E|]. split; [exact K|].
    intros p. unfold in_set, v_fill. cbn [bb_min bb_max]. clear. revert p. induction n as [|n IH]; intros p; cbn [repeat].
    + split; [intros [H _]; inversion H; subst; auto|]. intros [L _]. destruct p; [|discriminate]. split; constructor.
    + split.
      * intros [H1 H2]. inversion H1 as [|? x ? p' Hx Hp]; subst. inversion H2 as [|? ? ? ? Hx' Hp']; subst. 
        destruct (proj1 (IH p') (conj Hp Hp')) as [L F]. split; [cbn; congruence|]. constructor; auto.
      * intros [L F]. destruct p as [|x p]; [discriminate|]. inversion F as [|? ? [H1 H2] F']; subst. 
        destruct (proj2 (IH p) (conj (f_equal Nat.pred L) F')) as [B1 B2]. split; constructor; assumption.
  - intros Hn H. unfold bb_make_values, bb_make. destruct n as [|n]; [lia|]. unfold v_fill. cbn [repeat bb_valid2]. now rewrite H.
Qed.
Lemma box_equality : forall n (b c : bbox T), point_of n (bb_min b) -> point_of n (bb_max b) -> point_of n (bb_min c) -> point_of n (bb_max c) ->
  (bb_eq b c = true <-> vec_eq (bb_min b) (bb_min c) /\ vec_eq (bb_max b) (bb_max c)) /\ bb_ne b c = negb (bb_eq b c).
Proof.
  intros n b c (L1 & _) (L2 & _) (L3 & _) (L4 & _). split.
  - unfold bb_eq. rewrite andb_true_iff. destruct (v_ops_spec (bb_min b) (bb_min c)) as (_ & -> & _); [congruence|].
    destruct (v_ops_spec (bb_max b) (bb_max c)) as (_ & -> & _); [congruence|]. reflexivity.
  - unfold bb_ne, bb_eq, v_ne, v_eq. now rewrite negb_andb.
Qed.
Lemma ray_equality : forall (r s : ray T), length (ray_origin r) = length (ray_origin s) -> length (ray_dir r) = length (ray_dir s) ->
  (ray_eq r s = true <-> vec_eq (ray_origin r) (ray_origin s) /\ vec_eq (ray_dir r) (ray_dir s)) /\ ray_ne r s = negb (ray_eq r s).
Proof.
  intros r s L1 L2. split.
  - unfold ray_eq. rewrite andb_true_iff. destruct (v_ops_spec _ _ L1) as (_ & -> & _). destruct (v_ops_spec _ _ L2) as (_ & -> & _). reflexivity.
  - unfold ray_ne, ray_eq, v_ne, v_eq. now rewrite negb_andb.
Qed.
Lemma plane_equality : forall (p q : plane T), length (pl_normal p) = length (pl_normal q) ->
  (pl_eq p q = true <-> o_eq (pl_dist p) (pl_dist q) = true /\ vec_eq (pl_normal p) (pl_normal q)) /\ pl_ne p q = negb (pl_eq p q).
Proof.
  intros p q L. split.
  - unfold pl_eq. rewrite andb_true_iff. destruct (v_ops_spec _ _ L) as (_ & -> & _). reflexivity.
  - unfold pl_ne, pl_eq, v_ne, v_eq. now rewrite negb_andb.
Qed.
Lemma seg_operators : forall n (s t : segment T), seg_dim n s -> seg_dim n t ->
  seg_ne s t = negb (seg_eq s t) /\ seg_le s t = seg_lt s t || seg_eq s t /\ seg_gt s t = seg_lt t s /\ seg_ge s t = seg_lt t s || seg_eq s t.
Proof.
  intros n s t Hs Ht. unfold seg_ne, seg_eq, seg_le, seg_gt, seg_ge, seg_lt.
  assert (A : seg_compare t s (cst 0) = (- seg_compare s t (cst 0))%Z).
  { unfold seg_compare. rewrite (v_compare_anti (seg_start s)), (v_compare_anti (seg_end s)).
    generalize (v_compare_range (seg_start s) (seg_start t)). generalize (v_compare_range (seg_end s) (seg_end t)).
    intros [->|[->| ->]] [->|[->| ->]]; reflexivity. }
  assert (K : (seg_compare s t (cst 0) = -1 \/ seg_compare s t (cst 0) = 0 \/ seg_compare s t (cst 0) = 1)%Z).
  { unfold seg_compare. generalize (v_compare_range (seg_start s) (seg_start t)). generalize (v_compare_range (seg_end s) (seg_end t)).
    intros [->|[->| ->]] [->|[->| ->]]; cbn; auto. }
  rewrite A. destruct K as [->|[->| ->]]; repeat split; reflexivity.
Qed.
Lemma seg_vertices : forall l : list (segment T), seg_get_vertices l = flat_map (fun s => [seg_start s; seg_end s]) l.
Proof. induction l as [|s l IH]; [reflexivity|]. cbn. now rewrite IH. Qed.
End Ord.

(** ** Equality with a tolerance, exact arithmetic *)
Lemma X_eq : forall a b e, length a = length b -> 0 <= e -> (v_is_equal (vS a) (vS b) (Some e) = true <-> vec_within e a b).
Proof. intros. now apply X_v_is_equal. Qed.
Lemma box_is_equal : forall b c e, length (bb_min b) = length (bb_min c) -> length (bb_max b) = length (bb_max c) -> 0 <= e ->
  (bb_is_equal (box_lift b) (box_lift c) (Some e) = true <-> vec_within e (bb_min b) (bb_min c) /\ vec_within e (bb_max b) (bb_max c)).
Proof. intros b c e L1 L2 E. unfold bb_is_equal, box_lift. cbn [bb_min bb_max]. now rewrite andb_true_iff, !X_eq. Qed.
Lemma ray_is_equal_ok : forall r s e, length (ray_origin r) = length (ray_origin s) -> length (ray_dir r) = length (ray_dir s) -> 0 <= e ->
  (ray_is_equal (ray_lift r) (ray_lift s) (Some e) = true <-> vec_within e (ray_origin r) (ray_origin s) /\ vec_within e (ray_dir r) (ray_dir s)).
Proof. intros b c e L1 L2 E. unfold ray_is_equal, ray_lift. cbn [ray_origin ray_dir]. now rewrite andb_true_iff, !X_eq. Qed.
Lemma sc_eq_iff : forall x y e, 0 <= e -> (sc_is_equal (Some x) (Some y) (Some e) = true <-> Rabs (x - y) <= e).
Proof. intros x y e E. rewrite X_is_equal by exact E. apply Rle_true. Qed.
Lemma plane_is_equal : forall p q e, length (pl_normal p) = length (pl_normal q) -> 0 <= e ->
  (pl_is_equal (plane_lift p) (plane_lift q) (Some e) = true <-> Rabs (pl_dist p - pl_dist q) <= e /\ vec_within e (pl_normal p) (pl_normal q)).
Proof. intros b c e L1 E. unfold pl_is_equal, plane_lift. cbn [pl_dist pl_normal]. now rewrite andb_true_iff, X_eq, sc_eq_iff. Qed.
Lemma v_cmp_cases : forall a b e, length a = length b -> 0 <= e -> (v_compare (vS a) (vS b) (Some e) = 0%Z <-> vec_within e a b).
Proof. intros. now apply X_compare_zero. Qed.
Lemma seg_is_equal_ok : forall s t e, length (seg_start s) = length (seg_start t) -> length (seg_end s) = length (seg_end t) -> 0 <= e ->
  (seg_is_equal (seg_lift s) (seg_lift t) (Some e) = true <-> vec_within e (seg_start s) (seg_start t) /\ vec_within e (seg_end s) (seg_end t)).
Proof.
  intros s t e L1 L2 E. unfold seg_is_equal, seg_compare, seg_lift. cbn [seg_start seg_end]. rewrite <- !v_cmp_cases by assumption.
  rewrite Z.eqb_eq. set (x := v_compare _ _ _). set (y := v_compare _ _ _).
  destruct (Z.ltb_spec x 0); [lia|]. destruct (Z.gtb_spec x 0); lia.
Qed.
Lemma pg_is_equal_ok : forall p q e, Forall2 (fun a b => length a = length b) p q -> 0 <= e ->
  (pg_is_equal (map vS p) (map vS q) (Some e) = true <-> Forall2 (vec_within e) p q).
Proof.
  intros p q e F E. unfold pg_is_equal, pg_compare. rewrite Z.eqb_eq. induction F as [|a b p q L F IH].
  - split; [constructor|reflexivity].
  - cbn [map r_compare]. assert (K := v_cmp_cases a b e L E). set (x := v_compare _ _ _) in *.
    destruct (Z.ltb_spec x 0); [split; [lia|]; intros G; inversion G; subst; rewrite <- K in *; lia|].
    destruct (Z.ltb_spec 0 x); [split; [lia|]; intros G; inversion G; subst; rewrite <- K in *; lia|].
    rewrite IH. assert (x = 0%Z) by lia. rewrite K in *. split; [constructor; assumption|intros G; now inversion G].
Qed.
Lemma pg_is_equal_len : forall p q e, length p <> length q -> 0 <= e -> Forall (fun a => Forall (fun b => length a = length b) q) p ->
  pg_is_equal (map vS p) (map vS q) (Some e) = false.
Proof.
  intros p q e N E. unfold pg_is_equal, pg_compare. revert q N. induction p as [|a p IH]; intros [|b q] N H; try reflexivity; [now contradiction N|].
  cbn [map r_compare]. destruct (_ <? 0)%Z; [reflexivity|]. destruct (0 <? _)%Z; [reflexivity|]. apply IH; [cbn in N; congruence|].
  inversion H; subst. eapply Forall_impl; [|eassumption]. intros c Hc. now inversion Hc.
Qed.

(** ** Planes *)
Lemma project_vector_dir : forall n p w d, is_plane n p -> length w = n -> length d = n ->
  (/ 1000 < Rabs (rdot d (pl_normal p)) ->
     exists f s, pl_project_vector_dir (plane_lift p) (vS w) (vS d) = vS f /\ rdot f (pl_normal p) = 0 /\ f = rpoint w d s)
  /\ (Rabs (rdot d (pl_normal p)) <= / 1000 -> pl_project_vector_dir (plane_lift p) (vS w) (vS d) = repeat None n).
Proof.
  intros n p w d HP Lw Ld. destruct (anchor_ok n p HP) as (a & EA & [[La Na] _] & _).
  destruct (project_dir_ok n p (radd a w) d HP) as [H1 H2]; [rewrite radd_length; congruence|exact Ld|].
  unfold pl_project_vector_dir. rewrite EA, X_add. split; intros H.
  - destruct (H1 H) as (f & s & -> & [Lf Of] & E). rewrite X_sub. exists (rsub f a), s. split; [reflexivity|].
    destruct HP as [Ln U]. split; [dots; lra|]. subst f. clear -La Lw Ld. unfold rpoint.
    apply rlist_ext; [repeat (rewrite ?rsub_length, ?radd_length, ?rscale_length); congruence|]. intros i _.
    rewrite nth_rsub, !nth_radd, nth_rscale; repeat (rewrite ?rsub_length, ?radd_length, ?rscale_length); try congruence. ring.
  - rewrite (H2 H). clear -La. revert a La. induction n; intros [|x a] L; try discriminate; [reflexivity|]. cbn. f_equal. apply IHn. cbn in L. congruence.
Qed.
Lemma horizontal_ok : forall x y z, exists p, pl_horizontal (vS [x; y; z]) = plane_lift p /\ is_plane 3 p
  /\ (forall q, length q = 3%nat -> (on_plane 3 p q <-> nth 2 q 0 = z)) /\ pl_normal p = [0; 0; 1].
Proof.
  intros x y z. exists (Pl (rdot [x;y;z] [0;0;1]) [0;0;1]). split; [|split; [|split; [|reflexivity]]].
  - unfold pl_horizontal, pl_make, plane_lift. cbn [pl_dist pl_normal]. change pos_z3 with (vS [0;0;1]). now rewrite X_dot.
  - split; [reflexivity|]. cbn. ring.
  - intros q L. destruct q as [|a [|b [|c [|e q]]]]; try discriminate. unfold on_plane. cbn. split; [intros [_ H]; lra|]. intros H. split; [reflexivity|lra].
Qed.
Lemma orthogonal_ok : forall n a d, length a = n -> length d = n -> d <> rzero n ->
  exists p k, pl_orthogonal (vS a) (vS d) = plane_lift p /\ is_plane n p /\ on_plane n p a /\ 0 < k /\ d = rscale k (pl_normal p).
Proof.
  intros n a d La Ld N. destruct (unit_normalize n d Ld N) as (u & k & E & U & K & EK).
  exists (Pl (rdot a u) u), k. unfold pl_orthogonal, pl_make, plane_lift. cbn [pl_dist pl_normal]. rewrite E, X_dot.
  split; [reflexivity|]. split; [exact U|]. split; [split; [exact La|reflexivity]|]. auto.
Qed.

(** ** Segments *)
Lemma seg_measures : forall n s, is_segment n s -> exists m,
  seg_length (seg_lift s) = Some (rdist (seg_start s) (seg_end s)) /\ seg_center (seg_lift s) = vS m
  /\ m = rlerp (seg_start s) (seg_end s) (1 / 2) /\ rdist m (seg_start s) = rdist m (seg_end s).
Proof.
  intros n [a b] [La Lb]. cbn [seg_start seg_end] in *. exists (rlerp a b (1/2)). unfold seg_length, seg_center, seg_lift. cbn [seg_start seg_end].
  split; [|split; [|split; [reflexivity|]]].
  - rewrite X_sub, X_length. f_equal. change (rnorm (rsub b a)) with (rdist b a). apply rdist_sym.
  - rewrite X_add. change (cst 2 : XR) with (Some 2). rewrite X_div_s by lra. f_equal. unfold rlerp, rpoint.
    apply rlist_ext; [repeat (rewrite ?rsub_length, ?radd_length, ?rscale_length); congruence|]. intros i _.
    rewrite nth_rscale, !nth_radd, nth_rscale, nth_rsub; repeat (rewrite ?rsub_length, ?radd_length, ?rscale_length); try congruence. field.
  - assert (E1 : rsub (rlerp a b (1/2)) a = rscale (1/2) (rsub b a)).
    { unfold rlerp, rpoint. apply rlist_ext; [repeat (rewrite ?rsub_length, ?radd_length, ?rscale_length); congruence|]. intros i _.
      rewrite nth_rscale, nth_rsub, nth_radd, nth_rscale, nth_rsub; repeat (rewrite ?rsub_length, ?radd_length, ?rscale_length); try congruence. ring. }
    assert (E2 : rsub (rlerp a b (1/2)) b = rscale (1/2) (rsub a b)).
    { unfold rlerp, rpoint. apply rlist_ext; [repeat (rewrite ?rsub_length, ?radd_length, ?rscale_length); congruence|]. intros i _.
      rewrite nth_rscale, nth_rsub, nth_radd, nth_rscale, !nth_rsub; repeat (rewrite ?rsub_length, ?radd_length, ?rscale_length); try congruence. field. }
    unfold rdist at 1 2. rewrite E1, E2. rewrite !rnorm_scale. f_equal. apply rdist_sym.
Qed.

(** ** Quaternions *)
Lemma quat_is_equal : forall p q e, length (q_v p) = length (q_v q) -> 0 <= e ->
  (q_is_equal (qlift p) (qlift q) (Some e) = true
   <-> (Rabs (q_r p - q_r q) <= e \/ Rabs (q_r p + q_r q) <= e) /\ vec_within e (q_v p) (q_v q)).
Proof.
  intros p q e L E. unfold q_is_equal, qlift. cbn [q_r q_v]. rewrite andb_true_iff, orb_true_iff.
  change (o_neg (Some (q_r q)) : XR) with (Some (- q_r q)). rewrite !sc_eq_iff, X_eq by assumption.
  now replace (q_r p - - q_r q) with (q_r p + q_r q) by ring.
Qed.

(** ** More boxes *)
Section Ord2.
Context {T : Type} {o : ops T} {ol : ordlaws o} {nl : neglaws o}.
Lemma make_value : forall n (m : T), ~ NaN m ->
  (o_le (cst 0) m = true -> exists b, bb_make_value n m = Ret b /\ box_of n b
     /\ forall p, in_set b p <-> length p = n /\ Forall (fun x => o_le (o_neg m) x = true /\ o_le x m = true) p)
  /\ ((0 < n)%nat -> o_lt m (cst 0) = true -> bb_make_value n m = Assert).
Proof.
  intros n m N. assert (NM : is_nan m = false). { unfold NaN, is_nan in *. destruct (o_eq m m); [reflexivity|now contradiction N]. }
  destruct (num_neg m) as [N1 K]. specialize (K NM). rewrite NM in N1.
  assert (N' : ~ NaN (o_neg m)). { unfold NaN, is_nan in *. destruct (o_eq (o_neg m) (o_neg m)); [discriminate|discriminate N1]. }
  destruct (num_of_Z 0 ltac:(lia)) as [Z1 Z2]. change (@cst T o 0) with (@o_of_Z T o 0) in *.
  destruct (make_values n (o_neg m) m N' N) as [A B]. unfold bb_make_value. split.
  - intros H. apply A. rewrite le_key in * by assumption. rewrite K, Z2 in *. revert H. case Rle_bool_spec; [intros H _|discriminate]. apply Rle_bool_true. lra.
  - intros Hn H. apply B; [exact Hn|]. rewrite lt_key in * by assumption. rewrite K, Z2 in *. revert H. case Rlt_bool_spec; [intros H _|discriminate]. apply Rlt_bool_true. lra.
Qed.
End Ord2.

(** ** The plane at right angles to the main axis of a direction *)
Lemma aligned_ok : forall n a d, length a = n -> length d = n -> d <> rzero n ->
  exists p i s, pl_aligned_orthogonal (vS a) (vS d) = Ret (plane_lift p) /\ is_plane n p /\ on_plane n p a
    /\ (i < n)%nat /\ (forall j, (j < n)%nat -> Rabs (nth j d 0) <= Rabs (nth i d 0))
    /\ (s = 1 \/ s = -1) /\ 0 < s * nth i d 0
    /\ length (pl_normal p) = n /\ forall j, (j < n)%nat -> nth j (pl_normal p) 0 = if Nat.eqb j i then s else 0.
Proof.
  intros n a d La Ld N. assert (Hn : (0 < n)%nat). { destruct n; [|lia]. destruct d; [now contradiction N|discriminate]. }
  assert (LV : length (vS d) = n) by now rewrite map_length.
  destruct (get_abs_max_component_axis_spec (vS d) 0 ltac:(lia)) as (i & v & Ei & Ev & Lv & Hv).
  destruct (find_abs_max_component_spec (vS d) 0 ltac:(lia)) as (i' & Ei' & Li & F & _). assert (i' = i) by congruence. subst i'. rewrite LV in *.
  rewrite X_get in *.
  assert (M : forall j, (j < n)%nat -> Rabs (nth j d 0) <= Rabs (nth i d 0)).
  { intros j Hj. destruct (Rle_or_lt (Rabs (nth j d 0)) (Rabs (nth i d 0))) as [G|G]; [exact G|]. exfalso.
    assert (I : In (Some (nth j d 0)) (filter (fun y => o_lt (sc_abs (Some (nth i d 0))) (sc_abs y)) (vS d))).
    { apply filter_In. split; [apply in_map, nth_In; lia|]. rewrite !X_abs. cbn. now apply Rlt_bool_true. }
    destruct (filter _ _) as [|? ?]; [destruct I|cbn in F; lia]. }
  assert (NZ : nth i d 0 <> 0).
  { intros Z. apply N. apply rlist_ext; [unfold rzero; rewrite repeat_length; exact Ld|]. intros j Hj. rewrite Ld in Hj. specialize (M j Hj).
    rewrite Z, Rabs_R0 in M. assert (G := Rabs_pos (nth j d 0)). unfold rzero. rewrite nth_repeat. destruct (Req_dec (nth j d 0) 0) as [E|E]; [exact E|]. apply Rabs_no_R0 in E. lra. }
  set (s := if Rlt_bool (nth i d 0) 0 then -1 else 1).
  set (u := map (fun j => if Nat.eqb j i then s else 0) (seq 0 n)).
  assert (Lu : length u = n) by (unfold u; now rewrite map_length, seq_length).
  assert (Nu : forall j, (j < n)%nat -> nth j u 0 = if Nat.eqb j i then s else 0).
  { intros j Hj. unfold u. rewrite (nth_indep _ 0 ((fun k => if Nat.eqb k i then s else 0) O)) by (rewrite map_length, seq_length; exact Hj).
    rewrite (map_nth (fun k => if Nat.eqb k i then s else 0)). now rewrite seq_nth. }
  assert (S1 : s = 1 \/ s = -1) by (unfold s; destruct (Rlt_bool _ _); auto).
  assert (S2 : 0 < s * nth i d 0). { unfold s. destruct (Rlt_bool_spec (nth i d 0) 0); lra. }
  assert (EV : v = vS u).
  { apply nth_ext with (d := Some 0) (d' := Some 0); [now rewrite map_length, Lu|]. intros j Hj. rewrite Lv in Hj.
    specialize (Hv j Hj). unfold vget in Hv. change (@cst XR XRops 0) with (Some 0) in Hv. rewrite Hv.
    rewrite (map_nth (@Some R) u 0 j). rewrite Nu by exact Hj.
    unfold s. cbn. destruct (Rlt_bool (nth i d 0) 0), (Nat.eqb j i); cbn; f_equal; ring. }
  exists (Pl (rdot a u) u), i, s. unfold pl_aligned_orthogonal. rewrite Ev. cbn [bind]. unfold pl_make, plane_lift. cbn [pl_dist pl_normal].
  rewrite EV, X_dot. split; [reflexivity|]. split; [|split; [split; [exact La|reflexivity]|auto 8]].
  split; [exact Lu|]. cbn [pl_normal]. 
  assert (K : forall l k, rdot (map (fun j => if Nat.eqb j i then s else 0) (seq k l)) (map (fun j => if Nat.eqb j i then s else 0) (seq k l))
     = if (Nat.leb k i && Nat.ltb i (k + l))%bool then 1 else 0).
  { induction l as [|l IH]; intros k; cbn [seq map rdot].
    - destruct (Nat.leb_spec k i), (Nat.ltb_spec i (k + 0)); cbn; try lia; reflexivity.
    - rewrite IH. destruct (Nat.eqb_spec k i), (Nat.leb_spec (S k) i), (Nat.ltb_spec i (S k + l)), (Nat.leb_spec k i), (Nat.ltb_spec i (k + S l)); cbn; try lia; try ring;
        destruct S1 as [-> | ->]; ring. }
  unfold u. rewrite K. destruct (Nat.leb_spec 0 i), (Nat.ltb_spec i (0 + n)); cbn; try lia; reflexivity.
Qed.

(** ** is_colinear *)
Lemma colinear_of : forall t d s A B at1 at2 m, ld_ok (LD true t d s) A B at1 at2 ->
  (ld_is_colinear (ld_sqrt (LD true t d s)) (Some m) = true <-> exists p q, A p /\ B q /\ rdist p q <= m).
Proof.
  intros t d s A B at1 at2 m (par & t' & d' & s' & E & (C1 & C2 & C3) & ED). injection E as <- -> -> ->.
  unfold ld_is_colinear, ld_sqrt. cbn [ld_parallel ld_distance andb]. rewrite ED, X_sqrt by apply rdot_nonneg. rewrite rdist2_sqrt.
  change (Rle_bool (rdist (at1 t') (at2 s')) m = true <-> exists p q, A p /\ B q /\ rdist p q <= m). rewrite Rle_true. split.
  - intros H. exists (at1 t'), (at2 s'). auto.
  - intros (p & q & HA & HB & H). apply Rle_trans with (2 := H). rewrite <- !rdist2_sqrt. apply sqrt_le_1_alt. now apply C3.
Qed.
Lemma ray_line_colinear : forall n r l m, is_ray n r -> is_line n l ->
  (area2 (ray_dir r) (ln_dir l) = 0 ->
     (ld_is_colinear (ray_line_dist (ray_lift r) (line_lift l)) (Some m) = true <-> exists p q, on_ray r p /\ on_line l q /\ rdist p q <= m))
  /\ (/ 1000 < area2 (ray_dir r) (ln_dir l) -> ld_is_colinear (ray_line_dist (ray_lift r) (line_lift l)) (Some m) = false).
Proof.
  intros n r l m HR HL. destruct (X_ray_line n r l HR HL) as [A B]. unfold ray_line_dist. split; intros H.
  - assert (P := ray_line_par n r l HR HL H). rewrite A in P by lra. rewrite A by lra. eapply colinear_of. exact P.
  - rewrite B by exact H. reflexivity.
Qed.
Lemma ray_seg_colinear : forall n r s m, is_ray n r -> is_segment n s -> seg_start s <> seg_end s ->
  (area2 (rsub (seg_end s) (seg_start s)) (ray_dir r) = 0 ->
     (ld_is_colinear (ray_seg_dist (ray_lift r) (seg_lift s)) (Some m) = true <-> exists p q, on_ray r p /\ on_seg s q /\ rdist p q <= m))
  /\ (/ 1000 < area2 (rsub (seg_end s) (seg_start s)) (ray_dir r) -> ld_is_colinear (ray_seg_dist (ray_lift r) (seg_lift s)) (Some m) = false).
Proof.
  intros n r s m HR HS NE. destruct (X_ray_seg n r s HR HS) as [A B]. unfold ray_seg_dist. split; intros H.
  - assert (P := ray_seg_par n r s HR HS NE H). rewrite A in * by lra.
    assert (TR : exists t d q, ray_seg_parallel (ray_lift r) (seg_lift s) = LD true t d q).
    { unfold ray_seg_parallel. repeat match goal with |- context [if ?c then _ else _] => destruct c end; do 3 eexists; reflexivity. }
    destruct TR as (t & d & q & E). rewrite E in *. eapply colinear_of. exact P.
  - destruct (B H) as (x & t & _ & E). rewrite E. reflexivity.
Qed.

(** ** approx of vectors: operands in the other order *)
Lemma cmp_shift : forall x v e, length x = length v ->
  v_compare (vS v) (vS (map (fun y => y - e) x)) (cst 0) = v_compare (vS (map (fun y => y + e) v)) (vS x) (cst 0)
  /\ v_compare (vS v) (vS (map (fun y => y + e) x)) (cst 0) = v_compare (vS (map (fun y => y - e) v)) (vS x) (cst 0).
Proof.
  induction x as [|a x IH]; intros [|b v] e L; try discriminate; [split; reflexivity|]. cbn [map]. rewrite !v_compare_cons, !X_ccmp.
  destruct (IH v e ltac:(cbn in L; congruence)) as [-> ->].
  split; [destruct (Rcompare_spec b (a - e)), (Rcompare_spec (b + e) a)|destruct (Rcompare_spec b (a + e)), (Rcompare_spec (b - e) a)]; try lra; reflexivity.
Qed.
Lemma apv_swapped : forall n x v e, length x = n -> length v = n ->
  let a := Approx (vS v) (Some e) in let y := vS x in
  apv_lt_l n a y = apv_gt_r n y a /\ apv_gt_l n a y = apv_lt_r n y a
  /\ (apv_lt_r n y a = true <-> lex Rlt eq x (map (fun z => z - e) v))
  /\ (apv_gt_r n y a = true <-> lex Rlt eq (map (fun z => z + e) v) x).
Proof.
  intros n x v e Lx Lv a y. unfold a, y, apv_lt_l, apv_gt_l, apv_lt_r, apv_gt_r. cbn [ap_value ap_eps].
  rewrite !X_sub_fill, !X_add_fill by assumption. destruct (cmp_shift x v e ltac:(congruence)) as [E1 E2].
  assert (LX : forall p q : list R, length p = length q -> (vec_lt (vS p) (vS q) <-> lex Rlt eq p q)).
  { clear. induction p as [|a p IH]; intros [|b q] L; try discriminate.
    - split; intros H; inversion H.
    - specialize (IH q ltac:(cbn in L; congruence)). unfold vec_lt in *. cbn [map].
      assert (C1 : comp_lt (Some a : XR) (Some b) <-> a < b).
      { unfold comp_lt, NaN. cbn. rewrite Req_bool_true by reflexivity. split; [intros [[_ H]|H]; [rewrite Req_bool_true in H by reflexivity; discriminate|]|]; [revert H; case Rlt_bool_spec; [auto|discriminate]|]. intros H. right. now apply Rlt_bool_true. }
      assert (C2 : comp_eq (Some a : XR) (Some b) <-> a = b).
      { unfold comp_eq, NaN. cbn. split; [intros [[H _]|H]; [rewrite Req_bool_true in H by reflexivity; discriminate|]|]; [revert H; case Req_bool_spec; [auto|discriminate]|]. intros H. right. now apply Req_bool_true. }
      split; intros H; inversion H; subst; try (apply lex_here; now apply C1); apply lex_next; try (now apply C2); now apply IH. }
  split; [|split; [|split]].
  - unfold v_lt, v_gt. rewrite E1, (v_compare_anti (vS x)). generalize (v_compare (vS x) (vS (map (fun y => y + e) v)) (cst 0)). intros z.
    destruct (Z.ltb_spec (- z) 0), (Z.ltb_spec 0 z); lia || reflexivity.
  - unfold v_lt, v_gt. rewrite E2, (v_compare_anti (vS x)). generalize (v_compare (vS x) (vS (map (fun y => y - e) v)) (cst 0)). intros z.
    destruct (Z.ltb_spec z 0), (Z.ltb_spec 0 (- z)); lia || reflexivity.
  - rewrite <- LX by (rewrite map_length; congruence). destruct (v_ops_spec (vS x) (vS (map (fun y => y - e) v))) as (-> & _); [rewrite !map_length; congruence|]. reflexivity.
  - rewrite <- LX by (rewrite map_length; congruence). destruct (v_ops_spec (vS x) (vS (map (fun y => y + e) v))) as (_ & _ & -> & _); [rewrite !map_length; congruence|]. reflexivity.
Qed.

(** ** Projection of space onto a plane along its normal *)
Lemma plane_projection_normal : forall d n, length n = 3%nat -> rdot n n = 1 -> Rabs d <= 10 ^ 13 ->
  exists m x y, plane_projection_matrix_n (Some d) (vS n) = Ret m
    /\ length x = 3%nat /\ length y = 3%nat /\ rdot x x = 1 /\ rdot y y = 1 /\ rdot n x = 0 /\ rdot n y = 0 /\ rdot x y = 0 /\
    forall q t, length q = 3%nat -> rdot n q = d ->
      m_mul_p 4 m (vS (radd q (rscale t n))) = vS [rdot q x; rdot q y; t].
Proof.
  intros d n L U D. unfold plane_projection_matrix_n. destruct (plane_projection_total d n n L L U U) as [_ H]. rewrite U in H.
  rewrite (Rabs_pos_eq 1) in H by lra. destruct H as (M & _ & E); [simpl; lra|lra|].
  exists (map vS M). destruct (plane_projection_ok d n n _ L L U E) as (x & y & K). exists x, y. split; [exact E|exact K].
Qed.
