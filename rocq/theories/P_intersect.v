(** Proofs about intersections (C54 - C58). *)
From Coq Require Import ZArith Reals List Bool Lia Lra Psatz FunctionalExtensionality.
From Flocq Require Import Core.
From Verif Require Import Ops M_scalar M_vec M_mat M_bbox M_geom M_intersect Inst_XR S_vec S_geom S_intersect.
From Verif Require Import P_ord P_xr P_vec P_vec2 P_line P_seg P_plane P_dist.
Import ListNotations.
Local Open Scope R_scope.

(** ** Planes *)
Lemma plane_param : forall n p o d, is_plane n p -> length o = n -> length d = n -> rdot d (pl_normal p) <> 0 ->
  forall t, on_plane n p (rpoint o d t) <-> t = (pl_dist p - rdot o (pl_normal p)) / rdot d (pl_normal p).
Proof.
  intros n p o d [L U] Lo Ld N t. unfold on_plane. rewrite rpoint_length by congruence. unfold rpoint.
  rewrite rdot_add_l, rdot_scale_l by len. split.
  - intros [_ E]. rewrite <- E. field. exact N.
  - intros ->. split; [ exact Lo | ]. field. exact N.
Qed.
Lemma X_neg_almost_zero : o_neg (almost_zero : XR) = Some (- / 1000).
Proof. unfold almost_zero. rewrite X_lit by discriminate. cbn [o_neg XRops X1]. apply f_equal. lra. Qed.
Lemma anchor_dot : forall n p o, is_plane n p -> length o = n ->
  v_dot (v_sub (pl_anchor (plane_lift p)) (vS o)) (vS (pl_normal p)) = Some (pl_dist p - rdot o (pl_normal p)).
Proof.
  intros n p o [L U] Lo. unfold pl_anchor, plane_lift. cbn [pl_dist pl_normal].
  rewrite X_scale, X_sub, X_dot. f_equal. rewrite rdot_sub_l by len. rewrite rdot_scale_l, U. ring.
Qed.
Lemma ray_plane_ok : forall n r p, length (ray_origin r) = n -> length (ray_dir r) = n -> is_plane n p ->
  let c := rdot (ray_dir r) (pl_normal p) in
  let x := intersect_ray_plane (ray_lift r) (plane_lift p) in
  (Rabs c <= / 1000 -> x = None)
  /\ (/ 1000 < Rabs c -> exists t, (forall t', on_plane n p (ray_at r t') <-> t' = t)
        /\ (t < - / 1000 -> x = None) /\ (- / 1000 <= t -> x = Some t)).
Proof.
  intros n r p L1 L2 HP c x. unfold x, intersect_ray_plane.
  assert (AD := anchor_dot n p (ray_origin r) HP L1).
  change (pl_normal (plane_lift p)) with (vS (pl_normal p)). change (ray_dir (ray_lift r)) with (vS (ray_dir r)). change (ray_origin (ray_lift r)) with (vS (ray_origin r)).
  rewrite AD, X_dot, X_zero_test. fold c. split; intros H.
  - now rewrite Rle_bool_true.
  - rewrite Rle_bool_false by exact H. assert (C : c <> 0) by (intros E; rewrite E, Rabs_R0 in H; lra).
    rewrite X_div, X_neg_almost_zero by exact C. cbn [o_lt XRops Xcmp].
    exists ((pl_dist p - rdot (ray_origin r) (pl_normal p)) / c). split; [ | split; intros T ].
    + intros t. now apply (plane_param n).
    + now rewrite Rlt_bool_true.
    + now rewrite Rlt_bool_false.
Qed.
Lemma ray_plane_intersects : forall n r p, length (ray_origin r) = n -> length (ray_dir r) = n -> is_plane n p ->
  / 1000 < Rabs (rdot (ray_dir r) (pl_normal p)) ->
  (forall t, - / 1000 <= t < 0 -> ~ on_plane n p (ray_at r t)) ->
  intersects (on_plane n p) r (intersect_ray_plane (ray_lift r) (plane_lift p)).
Proof.
  intros n r p L1 L2 HP C T. destruct (ray_plane_ok n r p L1 L2 HP) as [_ H]. destruct (H C) as (t & P & N & S). clear H.
  destruct (Rlt_le_dec t (- / 1000)) as [H|H].
  - rewrite N by exact H. intros (t' & T' & E). apply P in E. lra.
  - rewrite S by exact H. assert (T0 : 0 <= t). { destruct (Rle_lt_dec 0 t) as [?|?]; [ assumption | ]. exfalso. apply (T t); [ lra | now apply P ]. }
    split; [ exact T0 | ]. split; [ now apply P | ]. intros t' T' E. apply P in E. lra.
Qed.
Lemma ray_plane_parallel : forall n r p, length (ray_origin r) = n -> length (ray_dir r) = n -> is_plane n p ->
  rdot (ray_dir r) (pl_normal p) = 0 -> ~ on_plane n p (ray_origin r) ->
  intersects (on_plane n p) r (intersect_ray_plane (ray_lift r) (plane_lift p)).
Proof.
  intros n r p L1 L2 HP C T. destruct (ray_plane_ok n r p L1 L2 HP) as [H _]. rewrite H by (rewrite C, Rabs_R0; lra).
  intros (t & _ & [E1 E2]). apply T. split; [ exact L1 | ]. unfold ray_at, rpoint in E2. destruct HP as [L U].
  rewrite rdot_add_l, rdot_scale_l, C in E2 by len. lra.
Qed.
Lemma line_plane_ok : forall l p, length (ln_point l) = 3%nat -> length (ln_dir l) = 3%nat -> is_plane 3 p ->
  let c := rdot (ln_dir l) (pl_normal p) in
  let x := intersect_line_plane (line_lift l) (plane_lift p) in
  (Rabs c <= / 1000 -> x = None)
  /\ (/ 1000 < Rabs c -> exists t, x = Some t
        /\ forall t', on_plane 3 p (rpoint (ln_point l) (ln_dir l) t') <-> t' = t).
Proof.
  intros l p L1 L2 HP c x. unfold x, intersect_line_plane.
  assert (AD := anchor_dot 3 p (ln_point l) HP L1). unfold pl_anchor in AD.
  change (pl_normal (plane_lift p)) with (vS (pl_normal p)) in *. change (ln_dir (line_lift l)) with (vS (ln_dir l)). change (ln_point (line_lift l)) with (vS (ln_point l)).
  change (pl_dist (plane_lift p)) with (Some (pl_dist p)) in *. rewrite X_scale_l. rewrite X_scale in AD.
  rewrite AD, X_dot, X_zero_test. fold c. split; intros H.
  - now rewrite Rle_bool_true.
  - rewrite Rle_bool_false by exact H. assert (C : c <> 0) by (intros E; rewrite E, Rabs_R0 in H; lra).
    rewrite X_div by exact C. eexists. split; [ reflexivity | ]. now apply (plane_param 3).
Qed.
(** The tolerance: a point slightly behind the origin is reported, and a ray at a small angle to the
    plane does not meet it. *)
Ltac veq := unfold ray_at, rlerp, rpoint, rsub, radd, rscale, zip; simpl; repeat (apply f_equal2; [ lra | ]); reflexivity.
Lemma ray_plane_behind_refuted : exists r p t, is_ray 3 r /\ is_plane 3 p
  /\ intersect_ray_plane (ray_lift r) (plane_lift p) = Some t /\ t < 0.
Proof.
  set (r := Ray [0; 0; 0] [1; 0; 0]). set (p := Pl (- / 2000) [1; 0; 0]). exists r, p, (- / 2000).
  assert (HP : is_plane 3 p) by (split; [ reflexivity | simpl; lra ]).
  split; [ unitv | ]. split; [ exact HP | ]. split; [ | lra ].
  destruct (ray_plane_ok 3 r p) as [_ A]; try reflexivity; [ exact HP | ].
  assert (C : rdot (ray_dir r) (pl_normal p) = 1) by (simpl; lra). rewrite C, Rabs_R1 in A.
  destruct (A ltac:(lra)) as (t & E & _ & F). specialize (E (- / 2000)). destruct E as [E _].
  rewrite F, <- E; try reflexivity; try (split; [ reflexivity | simpl; lra ]).
  rewrite <- E; [ lra | ]. split; [ reflexivity | simpl; lra ].
Qed.
Lemma ray_plane_parallel_refuted : exists r p, is_plane 3 p /\ is_ray 3 r
  /\ hits (on_plane 3 p) r /\ intersect_ray_plane (ray_lift r) (plane_lift p) = None.
Proof.
  set (d := 2 / 4001). set (s := sqrt (1 - d * d)).
  assert (D : 0 < d * d < 1) by (unfold d; lra).
  set (r := Ray [0; 0; 0] [s; d; 0]). set (p := Pl d [0; 1; 0]).
  assert (HP : is_plane 3 p) by (split; [ reflexivity | simpl; lra ]).
  assert (HR : is_ray 3 r). { split; [ reflexivity | ]. split; [ reflexivity | ]. simpl. unfold s. rewrite sqrt_sqrt by lra. lra. }
  exists r, p. split; [ exact HP | ]. split; [ exact HR | ]. split.
  - exists 1. split; [ lra | ]. split; [ reflexivity | ]. unfold ray_at, rpoint, radd, rscale. simpl. lra.
  - destruct (ray_plane_ok 3 r p) as [A _]; try reflexivity; [ exact HP | ]. apply A. simpl. rewrite Rabs_pos_eq; unfold d; lra.
Qed.

(** ** Triangles *)
Lemma ray_triangle_ok : forall r p1 p2 p3, length (ray_origin r) = 3%nat -> length (ray_dir r) = 3%nat ->
  length p1 = 3%nat -> length p2 = 3%nat -> length p3 = 3%nat ->
  let a := rdot (rcross (ray_dir r) (rsub p3 p1)) (rsub p2 p1) in
  let x := intersect_ray_triangle (ray_lift r) (vS p1) (vS p2) (vS p3) in
  (Rabs a <= / 1000 -> x = None)
  /\ (/ 1000 < Rabs a -> intersects (in_triangle p1 p2 p3) r x
      /\ forall t t', in_triangle p1 p2 p3 (ray_at r t) -> in_triangle p1 p2 p3 (ray_at r t') -> t = t').
Proof.
  intros [o d] p1 p2 p3 L1 L2 L3 L4 L5. cbn [ray_origin ray_dir] in L1, L2.
  destruct o as [|o0 [|o1 [|o2 [|]]]]; try discriminate. destruct d as [|d0 [|d1 [|d2 [|]]]]; try discriminate.
  destruct p1 as [|a0 [|a1 [|a2 [|]]]]; try discriminate. destruct p2 as [|b0 [|b1 [|b2 [|]]]]; try discriminate.
  destruct p3 as [|c0 [|c1 [|c2 [|]]]]; try discriminate. clear.
  set (e1 := rsub [b0; b1; b2] [a0; a1; a2]). set (e2 := rsub [c0; c1; c2] [a0; a1; a2]).
  set (d := [d0; d1; d2]). set (tt := rsub [o0; o1; o2] [a0; a1; a2]).
  intros a x. cbn [ray_dir] in a. fold e1 e2 d in a.
  set (u := rdot (rcross tt e1) e2 / a). set (v := rdot (rcross d e2) tt / a). set (w := rdot (rcross tt e1) d / a).
  assert (EX : x = if Rle_bool (Rabs a) (/ 1000) then None
       else if Rlt_bool u 0 then None else if Rlt_bool v 0 then None else if Rlt_bool w 0 then None
       else if Rlt_bool 1 (v + w) then None else Some u).
  { unfold x, intersect_ray_triangle, ray_lift. cbn [ray_origin ray_dir]. rewrite !X_sub. fold e1 e2 d tt.
    rewrite !X_cross3 by reflexivity. rewrite !X_dot. fold a. rewrite X_zero_test. destruct (Rle_bool_spec (Rabs a) (/ 1000)) as [|H]; [ reflexivity | ].
    assert (A : a <> 0) by (intros E; rewrite E, Rabs_R0 in H; lra).
    rewrite !X_div by exact A. fold u v w. change (cst 0 : XR) with (Some 0). change (cst 1 : XR) with (Some 1). cbn [o_lt o_add XRops Xcmp X2]. reflexivity. }
  rewrite EX. split; intros H. { now rewrite Rle_bool_true. } rewrite Rle_bool_false by exact H.
  assert (A : a <> 0) by (intros E; rewrite E, Rabs_R0 in H; lra).
  (* the equation of the line and the plane has one solution *)
  assert (SOL : forall t y z, rpoint [o0; o1; o2] d t = radd (radd [a0; a1; a2] (rscale y e1)) (rscale z e2) <-> t = u /\ y = v /\ z = w).
  { intros t y z. split.
    - intros E. unfold rpoint, radd, rscale, d, e1, e2, rsub in E. cbn [zip map] in E. injection E as E0 E1 E2.
      unfold u, v, w. assert (T0 : o0 - a0 = y * (b0 - a0) + z * (c0 - a0) - t * d0) by lra.
      assert (T1 : o1 - a1 = y * (b1 - a1) + z * (c1 - a1) - t * d1) by lra.
      assert (T2 : o2 - a2 = y * (b2 - a2) + z * (c2 - a2) - t * d2) by lra.
      assert (TT : tt = [y * (b0 - a0) + z * (c0 - a0) - t * d0; y * (b1 - a1) + z * (c1 - a1) - t * d1; y * (b2 - a2) + z * (c2 - a2) - t * d2]).
      { unfold tt, rsub. cbn [zip]. now rewrite T0, T1, T2. }
      assert (EQ : forall k m, k * a = m -> k = m / a) by (intros k m <-; field; exact A).
      split; [ | split ]; apply EQ; rewrite TT; unfold a, e1, e2, d, rsub; cbn [zip rcross]; simpl; ring.
    - intros (-> & -> & ->).
      assert (K : forall U V W x0 x1 x2 x3 x4, x0 * a + U * x1 = x2 * a + V * x3 + W * x4 ->
                    x0 + U / a * x1 = x2 + V / a * x3 + W / a * x4).
      { intros U V W x0 x1 x2 x3 x4 E. apply Rmult_eq_reg_r with a; [ | exact A ].
        replace ((x0 + U / a * x1) * a) with (x0 * a + U * x1) by (field; exact A). rewrite E. field. exact A. }
      unfold rpoint, radd, rscale. unfold d, e1, e2, rsub. cbn [zip map].
      unfold u, v, w. repeat (apply f_equal2; [ apply K; unfold a, e1, e2, d, tt, rsub; cbn [zip rcross]; simpl; ring | ]). reflexivity. }
  assert (HIT : forall t, in_triangle [a0; a1; a2] [b0; b1; b2] [c0; c1; c2] (ray_at (Ray [o0; o1; o2] d) t) <-> t = u /\ 0 <= v /\ 0 <= w /\ v + w <= 1).
  { intros t. unfold in_triangle, ray_at. cbn [ray_origin ray_dir]. fold e1 e2. split.
    - intros (y & z & Y & Z & YZ & E). apply SOL in E as (-> & -> & ->). auto.
    - intros (-> & V & W & VW). exists v, w. repeat split; auto. now apply SOL. }
  split.
  - destruct (Rlt_bool_spec u 0) as [U|U]. { intros (t & T & E). apply HIT in E as (-> & _). lra. }
    destruct (Rlt_bool_spec v 0) as [V|V]. { intros (t & T & E). apply HIT in E as (_ & E & _). lra. }
    destruct (Rlt_bool_spec w 0) as [W|W]. { intros (t & T & E). apply HIT in E as (_ & _ & E & _). lra. }
    destruct (Rlt_bool_spec 1 (v + w)) as [VW|VW]. { intros (t & T & E). apply HIT in E as (_ & _ & _ & E). lra. }
    split; [ exact U | ]. split; [ now apply HIT | ]. intros t' T' E. apply HIT in E as (-> & _). lra.
  - intros t t' E E'. apply HIT in E as (-> & _). now apply HIT in E' as (-> & _).
Qed.
(** A small triangle is never hit, not even at a right angle. *)
Lemma ray_triangle_small_refuted : exists r p1 p2 p3, is_ray 3 r
  /\ length p1 = 3%nat /\ length p2 = 3%nat /\ length p3 = 3%nat /\ rcross (rsub p2 p1) (rsub p3 p1) = [0; 0; 9 / 10000]
  /\ rdot (ray_dir r) [0; 0; 1] = -1
  /\ first_hit (in_triangle p1 p2 p3) r 1 /\ intersect_ray_triangle (ray_lift r) (vS p1) (vS p2) (vS p3) = None.
Proof.
  set (r := Ray [1 / 100; 1 / 100; 1] [0; 0; -1]). set (p1 := [0; 0; 0]). set (p2 := [3 / 100; 0; 0]). set (p3 := [0; 3 / 100; 0]).
  exists r, p1, p2, p3. split; [ unitv | ]. do 3 (split; [ reflexivity | ]).
  split. { unfold p1, p2, p3, rsub. cbn [zip rcross]. repeat (apply f_equal2; [ lra | ]). reflexivity. }
  split. { simpl; lra. } split.
  - split; [ lra | ]. split.
    + exists (1 / 3), (1 / 3). repeat split; try lra. unfold r, p1, p2, p3. veq.
    + intros t T (v & w & _ & _ & _ & E). unfold ray_at, rpoint, radd, rscale, rsub, r, p1, p2, p3 in E. cbn [zip map ray_origin ray_dir] in E.
      injection E as _ _ E. lra.
  - destruct (ray_triangle_ok r p1 p2 p3) as [A _]; try reflexivity. apply A. unfold r, p1, p2, p3, rsub. cbn [zip rcross ray_dir]. simpl.
    rewrite Rabs_pos_eq; lra.
Qed.

(** ** Boxes *)
(** The loops that choose a plane. *)
Lemma fold_closest : forall (D : nat -> R) l b, let m := fold_left (fun best i => if Rlt_bool (D i) (D best) then i else best) l b in
  In m (b :: l) /\ forall i, In i (b :: l) -> D m <= D i.
Proof.
  intros D l. induction l as [|x l IH]; intros b; cbn [fold_left].
  - split; [ now left | ]. intros i [-> |[]]. lra.
  - destruct (IH (if Rlt_bool (D x) (D b) then x else b)) as [I1 I2]. split.
    + destruct I1 as [I1|I1]; [ | simpl; auto ]. rewrite <- I1. destruct (Rlt_bool (D x) (D b)); simpl; auto.
    + assert (E : D (if Rlt_bool (D x) (D b) then x else b) <= D x /\ D (if Rlt_bool (D x) (D b) then x else b) <= D b).
      { destruct (Rlt_bool_spec (D x) (D b)); lra. }
      assert (E0 := I2 _ (or_introl eq_refl)). intros i [<- |[<- |H]]; [ lra | lra | ]. apply I2. now right.
Qed.
Lemma fold_farthest : forall (D : nat -> R) (C : nat -> bool) l b, C b = true ->
  let m := fold_left (fun best i => if C i && Rlt_bool (D best) (D i) then i else best) l b in
  In m (b :: l) /\ C m = true /\ forall i, In i (b :: l) -> C i = true -> D i <= D m.
Proof.
  intros D C l. induction l as [|x l IH]; intros b Cb; cbn [fold_left].
  - split; [ now left | ]. split; [ exact Cb | ]. intros i [-> |[]] _. lra.
  - set (y := if C x && Rlt_bool (D b) (D x) then x else b).
    assert (Y : C y = true /\ (y = x \/ y = b) /\ D b <= D y /\ (C x = true -> D x <= D y)).
    { unfold y. destruct (C x) eqn:Cx; cbn [andb]; [ | repeat split; auto; [ lra | discriminate ] ].
      destruct (Rlt_bool_spec (D b) (D x)); repeat split; auto; lra. }
    destruct Y as (Y1 & Y2 & Y3 & Y4). destruct (IH y Y1) as (I1 & I2 & I3). split; [ | split ].
    + destruct I1 as [I1|I1]; [ | simpl; auto ]. rewrite <- I1. destruct Y2 as [-> | ->]; simpl; auto.
    + exact I2.
    + assert (E0 := I3 _ (or_introl eq_refl) Y1). intros i [<- |[<- |H]] Ci; [ lra | specialize (Y4 Ci); lra | ]. apply I3; [ now right | exact Ci ].
Qed.
Lemma find_first : forall (C : nat -> bool) n k, (exists i, (k <= i < k + n)%nat /\ C i = true) ->
  exists m, find C (seq k n) = Some m /\ (k <= m < k + n)%nat /\ C m = true /\ forall i, (k <= i < m)%nat -> C i = false.
Proof.
  intros C n. induction n as [|n IH]; intros k (i & I & Ci); [ lia | ]. cbn [seq find]. destruct (C k) eqn:E.
  - exists k. repeat split; auto; try lia. 
  - destruct (IH (S k)) as (m & F & M1 & M2 & M3).
    { exists i. split; [ | exact Ci ]. assert (i <> k) by congruence. lia. }
    exists m. repeat split; auto; try lia. intros j J. destruct (Nat.eq_dec j k) as [-> |]; [ exact E | ]. apply M3. lia.
Qed.
Definition r_candidate (org dir mn mx : R) : R * bool :=
  if Rlt_bool org mn then (mn, false) else if Rlt_bool mx org then (mx, false)
  else (if Rlt_bool dir 0 then mn else mx, true).
Definition r_distance (org dir plane : R) : R := if Req_bool dir 0 then -1 else (plane - org) / dir.
Lemma X_candidate : forall org dir mn mx, rb_candidate (Some org) (Some dir) (Some mn) (Some mx)
  = (Some (fst (r_candidate org dir mn mx)), snd (r_candidate org dir mn mx)).
Proof.
  intros. unfold rb_candidate, r_candidate. change (cst 0 : XR) with (Some 0). cbn [o_lt XRops Xcmp].
  destruct (Rlt_bool org mn); [ reflexivity | ]. destruct (Rlt_bool mx org); [ reflexivity | ]. now destruct (Rlt_bool dir 0).
Qed.
Lemma X_rdistance : forall org dir pl, rb_distance (Some org) (Some dir) (Some pl) = Some (r_distance org dir pl).
Proof.
  intros. unfold rb_distance, r_distance. change (cst 0 : XR) with (Some 0). change (cst (-1) : XR) with (Some (-1)). cbn [o_eq o_sub XRops Xcmp X2].
  destruct (Req_bool_spec dir 0) as [E|E]; cbn [negb]; [ reflexivity | ]. now rewrite X_div.
Qed.
Lemma Forall2_nth_iff : forall (P : R -> R -> Prop) (a b : list R),
  Forall2 P a b <-> length a = length b /\ forall i, (i < length a)%nat -> P (nth i a 0) (nth i b 0).
Proof.
  intros P a. induction a as [|x a IH]; intros [|y b]; split; try (intros H; inversion H; fail); try (intros [H _]; discriminate).
  - intros _. split; [ reflexivity | ]. intros i I. simpl in I. lia.
  - intros _. constructor.
  - intros H. inversion H; subst. apply IH in H5 as [L Q]. split; [ simpl; congruence | ]. intros [|i] I; [ assumption | ]. apply Q. simpl in I. lia.
  - intros [L Q]. constructor; [ apply (Q 0%nat); simpl; lia | ]. apply IH. split; [ now injection L | ]. intros i I. apply (Q (S i)). simpl. lia.
Qed.
Lemma NNPP_ex : forall P : nat -> Prop, ~ ~ (exists i, P i) -> exists i, P i.
Proof. intros P H. now apply Classical_Prop.NNPP. Qed.
Section Box.
Variables (n : nat) (o d lo hi : list R).
Hypothesis (Lo : length o = n) (Ld : length d = n) (Ll : length lo = n) (Lh : length hi = n).
Hypothesis BOX : Forall2 Rle lo hi.
Let r := Ray o d.
Let b := BB lo hi.
Let og i := nth i o 0.
Let dr i := nth i d 0.
Let mn i := nth i lo 0.
Let mx i := nth i hi 0.
Let ins i := snd (r_candidate (og i) (dr i) (mn i) (mx i)).
Let D i := r_distance (og i) (dr i) (fst (r_candidate (og i) (dr i) (mn i) (mx i))).
Let best := if forallb ins (seq 0 n) then fold_left (fun best i => if Rlt_bool (D i) (D best) then i else best) (seq 1 (n - 1)) 0%nat
  else let first := match find (fun i => negb (ins i)) (seq 0 n) with Some i => i | None => 0%nat end in
    fold_left (fun best i => if negb (ins i) && Rlt_bool (D best) (D i) then i else best) (seq (first + 1) (n - (first + 1))) first.
Lemma X_rb : forall i, rb_inside (ray_lift r) (box_lift b) i = ins i /\ rb_distances (ray_lift r) (box_lift b) i = Some (D i).
Proof.
  intros i. unfold rb_inside, rb_distances, rb_axis, ray_lift, box_lift, r, b. cbn [ray_origin ray_dir bb_min bb_max].
  fold (vS o) (vS d) (vS lo) (vS hi). rewrite !X_get, X_candidate. cbn [fst snd]. rewrite X_rdistance. auto.
Qed.
Lemma X_bbox : intersect_ray_bbox n (ray_lift r) (box_lift b)
  = if Rlt_bool (D best) 0 then None
    else if existsb (fun i => negb (best =? i)%nat && (Rlt_bool (og i + D best * dr i) (mn i) || Rlt_bool (mx i) (og i + D best * dr i))) (seq 0 n)
    then None else Some (D best).
Proof.
  unfold intersect_ray_bbox. cbv zeta.
  replace (rb_inside (ray_lift r) (box_lift b)) with ins by (apply functional_extensionality; intros i; symmetry; apply X_rb).
  replace (rb_distances (ray_lift r) (box_lift b)) with (fun i => Some (D i) : XR) by (apply functional_extensionality; intros i; symmetry; apply X_rb).
  change (rb_best n ins (fun i => Some (D i) : XR)) with best. change (cst 0 : XR) with (Some 0). cbn [o_lt XRops Xcmp].
  destruct (Rlt_bool (D best) 0); [ reflexivity | ].
  match goal with |- (if existsb ?f _ then _ else _) = if existsb ?g _ then _ else _ => replace f with g; [ reflexivity | ] end.
  apply functional_extensionality. intros i. unfold ray_lift, box_lift, r, b. cbn [ray_origin ray_dir bb_min bb_max].
  fold (vS o) (vS d) (vS lo) (vS hi). rewrite !X_get. reflexivity.
Qed.
Lemma mnmx : forall i, (i < n)%nat -> mn i <= mx i.
Proof. intros i I. unfold mn, mx. apply Forall2_nth_iff in BOX as [_ H]. apply H. lia. Qed.
Let at_ t i := og i + t * dr i.
Lemma at_nth : forall t i, nth i (ray_at r t) 0 = at_ t i.
Proof. intros t i. unfold ray_at, r, rpoint. cbn [ray_origin ray_dir]. rewrite nth_radd by len. now rewrite nth_rscale. Qed.
Lemma at_box : forall t, in_box (ray_at r t) lo hi <-> forall i, (i < n)%nat -> mn i <= at_ t i <= mx i.
Proof.
  intros t. assert (L : length (ray_at r t) = n) by (unfold ray_at, r; cbn [ray_origin ray_dir]; len).
  unfold in_box. rewrite !Forall2_nth_iff. rewrite L, Ll, Lh. split.
  - intros [[_ H1] [_ H2]] i I. rewrite <- at_nth. split; [ apply H1 | apply H2 ]; exact I.
  - intros H. split; (split; [ reflexivity | ]); intros i I; rewrite at_nth; apply H; exact I.
Qed.
Lemma at_surface : forall t, on_surface b (ray_at r t) <-> (forall i, (i < n)%nat -> mn i <= at_ t i <= mx i) /\ exists i, (i < n)%nat /\ (at_ t i = mn i \/ at_ t i = mx i).
Proof.
  intros t. unfold on_surface. change (bb_min b) with lo. change (bb_max b) with hi. rewrite at_box. assert (L : length (ray_at r t) = n) by (unfold ray_at, r; cbn [ray_origin ray_dir]; len).
  rewrite L. split; intros [H (i & I & E)]; (split; [ exact H | ]); exists i; (split; [ exact I | ]); rewrite at_nth in *; exact E.
Qed.

Lemma outside_cases : forall i, ins i = false -> (og i < mn i /\ D i = r_distance (og i) (dr i) (mn i)) \/ (mx i < og i /\ ~ og i < mn i /\ D i = r_distance (og i) (dr i) (mx i)).
Proof.
  intros i H. unfold D. unfold ins, r_candidate in *. destruct (Rlt_bool_spec (og i) (mn i)); [ now left | ].
  destruct (Rlt_bool_spec (mx i) (og i)); [ right; repeat split; auto; lra | ]. discriminate.
Qed.
Lemma inside_cases : forall i, ins i = true <-> mn i <= og i <= mx i.
Proof.
  intros i. unfold ins, r_candidate. destruct (Rlt_bool_spec (og i) (mn i)); [ split; [ discriminate | simpl; lra ] | ].
  destruct (Rlt_bool_spec (mx i) (og i)); [ split; [ discriminate | simpl; lra ] | ]. split; [ lra | reflexivity ].
Qed.
Lemma rdist_nonneg : forall a k c, 0 <= r_distance a k c -> k <> 0 /\ a + r_distance a k c * k = c.
Proof.
  intros a k c. unfold r_distance. destruct (Req_bool_spec k 0) as [E|E]; [ lra | ]. intros _. split; [ exact E | ]. field. exact E.
Qed.
(** A ray that starts outside reaches the plane of an outside axis before it can reach the box. *)
Lemma outside_reach : forall i t, (i < n)%nat -> ins i = false -> 0 <= t -> mn i <= at_ t i <= mx i ->
  0 < D i <= t /\ (forall t', 0 <= t' < D i -> ~ (mn i <= at_ t' i <= mx i)) /\ (forall t', D i <= t' <= t -> mn i <= at_ t' i <= mx i).
Proof.
  intros i t I H T R. assert (M := mnmx i I). unfold at_ in *. 
  destruct (outside_cases i H) as [[C ->]|[C [C' ->]]]; unfold r_distance.
  - assert (K : 0 < dr i) by nra. destruct (Req_bool_spec (dr i) 0) as [|_]; [ lra | ].
    assert (Q := Rinv_0_lt_compat _ K). set (x := (mn i - og i) / dr i). assert (X : x * dr i = mn i - og i) by (unfold x; field; lra).
    split; [ | split ]; [ split | | ]; try intros t' T'; nra.
  - assert (K : dr i < 0) by nra. destruct (Req_bool_spec (dr i) 0) as [|_]; [ lra | ].
    set (x := (mx i - og i) / dr i). assert (X : x * dr i = mx i - og i) by (unfold x; field; lra).
    split; [ | split ]; [ split | | ]; try intros t' T'; nra.
Qed.
Lemma best_outside : forallb ins (seq 0 n) = false -> (best < n)%nat /\ ins best = false /\ forall i, (i < n)%nat -> ins i = false -> D i <= D best.
Proof.
  intros F. unfold best. rewrite F. cbv zeta.
  destruct (find_first (fun i => negb (ins i)) n 0) as (m & E & M1 & M2 & M3).
  { apply not_true_iff_false in F. rewrite forallb_forall in F. apply NNPP_ex. intros N. apply F. intros i I. apply in_seq in I.
    destruct (ins i) eqn:Q; [ reflexivity | ]. exfalso. apply N. exists i. rewrite Q. split; [ lia | reflexivity ]. }
  rewrite E. destruct (fold_farthest D (fun i => negb (ins i)) (seq (m + 1) (n - (m + 1))) m M2) as (I1 & I2 & I3).
  split; [ | split ].
  - destruct I1 as [<- |I1]; [ lia | ]. apply in_seq in I1. lia.
  - now apply negb_true_iff in I2.
  - intros i I Hi. apply I3; [ | now rewrite Hi ]. destruct (Nat.lt_ge_cases m i) as [Q|Q]; [ right; apply in_seq; lia | left ].
    destruct (Nat.eq_dec m i) as [|Q']; [ assumption | ]. specialize (M3 i ltac:(lia)). rewrite Hi in M3. discriminate.
Qed.
Lemma forallb_ins : forallb ins (seq 0 n) = true <-> in_box o lo hi.
Proof.
  rewrite forallb_forall. unfold in_box. rewrite !Forall2_nth_iff, Ll, Lo, Lh. split.
  - intros H. split; (split; [ reflexivity | ]); intros i I; specialize (H i ltac:(apply in_seq; lia)); apply inside_cases in H; unfold mn, mx, og in H; lra.
  - intros [[_ H1] [_ H2]] i I. apply in_seq in I. apply inside_cases. unfold mn, mx, og. split; [ apply H1 | apply H2 ]; lia.
Qed.
Lemma bbox_outside : ~ in_box o lo hi -> intersects (on_surface b) r (intersect_ray_bbox n (ray_lift r) (box_lift b))
  /\ (intersect_ray_bbox n (ray_lift r) (box_lift b) = None -> ~ hits (fun q => in_box q lo hi) r).
Proof.
  intros NB. assert (F : forallb ins (seq 0 n) = false). { apply not_true_iff_false. now rewrite forallb_ins. }
  destruct (best_outside F) as (B1 & B2 & B3).
  (* if some point of the ray is in the box, the result is a number *)
  assert (C : forall t, 0 <= t -> in_box (ray_at r t) lo hi ->
    0 <= D best /\ forall i, (i < n)%nat -> mn i <= at_ (D best) i <= mx i).
  { intros t T H. rewrite at_box in H. destruct (outside_reach best t B1 B2 T (H best B1)) as (P1 & P2 & P3).
    split; [ lra | ]. intros i I. destruct (ins i) eqn:Hi.
    - apply inside_cases in Hi. specialize (H i I). unfold at_ in *. destruct (Rle_lt_dec 0 (dr i)); nra.
    - destruct (outside_reach i t I Hi T (H i I)) as (Q1 & Q2 & Q3). apply Q3. specialize (B3 i I Hi). lra. }
  rewrite X_bbox. destruct (Rlt_bool_spec (D best) 0) as [N|N].
  { assert (NH : ~ hits (fun q => in_box q lo hi) r). { intros (t & T & H). destruct (C t T H). lra. }
    split; [ | auto ]. intros (t & T & [H _]). apply NH. exists t. auto. }
  destruct (existsb _ _) eqn:E.
  - assert (NH : ~ hits (fun q => in_box q lo hi) r).
    { intros (t & T & H). destruct (C t T H) as [_ Q]. apply existsb_exists in E as (i & I & E). apply in_seq in I. apply andb_prop in E as [_ E].
      specialize (Q i ltac:(lia)). unfold at_ in Q. apply orb_prop in E as [E|E]; revert E; [ destruct (Rlt_bool_spec (og i + D best * dr i) (mn i)) | destruct (Rlt_bool_spec (mx i) (og i + D best * dr i)) ]; try discriminate; lra. }
    split; [ | auto ]. intros (t & T & [H _]). apply NH. exists t. auto.
  - split; [ | discriminate ]. assert (PL : dr best <> 0 /\ (at_ (D best) best = mn best \/ at_ (D best) best = mx best)).
    { unfold at_. destruct (outside_cases best B2) as [[_ EQ]|[_ [_ EQ]]]; rewrite EQ in N |- *; apply rdist_nonneg in N as [N1 N2]; auto. }
    destruct PL as [P1 P2]. assert (M := mnmx best B1).
    assert (IB : forall i, (i < n)%nat -> mn i <= at_ (D best) i <= mx i).
    { intros i I. destruct (Nat.eq_dec best i) as [<- |Q]; [ lra | ].
      rewrite <- not_true_iff_false, existsb_exists in E. unfold at_. split; apply Rnot_lt_le; intros X; apply E; exists i; (split; [ apply in_seq; lia | ]);
        (apply Nat.eqb_neq in Q; rewrite Q; cbn [negb andb]).
      - rewrite Rlt_bool_true by exact X. reflexivity.
      - rewrite (Rlt_bool_true (mx i)) by exact X. apply orb_true_r. }
    split; [ exact N | ]. split.
    + apply at_surface. split; [ exact IB | ]. exists best. split; [ exact B1 | exact P2 ].
    + intros t' T' S. apply at_surface in S as [S _]. destruct (outside_reach best (D best) B1 B2 N (IB best B1)) as (_ & Q & _).
      apply (Q t' T'). now apply S.
Qed.
(** If the ray starts inside the box and no component of the direction is zero, the result is where it leaves. *)
Lemma inside_reach : forall i, (i < n)%nat -> ins i = true -> dr i <> 0 ->
  0 <= D i /\ (at_ (D i) i = mn i \/ at_ (D i) i = mx i) /\ (forall t, 0 <= t <= D i -> mn i <= at_ t i <= mx i) /\ (forall t, D i < t -> ~ (mn i <= at_ t i <= mx i))
  /\ (mn i < og i < mx i -> forall t, 0 <= t < D i -> mn i < at_ t i < mx i).
Proof.
  intros i I H N. assert (M := mnmx i I). assert (H' := H). apply inside_cases in H'. unfold D, at_, ins, r_candidate in *.
  destruct (Rlt_bool_spec (og i) (mn i)); [ discriminate | ]. destruct (Rlt_bool_spec (mx i) (og i)); [ discriminate | ]. cbn [fst].
  unfold r_distance. destruct (Req_bool_spec (dr i) 0) as [|_]; [ contradiction | ].
  destruct (Rlt_bool_spec (dr i) 0) as [K|K].
  - set (x := (mn i - og i) / dr i). assert (X : x * dr i = mn i - og i) by (unfold x; field; lra). 
    assert (0 <= x) by nra. repeat split; try nra; try (left; lra); intros; try nra.
  - set (x := (mx i - og i) / dr i). assert (X : x * dr i = mx i - og i) by (unfold x; field; lra).
    assert (0 <= x) by nra. repeat split; try nra; try (right; lra); intros; try nra.
Qed.
Lemma bbox_inside : (0 < n)%nat -> in_box o lo hi -> (forall i, (i < n)%nat -> nth i d 0 <> 0) ->
  exists t, intersect_ray_bbox n (ray_lift r) (box_lift b) = Some t /\ 0 <= t /\ on_surface b (ray_at r t)
    /\ (forall t', 0 <= t' <= t -> in_box (ray_at r t') lo hi) /\ (forall t', t < t' -> ~ in_box (ray_at r t') lo hi)
    /\ ((forall i, (i < n)%nat -> nth i lo 0 < nth i o 0 < nth i hi 0) -> first_hit (on_surface b) r t).
Proof.
  intros N0 IB ND. assert (F := proj2 forallb_ins IB). 
  assert (BB : (best < n)%nat /\ forall i, (i < n)%nat -> D best <= D i).
  { unfold best. rewrite F. destruct (fold_closest D (seq 1 (n - 1)) 0) as [I1 I2]. split.
    - destruct I1 as [<- |I1]; [ exact N0 | ]. apply in_seq in I1. lia.
    - intros i I. apply I2. destruct i as [|i]; [ now left | right; apply in_seq; lia ]. }
  destruct BB as [B1 B2].
  assert (INS : forall i, (i < n)%nat -> ins i = true) by (intros i I; rewrite forallb_forall in F; apply F, in_seq; lia).
  assert (RCH := fun i I => inside_reach i I (INS i I) (ND i I)).
  destruct (RCH best B1) as (R1 & R2 & R3 & R4 & R5).
  assert (ALL : forall t', 0 <= t' <= D best -> forall i, (i < n)%nat -> mn i <= at_ t' i <= mx i).
  { intros t' T' i I. destruct (RCH i I) as (_ & _ & Q & _). apply Q. specialize (B2 i I). lra. }
  exists (D best). rewrite X_bbox. rewrite Rlt_bool_false by exact R1.
  replace (existsb _ _) with false.
  2: { symmetry. apply not_true_iff_false. rewrite existsb_exists. intros (i & I & E). apply in_seq in I. apply andb_prop in E as [_ E].
       assert (Q := ALL (D best) ltac:(lra) i ltac:(lia)). unfold at_ in Q.
       apply orb_prop in E as [E|E]; revert E; [ destruct (Rlt_bool_spec (og i + D best * dr i) (mn i)) | destruct (Rlt_bool_spec (mx i) (og i + D best * dr i)) ]; try discriminate; lra. }
  assert (SF : on_surface b (ray_at r (D best))).
  { apply at_surface. split; [ intros i I; apply ALL; [ lra | exact I ] | ]. exists best. auto. }
  split; [ reflexivity | ]. split; [ exact R1 | ]. split; [ exact SF | ]. split; [ | split ].
  - intros t' T'. apply at_box. now apply ALL.
  - intros t' T' H. rewrite at_box in H. apply (R4 t' T'). now apply H.
  - intros ST. split; [ exact R1 | ]. split; [ exact SF | ]. intros t' T' S. apply at_surface in S as [_ (i & I & S)].
    destruct (RCH i I) as (_ & _ & _ & _ & Q). specialize (Q (ST i I) t'). specialize (B2 i I). lra.
Qed.
End Box.
Lemma ray_bbox_outside : forall n r b, is_box n b -> length (ray_origin r) = n -> length (ray_dir r) = n ->
  ~ in_box (ray_origin r) (bb_min b) (bb_max b) ->
  let x := intersect_ray_bbox n (ray_lift r) (box_lift b) in
  intersects (on_surface b) r x /\ (x = None -> ~ hits (fun q => in_box q (bb_min b) (bb_max b)) r).
Proof. intros n [o d] [lo hi] (B1 & B2 & B3) L1 L2 N. now apply bbox_outside. Qed.
Lemma ray_bbox_inside : forall n r b, (0 < n)%nat -> is_box n b -> length (ray_origin r) = n -> length (ray_dir r) = n ->
  in_box (ray_origin r) (bb_min b) (bb_max b) -> (forall i, (i < n)%nat -> nth i (ray_dir r) 0 <> 0) ->
  exists t, intersect_ray_bbox n (ray_lift r) (box_lift b) = Some t /\ 0 <= t /\ on_surface b (ray_at r t)
    /\ (forall t', 0 <= t' <= t -> in_box (ray_at r t') (bb_min b) (bb_max b))
    /\ (forall t', t < t' -> ~ in_box (ray_at r t') (bb_min b) (bb_max b))
    /\ ((forall i, (i < n)%nat -> nth i (bb_min b) 0 < nth i (ray_origin r) 0 < nth i (bb_max b) 0) -> first_hit (on_surface b) r t).
Proof. intros n [o d] [lo hi] N0 (B1 & B2 & B3) L1 L2 N. now apply bbox_inside. Qed.
Ltac f2 := cbn; repeat first [ apply Forall2_nil | apply Forall2_cons; [ lra | ] ].
Ltac box2 := split; [ reflexivity | split; [ reflexivity | f2 ] ].
Lemma ray_bbox_zero_refuted : exists r b, is_box 2 b /\ is_ray 2 r
  /\ first_hit (on_surface b) r 1 /\ intersect_ray_bbox 2 (ray_lift r) (box_lift b) = None.
Proof.
  set (r := Ray [0; 0] [1; 0]). set (b := BB [-1; -1] [1; 1]). exists r, b. split; [ box2 | ]. split; [ unitv | ].
  assert (S : forall t, on_surface b (ray_at r t) <-> t = 1 \/ t = -1).
  { intros t. unfold on_surface, ray_at, rpoint, radd, rscale, b, r, in_box. cbn [zip map ray_origin ray_dir bb_min bb_max]. split.
    - intros [_ ([|[|i]] & I & E)]; simpl in *; try lra. lia.
    - intros E. split; [ split; f2 | ]. exists 0%nat. split; [ simpl; lia | ]. simpl. lra. }
  split.
  - split; [ lra | ]. split; [ apply S; auto | ]. intros t' T' E. apply S in E. lra.
  - unfold intersect_ray_bbox. set (bs := rb_best _ _ _).
    assert (EB : bs = 1%nat).
    { unfold bs, rb_best, rb_inside, rb_distances, rb_axis, ray_lift, box_lift, r, b. cbn [seq forallb vget nth map ray_origin ray_dir bb_min bb_max Nat.sub fold_left find].
      rewrite !X_candidate. unfold r_candidate. 
      rewrite !(Rlt_bool_false 0 (-1)), !(Rlt_bool_false 1 0), !(Rlt_bool_false 0 0) by lra. cbn [fst snd andb]. rewrite !X_rdistance. cbn [o_lt XRops Xcmp].
      unfold r_distance. rewrite (Req_bool_false 1 0), (Req_bool_true 0 0) by lra. now rewrite Rlt_bool_true by lra. }
    rewrite EB. unfold rb_distances, rb_axis, ray_lift, box_lift, r, b. cbn [vget nth map ray_origin ray_dir bb_min bb_max].
    rewrite X_candidate. cbn [fst]. rewrite X_rdistance. change (cst 0 : XR) with (Some 0). cbn [o_lt XRops Xcmp].
    unfold r_distance. rewrite (Req_bool_true 0 0) by lra. now rewrite Rlt_bool_true by lra.
Qed.
Lemma ray_bbox_boundary_refuted : exists r b t, is_box 1 b /\ is_ray 1 r /\ on_surface b (ray_origin r)
  /\ intersect_ray_bbox 1 (ray_lift r) (box_lift b) = Some t /\ 0 < t.
Proof.
  set (r := Ray [-1] [1]). set (b := BB [-1] [1]).
  destruct (ray_bbox_inside 1 r b) as (t & E & T & _ & _ & M & _).
  - lia.
  - box2.
  - reflexivity.
  - reflexivity.
  - split; f2.
  - intros [|[|i]] I; [ simpl; lra | lia | lia ].
  - exists r, b, t. split; [ box2 | ]. split; [ unitv | ]. split.
    + split; [ split; f2 | ]. exists 0%nat. split; [ simpl; lia | ]. left. reflexivity.
    + split; [ exact E | ]. apply Rnot_le_lt. intros H. apply (M 1); [ lra | ].
      unfold in_box, ray_at, rpoint, radd, rscale, r, b. cbn [zip map ray_origin ray_dir bb_min bb_max]. split; f2.
Qed.

(** ** Spheres *)
Lemma sphere_eq : forall r c rad t, is_ray (length c) r -> 0 <= rad ->
  (on_sphere c rad (ray_at r t) <-> t * t + 2 * rdot (rsub (ray_origin r) c) (ray_dir r) * t + (rdot (rsub (ray_origin r) c) (rsub (ray_origin r) c) - rad * rad) = 0).
Proof.
  intros [o d] c rad t [L1 [L2 U]] H. cbn [ray_origin ray_dir] in *. unfold on_sphere, rdist, rnorm, ray_at. cbn [ray_origin ray_dir].
  replace (rsub (rpoint o d t) c) with (radd (rsub o c) (rscale t d)) by (vext; ring). set (w := rsub o c).
  assert (Lw : length w = length d) by (unfold w; len).
  assert (E : rdot (radd w (rscale t d)) (radd w (rscale t d)) = t * t + 2 * rdot w d * t + rdot w w).
  { dots. rewrite U, (rdot_comm d w). ring. }
  assert (P := rdot_nonneg (radd w (rscale t d))). rewrite E in *. split.
  - intros S. rewrite <- S. rewrite sqrt_sqrt by exact P. ring.
  - intros S. replace (t * t + 2 * rdot w d * t + rdot w w) with (rad * rad) by lra. now apply sqrt_square.
Qed.
Lemma X_sphere : forall r c rad, is_ray (length c) r ->
  let w := rsub (ray_origin r) c in let p := 2 * rdot w (ray_dir r) in let q := rdot w w - rad * rad in
  let d := p * p - 4 * q in let t0 := (- p + sqrt d) / 2 in let t1 := (- p - sqrt d) / 2 in
  intersect_ray_sphere (ray_lift r) (vS c) (Some rad)
  = if Rlt_bool d 0 then None
    else if Rlt_bool t0 0 && Rlt_bool t1 0 then None
    else if Rlt_bool 0 t0 && Rlt_bool 0 t1 then Some (Rmin t0 t1) else Some (Rmax t0 t1).
Proof.
  intros [o d'] c rad [L1 [L2 U]] w p q d t0 t1. unfold intersect_ray_sphere, ray_lift. cbn [ray_origin ray_dir] in *.
  rewrite X_sub, X_dot, X_squared_length. fold w. change (cst 2 : XR) with (Some 2). change (cst 4 : XR) with (Some 4). change (cst 0 : XR) with (Some 0).
  cbn [o_mul o_sub o_lt o_add o_neg XRops X2 X1 Xcmp]. change (2 * rdot w d') with p. change (rdot w w - rad * rad) with q. change (p * p - 4 * q) with d.
  destruct (Rlt_bool_spec d 0) as [|H]; [ reflexivity | ]. rewrite X_sqrt by exact H. rewrite !X_div by lra. cbn [Xcmp].
  change ((- p + sqrt d) / 2) with t0. change ((- p - sqrt d) / 2) with t1.
  destruct (Rlt_bool t0 0 && Rlt_bool t1 0); [ reflexivity | ]. rewrite X_min2, X_max2. reflexivity.
Qed.
Lemma ray_sphere_ok : forall r c rad, is_ray (length c) r -> 0 <= rad -> ~ on_sphere c rad (ray_origin r) ->
  intersects (on_sphere c rad) r (intersect_ray_sphere (ray_lift r) (vS c) (Some rad)).
Proof.
  intros r c rad HR H NO. assert (EQ := fun t => sphere_eq r c rad t HR H). assert (EX := X_sphere r c rad HR). cbv zeta in EX.
  set (w := rsub (ray_origin r) c) in *. set (p := 2 * rdot w (ray_dir r)) in *. set (q := rdot w w - rad * rad) in *. set (d := p * p - 4 * q) in *.
  assert (Q : q <> 0).
  { intros E. apply NO. replace (ray_origin r) with (ray_at r 0). { apply EQ. rewrite E. ring. }
    unfold ray_at. apply rpoint_0. destruct HR as [A [B _]]. congruence. }
  rewrite EX. destruct (Rlt_bool_spec d 0) as [D|D].
  { intros (t & T & E). apply EQ in E. assert (0 <= (2 * t + p) * (2 * t + p)) by apply Rle_0_sqr. unfold d in D. nra. }
  assert (S0 := sqrt_pos d). assert (S1 := sqrt_sqrt d D). set (s := sqrt d) in *.
  assert (ROOT : forall t, on_sphere c rad (ray_at r t) <-> t = (- p + s) / 2 \/ t = (- p - s) / 2).
  { intros t. rewrite EQ. replace (t * t + p * t + q) with ((t - (- p + s) / 2) * (t - (- p - s) / 2)) by (assert (4 * q = p * p - d) by (unfold d; ring); nra).
    split; [ intros E; apply Rmult_integral in E as [E|E]; [ left | right ]; lra | intros [-> | ->]; ring ]. }
  set (t0 := (- p + s) / 2) in *. set (t1 := (- p - s) / 2) in *. assert (T10 : t1 <= t0) by (unfold t0, t1; lra).
  assert (T0 : t0 * t1 = q) by (unfold t0, t1; assert (4 * q = p * p - d) by (unfold d; ring); nra).
  assert (N0 : t0 <> 0) by (intros E; rewrite E in T0; lra). assert (N1 : t1 <> 0) by (intros E; rewrite E in T0; lra).
  destruct (Rlt_bool_spec t0 0) as [A|A], (Rlt_bool_spec t1 0) as [B|B]; cbn [andb]; try lra.
  - intros (t & T & E). apply ROOT in E. lra.
  - rewrite (Rlt_bool_true 0 t0), (Rlt_bool_false 0 t1) by lra. cbn [andb]. rewrite Rmax_left by lra.
    split; [ lra | ]. split; [ apply ROOT; auto | ]. intros t' T' E. apply ROOT in E. lra.
  - rewrite (Rlt_bool_true 0 t0), (Rlt_bool_true 0 t1) by lra. cbn [andb]. rewrite Rmin_right by lra.
    split; [ lra | ]. split; [ apply ROOT; auto | ]. intros t' T' E. apply ROOT in E. lra.
Qed.
Lemma ray_sphere_refuted : exists r, is_ray 1 r /\ on_sphere [0] 1 (ray_origin r)
  /\ exists t, intersect_ray_sphere (ray_lift r) (vS [0]) (Some 1) = Some t /\ 0 < t.
Proof.
  set (r := Ray [-1] [1]). assert (HR : is_ray 1 r) by unitv. exists r. split; [ exact HR | ]. split.
  - unfold on_sphere, rdist, rnorm. replace (rdot _ _) with 1 by (simpl; lra). apply sqrt_1.
  - rewrite (X_sphere r [0] 1 HR). cbn [r ray_origin ray_dir rsub zip rdot]. simpl.
    replace (2 * ((-1 - 0) * 1 + 0) * (2 * ((-1 - 0) * 1 + 0)) - 4 * ((-1 - 0) * (-1 - 0) + 0 - 1 * 1)) with (2 * 2) by ring.
    rewrite sqrt_square by lra. rewrite (Rlt_bool_false (2 * 2)) by lra.
    replace (- (2 * ((-1 - 0) * 1 + 0)) + 2) with 4 by ring. replace (- (2 * ((-1 - 0) * 1 + 0)) - 2) with 0 by ring.
    rewrite (Rlt_bool_false (4 / 2) 0), (Rlt_bool_false 0 (0 / 2)) by lra. rewrite andb_false_r. cbn [andb]. eexists. split; [ reflexivity | ].
    rewrite Rmax_left; lra.
Qed.

(** ** Two planes *)
Lemma cross_complement : forall a b w, length a = 3%nat -> length b = 3%nat -> length w = 3%nat -> rdot w a = 0 -> rdot w b = 0 ->
  rscale (rdot (rcross a b) (rcross a b)) w = rscale (rdot (rcross a b) w) (rcross a b).
Proof.
  intros a b w La Lb Lw. destruct a as [|a0 [|a1 [|a2 [|]]]]; try discriminate. destruct b as [|b0 [|b1 [|b2 [|]]]]; try discriminate.
  destruct w as [|w0 [|w1 [|w2 [|]]]]; try discriminate. cbn [rcross rdot zip]. simpl. intros A B.
  set (K0 := a1 * b2 - a2 * b1). set (K1 := a2 * b0 - a0 * b2). set (K2 := a0 * b1 - a1 * b0).
  assert (C2 : K0 * w1 - K1 * w0 = 0). { replace (K0 * w1 - K1 * w0) with (a2 * - (w0 * b0 + (w1 * b1 + (w2 * b2 + 0))) + b2 * (w0 * a0 + (w1 * a1 + (w2 * a2 + 0)))) by (unfold K0, K1; ring). rewrite A, B. ring. }
  assert (C1 : K2 * w0 - K0 * w2 = 0). { replace (K2 * w0 - K0 * w2) with (a1 * - (w0 * b0 + (w1 * b1 + (w2 * b2 + 0))) + b1 * (w0 * a0 + (w1 * a1 + (w2 * a2 + 0)))) by (unfold K0, K2; ring). rewrite A, B. ring. }
  assert (C0 : K1 * w2 - K2 * w1 = 0). { replace (K1 * w2 - K2 * w1) with (a0 * - (w0 * b0 + (w1 * b1 + (w2 * b2 + 0))) + b0 * (w0 * a0 + (w1 * a1 + (w2 * a2 + 0)))) by (unfold K1, K2; ring). rewrite A, B. ring. }
  clearbody K0 K1 K2. clear A B.
  assert (G : forall x y a b e1 e2, e1 = 0 -> e2 = 0 -> x = y + a * e1 - b * e2 -> x = y) by (intros x y a b e1 e2 -> -> ->; ring).
  apply f_equal2; [ apply (G _ _ K2 K1 _ _ C1 C2); ring | ]. apply f_equal2; [ apply (G _ _ K0 K2 _ _ C2 C0); ring | ].
  apply f_equal2; [ apply (G _ _ K1 K0 _ _ C0 C1); ring | ]. reflexivity.
Qed.
Lemma v_is_nan_S : forall a, v_is_nan (vS a) = false.
Proof. intros a. unfold v_is_nan. induction a as [|x a IH]; [ reflexivity | ]. cbn [map existsb]. rewrite IH. now rewrite X_nan. Qed.
Lemma plane_plane_ok : forall p1 p2, is_plane 3 p1 -> is_plane 3 p2 ->
  let x := intersect_plane_plane (plane_lift p1) (plane_lift p2) in
  (plane_sine p1 p2 <= / 1000 -> x = line_lift (Ln [0; 0; 0] [0; 0; 0]))
  /\ (/ 1000 < plane_sine p1 p2 -> exists l, x = line_lift l /\ is_line 3 l
        /\ forall q, on_line l q <-> on_plane 3 p1 q /\ on_plane 3 p2 q).
Proof.
  intros p1 p2 H1 H2 x. assert (PV := project_vector_ok 3 p1 (pl_normal p2) H1 (proj1 H2)).
  destruct p1 as [d1 n1], p2 as [d2 n2]. destruct H1 as [L1 U1], H2 as [L2 U2]. unfold plane_sine in *. cbn [pl_dist pl_normal] in *.
  set (K := rcross n1 n2) in *. assert (LK : length K = 3%nat) by (apply rcross_length; assumption). set (k := rnorm K).
  set (c := rdot n2 n1). 
  assert (KK : k * k = 1 - c * c).
  { unfold k. rewrite rnorm_sq. unfold K, c. destruct n1 as [|a0 [|a1 [|a2 [|]]]]; try discriminate. destruct n2 as [|b0 [|b1 [|b2 [|]]]]; try discriminate.
    cbn [rcross]. simpl in *. replace 1 with (1 * 1) by ring. rewrite <- U1 at 1. rewrite <- U2. ring. }
  assert (K0 : 0 <= k) by apply rnorm_nonneg.
  assert (DEF : (ln_default 3 : line XR) = line_lift (Ln [0; 0; 0] [0; 0; 0])) by reflexivity.
  unfold x, intersect_plane_plane. change (pl_normal (plane_lift (Pl d1 n1))) with (vS n1). change (pl_normal (plane_lift (Pl d2 n2))) with (vS n2).
  rewrite X_cross3 by assumption. fold K. destruct (Req_dec k 0) as [Z|Z].
  { assert (EK : K = rzero 3). { unfold k in Z. apply rnorm_zero in Z. now rewrite LK in Z. }
    rewrite EK, X_normalize_zero. split; [ intros _; exact DEF | lra ]. }
  assert (KP : 0 < k) by lra. rewrite X_normalize_vec by exact Z. fold k. rewrite v_is_nan_S.
  (* the line in the first plane *)
  set (a1 := rscale d1 n1). set (m := rsub n2 (rscale c n1)). assert (Lm : length m = 3%nat) by (unfold m; len).
  assert (EA : pl_anchor (plane_lift (Pl d1 n1)) = vS a1) by (unfold pl_anchor, plane_lift; cbn [pl_dist pl_normal]; apply X_scale).
  assert (EM : pl_project_vector (plane_lift (Pl d1 n1)) (vS n2) = vS m).
  { destruct PV as (w & E & _ & F). rewrite E, F. reflexivity. }
  assert (M1 : rdot m n1 = 0) by (unfold m; dots; rewrite U1; fold c; ring).
  assert (M2 : rdot m n2 = k * k) by (rewrite KK; unfold m; dots; rewrite U2, (rdot_comm n1 n2); fold c; ring).
  assert (MM : rnorm m = k).
  { unfold rnorm. replace (rdot m m) with (k * k). { apply sqrt_square. exact K0. } unfold m at 2. rewrite rdot_sub_r, rdot_scale_r, M1, M2 by len. ring. }
  rewrite EA, EM, X_normalize_vec by (rewrite MM; exact Z). rewrite MM. set (u := rscale (/ k) m). assert (Lu : length u = 3%nat) by (unfold u; len).
  assert (UN1 : rdot u n1 = 0) by (unfold u; rewrite rdot_scale_l, M1; ring).
  assert (UN2 : rdot u n2 = k) by (unfold u; rewrite rdot_scale_l, M2; field; exact Z).
  assert (La1 : length a1 = 3%nat) by (unfold a1; len).
  destruct (line_plane_ok (Ln a1 u) (Pl d2 n2) La1 Lu (conj L2 U2)) as [P1 P2]. cbn [ln_point ln_dir pl_normal] in *. rewrite UN2 in *. rewrite Rabs_pos_eq in * by lra.
  change (Ln (vS a1) (vS u)) with (line_lift (Ln a1 u)). split; intros HK.
  - rewrite <- DEF. rewrite P1 by exact HK. unfold al_point_at_distance, line_lift. cbn [ln_point ln_dir].
    destruct u as [|u0 [|u1 [|u2 [|]]]]; try discriminate. destruct a1 as [|x0 [|x1 [|x2 [|]]]]; try discriminate. reflexivity.
  - destruct (P2 HK) as (t & -> & T). unfold al_point_at_distance. change (ln_point (line_lift (Ln a1 u))) with (vS a1). change (ln_dir (line_lift (Ln a1 u))) with (vS u).
    rewrite X_scale, X_add, v_is_nan_S. set (q0 := radd a1 (rscale t u)). assert (Lq : length q0 = 3%nat) by (unfold q0; len).
    assert (Q2 : rdot q0 n2 = d2). { destruct (T t) as [_ Q]. destruct (Q eq_refl) as [_ E]. exact E. }
    assert (Q1 : rdot q0 n1 = d1). { unfold q0, a1. rewrite rdot_add_l, !rdot_scale_l, UN1, U1 by len. ring. }
    destruct (rcross_props n1 n2 L1 L2) as (CP1 & CP2 & _).
    set (e := rscale (/ k) K). assert (Le : length e = 3%nat) by (unfold e; len).
    exists (Ln q0 e). split; [ reflexivity | ]. split.
    + split; [ exact Lq | ]. split; [ exact Le | ]. unfold e. cbn [ln_dir]. rewrite rdot_scale_l, rdot_scale_r, <- rnorm_sq. fold k. field. exact Z.
    + intros q. unfold on_line, on_plane. cbn [ln_point ln_dir pl_dist pl_normal]. split.
      * intros (s & ->). assert (LL : length (rpoint q0 e s) = 3%nat) by len.
        assert (EE : rdot e n1 = 0 /\ rdot e n2 = 0) by (unfold e; rewrite !rdot_scale_l; fold K in CP1, CP2; rewrite CP1, CP2; split; ring).
        destruct EE as [E1 E2]. unfold rpoint in *. rewrite !rdot_add_l, !rdot_scale_l by len. rewrite E1, E2, Q1, Q2. split; (split; [ exact LL | ring ]).
      * intros [[Lx A1] [_ A2]]. set (w := rsub q q0). assert (Lw : length w = 3%nat) by (unfold w; len).
        assert (W1 : rdot w n1 = 0) by (unfold w; rewrite rdot_sub_l by len; lra). assert (W2 : rdot w n2 = 0) by (unfold w; rewrite rdot_sub_l by len; lra).
        assert (CC := cross_complement n1 n2 w L1 L2 Lw W1 W2). fold K in CC. rewrite <- rnorm_sq in CC. fold k in CC.
        exists (rdot K w / k). unfold e, rpoint. rewrite rscale_mul.
        assert (EW : w = rscale (rdot K w / (k * k)) K).
        { rewrite <- (rscale_1 w) at 1. replace 1 with (/ (k * k) * (k * k)) by (field; exact Z). rewrite <- rscale_mul, CC, rscale_mul. f_equal. field. exact Z. }
        replace (rdot K w / k * / k) with (rdot K w / (k * k)) by (field; exact Z). rewrite <- EW. unfold w. vext. ring.
Qed.
Lemma plane_plane_refuted : exists p1 p2 q, is_plane 3 p1 /\ is_plane 3 p2 /\ on_plane 3 p1 q /\ on_plane 3 p2 q
  /\ pl_normal p1 <> pl_normal p2 /\ pl_normal p1 <> rneg (pl_normal p2)
  /\ intersect_plane_plane (plane_lift p1) (plane_lift p2) = line_lift (Ln [0; 0; 0] [0; 0; 0]).
Proof.
  set (d := 2 / 4001). set (s := sqrt (1 - d * d)). assert (D : 0 < d * d < 1) by (unfold d; lra).
  assert (SS : s * s = 1 - d * d) by (apply sqrt_sqrt; lra).
  set (p1 := Pl 0 [0; 0; 1]). set (p2 := Pl 0 [d; 0; s]). exists p1, p2, [0; 1; 0].
  assert (H1 : is_plane 3 p1) by (split; [ reflexivity | simpl; lra ]). assert (H2 : is_plane 3 p2) by (split; [ reflexivity | simpl; lra ]).
  split; [ exact H1 | ]. split; [ exact H2 | ]. split. { split; [ reflexivity | simpl; lra ]. } split. { split; [ reflexivity | simpl; lra ]. }
  split. { intros E. injection E. unfold d. lra. } split. { intros E. unfold rneg in E. injection E. unfold d. lra. }
  apply plane_plane_ok; auto. unfold plane_sine, rnorm. cbn [p1 p2 pl_normal rcross]. simpl.
  replace (_ + _) with (d * d) by ring. rewrite sqrt_square; unfold d; lra.
Qed.
