(** Proofs about rays and tori (C57). *)
From Coq Require Import ZArith Reals List Bool Lia Lra Psatz.
From Flocq Require Import Core.
From Verif Require Import Ops M_scalar M_vec M_mat M_bbox M_geom M_intersect Inst_XR S_order S_scalar S_vec S_geom S_intersect.
From Verif Require Import P_ord P_scalar_ord P_xr P_vec P_vec2 P_line P_quartic.
Import ListNotations.
Local Open Scope R_scope.

Lemma on_torus_poly : forall c M m q, length q = 3%nat -> length c = 3%nat -> 0 <= m <= M ->
  (on_torus c M m q <-> torus_poly c M m q = 0).
Proof.
  intros c M m q Lq Lc H. unfold on_torus, torus_poly.
  assert (L : length (rsub q c) = 3%nat) by len. destruct (rsub q c) as [|x [|y [|z [|]]]]; try discriminate. clear L.
  assert (P : 0 <= Rsqr x + Rsqr y) by (assert (A := Rle_0_sqr x); assert (B := Rle_0_sqr y); lra).
  assert (S0 := sqrt_pos (Rsqr x + Rsqr y)). assert (S1 := sqrt_sqrt _ P). set (s := sqrt (Rsqr x + Rsqr y)) in *. rewrite <- S1. clear P.
  assert (Z0 := Rle_0_sqr z). unfold Rsqr in *. split.
  - intros E. assert (E2 : (s - M) * (s - M) + z * z = m * m).
    { rewrite <- E. symmetry. apply sqrt_sqrt. assert (A := Rle_0_sqr (s - M)). unfold Rsqr in A. lra. }
    replace (s * s + z * z + M * M - m * m) with (2 * M * s) by lra. ring.
  - intros E. assert (F : ((s - M) * (s - M) + z * z - m * m) * ((s + M) * (s + M) + z * z - m * m) = 0) by (rewrite <- E; ring).
    assert (G : (s - M) * (s - M) + z * z - m * m = 0).
    { apply Rmult_integral in F as [F|F]; [ exact F | ].
      assert (A1 : 0 <= s * M) by (apply Rmult_le_pos; lra). assert (A2 : m * m <= M * M) by nra.
      assert (A3 : 0 <= s * s) by (apply Rmult_le_pos; lra). lra. }
    replace (_ + _) with (m * m) by lra. apply sqrt_square. lra.
Qed.

(** The result, given the roots. *)
Lemma torus_min : forall f n slots, length slots = 4%nat -> reports f n slots ->
  let pos i := let x := nth i slots None in if (i <? n)%nat then (if o_lt (Some 0) x then x else None) else x in
  let res := sc_safe_min (pos 0%nat) [pos 1%nat; pos 2%nat; pos 3%nat] in
  match res with Some t => 0 < t /\ f t = 0 /\ forall t', 0 < t' < t -> f t' <> 0 | None => forall t, 0 < t -> f t <> 0 end.
Proof.
  intros f n slots L (rs & E & N & H) pos res. rewrite L in E.
  assert (PN : forall i, (i < 4)%nat -> pos i = None \/ exists t, pos i = Some t /\ 0 < t /\ In t rs).
  { intros i I. unfold pos. rewrite E. cbv zeta. destruct (Nat.ltb_spec i n) as [A|A].
    - rewrite app_nth1 by (rewrite map_length; lia). rewrite nth_indep with (d' := Some 0) by (rewrite map_length; lia). rewrite map_nth.
      cbn [o_lt XRops Xcmp]. destruct (Rlt_bool_spec 0 (nth i rs 0)) as [B|B]; [ | now left ].
      right. exists (nth i rs 0). split; [ reflexivity | ]. split; [ exact B | apply nth_In; lia ].
    - left. rewrite app_nth2 by (rewrite map_length; lia). rewrite nth_repeat. reflexivity. }
  assert (PI : forall t, 0 < t -> In t rs -> In (Some t) [pos 0%nat; pos 1%nat; pos 2%nat; pos 3%nat]).
  { intros t T I. destruct (In_nth _ _ 0 I) as (i & Li & <-).
    assert (N4 : (n <= 4)%nat). { assert (X := f_equal (@length _) E). rewrite app_length, map_length, repeat_length, L in X. lia. }
    assert (K : pos i = Some (nth i rs 0)).
    { unfold pos. cbv zeta. rewrite E, app_nth1 by (rewrite map_length; lia). rewrite nth_indep with (d' := Some 0) by (rewrite map_length; lia). rewrite map_nth.
      destruct (Nat.ltb_spec i n); [ | lia ]. cbn [o_lt XRops Xcmp]. rewrite Rlt_bool_true by exact T. reflexivity. }
    rewrite <- K. destruct i as [|[|[|[|]]]]; [ left | right; left | right; right; left | right; right; right; left | lia ]; reflexivity. }
  assert (PM : forall x, In x [pos 0%nat; pos 1%nat; pos 2%nat; pos 3%nat] -> x = None \/ exists t, x = Some t /\ 0 < t /\ In t rs).
  { intros x [<- | [<- | [<- | [<- | []]]]]; apply PN; lia. }
  destruct (sc_safe_min_spec (pos 0%nat) [pos 1%nat; pos 2%nat; pos 3%nat]) as [A B]. fold res in A, B. clearbody res. clear E PN.
  assert (NN : forall x : XR, NaN x <-> x = None).
  { intros [x|]; cbn; unfold NaN; cbn; split; try congruence; intros X; try reflexivity; exfalso; [ rewrite Req_bool_true in X by reflexivity; discriminate ]. }
  set (l := [pos 0%nat; pos 1%nat; pos 2%nat; pos 3%nat]) in *. clearbody l.
  destruct (Exists_dec (fun y : XR => ~ NaN y) l) as [X|X].
  { intros [y|]; [ left | right ]; rewrite NN; congruence. }
  - destruct (B X) as [B1 B2]. clear A B.
    assert (R : ~ NaN res). { intros E. rewrite NN in E. subst res. apply Exists_exists in X as (y & I & Y). specialize (B2 y I Y). destruct y; discriminate. }
    destruct res as [t|]; [ | exfalso; apply R, NN; reflexivity ].
    destruct (PM _ B1) as [F|(t0 & E & T & I)]; [ discriminate | ]. injection E as <-. split; [ exact T | ]. split; [ now apply H | ].
    intros t' T' F. apply H in F. assert (I' := PI t' (proj1 T') F). assert (C := B2 _ I').
    assert (~ NaN (Some t')) by (rewrite NN; discriminate). specialize (C H0). cbn in C. apply Rle_true in C. lra.
  - assert (F : Forall NaN l). { apply Forall_Exists_neg in X. revert X. apply Forall_impl. intros [y|] Y; [ exfalso; apply Y; rewrite NN; discriminate | apply NN; reflexivity ]. }
    apply A in F. apply NN in F. subst res. intros t T E. apply H in E. apply X. apply Exists_exists. exists (Some t). split; [ now apply PI | rewrite NN; discriminate ].
Qed.

Lemma torus_coeffs : forall r c M m, is_ray 3 r -> length c = 3%nat ->
  exists b c' d e, torus_coefficients (ray_lift r) (vS c) (Some M) (Some m) = (Some 1, Some b, Some c', Some d, Some e)
  /\ forall t, torus_poly c M m (ray_at r t) = quartic 1 b c' d e t.
Proof.
  intros [o d] c M m [L1 [L2 U]] L3. cbn [ray_origin ray_dir] in *. 
  unfold torus_coefficients, ray_lift. cbn [ray_origin ray_dir]. rewrite X_sub, !X_dot.
  unfold torus_poly, ray_at. cbn [ray_origin ray_dir]. unfold unit_vec in U. cbn [ray_dir] in U.
  destruct o as [|o0 [|o1 [|o2 [|]]]]; try discriminate. destruct d as [|d0 [|d1 [|d2 [|]]]]; try discriminate. destruct c as [|c0 [|c1 [|c2 [|]]]]; try discriminate.
  set (w0 := o0 - c0). set (w1 := o1 - c1). set (w2 := o2 - c2).
  change (rsub [o0; o1; o2] [c0; c1; c2]) with [w0; w1; w2].
  set (dd := rdot [d0; d1; d2] [d0; d1; d2]) in *. set (od := rdot [w0; w1; w2] [d0; d1; d2]). set (oo := rdot [w0; w1; w2] [w0; w1; w2]).
  cbn [vS map]. change (vz [Some d0; Some d1; Some d2]) with (Some d2). change (vz [Some w0; Some w1; Some w2]) with (Some w2).
  change (cst 2 : XR) with (Some 2). change (cst 4 : XR) with (Some 4). change (cst 8 : XR) with (Some 8). cbv zeta. cbn [o_mul o_sub o_lt o_add o_neg XRops X2 X1].
  rewrite U. rewrite Rmult_1_l. do 4 eexists. split; [ reflexivity | ]. intros t.
  unfold rpoint, radd, rsub, rscale, zip. simpl.
  replace (o0 + t * d0 - c0) with (w0 + t * d0) by (unfold w0; ring). replace (o1 + t * d1 - c1) with (w1 + t * d1) by (unfold w1; ring). replace (o2 + t * d2 - c2) with (w2 + t * d2) by (unfold w2; ring).
  clearbody w0 w1 w2. 
  set (rho := Rsqr (w0 + t * d0) + Rsqr (w1 + t * d1)).
  assert (E : rho + Rsqr (w2 + t * d2) = oo + 2 * t * od + t * t * 1). { rewrite <- U. unfold rho, oo, od, dd. cbn. unfold Rsqr. ring. }
  replace rho with (oo + 2 * t * od + t * t * 1 - Rsqr (w2 + t * d2)) by lra. unfold quartic, Rsqr. ring.
Qed.
Lemma quartic_unique : forall b c d e p q r h, (forall t, quartic 1 b c d e t = quartic 1 0 p q r (t + h)) ->
  h = 1 / 4 * (b / 1) /\ p = - (3 / 8) * (b / 1) * (b / 1) + c / 1
  /\ q = 1 / 8 * (b / 1) * (b / 1) * (b / 1) - 1 / 2 * (b / 1) * (c / 1) + d / 1
  /\ r = - (3 / 256) * (b / 1) * (b / 1) * (b / 1) * (b / 1) + 1 / 16 * (b / 1) * (b / 1) * (c / 1) - 1 / 4 * (b / 1) * (d / 1) + e / 1.
Proof.
  intros b c d e p q r h H. rewrite !Rdiv_1. unfold quartic in H.
  assert (H0 := H 0). assert (H1 := H 1). assert (H2 := H (-1)). assert (H3 := H 2). assert (H4 := H (-2)). clear H.
  assert (B : b = 4 * h) by lra. subst b. assert (C : c = 6 * h * h + p) by lra. subst c. assert (D : d = 4 * h * h * h + 2 * p * h + q) by lra. subst d.
  repeat split; lra.
Qed.
Lemma ray_torus_next : forall r c M m h p q s, is_ray 3 r -> length c = 3%nat -> 0 <= m <= M ->
  (forall t, torus_poly c M m (ray_at r t) = quartic 1 0 p q s (t + h)) -> quartic_gap (1 / 1000) p q s ->
  exists x, intersect_ray_torus (ray_lift r) (vS c) (Some M) (Some m) = Ret x /\
    match x with
    | Some t => 0 < t /\ on_torus c M m (ray_at r t) /\ forall t', 0 < t' < t -> ~ on_torus c M m (ray_at r t')
    | None => forall t, 0 < t -> ~ on_torus c M m (ray_at r t)
    end.
Proof.
  intros r c M m h p q s HR Lc HM HQ G. destruct (torus_coeffs r c M m HR Lc) as (b & c' & d & e & EC & EP).
  assert (OT : forall t, on_torus c M m (ray_at r t) <-> quartic 1 b c' d e t = 0).
  { intros t. rewrite <- EP. apply on_torus_poly; auto. destruct HR as [A [B _]]. unfold ray_at. len. }
  destruct (quartic_unique b c' d e p q s h) as (_ & Ep & Eq & Es). { intros t. rewrite <- EP. apply HQ. }
  unfold intersect_ray_torus. rewrite EC. unfold almost_zero. rewrite X_lit by discriminate.
  assert (A1 : 1 <> 0) by lra. assert (A0 : 0 <= 1 / 1000) by lra. rewrite Ep, Eq, Es in G.
  destruct (X_quartic_reports_eps 1 b c' d e A1 (1 / 1000) A0 G) as (n & slots & ES & LS & RP & _).
  rewrite ES. cbn [bind]. destruct (Nat.eqb_spec n 0) as [Z|Z].
  - exists None. split; [ reflexivity | ]. destruct RP as (rs & _ & L & RS). intros t T O. apply OT, RS in O. subst n. destruct rs; [ exact O | discriminate ].
  - eexists. split; [ reflexivity | ]. assert (TM := torus_min _ n slots LS RP). cbv zeta in TM.
    change (cst 0 : XR) with (Some 0). change (o_nan : XR) with (None : XR).
    destruct (sc_safe_min _ _) as [t|].
    + destruct TM as (T1 & T2 & T3). split; [ exact T1 | ]. split; [ now apply OT | ]. intros t' T' O. apply OT in O. now apply (T3 t').
    + intros t T O. apply OT in O. now apply (TM t).
Qed.
Lemma ray_torus_ok : forall r c M m h p q s, is_ray 3 r -> length c = 3%nat -> 0 <= m <= M ->
  (forall t, torus_poly c M m (ray_at r t) = quartic 1 0 p q s (t + h)) -> quartic_gap (1 / 1000) p q s ->
  ~ on_torus c M m (ray_origin r) ->
  exists x, intersect_ray_torus (ray_lift r) (vS c) (Some M) (Some m) = Ret x /\ intersects (on_torus c M m) r x.
Proof.
  intros r c M m h p q s HR Lc HM HQ G NO. destruct (ray_torus_next r c M m h p q s HR Lc HM HQ G) as (x & E & H).
  assert (R0 : ray_at r 0 = ray_origin r). { unfold ray_at. apply rpoint_0. destruct HR as [A [B _]]. congruence. }
  exists x. split; [ exact E | ]. destruct x as [t|].
  - destruct H as (T1 & T2 & T3). split; [ lra | ]. split; [ exact T2 | ]. intros t' [[T'|T'] L] O; [ now apply (T3 t') | ].
    subst t'. rewrite R0 in O. contradiction.
  - intros (t & [T|T] & O); [ now apply (H t) | subst t; rewrite R0 in O; contradiction ].
Qed.
Lemma gap_example : quartic_gap (1 / 1000) (-10) 0 9.
Proof.
  split; [ right; rewrite Rabs_pos_eq; lra | ]. split; [ intros; lra | ]. intros _. split.
  - right. cbv zeta. rewrite Rabs_left; lra.
  - intros z Hz. assert (F : (z + 5) * ((z - 3) * (z + 3)) = 0) by (rewrite <- Hz; unfold cubic; field).
    assert (G : forall x, 1 <= x -> gap (1 / 1000) x) by (intros x X; right; rewrite Rabs_pos_eq; lra).
    apply Rmult_integral in F as [F|F]; [ | apply Rmult_integral in F as [F|F] ].
    + assert (z = -5) by lra. subst z. replace (-5 * -5 - 9) with (4 * 4) by ring. rewrite sqrt_square by lra.
      split; [ apply G; lra | ]. split; [ left; lra | ]. intros _ _. split; apply G; lra.
    + assert (z = 3) by lra. subst z. replace (3 * 3 - 9) with 0 by ring. rewrite sqrt_0.
      split; [ left; lra | ]. split; [ apply G; lra | ]. intros _ _. split; apply G; lra.
    + assert (z = -3) by lra. subst z. replace (-3 * -3 - 9) with 0 by ring. rewrite sqrt_0.
      split; [ left; lra | ]. split; [ apply G; lra | ]. intros _ _. split; apply G; lra.
Qed.
Lemma ray_torus_surface_refuted : exists r c M m t, is_ray 3 r /\ length c = 3%nat /\ 0 <= m <= M
  /\ on_torus c M m (ray_origin r) /\ intersect_ray_torus (ray_lift r) (vS c) (Some M) (Some m) = Ret (Some t) /\ 0 < t.
Proof.
  assert (HR : is_ray 3 (Ray [1; 0; 0] [1; 0; 0])). { split; [ reflexivity | split; [ reflexivity | ] ]. cbn. lra. }
  destruct (ray_torus_next (Ray [1; 0; 0] [1; 0; 0]) [0; 0; 0] 2 1 1 (-10) 0 9) as (x & E & H); [ exact HR | reflexivity | lra | | exact gap_example | ].
  { intros t. unfold torus_poly, quartic, Rsqr. simpl. ring. }
  assert (A : on_torus [0; 0; 0] 2 1 (ray_at (Ray [1; 0; 0] [1; 0; 0]) 2)). { apply on_torus_poly; [ reflexivity | reflexivity | lra | ]. unfold torus_poly, Rsqr. simpl. lra. }
  destruct x as [t|]; [ | exfalso; now apply (H 2); [ lra | ] ].
  exists (Ray [1; 0; 0] [1; 0; 0]), [0; 0; 0], 2, 1, t. repeat split; try (now auto); try lra; try (apply HR).
  apply on_torus_poly; [ reflexivity | reflexivity | lra | ]. unfold torus_poly, Rsqr. simpl. lra.
Qed.
