(** The intersection of a ray and a triangle in machine arithmetic (C114). *)
From Coq Require Import ZArith Reals List Lia Lra Bool Psatz.
From Flocq Require Import Core BinarySingleNaN.
From Verif Require Import Ops M_scalar M_vec M_geom M_intersect Inst_F S_vec S_rnd S_order S_intersect S_hit S_raybox S_raytri P_ord P_ieee P_compare P_vec P_line P_fp P_fp4 P_hit P_hit2 P_hit3 P_bbox3 P_ft P_tbox P_limits P_raybox P_sphere.
Import ListNotations.
Local Open Scope R_scope.

Section FP.
Variables prec emax : Z.
Context {Hprec : Prec_gt_0 prec} {Hmax : Prec_lt_emax prec emax}.
Notation fl := (binary_float prec emax).
Notation u := (unit_roundoff prec).
Notation eta := (underflow_error prec emax).
Notation Om := (bpow radix2 emax).
Hypothesis U20 : (20 <= prec)%Z.
Hypothesis E20 : (20 <= emax)%Z.

Lemma sat_nonneg : forall x, 0 <= x -> 0 <= P_bbox3.sat emax x.
Proof. intros x H. assert (G := bpow_gt_0 radix2 emax). unfold P_bbox3.sat. apply Rle_trans with (2 := Rmax_r _ _). apply Rmin_glb; lra. Qed.
(** Vectors with errors of at most k roundings relative to the size L *)
Definition vnear (k L : R) (v : list fl) (a : list R) : Prop :=
  length v = 3%nat /\ length a = 3%nat /\ Forall2 (fun x y => near x y (k * (u * L))) v a /\ Forall (fun y => Rabs y <= L) a.
Lemma vnear3 : forall k L v a, vnear k L v a -> exists x y z x' y' z', v = [x; y; z] /\ a = [x'; y'; z']
  /\ (near x x' (k * (u * L)) /\ near y y' (k * (u * L)) /\ near z z' (k * (u * L))) /\ (Rabs x' <= L /\ Rabs y' <= L /\ Rabs z' <= L).
Proof.
  intros k L v a (Lv & La & N & B). destruct v as [|x [|y [|z [|]]]]; try discriminate Lv. destruct a as [|x' [|y' [|z' [|]]]]; try discriminate La. exists x, y, z, x', y', z'. split; [reflexivity|]. split; [reflexivity|].
  inversion N as [|? ? ? ? N1 N']; subst. inversion N' as [|? ? ? ? N2 N'']; subst. inversion N'' as [|? ? ? ? N3 _]; subst. inversion B as [|? ? B1 B']; subst. inversion B' as [|? ? B2 B'']; subst. inversion B'' as [|? ? B3 _]; subst. auto.
Qed.
Lemma vnear_intro : forall k L (x y z : fl) x' y' z', near x x' (k * (u * L)) -> near y y' (k * (u * L)) -> near z z' (k * (u * L)) -> Rabs x' <= L -> Rabs y' <= L -> Rabs z' <= L -> vnear k L [x; y; z] [x'; y'; z'].
Proof.
  intros. split; [reflexivity|]. split; [reflexivity|]. split; [repeat (apply Forall2_cons; [assumption|]); apply Forall2_nil|repeat (apply Forall_cons; [assumption|]); apply Forall_nil].
Qed.
Section Two.
Variables (k1 k2 L1 L2 : R) (v w : list fl) (a b : list R).
Hypothesis (Hv : vnear k1 L1 v a) (Hw : vnear k2 L2 w b) (K1 : 0 <= k1 <= 20) (K2 : 0 <= k2 <= 20) (HL1 : 1 <= L1) (HL2 : 1 <= L2) (HO : 8 * (L1 * L2) <= Om).
Let X := u * (L1 * L2).
Lemma X_facts : 0 < X /\ X <= / 1000000 * (L1 * L2) /\ eta <= / 1000 * X /\ u <= X /\ 1 <= L1 * L2.
Proof.
  destruct (u_small prec U20) as [U0 U1]. destruct (eta_small prec emax E20) as [T0 TS]. assert (1 <= L1 * L2) by nra. unfold X. repeat split; nra.
Qed.
Lemma err_mul : L1 * (k2 * (u * L2)) + L2 * (k1 * (u * L1)) + k1 * (u * L1) * (k2 * (u * L2)) + u * ((L1 + k1 * (u * L1)) * (L2 + k2 * (u * L2))) + eta <= (k1 + k2 + 102 / 100) * X /\ (L1 + k1 * (u * L1)) * (L2 + k2 * (u * L2)) <= 1001 / 1000 * (L1 * L2).
Proof.
  destruct (u_small prec U20) as [U0 U1]. destruct X_facts as (X0 & X1 & X2 & X3 & X4).
  assert (KK : 0 <= k1 * k2 <= 400) by nra.
  assert (G : (L1 + k1 * (u * L1)) * (L2 + k2 * (u * L2)) = L1 * L2 + (k1 + k2) * X + k1 * k2 * (u * X)) by (unfold X; ring).
  assert (UX : 0 <= u * X <= / 1000000 * X) by nra. assert (KX : k1 * k2 * (u * X) <= 400 * (/ 1000000 * X)) by nra. assert (KX2 : (k1 + k2) * X <= 40 * X) by nra.
  split; [|rewrite G; lra]. rewrite G.
  replace (L1 * (k2 * (u * L2)) + L2 * (k1 * (u * L1)) + k1 * (u * L1) * (k2 * (u * L2)) + u * (L1 * L2 + (k1 + k2) * X + k1 * k2 * (u * X)) + eta) with ((k1 + k2 + 1) * X + (k1 * k2 * (u * X) + u * ((k1 + k2) * X + k1 * k2 * (u * X)) + eta)) by (unfold X; ring).
  assert (B : u * ((k1 + k2) * X + k1 * k2 * (u * X)) <= / 1000000 * (41 * X)). { apply Rmult_le_compat; try lra. assert (0 <= (k1 + k2) * X) by nra. assert (0 <= k1 * k2 * (u * X)) by nra. lra. } lra.
Qed.
Lemma mul_k : forall (x y : fl) x' y', near x x' (k1 * (u * L1)) -> near y y' (k2 * (u * L2)) -> Rabs x' <= L1 -> Rabs y' <= L2 -> near (o_mul x y) (x' * y') ((k1 + k2 + 102 / 100) * X) /\ Rabs (x' * y') <= L1 * L2.
Proof.
  intros x y x' y' Nx Ny Bx By. destruct (u_small prec U20) as [U0 U1]. assert (OM := om_big emax E20). destruct X_facts as (X0 & X1 & X2 & X3 & X4). destruct err_mul as [E1 E2]. destruct (eta_small prec emax E20) as [T0 TS]. split.
  - eapply near_le; [apply near_mul with (A := L1) (B := L2); [exact Nx|exact Ny|exact Bx|exact By|]|exact E1].
    assert ((L1 + k1 * (u * L1)) * (L2 + k2 * (u * L2)) * (1 + u) <= 1001 / 1000 * (L1 * L2) * (1 + u)) by (apply Rmult_le_compat_r; lra). nra.
  - rewrite Rabs_mult. apply Rmult_le_compat; auto using Rabs_pos.
Qed.
Lemma cross_k : vnear (k1 + k2 + 3) (2 * (L1 * L2)) (v_cross v w) (rcross a b).
Proof.
  destruct (vnear3 _ _ _ _ Hv) as (x & y & z & x' & y' & z' & -> & -> & (N1 & N2 & N3) & (B1 & B2 & B3)). destruct (vnear3 _ _ _ _ Hw) as (r & s & t & r' & s' & t' & -> & -> & (M1 & M2 & M3) & (C1 & C2 & C3)).
  destruct (u_small prec U20) as [U0 U1]. destruct X_facts as (X0 & X1 & X2 & X3 & X4). assert (OM := om_big emax E20).
  assert (G : forall (p q p' q' : fl) p1 q1 p1' q1', near p p1 (k1 * (u * L1)) -> near q q1 (k2 * (u * L2)) -> Rabs p1 <= L1 -> Rabs q1 <= L2 -> near p' p1' (k1 * (u * L1)) -> near q' q1' (k2 * (u * L2)) -> Rabs p1' <= L1 -> Rabs q1' <= L2 ->
     near (o_sub (o_mul p q) (o_mul p' q')) (p1 * q1 - p1' * q1') ((k1 + k2 + 3) * (u * (2 * (L1 * L2)))) /\ Rabs (p1 * q1 - p1' * q1') <= 2 * (L1 * L2)).
  { intros p q p' q' p1 q1 p1' q1' H1 H2 H3 H4 H5 H6 H7 H8. destruct (mul_k _ _ _ _ H1 H2 H3 H4) as [G1 G2]. destruct (mul_k _ _ _ _ H5 H6 H7 H8) as [G3 G4].
    assert (S : Rabs (p1 * q1 - p1' * q1') <= 2 * (L1 * L2)) by (apply Rabs_le_inv in G2, G4; apply Rabs_le; lra). split; [|exact S].
    assert (KX : 0 <= (k1 + k2 + 102 / 100) * X <= 42 * X) by nra.
    eapply near_le; [apply near_sub with (A := 2 * (L1 * L2)); [exact G1|exact G3|exact S|nra]|].
    replace (u * (2 * (L1 * L2))) with (2 * X) by (unfold X; ring). assert (u * ((k1 + k2 + 102 / 100) * X) <= / 1000000 * (42 * X)) by (apply Rmult_le_compat; lra). replace (u * (2 * (L1 * L2) + (k1 + k2 + 102 / 100) * X + (k1 + k2 + 102 / 100) * X)) with (2 * X + 2 * (u * ((k1 + k2 + 102 / 100) * X))) by (unfold X; ring). nra. }
  unfold v_cross, vget. cbn [nth rcross]. apply vnear_intro; first [refine (proj1 (G _ _ _ _ _ _ _ _ _ _ _ _ _ _ _ _)); assumption|refine (proj2 (G _ _ _ _ _ _ _ _ _ _ _ _ _ _ _ _)); eassumption].
Qed.
Lemma dot_k : near (v_dot v w) (rdot a b) ((k1 + k2 + 4) * (u * (3 * (L1 * L2)))) /\ Rabs (rdot a b) <= 3 * (L1 * L2).
Proof.
  destruct Hv as (Lv & La & Nv & Bv), Hw as (Lw & Lb & Nw & Bw). destruct (u_small prec U20) as [U0 U1]. destruct X_facts as (X0 & X1 & X2 & X3 & X4). assert (OM := om_big emax E20). destruct err_mul as [E1 E2]. destruct (eta_small prec emax E20) as [T0 TS].
  split; [|apply dotw; assumption].
  assert (P1 : 0 <= k1 * (u * L1)) by (apply Rmult_le_pos; [lra|nra]). assert (P2 : 0 <= k2 * (u * L2)) by (apply Rmult_le_pos; [lra|nra]).
  eapply near_le; [apply (dot3_near prec emax v w a b _ _ L1 L2 Nv Nw Lv Lw Bv Bw P1 P2); try lra|].
  replace (L1 * (k2 * (u * L2)) + L2 * (k1 * (u * L1)) + k1 * (u * L1) * (k2 * (u * L2)) ) with ((k1 + k2) * X + k1 * k2 * (u * X)) by (unfold X; ring). replace (u * (3 * (L1 * L2))) with (3 * X) by (unfold X; ring).
  assert (KK : 0 <= k1 * k2 <= 400) by nra. assert (UX : 0 <= u * X <= / 1000000 * X) by nra. assert (KX : k1 * k2 * (u * X) <= 400 * (/ 1000000 * X)) by nra.
  assert (Y : 10 * u * ((L1 + k1 * (u * L1)) * (L2 + k2 * (u * L2))) <= 10 * u * (1001 / 1000 * (L1 * L2))) by (apply Rmult_le_compat_l; lra). replace (10 * u * (1001 / 1000 * (L1 * L2))) with (1001 / 100 * X) in Y by (unfold X; field). nra.
Qed.
End Two.
Lemma edge_k : forall M (p q : list fl), within M p -> within M q -> 1 <= M -> 8 * M <= Om -> vnear 1 (2 * M) (v_sub p q) (rsub (values p) (values q)).
Proof.
  intros M p q Hp Hq M1 MO. destruct (u_small prec U20) as [U0 U1]. assert (OM := om_big emax E20).
  destruct (within3 prec emax M p Hp) as (x & y & z & -> & (F1 & F2 & F3) & (B1 & B2 & B3)). destruct (within3 prec emax M q Hq) as (x' & y' & z' & -> & (F1' & F2' & F3') & (B1' & B2' & B3')).
  assert (G : forall a b : fl, is_finite a = true -> is_finite b = true -> Rabs (B2R a) <= M -> Rabs (B2R b) <= M -> near (o_sub a b) (B2R a - B2R b) (1 * (u * (2 * M))) /\ Rabs (B2R a - B2R b) <= 2 * M).
  { intros a b Fa Fb Ba Bb. apply Rabs_le_inv in Ba, Bb. assert (S : Rabs (B2R a - B2R b) <= 2 * M) by (apply Rabs_le; lra). split; [|exact S].
    eapply near_le; [apply near_sub with (A := 2 * M) (e1 := 0) (e2 := 0); [now apply near_exact|now apply near_exact|exact S|nra]|lra]. }
  apply vnear_intro; first [refine (proj1 (G _ _ _ _ _ _)); assumption|refine (proj2 (G _ _ _ _ _ _)); assumption].
Qed.
Lemma dir_k : forall d : list fl, nearly_unit d -> vnear 0 (1001 / 1000) d (values d).
Proof.
  intros d H. assert (H' := H). destruct H as (L & F & _). destruct (unit_facts prec emax U20 d H') as (B & _). split; [exact L|]. split; [unfold values; now rewrite map_length|]. split; [|exact B].
  assert (E := exact_all prec emax d F). clear - E. induction E; constructor; auto. replace (0 * (u * (1001 / 1000))) with 0 by ring. assumption.
Qed.

Section Tri.
Variables (o d p1 p2 p3 : list fl) (M : R).
Hypothesis (Ho : within M o) (Hd : nearly_unit d) (H1 : within M p1) (H2 : within M p2) (H3 : within M p3) (M1 : 1 <= M) (MO : 100000 * (M * M * M) <= Om).
Let e1 := rsub (values p2) (values p1).
Let e2 := rsub (values p3) (values p1).
Let tt := rsub (values o) (values p1).
Let D := values d.
Let A := rdot (rcross D e2) e1.
Let U := rdot (rcross tt e1) e2.
Let V := rdot (rcross D e2) tt.
Let W := rdot (rcross tt e1) D.
Let c1 := v_sub p2 p1.
Let c2 := v_sub p3 p1.
Let ct := v_sub o p1.
Let p := v_cross d c2.
Let q := v_cross ct c1.
Let a := v_dot p c1.
Let uu := v_dot q c2.
Let vv := v_dot p ct.
Let ww := v_dot q d.
Notation m2 := (M * M).
Notation m3 := (M * M * M).
Lemma sizes : 1 <= m2 /\ m2 <= m3 /\ M <= m2 /\ 1 <= m3.
Proof. assert (1 <= m2) by nra. repeat split; nra. Qed.
Lemma dots : (near a A (217 * (u * m2)) /\ Rabs A <= 241 / 10 * m2) /\ (near uu U (480 * (u * m3)) /\ Rabs U <= 48 * m3) /\ (near vv V (217 * (u * m2)) /\ Rabs V <= 241 / 10 * m2) /\ (near ww W (217 * (u * m2)) /\ Rabs W <= 241 / 10 * m2).
Proof.
  destruct (u_small prec U20) as [U0 U1]. destruct sizes as (Z1 & Z2 & Z3 & Z4). assert (UM : 0 < u * m2) by nra. assert (UM3 : 0 < u * m3) by nra.
  assert (E1 := edge_k M p2 p1 H2 H1 M1 ltac:(lra)). assert (E2 := edge_k M p3 p1 H3 H1 M1 ltac:(lra)). assert (ET := edge_k M o p1 Ho H1 M1 ltac:(lra)). assert (ED := dir_k d Hd).
  assert (CP := cross_k 0 1 (1001 / 1000) (2 * M) d c2 D e2 ED E2 ltac:(lra) ltac:(lra) ltac:(lra) ltac:(lra) ltac:(lra)). assert (CQ := cross_k 1 1 (2 * M) (2 * M) ct c1 tt e1 ET E1 ltac:(lra) ltac:(lra) ltac:(lra) ltac:(lra) ltac:(nra)).
  destruct (dot_k _ 1 (2 * (1001 / 1000 * (2 * M))) (2 * M) p c1 _ _ CP E1 ltac:(lra) ltac:(lra) ltac:(lra) ltac:(lra) ltac:(nra)) as [N1 B1].
  destruct (dot_k _ 1 (2 * (2 * M * (2 * M))) (2 * M) q c2 _ _ CQ E2 ltac:(lra) ltac:(lra) ltac:(nra) ltac:(lra) ltac:(nra)) as [N2 B2].
  destruct (dot_k _ 1 (2 * (1001 / 1000 * (2 * M))) (2 * M) p ct _ _ CP ET ltac:(lra) ltac:(lra) ltac:(lra) ltac:(lra) ltac:(nra)) as [N3 B3].
  destruct (dot_k _ 0 (2 * (2 * M * (2 * M))) (1001 / 1000) q d _ _ CQ ED ltac:(lra) ltac:(lra) ltac:(nra) ltac:(lra) ltac:(nra)) as [N4 B4].
  split; [split; [eapply near_le; [exact N1|]; nra|eapply Rle_trans; [exact B1|nra]]|]. split; [split; [eapply near_le; [exact N2|]; nra|eapply Rle_trans; [exact B2|nra]]|].
  split; [split; [eapply near_le; [exact N3|]; nra|eapply Rle_trans; [exact B3|nra]]|]. split; [eapply near_le; [exact N4|]; nra|eapply Rle_trans; [exact B4|nra]].
Qed.
(** The quotients, times the determinant *)
Lemma quot : forall (x : fl) y B e, near x y e -> Rabs y <= B -> 0 <= e -> 1 <= B -> 2000 * (B + e) <= Om -> / 1100 < Rabs (B2R a) -> is_finite (o_div x a) = true /\ Rabs (B2R (o_div x a)) <= 1200 * (B + e)
  /\ (0 <= B2R x / B2R a -> 0 <= B2R (o_div x a))
  /\ Rabs (B2R (o_div x a) * A - y) <= 217 * (u * m2) * Rabs (B2R (o_div x a)) + e + u * (B + e) + / 40 * (u * m2).
Proof.
  intros x y B e N HB He B1 HO HA. destruct (u_small prec U20) as [U0 U1]. destruct sizes as (Z1 & Z2 & Z3 & Z4). destruct dots as ((NA & BA) & _). assert (OM := om_big emax E20). destruct (eta_small prec emax E20) as [T0 TS].
  assert (VA := near_val _ _ _ _ _ _ NA BA). assert (VX := near_val _ _ _ _ _ _ N HB). destruct N as [Fx Hx]. destruct NA as [Fa Ha].
  assert (A0 : B2R a <> 0) by (intros Z; rewrite Z, Rabs_R0 in HA; lra).
  assert (QB : Rabs (B2R x / B2R a) <= 1100 * (B + e)). { unfold Rdiv. rewrite Rabs_mult, Rabs_inv, Rmult_comm. apply Rmult_le_compat; auto using Rabs_pos. { left. apply Rinv_0_lt_compat. lra. } rewrite <- (Rinv_inv 1100). apply Rinv_le; lra. }
  destruct (div_ok prec emax x a Fx A0) as (F & dd & ee & Hdd & Hee & EV). { assert (Rabs (B2R x / B2R a) * (1 + u) <= 1100 * (B + e) * (1 + u)) by (apply Rmult_le_compat_r; lra). nra. }
  split; [exact F|]. split.
  { rewrite EV. eapply Rle_trans; [apply Rabs_triang|]. rewrite Rabs_mult. assert (D1 : Rabs (1 + dd) <= 1 + u) by (apply Rabs_le_inv in Hdd; apply Rabs_le; lra). assert (Rabs (B2R x / B2R a) * Rabs (1 + dd) <= 1100 * (B + e) * (1 + u)) by (apply Rmult_le_compat; auto using Rabs_pos). assert (u * (B + e) <= / 1000000 * (B + e)) by (apply Rmult_le_compat_r; lra). lra. }
  split.
  { intros P. destruct (div_key prec emax x a Fx Fa A0) as [_ K]. rewrite (key_fin prec emax) in K by exact F. rewrite K. apply sat_nonneg. rewrite <- (round_0 radix2 (SpecFloat.fexp prec emax) ZnearestE). apply round_le; try typeclasses eauto. exact P. }
  set (r := B2R (o_div x a)) in *. replace (r * A - y) with (r * (A - B2R a) + (r * B2R a - B2R x) + (B2R x - y)) by ring.
  assert (G1 : Rabs (r * (A - B2R a)) <= 217 * (u * m2) * Rabs r). { rewrite Rabs_mult, Rmult_comm. apply Rmult_le_compat_r; [apply Rabs_pos|]. rewrite Rabs_minus_sym. exact Ha. }
  assert (G2 : Rabs (r * B2R a - B2R x) <= u * (B + e) + / 40 * (u * m2)).
  { rewrite EV. replace ((B2R x / B2R a * (1 + dd) + ee) * B2R a - B2R x) with (dd * B2R x + ee * B2R a) by (field; exact A0). eapply Rle_trans; [apply Rabs_triang|]. apply Rplus_le_compat; rewrite Rabs_mult.
    - apply Rmult_le_compat; auto using Rabs_pos.
    - apply Rle_trans with (u / 1000 * (242 / 10 * m2)); [|nra]. apply Rmult_le_compat; auto using Rabs_pos; [lra|]. eapply Rle_trans; [exact VA|]. nra. }
  eapply Rle_trans; [apply Rabs_triang|]. assert (T := Rabs_triang (r * (A - B2R a)) (r * B2R a - B2R x)). lra.
Qed.
Lemma a_test : (sc_is_zero a almost_zero = false -> / 1100 < Rabs (B2R a)) /\ (/ 900 + 217 * (u * m2) <= Rabs A -> sc_is_zero a almost_zero = false).
Proof.
  destruct (az_near prec emax U20 E20) as (Fa & Va). apply Rabs_le_inv in Va. destruct dots as (([Fd Vd] & _) & _). rewrite (is_zero_F prec emax) by (auto; lra). assert (T' := Rabs_triang_inv A (B2R a)). rewrite (Rabs_minus_sym A) in T'. split.
  - destruct (Rle_bool_spec (Rabs (B2R a)) (B2R (almost_zero : fl))) as [L|L]; [discriminate|]. intros _. lra.
  - intros H. apply Rle_bool_false. lra.
Qed.
Let x := o_div uu a.
Let y := o_div vv a.
Let z := o_div ww a.
Lemma quots : / 1100 < Rabs (B2R a) -> (is_finite x = true /\ is_finite y = true /\ is_finite z = true) /\ (Rabs (B2R y) <= 29000 * m2 /\ Rabs (B2R z) <= 29000 * m2)
  /\ ((0 <= B2R uu / B2R a -> 0 <= B2R x) /\ (0 <= B2R vv / B2R a -> 0 <= B2R y) /\ (0 <= B2R ww / B2R a -> 0 <= B2R z))
  /\ Rabs (B2R x * A - U) <= 217 * (u * m2) * Rabs (B2R x) + 530 * (u * m3) /\ Rabs (B2R y * A - V) <= 217 * (u * m2) * Rabs (B2R y) + 242 * (u * m2) /\ Rabs (B2R z * A - W) <= 217 * (u * m2) * Rabs (B2R z) + 242 * (u * m2).
Proof.
  intros HA. destruct (u_small prec U20) as [U0 U1]. destruct sizes as (Z1 & Z2 & Z3 & Z4). destruct dots as (_ & (NU & BU) & (NV & BV) & (NW & BW)). assert (UM : 0 < u * m2 <= / 1000000 * m2) by nra. assert (UM3 : 0 < u * m3 <= / 1000000 * m3) by nra. assert (UMM : u * m2 <= u * m3) by nra.
  destruct (quot uu U (48 * m3) _ NU BU ltac:(lra) ltac:(lra) ltac:(lra) HA) as (F1 & S1 & P1 & E1). destruct (quot vv V (241 / 10 * m2) _ NV BV ltac:(lra) ltac:(lra) ltac:(lra) HA) as (F2 & S2 & P2 & E2). destruct (quot ww W (241 / 10 * m2) _ NW BW ltac:(lra) ltac:(lra) ltac:(lra) HA) as (F3 & S3 & P3 & E3).
  assert (G : forall e, 0 <= e -> u * e <= / 1000000 * e) by (intros e He; apply Rmult_le_compat_r; lra). assert (G1 := G (480 * (u * m3)) ltac:(lra)). assert (G2 := G (217 * (u * m2)) ltac:(lra)).
  split; [auto|]. split; [split; [eapply Rle_trans; [exact S2|]; lra|eapply Rle_trans; [exact S3|]; lra]|]. split; [auto|]. fold x in E1. fold y in E2. fold z in E3.
  split; [eapply Rle_trans; [exact E1|]; lra|]. split; [eapply Rle_trans; [exact E2|]; lra|eapply Rle_trans; [exact E3|]; lra].
Qed.
Lemma add_yz : is_finite y = true -> is_finite z = true -> Rabs (B2R y) <= 29000 * m2 -> Rabs (B2R z) <= 29000 * m2 -> is_finite (o_add y z) = true /\ exists dl, Rabs dl <= u /\ B2R (o_add y z) = (B2R y + B2R z) * (1 + dl).
Proof.
  intros Fy Fz By Bz. destruct (u_small prec U20) as [U0 U1]. destruct sizes as (Z1 & Z2 & Z3 & Z4). apply Rabs_le_inv in By, Bz. apply (plus_ok prec emax); auto. assert (S : Rabs (B2R y + B2R z) <= 58000 * m2) by (apply Rabs_le; lra). nra.
Qed.
Lemma unfold_tri : intersect_ray_triangle (Ray o d) p1 p2 p3 = if sc_is_zero a almost_zero then o_nan else if o_lt x (cst 0) then o_nan else if o_lt y (cst 0) then o_nan else if o_lt z (cst 0) then o_nan else if o_lt (cst 1) (o_add y z) then o_nan else x.
Proof. reflexivity. Qed.
Lemma cramer : length tt = 3%nat /\ length e1 = 3%nat /\ length e2 = 3%nat /\ length D = 3%nat /\ forall i, (i < 3)%nat -> A * nth i tt 0 = V * nth i e1 0 + W * nth i e2 0 - U * nth i D 0.
Proof.
  destruct (within3 prec emax M o Ho) as (o0 & o1 & o2 & Eo & _). destruct (within3 prec emax M p1 H1) as (a0 & a1 & a2 & Ea & _). destruct (within3 prec emax M p2 H2) as (b0 & b1 & b2 & Eb & _). destruct (within3 prec emax M p3 H3) as (c0 & c1' & c2' & Ec & _). destruct Hd as (Ld & _).
  unfold A, U, V, W, tt, e1, e2, D. rewrite Eo, Ea, Eb, Ec. destruct d as [|d0 [|d1 [|d2 [|]]]]; try discriminate Ld. unfold values. cbn [map]. unfold rsub, rneg, radd. cbn [map zip]. repeat (split; [reflexivity|]).
  intros [|[|[|i]]] Hi; [| | |lia]; cbn [nth rcross rdot]; ring.
Qed.
Lemma close_points : forall s v w e, (forall i, (i < 3)%nat -> Rabs (nth i tt 0 + s * nth i D 0 - v * nth i e1 0 - w * nth i e2 0) <= e) ->
  close_upto e (ray_at (ray_values (Ray o d)) s) (radd (radd (values p1) (rscale v e1)) (rscale w e2)).
Proof.
  destruct (within3 prec emax M o Ho) as (o0 & o1 & o2 & Eo & _). destruct (within3 prec emax M p1 H1) as (a0 & a1 & a2 & Ea & _). destruct (within3 prec emax M p2 H2) as (b0 & b1 & b2 & Eb & _). destruct (within3 prec emax M p3 H3) as (c0 & c1' & c2' & Ec & _). destruct Hd as (Ld & _).
  intros s v w e. unfold tt, e1, e2, D, ray_at, ray_values, rpoint, close_upto. cbn [ray_origin ray_dir]. rewrite Eo, Ea, Eb, Ec. destruct d as [|d0 [|d1 [|d2 [|]]]]; try discriminate Ld. unfold values. cbn [map]. unfold rsub, rneg, radd, rscale. cbn [map zip]. intros G.
  assert (G0 := G 0%nat ltac:(lia)). assert (G1 := G 1%nat ltac:(lia)). assert (G2 := G 2%nat ltac:(lia)). cbn [nth] in G0, G1, G2. 
  apply Forall2_cons; [|apply Forall2_cons; [|apply Forall2_cons; [|apply Forall2_nil]]]; [apply Rle_trans with (2 := G0)|apply Rle_trans with (2 := G1)|apply Rle_trans with (2 := G2)]; apply Req_le; f_equal; ring.
Qed.
Lemma nth_bound : forall l B i, Forall (fun y => Rabs y <= B) l -> 0 <= B -> Rabs (nth i l 0) <= B.
Proof. intros l B i F HB. destruct (Nat.lt_ge_cases i (length l)) as [L|L]; [exact (proj1 (Forall_nth _ l) F i 0 L)|]. rewrite nth_overflow by exact L. now rewrite Rabs_R0. Qed.
Lemma component_bounds : forall i, Rabs (nth i D 0) <= 1001 / 1000 /\ Rabs (nth i e1 0) <= 2 * M /\ Rabs (nth i e2 0) <= 2 * M.
Proof.
  intros i. destruct sizes as (Z1 & Z2 & Z3 & Z4). destruct (edge_k M p2 p1 H2 H1 M1 ltac:(lra)) as (_ & _ & _ & B1). destruct (edge_k M p3 p1 H3 H1 M1 ltac:(lra)) as (_ & _ & _ & B2). destruct (dir_k d Hd) as (_ & _ & _ & B3).
  split; [apply nth_bound; [exact B3|lra]|]. split; apply nth_bound; auto; lra.
Qed.
Lemma mul_bound : forall r s B C, Rabs r <= B -> Rabs s <= C -> Rabs (r * s) <= B * C.
Proof. intros r s B C HB HC. rewrite Rabs_mult. apply Rmult_le_compat; auto using Rabs_pos. Qed.
Lemma sound : let r := Ray o d in let s := intersect_ray_triangle r p1 p2 p3 in
  s = o_nan \/ is_finite s = true /\ 0 <= B2R s /\ / 1100 - 217 * (u * m2) <= placement r p1 p2 p3
     /\ (0 < placement r p1 p2 p3 -> exists q, in_triangle (values p1) (values p2) (values p3) q /\ close_upto (ray_triangle_error prec M (placement r p1 p2 p3) (B2R s)) (ray_at (ray_values r) (B2R s)) q).
Proof.
  cbv zeta. rewrite unfold_tri. destruct (sc_is_zero a almost_zero) eqn:HA; [now left|]. apply (proj1 a_test) in HA. destruct (quots HA) as ((Fx & Fy & Fz) & (By & Bz) & _ & EX & EY & EZ).
  destruct (add_yz Fy Fz By Bz) as (Fs & dl & Hdl & Es). destruct (F_cst0 prec emax) as [F0 V0]. destruct (F_cst prec emax 1) as [F1 V1]. { change (Z.abs 1) with (2 ^ 0)%Z. apply Z.pow_le_mono_r; lia. }
  rewrite !(P_raybox.lt_fin prec emax), !(key_fin prec emax), V0, V1 by auto using (fin_num' prec emax).
  destruct (Rlt_bool_spec (B2R x) 0) as [Lx|Lx]; [now left|]. destruct (Rlt_bool_spec (B2R y) 0) as [Ly|Ly]; [now left|]. destruct (Rlt_bool_spec (B2R z) 0) as [Lz|Lz]; [now left|]. destruct (Rlt_bool_spec 1 (B2R (o_add y z))) as [Ls|Ls]; [now left|]. right.
  destruct (u_small prec U20) as [U0 U1]. destruct sizes as (Z1 & Z2 & Z3 & Z4). assert (UM : 0 < u * m2 <= / 1000000 * m2) by nra. assert (UM3 : 0 < u * m3 <= / 1000000 * m3) by nra. assert (UMM : u * m2 <= u * m3) by nra.
  split; [exact Fx|]. split; [exact Lx|]. change (placement (Ray o d) p1 p2 p3) with (Rabs A). destruct dots as (((Fa & Ha) & BA) & _). split. { assert (T := Rabs_triang_inv (B2R a) A). lra. } intros PA.
  rewrite (Rabs_pos_eq (B2R x)) in EX by exact Lx. rewrite (Rabs_pos_eq (B2R y)) in EY by exact Ly. rewrite (Rabs_pos_eq (B2R z)) in EZ by exact Lz. apply Rabs_le_inv in Hdl.
  assert (SUM : B2R y + B2R z <= 1 + 2 * u) by nra. set (X := B2R x) in *. set (Y := B2R y) in *. set (Z := B2R z) in *. set (k := 1 + 2 * u). assert (K : 0 < k) by (unfold k; lra).
  exists (radd (radd (values p1) (rscale (Y / k) e1)) (rscale (Z / k) e2)). split.
  - exists (Y / k), (Z / k). split; [now apply Rle_mult_inv_pos|]. split; [now apply Rle_mult_inv_pos|]. split; [|reflexivity]. replace (Y / k + Z / k) with ((Y + Z) * / k) by (field; lra). apply Rmult_le_reg_r with k; [exact K|]. rewrite Rmult_assoc, Rinv_l, Rmult_1_r, Rmult_1_l by lra. exact SUM.
  - apply close_points. intros i Hi. destruct cramer as (_ & _ & _ & _ & C). specialize (C i Hi). destruct (component_bounds i) as (BD & B1 & B2). set (ti := nth i tt 0) in *. set (di := nth i D 0) in *. set (f1 := nth i e1 0) in *. set (f2 := nth i e2 0) in *.
    assert (UU1 : u * m2 * u <= u * m2 * / 1000000) by (apply Rmult_le_compat_l; lra).
    assert (EY' : Rabs (Y * A - V) <= 461 * (u * m2)) by (assert (u * m2 * Y <= u * m2 * (1 + 2 * u)) by (apply Rmult_le_compat_l; lra); lra). assert (EZ' : Rabs (Z * A - W) <= 461 * (u * m2)) by (assert (u * m2 * Z <= u * m2 * (1 + 2 * u)) by (apply Rmult_le_compat_l; lra); lra).
    assert (KY : Rabs (Y - Y / k) <= 2 * u * Y). { replace (Y - Y / k) with (2 * u * Y * / k) by (unfold k; field; lra). assert (IK : 0 < / k <= 1) by (split; [now apply Rinv_0_lt_compat|rewrite <- Rinv_1; apply Rinv_le; unfold k; lra]). assert (N0 : 0 <= 2 * u * Y) by (apply Rmult_le_pos; lra). rewrite Rabs_pos_eq by (apply Rmult_le_pos; lra). apply Rle_trans with (2 * u * Y * 1); [apply Rmult_le_compat_l; lra|lra]. }
    assert (KZ : Rabs (Z - Z / k) <= 2 * u * Z). { replace (Z - Z / k) with (2 * u * Z * / k) by (unfold k; field; lra). assert (IK : 0 < / k <= 1) by (split; [now apply Rinv_0_lt_compat|rewrite <- Rinv_1; apply Rinv_le; unfold k; lra]). assert (N0 : 0 <= 2 * u * Z) by (apply Rmult_le_pos; lra). rewrite Rabs_pos_eq by (apply Rmult_le_pos; lra). apply Rle_trans with (2 * u * Z * 1); [apply Rmult_le_compat_l; lra|lra]. }
    apply Rmult_le_reg_r with (Rabs A); [exact PA|]. unfold ray_triangle_error, Rdiv. rewrite (Rmult_assoc _ (/ Rabs A)), Rinv_l, Rmult_1_r by lra. rewrite <- Rabs_mult.
    replace ((ti + X * di - Y * / k * f1 - Z * / k * f2) * A) with ((X * A - U) * di + (- (Y * A - V) * f1 + (- (Z * A - W) * f2 + ((Y - Y / k) * f1 + (Z - Z / k) * f2) * A))) by (unfold Rdiv; transitivity (A * ti + X * A * di - Y * / k * A * f1 - Z * / k * A * f2); [rewrite C; ring|ring]).
    assert (J1 := mul_bound _ _ _ _ EX BD). assert (J2 := mul_bound _ _ _ _ EY' B1). assert (J3 := mul_bound _ _ _ _ EZ' B2). assert (J4 := mul_bound _ _ _ _ KY B1). assert (J5 := mul_bound _ _ _ _ KZ B2).
    assert (J6 : Rabs ((Y - Y / k) * f1 + (Z - Z / k) * f2) <= 401 / 100 * (u * M)). { eapply Rle_trans; [apply Rabs_triang|]. assert (0 <= u * M) by (apply Rmult_le_pos; lra). assert (u * M * (Y + Z) <= u * M * (1 + 2 * u)) by (apply Rmult_le_compat_l; [assumption|exact SUM]). assert (u * M * u <= u * M * / 1000000) by (apply Rmult_le_compat_l; lra). lra. }
    assert (J7 := mul_bound _ _ _ _ J6 BA). replace (401 / 100 * (u * M) * (241 / 10 * m2)) with (401 / 100 * (241 / 10) * (u * m3)) in J7 by ring.
    eapply Rle_trans; [apply Rabs_triang|]. assert (T1 := Rabs_triang (- (Y * A - V) * f1) (- (Z * A - W) * f2 + ((Y - Y / k) * f1 + (Z - Z / k) * f2) * A)). assert (T2 := Rabs_triang (- (Z * A - W) * f2) (((Y - Y / k) * f1 + (Z - Z / k) * f2) * A)).
    rewrite <- Ropp_mult_distr_l, Rabs_Ropp in T1. rewrite <- Ropp_mult_distr_l, Rabs_Ropp in T2. rewrite <- !Ropp_mult_distr_l in *.
    assert (UX : 0 <= u * m2 * X) by (apply Rmult_le_pos; lra). lra.
Qed.
Lemma exact_hit : forall t v w, ray_at (ray_values (Ray o d)) t = radd (radd (values p1) (rscale v e1)) (rscale w e2) -> U = t * A /\ V = v * A /\ W = w * A.
Proof.
  destruct (within3 prec emax M o Ho) as (o0 & o1 & o2 & Eo & _). destruct (within3 prec emax M p1 H1) as (a0 & a1 & a2 & Ea & _). destruct (within3 prec emax M p2 H2) as (b0 & b1 & b2 & Eb & _). destruct (within3 prec emax M p3 H3) as (c0 & c1' & c2' & Ec & _). destruct Hd as (Ld & _).
  intros t v w. unfold A, U, V, W, tt, e1, e2, D, ray_at, ray_values, rpoint. cbn [ray_origin ray_dir]. rewrite Eo, Ea, Eb, Ec. destruct d as [|d0 [|d1 [|d2 [|]]]]; try discriminate Ld. unfold values. cbn [map]. unfold rsub, rneg, radd, rscale. cbn [map zip]. intros G. injection G as G0 G1 G2.
  revert G0 G1 G2. generalize (B2R o0) (B2R o1) (B2R o2) (B2R a0) (B2R a1) (B2R a2) (B2R b0) (B2R b1) (B2R b2) (B2R c0) (B2R c1') (B2R c2') (B2R d0) (B2R d1) (B2R d2). intros z0 z1 z2 x0 x1 x2 y0 y1 y2 w0 w1 w2 f0 f1 f2 G0 G1 G2.
  assert (K0 : z0 = x0 + v * (y0 - x0) + w * (w0 - x0) - t * f0) by lra. assert (K1 : z1 = x1 + v * (y1 - x1) + w * (w1 - x1) - t * f1) by lra. assert (K2 : z2 = x2 + v * (y2 - x2) + w * (w2 - x2) - t * f2) by lra. rewrite K0, K1, K2. cbn [rcross rdot]. repeat split; ring.
Qed.
Lemma quot_sign : forall (X : R) k e, Rabs (X - k * A) <= e -> e <= k * Rabs A -> 217 * (u * m2) < Rabs A -> 0 <= k -> 0 <= X / B2R a.
Proof.
  intros X k e HX He HA Hk. destruct dots as (((_ & Ha) & _) & _). apply Rabs_le_inv in HX, Ha. destruct (Rle_lt_dec 0 A) as [P|P].
  - rewrite Rabs_pos_eq in * by exact P. apply Rle_mult_inv_pos; lra.
  - rewrite Rabs_left in * by exact P. replace (X / B2R a) with (- X / - B2R a) by (field; lra). apply Rle_mult_inv_pos; lra.
Qed.
Lemma complete : let r := Ray o d in let s := intersect_ray_triangle r p1 p2 p3 in let c := placement r p1 p2 p3 in
  forall t m, in_triangle_by m (values p1) (values p2) (values p3) (ray_at (ray_values r) t) -> / 900 + 217 * (u * m2) <= c -> 1500 * (u * m2) <= m * c -> 600 * (u * m3) <= t * c ->
  is_finite s = true /\ Rabs (B2R s - t) <= ray_triangle_error prec M c t.
Proof.
  cbv zeta. change (placement (Ray o d) p1 p2 p3) with (Rabs A). intros t m (v & w & Hv & Hw & Hvw & EQ) HC HM HT. rewrite unfold_tri, (proj2 a_test HC).
  destruct (u_small prec U20) as [U0 U1]. destruct sizes as (Z1 & Z2 & Z3 & Z4). assert (UM : 0 < u * m2 <= / 1000000 * m2) by nra. assert (UM3 : 0 < u * m3 <= / 1000000 * m3) by nra. assert (UMM : u * m2 <= u * m3) by nra.
  destruct (exact_hit t v w EQ) as (EU & EV & EW). destruct dots as (((Fa & Ha) & BA) & ((Fu & Hu) & _) & ((Fv & Hvv) & _) & ((Fw & Hww) & _)). assert (PA : 0 < Rabs A) by lra.
  assert (M0 : 0 < m) by (apply Rmult_lt_reg_r with (Rabs A); lra). assert (T0 : 0 < t) by (apply Rmult_lt_reg_r with (Rabs A); lra).
  assert (HAA : / 1100 < Rabs (B2R a)). { assert (T := Rabs_triang_inv A (B2R a)). rewrite (Rabs_minus_sym A) in T. lra. }
  destruct (quots HAA) as ((Fx & Fy & Fz) & (By & Bz) & (PX & PY & PZ) & EX & EY & EZ). rewrite EU in *. rewrite EV in *. rewrite EW in *.
  assert (MV : m * Rabs A <= v * Rabs A) by (apply Rmult_le_compat_r; lra). assert (MW : m * Rabs A <= w * Rabs A) by (apply Rmult_le_compat_r; lra).
  assert (SX : 0 <= B2R x) by (apply PX, (quot_sign _ t _ Hu); lra). assert (SY : 0 <= B2R y) by (apply PY, (quot_sign _ v _ Hvv); lra). assert (SZ : 0 <= B2R z) by (apply PZ, (quot_sign _ w _ Hww); lra).
  destruct (add_yz Fy Fz By Bz) as (Fs & dl & Hdl & Es). destruct (F_cst0 prec emax) as [F0 V0]. destruct (F_cst prec emax 1) as [F1 V1]. { change (Z.abs 1) with (2 ^ 0)%Z. apply Z.pow_le_mono_r; lia. }
  rewrite !(P_raybox.lt_fin prec emax), !(key_fin prec emax), V0, V1 by auto using (fin_num' prec emax).
  rewrite !(Rlt_bool_false _ 0) by assumption.
  rewrite (Rabs_pos_eq (B2R x)) in EX by exact SX. rewrite (Rabs_pos_eq (B2R y)) in EY by exact SY. rewrite (Rabs_pos_eq (B2R z)) in EZ by exact SZ. apply Rabs_le_inv in Hdl.
  rewrite <- Rmult_minus_distr_r, Rabs_mult in EX, EY, EZ. set (X := B2R x) in *. set (Y := B2R y) in *. set (Z := B2R z) in *. set (c := Rabs A) in *. set (N := u * m2) in *.
  assert (CN : 4500 * N <= c). { assert (3 * m * c <= 1 * c) by (apply Rmult_le_compat_r; lra). lra. }
  assert (UP : forall g h, 0 <= g -> 0 <= h <= 1 -> Rabs (g - h) * c <= 217 * N * g + 242 * N -> g * c <= h * c + 676 * N).
  { intros g h Hg Hh E. assert (L := Rle_abs (g - h)). assert (L' : (g - h) * c <= Rabs (g - h) * c) by (apply Rmult_le_compat_r; lra). assert (G2 : g <= 2). { destruct (Rle_lt_dec g 2) as [|G]; [assumption|]. exfalso. assert (2 * (c - 217 * N) <= g * (c - 217 * N)) by (apply Rmult_le_compat_r; lra). assert (h * c <= 1 * c) by (apply Rmult_le_compat_r; lra). lra. }
    assert (217 * N * g <= 217 * N * 2) by (apply Rmult_le_compat_l; lra). lra. }
  assert (UY := UP Y v SY ltac:(lra) EY). assert (UZ := UP Z w SZ ltac:(lra) EZ).
  assert (SUM : (Y + Z) * c <= c - 148 * N). { assert ((v + w) * c <= (1 - m) * c) by (apply Rmult_le_compat_r; lra). lra. }
  assert (UC : 6 * u * c <= 148 * N). { assert (UCC : u * c <= u * (241 / 10 * m2)) by (apply Rmult_le_compat_l; lra). replace (u * (241 / 10 * m2)) with (241 / 10 * N) in UCC by (unfold N; ring). lra. }
  assert (SUM1 : Y + Z <= 1 - 6 * u). { apply Rmult_le_reg_r with c; [exact PA|]. lra. }
  assert (S1 : (Y + Z) * (1 + dl) <= 1). { assert (H0 : - u <= dl <= u) by (first [exact Hdl | apply Rabs_le_inv; exact Hdl]). apply Rle_trans with ((1 - 6 * u) * (1 + dl)); [apply Rmult_le_compat_r; lra|]. assert (u * - u <= u * dl) by (apply Rmult_le_compat_l; lra). assert (u * u <= u * / 1000000) by (apply Rmult_le_compat_l; lra). lra. }
  rewrite Rlt_bool_false by (rewrite Es; fold Y Z; lra). split; [exact Fx|]. fold X.
  assert (L := Rle_abs (X - t)). assert (L' : (X - t) * c <= Rabs (X - t) * c) by (apply Rmult_le_compat_r; lra). assert (NM : u * m3 = N * M) by (unfold N; ring). rewrite NM in *.
  assert (NX : 217 * N * X <= 217 / 4500 * (c * X)). { assert (4500 * N * X <= c * X) by (apply Rmult_le_compat_r; lra). lra. } assert (NM2 : 4500 * (N * M) <= c * M). { assert (4500 * N * M <= c * M) by (apply Rmult_le_compat_r; lra). lra. }
  assert (XB : X <= 2 * t + M). { apply Rmult_le_reg_r with c; [exact PA|]. lra. }
  apply Rmult_le_reg_r with c; [exact PA|]. unfold ray_triangle_error, Rdiv. fold N. rewrite (Rmult_assoc _ (/ c)), Rinv_l, Rmult_1_r by lra. assert (N * X <= N * (2 * t + M)) by (apply Rmult_le_compat_l; lra). assert (0 <= N * t) by (apply Rmult_le_pos; lra). assert (0 <= N * M) by (apply Rmult_le_pos; lra). lra.
Qed.
End Tri.
End FP.
