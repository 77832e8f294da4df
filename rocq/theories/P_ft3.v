(** The accuracy of quaternion products and rotations (C106). *)
From Coq Require Import ZArith Reals List Lia Lra Bool Psatz.
From Flocq Require Import Core BinarySingleNaN.
From Verif Require Import Ops M_scalar M_vec M_quat Inst_F S_vec S_rnd S_hit S_quat S_ft P_ord P_ieee P_vec P_fp P_fp2 P_fp3 P_fp4 P_fp5 P_hit P_hit2 P_hit3 P_ft.
Import ListNotations.
Local Open Scope R_scope.

Section FP.
Variables prec emax : Z.
Context {Hprec : Prec_gt_0 prec} {Hmax : Prec_lt_emax prec emax}.
Notation fl := (binary_float prec emax).
Notation u := (unit_roundoff prec).
Notation eta := (underflow_error prec emax).
Notation Om := (bpow radix2 emax).
Hypothesis U20 : (20 <= prec)%Z.
Hypothesis E20 : (20 <= emax)%Z.

(** Machine quaternions close to real ones of bounded components *)
Definition qnear (q : quat fl) (p : quat R) (e : R) : Prop := near (q_r q) (q_r p) e /\ length (q_v q) = 3%nat /\ length (q_v p) = 3%nat /\ Forall2 (fun x y => near x y e) (q_v q) (q_v p).
Definition qsize (p : quat R) (A : R) : Prop := Rabs (q_r p) <= A /\ Forall (fun x => Rabs x <= A) (q_v p).

Lemma four_near : forall (a b c d x y z w : fl) A B C D X Y Z W e1 e2 M N, near a A e1 -> near b B e1 -> near c C e1 -> near d D e1 -> near x X e2 -> near y Y e2 -> near z Z e2 -> near w W e2 ->
  Rabs A <= M -> Rabs B <= M -> Rabs C <= M -> Rabs D <= M -> Rabs X <= N -> Rabs Y <= N -> Rabs Z <= N -> Rabs W <= N -> 0 <= e1 -> 0 <= e2 -> (M + e1) * (N + e2) <= 1000 ->
  near (o_sub (o_add (o_add (o_mul a x) (o_mul b y)) (o_mul c z)) (o_mul d w)) (A * X + B * Y + C * Z - D * W) (4 * (M * e2 + N * e1 + e1 * e2) + 16 * u * ((M + e1) * (N + e2)) + 6 * eta)
  /\ Rabs (A * X + B * Y + C * Z - D * W) <= 4 * (M * N).
Proof.
  intros a b c d x y z w A B C D X Y Z W e1 e2 M N Na Nb Nc Nd Nx Ny Nz Nw HA HB HC HD HX HY HZ HW P1 P2 HS.
  destruct (u_small prec ltac:(assumption)) as (U0 & U1). destruct (eta_small prec emax ltac:(assumption)) as (E0 & E1). assert (OB := om_big emax ltac:(assumption)).
  assert (M0 : 0 <= M) by (eapply Rle_trans; [apply Rabs_pos|exact HA]). assert (N0 : 0 <= N) by (eapply Rle_trans; [apply Rabs_pos|exact HX]).
  assert (K : forall s t, Rabs s <= M -> Rabs t <= N -> Rabs (s * t) <= M * N) by (intros s t S T; rewrite Rabs_mult; apply Rmult_le_compat; auto using Rabs_pos).
  assert (K1 := K _ _ HA HX). assert (K2 := K _ _ HB HY). assert (K3 := K _ _ HC HZ). assert (K4 := K _ _ HD HW).
  set (g := M * e2 + N * e1 + e1 * e2). assert (G0 : 0 <= g) by (unfold g; assert (0 <= M * e2) by nra; assert (0 <= N * e1) by nra; assert (0 <= e1 * e2) by nra; lra).
  assert (SG : (M + e1) * (N + e2) = M * N + g) by (unfold g; ring). set (S := (M + e1) * (N + e2)) in *. assert (MN0 : 0 <= M * N) by nra. assert (S0 : 0 <= S) by lra.
  assert (US : u * S <= S / 1000000) by nra. assert (US0 : 0 <= u * S) by nra. assert (UUS : u * (u * S) <= u * S / 1000000) by nra. assert (UE : u * eta <= eta / 1000000) by nra. assert (UE0 : 0 <= u * eta) by nra.
  assert (UG : 0 <= u * g) by nra. assert (UMN : u * S = u * (M * N) + u * g) by (rewrite SG; ring). assert (UMN0 : 0 <= u * (M * N)) by nra.
  set (m := g + u * S + eta).
  assert (OV : (M + e1) * (N + e2) * (1 + u) + eta < Om) by (fold S; lra).
  assert (Q1 : near (o_mul a x) (A * X) m) by (eapply near_le; [apply (near_mul prec emax a x A X e1 e2 M N Na Nx HA HX OV)|unfold m, g; fold S; lra]).
  assert (Q2 : near (o_mul b y) (B * Y) m) by (eapply near_le; [apply (near_mul prec emax b y B Y e1 e2 M N Nb Ny HB HY OV)|unfold m, g; fold S; lra]).
  assert (Q3 : near (o_mul c z) (C * Z) m) by (eapply near_le; [apply (near_mul prec emax c z C Z e1 e2 M N Nc Nz HC HZ OV)|unfold m, g; fold S; lra]).
  assert (Q4 : near (o_mul d w) (D * W) m) by (eapply near_le; [apply (near_mul prec emax d w D W e1 e2 M N Nd Nw HD HW OV)|unfold m, g; fold S; lra]).
  apply Rabs_le_inv in K1, K2, K3, K4.
  assert (B2 : Rabs (A * X + B * Y) <= 2 * (M * N)) by (apply Rabs_le; lra). assert (B3 : Rabs (A * X + B * Y + C * Z) <= 3 * (M * N)) by (apply Rabs_le; lra).
  assert (B4 : Rabs (A * X + B * Y + C * Z - D * W) <= 4 * (M * N)) by (apply Rabs_le; lra).
  assert (R2 : near (o_add (o_mul a x) (o_mul b y)) (A * X + B * Y) (2 * g + 5 * u * S + 3 * eta)) by (eapply near_le; [apply (near_add prec emax _ _ _ _ _ _ _ Q1 Q2 B2); unfold m; lra|unfold m; lra]).
  assert (R3 : near (o_add (o_add (o_mul a x) (o_mul b y)) (o_mul c z)) (A * X + B * Y + C * Z) (3 * g + 10 * u * S + 45 / 10 * eta)) by (eapply near_le; [apply (near_add prec emax _ _ _ _ _ _ _ R2 Q3 B3); unfold m; lra|unfold m; lra]).
  split; [|exact B4]. eapply near_le; [apply (near_sub prec emax _ _ _ _ _ _ _ R3 Q4 B4); unfold m; lra|]. unfold m. fold g. lra.
Qed.

Lemma near_eq : forall (x : fl) a b e, near x a e -> a = b -> near x b e.
Proof. intros x a b e H <-. exact H. Qed.
Lemma qmul_near : forall (p q : quat fl) (P Q' : quat R) e1 e2 M N, qnear p P e1 -> qnear q Q' e2 -> qsize P M -> qsize Q' N -> 0 <= e1 -> 0 <= e2 -> (M + e1) * (N + e2) <= 1000 ->
  qnear (q_mul p q) (rq_mul P Q') (4 * (M * e2 + N * e1 + e1 * e2) + 16 * u * ((M + e1) * (N + e2)) + 6 * eta) /\ qsize (rq_mul P Q') (4 * (M * N)).
Proof.
  intros [pr pv] [qr qv] [PR PV] [QR QV] e1 e2 M N (Npr & Lpv & LPV & Npv) (Nqr & Lqv & LQV & Nqv) (SPR & SPV) (SQR & SQV) P1 P2 HS. cbn [q_r q_v] in *.
  destruct (u_small prec ltac:(assumption)) as (U0 & U1). destruct (eta_small prec emax ltac:(assumption)) as (E0 & E1). assert (OB := om_big emax ltac:(assumption)).
  assert (M0 : 0 <= M) by (eapply Rle_trans; [apply Rabs_pos|exact SPR]). assert (N0 : 0 <= N) by (eapply Rle_trans; [apply Rabs_pos|exact SQR]).
  assert (DN := dot3_near prec emax pv qv PV QV e1 e2 M N Npv Nqv Lpv Lqv SPV SQV P1 P2 M0 N0 ltac:(lra)).
  set (g := M * e2 + N * e1 + e1 * e2) in *. assert (G0 : 0 <= g) by (unfold g; assert (0 <= M * e2) by nra; assert (0 <= N * e1) by nra; assert (0 <= e1 * e2) by nra; lra).
  assert (SG : (M + e1) * (N + e2) = M * N + g) by (unfold g; ring).
  assert (NM := near_mul prec emax pr qr PR QR e1 e2 M N Npr Nqr SPR SQR). fold g in NM.
  set (S := (M + e1) * (N + e2)) in *. assert (MN0 : 0 <= M * N) by nra. assert (S0 : 0 <= S) by lra.
  assert (US : u * S <= S / 1000000) by nra. assert (US0 : 0 <= u * S) by nra. assert (UUS : u * (u * S) <= u * S / 1000000) by nra. assert (UE : u * eta <= eta / 1000000) by nra. assert (UE0 : 0 <= u * eta) by nra.
  assert (UG : 0 <= u * g) by nra. assert (UMN : u * S = u * (M * N) + u * g) by (rewrite SG; ring). assert (UMN0 : 0 <= u * (M * N)) by nra.
  specialize (DN ltac:(lra)). specialize (NM ltac:(lra)).
  destruct pv as [|px [|py [|pz [|]]]]; try discriminate. destruct qv as [|qx [|qy [|qz [|]]]]; try discriminate. destruct PV as [|PX [|PY [|PZ [|]]]]; try discriminate. destruct QV as [|QX [|QY [|QZ [|]]]]; try discriminate.
  inversion Npv as [|? ? ? ? A0 Np1]; subst. inversion Np1 as [|? ? ? ? A1 Np2]; subst. inversion Np2 as [|? ? ? ? A2 _]; subst.
  inversion Nqv as [|? ? ? ? B0 Nq1]; subst. inversion Nq1 as [|? ? ? ? B1 Nq2]; subst. inversion Nq2 as [|? ? ? ? B2 _]; subst.
  inversion SPV as [|? ? C0 Sp1]; subst. inversion Sp1 as [|? ? C1 Sp2]; subst. inversion Sp2 as [|? ? C2 _]; subst.
  inversion SQV as [|? ? D0 Sq1]; subst. inversion Sq1 as [|? ? D1 Sq2]; subst. inversion Sq2 as [|? ? D2 _]; subst.
  destruct (four_near pr px py pz qx qr qz qy PR PX PY PZ QX QR QZ QY e1 e2 M N) as (X1 & X2); try assumption.
  destruct (four_near pr py pz px qy qr qx qz PR PY PZ PX QY QR QX QZ e1 e2 M N) as (Y1 & Y2); try assumption.
  destruct (four_near pr pz px py qz qr qy qx PR PZ PX PY QZ QR QY QX e1 e2 M N) as (Z1 & Z2); try assumption.
  fold g S in X1, Y1, Z1. set (E := 4 * g + 16 * u * S + 6 * eta) in *.
  assert (K : forall s t, Rabs s <= M -> Rabs t <= N -> Rabs (s * t) <= M * N) by (intros s t Hs Ht; rewrite Rabs_mult; apply Rmult_le_compat; auto using Rabs_pos).
  assert (KR := K _ _ SPR SQR). assert (KX := K _ _ C0 D0). assert (KY := K _ _ C1 D1). assert (KZ := K _ _ C2 D2). apply Rabs_le_inv in KR, KX, KY, KZ.
  assert (RS : Rabs (PR * QR - rdot [PX; PY; PZ] [QX; QY; QZ]) <= 4 * (M * N)) by (cbn [rdot]; apply Rabs_le; lra).
  assert (R1 : near (o_sub (o_mul pr qr) (v_dot [px; py; pz] [qx; qy; qz])) (PR * QR - rdot [PX; PY; PZ] [QX; QY; QZ]) E).
  { eapply near_le; [apply (near_sub prec emax _ _ _ _ _ _ _ NM DN RS); lra|]. unfold E. lra. }
  split.
  - split; [exact R1|]. split; [reflexivity|]. split; [reflexivity|]. unfold rq_mul. cbn [q_r q_v rscale radd map map2 rcross].
    apply Forall2_cons; [eapply near_eq; [exact X1|ring]|]. apply Forall2_cons; [eapply near_eq; [exact Y1|ring]|]. apply Forall2_cons; [eapply near_eq; [exact Z1|ring]|]. apply Forall2_nil.
  - split; [exact RS|]. unfold rq_mul. cbn [q_r q_v rscale radd map map2 rcross].
    assert (TR : forall a b k, Rabs a <= k -> a = b -> Rabs b <= k) by (intros ? ? ? ? <-; assumption).
    apply Forall_cons; [eapply TR; [exact X2|ring]|]. apply Forall_cons; [eapply TR; [exact Y2|ring]|]. apply Forall_cons; [eapply TR; [exact Z2|ring]|]. apply Forall_nil.
Qed.
(** The computed rotation is that of the exact values of the components, up to some roundings. *)
Lemma rotate_near : forall (q : quat fl) (f : list fl), quat_finite q -> qsize (quat_values q) (101 / 100) -> length f = 3%nat -> all_finite f -> Forall (fun x => Rabs x <= 1001 / 1000) (values f) ->
  Forall2 (fun x y => near x y (140 * u)) (q_rotate q f) (rq_rotate (quat_values q) (values f)).
Proof.
  intros q f (Fr & Lv & Fv) Sq Lf Ff Bf. destruct (u_small prec ltac:(assumption)) as (U0 & U1). destruct (eta_small prec emax ltac:(assumption)) as (E0 & E1).
  assert (LV : forall v : list fl, length (values v) = length v) by (intros; unfold values; apply map_length).
  assert (N1 : qnear q (quat_values q) 0) by (split; [now apply near_exact|]; split; [exact Lv|]; split; [cbn; now rewrite LV|apply exact_all; exact Fv]).
  destruct (F_cst0 prec emax) as (F0 & V0).
  assert (N2 : qnear (Q (cst 0) f) (Q 0 (values f)) 0) by (split; [cbn; rewrite <- V0 at 2; now apply near_exact|]; split; [exact Lf|]; split; [cbn; now rewrite LV|apply exact_all; exact Ff]).
  assert (S2 : qsize (Q 0 (values f)) (1001 / 1000)) by (split; [cbn; rewrite Rabs_R0; lra|exact Bf]).
  assert (N3 : qnear (q_conjugate q) (rq_conj (quat_values q)) 0).
  { split; [now apply near_exact|]. unfold q_conjugate, rq_conj, quat_values. cbn [q_r q_v]. split; [unfold v_neg; now rewrite map_length|]. split; [unfold rneg; now rewrite map_length, LV|].
    clear - Fv. unfold values, v_neg, rneg. induction Fv as [|x l Fx _ IH]; [apply Forall2_nil|]. cbn [map]. apply Forall2_cons; [|exact IH]. destruct (opp_F prec emax x Fx) as (Fo & Vo). rewrite <- Vo. now apply near_exact. }
  assert (S3 : qsize (rq_conj (quat_values q)) (101 / 100)).
  { destruct Sq as (Sr & Sv). split; [exact Sr|]. cbn [rq_conj q_v]. clear - Sv. unfold rneg. revert Sv. generalize (q_v (quat_values q)). intros l Sv. induction Sv as [|x l Hx _ IH]; [apply Forall_nil|]. cbn [map]. apply Forall_cons; [rewrite Rabs_Ropp; exact Hx|exact IH]. }
  destruct (qmul_near q (Q (cst 0) f) _ _ 0 0 _ _ N1 N2 Sq S2 ltac:(lra) ltac:(lra) ltac:(lra)) as (N4 & S4).
  set (e := 4 * (101 / 100 * 0 + 1001 / 1000 * 0 + 0 * 0) + 16 * u * ((101 / 100 + 0) * (1001 / 1000 + 0)) + 6 * eta) in *. assert (EE : 0 <= e <= 165 / 10 * u) by (unfold e; lra).
  destruct (qmul_near _ _ _ _ e 0 _ _ N4 N3 S4 S3 ltac:(lra) ltac:(lra) ltac:(lra)) as ((_ & _ & _ & N5) & _).
  unfold q_rotate, rq_rotate. set (X := q_v (q_mul _ _)) in *. set (Y := q_v (rq_mul _ _)) in *. clearbody X Y. 
  match type of N5 with Forall2 (fun x y => near x y ?k) _ _ => assert (KE : k <= 140 * u) end.
  { assert (UE : u * e <= e / 1000000) by nra. lra. }
  clear - N5 KE. induction N5 as [|x y a b H _ IH]; [apply Forall2_nil|]. apply Forall2_cons; [eapply near_le; [exact H|exact KE]|exact IH].
Qed.
End FP.

(** Real quaternions *)
Lemma rotate_poly : forall r x y z fx fy fz, rq_rotate (Q r [x; y; z]) [fx; fy; fz] =
  [(r * r + x * x - y * y - z * z) * fx + 2 * (x * y - r * z) * fy + 2 * (x * z + r * y) * fz;
   2 * (x * y + r * z) * fx + (r * r + y * y - x * x - z * z) * fy + 2 * (y * z - r * x) * fz;
   2 * (x * z - r * y) * fx + 2 * (y * z + r * x) * fy + (r * r + z * z - x * x - y * y) * fz].
Proof. intros. unfold rq_rotate, rq_mul, rq_conj. cbn. f_equal; [ring|]. f_equal; [ring|]. f_equal. ring. Qed.
Lemma product_close : forall a b a' b' e, Rabs a <= 101 / 100 -> Rabs b' <= 101 / 100 -> Rabs (a - a') <= e -> Rabs (b - b') <= e -> Rabs (a * b - a' * b') <= 202 / 100 * e.
Proof.
  intros a b a' b' e A B HA HB. replace (a * b - a' * b') with (a * (b - b') + b' * (a - a')) by ring.
  eapply Rle_trans; [apply Rabs_triang|]. rewrite !Rabs_mult. 
  assert (Rabs a * Rabs (b - b') <= 101 / 100 * e) by (apply Rmult_le_compat; auto using Rabs_pos). assert (Rabs b' * Rabs (a - a') <= 101 / 100 * e) by (apply Rmult_le_compat; auto using Rabs_pos). lra.
Qed.
Lemma rotate_close : forall r x y z r' x' y' z' fx fy fz e, qsize (Q r [x; y; z]) (101 / 100) -> qsize (Q r' [x'; y'; z']) (101 / 100) ->
  Rabs (r - r') <= e -> Rabs (x - x') <= e -> Rabs (y - y') <= e -> Rabs (z - z') <= e -> Forall (fun v => Rabs v <= 1001 / 1000) [fx; fy; fz] ->
  Forall2 (fun a b => Rabs (a - b) <= 25 * e) (rq_rotate (Q r [x; y; z]) [fx; fy; fz]) (rq_rotate (Q r' [x'; y'; z']) [fx; fy; fz]).
Proof.
  intros r x y z r' x' y' z' fx fy fz e (Sr & Sv) (Sr' & Sv') Er Ex Ey Ez Bf. cbn [q_r q_v] in *.
  inversion Sv as [|? ? C0 Sp1]; subst. inversion Sp1 as [|? ? C1 Sp2]; subst. inversion Sp2 as [|? ? C2 _]; subst.
  inversion Sv' as [|? ? D0 Sq1]; subst. inversion Sq1 as [|? ? D1 Sq2]; subst. inversion Sq2 as [|? ? D2 _]; subst.
  inversion Bf as [|? ? B0 Bf1]; subst. inversion Bf1 as [|? ? B1 Bf2]; subst. inversion Bf2 as [|? ? B2 _]; subst. clear Sv Sp1 Sp2 Sv' Sq1 Sq2 Bf Bf1 Bf2.
  assert (E0 : 0 <= e) by (eapply Rle_trans; [apply Rabs_pos|exact Er]).
  assert (rr := product_close r r r' r' e Sr Sr' Er Er). assert (xx := product_close x x x' x' e C0 D0 Ex Ex). assert (yy := product_close y y y' y' e C1 D1 Ey Ey). assert (zz := product_close z z z' z' e C2 D2 Ez Ez).
  assert (xy := product_close x y x' y' e C0 D1 Ex Ey). assert (xz := product_close x z x' z' e C0 D2 Ex Ez). assert (yz := product_close y z y' z' e C1 D2 Ey Ez).
  assert (rx := product_close r x r' x' e Sr D0 Er Ex). assert (ry := product_close r y r' y' e Sr D1 Er Ey). assert (rz := product_close r z r' z' e Sr D2 Er Ez).
  apply Rabs_le_inv in rr, xx, yy, zz, xy, xz, yz, rx, ry, rz.
  assert (K : forall p p' k f, - k <= p - p' <= k -> Rabs f <= 1001 / 1000 -> - (k * (1001 / 1000)) <= p * f - p' * f <= k * (1001 / 1000)).
  { intros p p' k f Hp Hf. assert (H : Rabs ((p - p') * f) <= k * (1001 / 1000)) by (rewrite Rabs_mult; apply Rmult_le_compat; auto using Rabs_pos; now apply Rabs_le). apply Rabs_le_inv in H. lra. }
  assert (T : forall p1 p2 p3 q1 q2 q3, - (808 / 100 * e) <= p1 - q1 <= 808 / 100 * e -> - (808 / 100 * e) <= p2 - q2 <= 808 / 100 * e -> - (808 / 100 * e) <= p3 - q3 <= 808 / 100 * e -> Rabs (p1 * fx + p2 * fy + p3 * fz - (q1 * fx + q2 * fy + q3 * fz)) <= 25 * e).
  { intros p1 p2 p3 q1 q2 q3 H1 H2 H3. apply (K _ _ _ _ H1) in B0. apply (K _ _ _ _ H2) in B1. apply (K _ _ _ _ H3) in B2. apply Rabs_le. lra. }
  rewrite !rotate_poly. apply Forall2_cons; [apply T; lra|]. apply Forall2_cons; [apply T; lra|]. apply Forall2_cons; [apply T; lra|]. apply Forall2_nil.
Qed.
