(** Turning around the origin and crossings of a line (used for C59). *)
From Coq Require Import ZArith Reals List Bool Lia Lra Psatz Arith.
From Verif Require Import S_winding P_poly2d.
Import ListNotations.
Local Open Scope R_scope.

Lemma cos_one_zero : forall d, - (2 * PI) < d < 2 * PI -> cos d = 1 -> d = 0.
Proof.
  intros d [D1 D2] E.
  assert (S2 : sin (d / 2) * sin (d / 2) = 0). { assert (H := cos_2a_sin (d / 2)). replace (2 * (d / 2)) with d in H by field. lra. }
  assert (S0 : sin (d / 2) = 0) by (apply Rmult_integral in S2; tauto).
  destruct (Rtotal_order d 0) as [L|[L|L]]; [ | exact L | ].
  - assert (0 < sin (- (d / 2))) by (apply sin_gt_0; lra). rewrite sin_neg in H. lra.
  - assert (0 < sin (d / 2)) by (apply sin_gt_0; lra). lra.
Qed.
Lemma angle_unique : forall s t, - PI < s < PI -> - PI < t < PI -> cos s = cos t -> sin s = sin t -> s = t.
Proof.
  intros s t S1 T1 C E. assert (s - t = 0); [ | lra ]. apply cos_one_zero; [ lra | ].
  rewrite cos_minus, C, E. assert (H := sin2_cos2 t). unfold Rsqr in H. lra.
Qed.

(** ** The argument of a point that is not on the x axis *)
Definition len2 (x y : R) : R := sqrt (x * x + y * y).
Definition arg (x y : R) : R := if Rlt_dec 0 y then acos (x / len2 x y) else 2 * PI - acos (x / len2 x y).
Lemma len2_pos : forall x y, y <> 0 -> 0 < len2 x y.
Proof. intros x y Y. apply sqrt_lt_R0. assert (0 <= x * x) by apply Rle_0_sqr. assert (0 < y * y) by nra. lra. Qed.
Lemma len2_sq : forall x y, len2 x y * len2 x y = x * x + y * y.
Proof. intros x y. apply sqrt_sqrt. assert (0 <= x * x) by apply Rle_0_sqr. assert (0 <= y * y) by apply Rle_0_sqr. lra. Qed.
Lemma arg_ratio : forall x y, y <> 0 -> -1 < x / len2 x y < 1.
Proof.
  intros x y Y. assert (P := len2_pos x y Y). assert (Q := len2_sq x y). assert (0 < y * y) by nra.
  assert (E : x / len2 x y * len2 x y = x) by (field; lra). set (u := x / len2 x y) in *. set (r := len2 x y) in *.
  split; apply Rnot_le_lt; intros B.
  - assert (r <= - x) by nra. assert (r * r <= - x * - x) by (apply Rmult_le_compat; lra). lra.
  - assert (r <= x) by nra. assert (r * r <= x * x) by (apply Rmult_le_compat; lra). lra.
Qed.
Lemma arg_spec : forall x y, y <> 0 -> len2 x y * cos (arg x y) = x /\ len2 x y * sin (arg x y) = y.
Proof.
  intros x y Y. assert (P := len2_pos x y Y). assert (Q := len2_sq x y). assert (A := arg_ratio x y Y).
  assert (E : len2 x y * (x / len2 x y) = x) by (field; lra). set (u := x / len2 x y) in *.
  assert (C : cos (acos u) = u) by (apply cos_acos; lra).
  assert (S1 : sin (acos u) = sqrt (1 - u * u)) by (rewrite sin_acos by lra; unfold Rsqr; reflexivity).
  assert (R1 : len2 x y * sqrt (1 - u * u) = Rabs y).
  { apply Rsqr_inj. apply Rmult_le_pos; [ lra | apply sqrt_pos ]. apply Rabs_pos. rewrite <- Rsqr_abs. unfold Rsqr.
    replace (len2 x y * sqrt (1 - u * u) * (len2 x y * sqrt (1 - u * u))) with (len2 x y * len2 x y * (sqrt (1 - u * u) * sqrt (1 - u * u))) by ring.
    rewrite sqrt_sqrt by nra. replace (len2 x y * len2 x y * (1 - u * u)) with (len2 x y * len2 x y - (len2 x y * u) * (len2 x y * u)) by ring. rewrite E, Q. ring. }
  unfold arg. fold u. destruct (Rlt_dec 0 y) as [L|L].
  - rewrite C, S1, R1. split; [ exact E | ]. apply Rabs_pos_eq. lra.
  - rewrite cos_minus, sin_minus, cos_2PI, sin_2PI, C, S1. split; [ lra | ]. assert (Rabs y = - y) by (apply Rabs_left; lra). lra.
Qed.
Lemma arg_up : forall x y, 0 < y -> 0 < arg x y < PI.
Proof.
  intros x y Y. assert (A := arg_ratio x y ltac:(lra)). unfold arg. destruct (Rlt_dec 0 y); [ | lra ]. apply acos_bound_lt. exact A.
Qed.
Lemma arg_down : forall x y, y < 0 -> PI < arg x y < 2 * PI.
Proof.
  intros x y Y. assert (A := arg_ratio x y ltac:(lra)). unfold arg. destruct (Rlt_dec 0 y); [ lra | ]. assert (H := acos_bound_lt _ A). lra.
Qed.

(** ** One edge: the turn is the difference of the arguments, up to a full turn for each crossing of the
    positive x axis *)
Definition crossing (x0 y0 x1 y1 : R) : Z :=
  if Rlt_dec y0 0 then (if Rlt_dec 0 y1 then (if Rlt_dec 0 (x0 * y1 - y0 * x1) then 1 else 0) else 0)%Z
  else (if Rlt_dec y1 0 then (if Rlt_dec (x0 * y1 - y0 * x1) 0 then -1 else 0) else 0)%Z.
Lemma edge_turn : forall x0 y0 x1 y1 th, y0 <> 0 -> y1 <> 0 -> (y0 * y1 < 0 -> x0 * y1 - y0 * x1 <> 0) ->
  - PI < th < PI -> len2 x0 y0 * len2 x1 y1 * cos th = x0 * x1 + y0 * y1 -> len2 x0 y0 * len2 x1 y1 * sin th = x0 * y1 - y0 * x1 ->
  th = arg x1 y1 - arg x0 y0 + 2 * PI * IZR (crossing x0 y0 x1 y1).
Proof.
  intros x0 y0 x1 y1 th Y0 Y1 X TH C S.
  assert (P0 := len2_pos x0 y0 Y0). assert (P1 := len2_pos x1 y1 Y1). assert (PP : 0 < len2 x0 y0 * len2 x1 y1) by (now apply Rmult_lt_0_compat).
  destruct (arg_spec x0 y0 Y0) as [C0 S0]. destruct (arg_spec x1 y1 Y1) as [C1 S1].
  set (a0 := arg x0 y0) in *. set (a1 := arg x1 y1) in *. set (r0 := len2 x0 y0) in *. set (r1 := len2 x1 y1) in *.
  assert (CD : r0 * r1 * cos (a1 - a0) = x0 * x1 + y0 * y1).
  { rewrite cos_minus. transitivity ((r0 * cos a0) * (r1 * cos a1) + (r0 * sin a0) * (r1 * sin a1)); [ ring | now rewrite C0, C1, S0, S1 ]. }
  assert (SD : r0 * r1 * sin (a1 - a0) = x0 * y1 - y0 * x1).
  { rewrite sin_minus. transitivity ((r0 * cos a0) * (r1 * sin a1) - (r0 * sin a0) * (r1 * cos a1)); [ ring | now rewrite C0, C1, S0, S1 ]. }
  assert (PER : forall z, (z = -1 \/ z = 0 \/ z = 1)%Z -> cos (a1 - a0 + 2 * PI * IZR z) = cos (a1 - a0) /\ sin (a1 - a0 + 2 * PI * IZR z) = sin (a1 - a0)).
  { intros z [-> | [-> | ->]].
    - replace (a1 - a0 + 2 * PI * -1) with (a1 - a0 - 2 * PI) by ring. rewrite (cos_minus (a1 - a0)), (sin_minus (a1 - a0)), cos_2PI, sin_2PI. split; ring.
    - replace (a1 - a0 + 2 * PI * 0) with (a1 - a0) by ring. auto.
    - replace (a1 - a0 + 2 * PI * 1) with (a1 - a0 + 2 * PI) by ring. rewrite (cos_plus (a1 - a0)), (sin_plus (a1 - a0)), cos_2PI, sin_2PI. split; ring. }
  assert (DONE : forall z, (z = -1 \/ z = 0 \/ z = 1)%Z -> - PI < a1 - a0 + 2 * PI * IZR z < PI -> th = a1 - a0 + 2 * PI * IZR z).
  { intros z Z B. destruct (PER z Z) as [E1 E2]. apply angle_unique; auto.
    - rewrite E1. apply Rmult_eq_reg_l with (r0 * r1); lra.
    - rewrite E2. apply Rmult_eq_reg_l with (r0 * r1); lra. }
  assert (PI0 := PI_RGT_0).
  unfold crossing. destruct (Rlt_dec y0 0) as [N0|N0], (Rlt_dec 0 y1) as [N1|N1].
  - assert (A0 := arg_down x0 y0 N0). assert (A1 := arg_up x1 y1 N1). fold a0 in A0. fold a1 in A1.
    assert (SNZ : x0 * y1 - y0 * x1 <> 0) by (apply X; nra).
    destruct (Rlt_dec 0 (x0 * y1 - y0 * x1)) as [Q|Q]; apply DONE; auto.
    + split; [ lra | ]. destruct (Rlt_le_dec (a1 - a0) (- PI)) as [|W]; [ lra | exfalso ].
      assert (H : 0 <= sin (- (a1 - a0))) by (apply sin_ge_0; lra). rewrite sin_neg in H. nra.
    + split; [ | lra ]. destruct (Rlt_le_dec (- PI) (a1 - a0)) as [|W]; [ lra | exfalso ].
      assert (H : 0 <= sin (a1 - a0 + 2 * PI)) by (apply sin_ge_0; lra). rewrite (sin_plus (a1 - a0)), cos_2PI, sin_2PI in H. nra.
  - assert (N1' : y1 < 0) by lra. assert (A0 := arg_down x0 y0 N0). assert (A1 := arg_down x1 y1 N1'). fold a0 in A0. fold a1 in A1. apply DONE; auto. lra.
  - assert (N0' : 0 < y0) by lra. assert (A0 := arg_up x0 y0 N0'). assert (A1 := arg_up x1 y1 N1). fold a0 in A0. fold a1 in A1.
    destruct (Rlt_dec y1 0); [ lra | ]. apply DONE; auto. lra.
  - assert (N0' : 0 < y0) by lra. assert (N1' : y1 < 0) by lra. assert (A0 := arg_up x0 y0 N0'). assert (A1 := arg_down x1 y1 N1'). fold a0 in A0. fold a1 in A1.
    assert (SNZ : x0 * y1 - y0 * x1 <> 0) by (apply X; nra).
    destruct (Rlt_dec y1 0); [ | lra ]. destruct (Rlt_dec (x0 * y1 - y0 * x1) 0) as [Q|Q]; apply DONE; auto.
    + split; [ | lra ]. destruct (Rlt_le_dec PI (a1 - a0)) as [|W]; [ lra | exfalso ].
      assert (H : 0 <= sin (a1 - a0)) by (apply sin_ge_0; lra). nra.
    + split; [ lra | ]. destruct (Rlt_le_dec (a1 - a0) PI) as [|W]; [ lra | exfalso ].
      assert (H : 0 <= sin (- (a1 - a0 - 2 * PI))) by (apply sin_ge_0; lra). rewrite sin_neg, (sin_minus (a1 - a0)), cos_2PI, sin_2PI in H. nra.
Qed.
(** There is such an angle. *)
Lemma edge_turn_exists : forall x0 y0 x1 y1, y0 <> 0 -> y1 <> 0 -> (y0 * y1 < 0 -> x0 * y1 - y0 * x1 <> 0) ->
  exists th, - PI < th < PI /\ len2 x0 y0 * len2 x1 y1 * cos th = x0 * x1 + y0 * y1 /\ len2 x0 y0 * len2 x1 y1 * sin th = x0 * y1 - y0 * x1.
Proof.
  intros x0 y0 x1 y1 Y0 Y1 X.
  assert (P0 := len2_pos x0 y0 Y0). assert (P1 := len2_pos x1 y1 Y1). assert (PP : 0 < len2 x0 y0 * len2 x1 y1) by (now apply Rmult_lt_0_compat).
  assert (Q0 := len2_sq x0 y0). assert (Q1 := len2_sq x1 y1).
  set (m := len2 x0 y0 * len2 x1 y1) in *. set (d := x0 * x1 + y0 * y1). set (c := x0 * y1 - y0 * x1) in *.
  assert (M2 : m * m = d * d + c * c). { unfold m, d, c. replace (len2 x0 y0 * len2 x1 y1 * (len2 x0 y0 * len2 x1 y1)) with ((len2 x0 y0 * len2 x0 y0) * (len2 x1 y1 * len2 x1 y1)) by ring. rewrite Q0, Q1. ring. }
  assert (NE : c = 0 -> 0 < d).
  { intros Z. destruct (Rtotal_order (y0 * y1) 0) as [L|[L|L]]; [ elim (X L Z) | apply Rmult_integral in L; tauto | ].
    unfold d. unfold c in Z. assert (0 <= x0 * x0) by apply Rle_0_sqr. assert (0 <= x1 * x1) by apply Rle_0_sqr.
    assert (E : x0 * x1 * (y0 * y1) = (x0 * y1) * (x0 * y1)). { replace (x0 * x1 * (y0 * y1)) with (x0 * y1 * (y0 * x1)) by ring. replace (y0 * x1) with (x0 * y1) by lra. ring. }
    assert (0 <= (x0 * y1) * (x0 * y1)) by apply Rle_0_sqr. assert (0 <= x0 * x1). { destruct (Rle_lt_dec 0 (x0 * x1)); [ assumption | nra ]. } lra. }
  assert (U : -1 <= d / m <= 1). { assert (E : d / m * m = d) by (field; lra). set (u := d / m) in *. assert (0 <= c * c) by apply Rle_0_sqr. clearbody m. split; apply Rnot_lt_le; intros B.
    - assert (m < - d) by nra. assert (m * m < - d * - d) by (apply Rmult_le_0_lt_compat; lra). lra.
    - assert (m < d) by nra. assert (m * m < d * d) by (apply Rmult_le_0_lt_compat; lra). lra. }
  assert (E : m * (d / m) = d) by (field; lra). set (u := d / m) in *.
  assert (CA : cos (acos u) = u) by (apply cos_acos; exact U).
  assert (SA : m * sin (acos u) = Rabs c).
  { rewrite sin_acos by exact U. apply Rsqr_inj. apply Rmult_le_pos; [ lra | apply sqrt_pos ]. apply Rabs_pos. rewrite <- Rsqr_abs. unfold Rsqr.
    replace (m * sqrt (1 - u * u) * (m * sqrt (1 - u * u))) with (m * m * (sqrt (1 - u * u) * sqrt (1 - u * u))) by ring.
    rewrite sqrt_sqrt by nra. replace (m * m * (1 - u * u)) with (m * m - (m * u) * (m * u)) by ring. rewrite E, M2. ring. }
  assert (PI0 := PI_RGT_0). assert (AB := acos_bound u).
  assert (LT : acos u < PI).
  { destruct (Rle_lt_or_eq_dec _ _ (proj2 AB)) as [|EQ]; [ assumption | exfalso ]. rewrite EQ in CA, SA. rewrite cos_PI in CA. rewrite sin_PI, Rmult_0_r in SA.
    assert (c = 0). { destruct (Req_dec c 0) as [|H]; [ assumption | ]. apply Rabs_pos_lt in H. lra. } specialize (NE H). rewrite <- CA in E. lra. }
  destruct (Rle_lt_dec 0 c) as [G|G].
  - exists (acos u). split; [ lra | ]. split; [ rewrite CA; exact E | ]. rewrite SA. now apply Rabs_pos_eq.
  - exists (- acos u). split; [ lra | ]. rewrite cos_neg, sin_neg. split; [ rewrite CA; exact E | ]. replace (m * - sin (acos u)) with (- (m * sin (acos u))) by ring. rewrite SA, Rabs_left by exact G. ring.
Qed.

(** ** The whole polygon *)
Lemma zsum_app : forall a b, zsum (a ++ b) = (zsum a + zsum b)%Z.
Proof. induction a; intros; cbn; [ reflexivity | ]. rewrite IHa. lia. Qed.
Section Sum.
Variable n : nat.
Variables x y th : nat -> R.
Hypothesis N1 : (1 <= n)%nat.
Hypothesis PX : x n = x O.
Hypothesis PY : y n = y O.
Hypothesis Y0 : forall i, (i < n)%nat -> y i <> 0 /\ y (S i) <> 0.
Hypothesis HX : forall i, (i < n)%nat -> y i * y (S i) < 0 -> x i * y (S i) - y i * x (S i) <> 0.
Hypothesis HT : forall i, (i < n)%nat -> - PI < th i < PI
  /\ len2 (x i) (y i) * len2 (x (S i)) (y (S i)) * cos (th i) = x i * x (S i) + y i * y (S i)
  /\ len2 (x i) (y i) * len2 (x (S i)) (y (S i)) * sin (th i) = x i * y (S i) - y i * x (S i).
Definition xing (i : nat) : Z := crossing (x i) (y i) (x (S i)) (y (S i)).
Lemma total_turn : total th n = 2 * PI * IZR (zsum (map xing (seq 0 n))).
Proof.
  assert (P : forall m, (m <= n)%nat -> total th m = arg (x m) (y m) - arg (x O) (y O) + 2 * PI * IZR (zsum (map xing (seq 0 m)))).
  { induction m as [|m IH]; intros M; [ cbn; ring | ]. rewrite seq_S, map_app, zsum_app. cbn [total plus map zsum]. rewrite IH by lia. rewrite Z.add_0_r, plus_IZR.
    destruct (HT m) as (T1 & T2 & T3); [ lia | ]. destruct (Y0 m) as [A B]; [ lia | ].
    rewrite (edge_turn (x m) (y m) (x (S m)) (y (S m)) (th m) A B (HX m ltac:(lia)) T1 T2 T3). unfold xing. ring. }
  rewrite P by lia. rewrite PX, PY. ring.
Qed.
End Sum.
