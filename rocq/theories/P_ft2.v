(** The quaternion that rotates one machine vector onto another (C106). *)
From Coq Require Import ZArith Reals List Lia Lra Bool Psatz.
From Flocq Require Import Core BinarySingleNaN.
From Verif Require Import Ops M_scalar M_vec M_quat Inst_F S_vec S_rnd S_hit P_ord P_ieee P_vec P_fp P_fp2 P_fp3 P_fp4 P_fp5 P_hit P_hit2 P_hit3 P_ft.
Import ListNotations.
Local Open Scope R_scope.

Section FP.
Variables prec emax : Z.
Context {Hprec : Prec_gt_0 prec} {Hmax : Prec_lt_emax prec emax}.
Notation fl := (binary_float prec emax).
Context {lm : libm fl}.
Notation u := (unit_roundoff prec).
Notation eta := (underflow_error prec emax).
Notation Om := (bpow radix2 emax).
Notation az := (B2R (almost_zero : fl)).
Hypothesis U20 : (20 <= prec)%Z.
Hypothesis E20 : (20 <= emax)%Z.

Lemma equal_one : forall x : fl, is_finite x = true -> Rabs (B2R x) <= 2 ->
  (sc_is_equal x (cst 1) almost_zero = true -> Rabs (B2R x - 1) <= az + u) /\ (sc_is_equal x (cst 1) almost_zero = false -> az - u <= Rabs (B2R x - 1)).
Proof.
  intros x Fx Bx. destruct (u_small prec ltac:(assumption)) as (U0 & U1). destruct (az_near prec emax ltac:(assumption) ltac:(assumption)) as (Fa & Va). apply Rabs_le_inv in Va. destruct (F_cst1 prec emax) as (F1 & V1).
  assert (OB := om_big emax ltac:(assumption)). assert (B3 : Rabs (B2R x - 1) <= 3) by (apply Rabs_le_inv in Bx; apply Rabs_le; lra).
  destruct (minus_ok prec emax x (cst 1) Fx F1) as (Fm & d & Hd & Em). { rewrite V1. nra. }
  unfold sc_is_equal. destruct (abs_ok prec emax _ Fm) as [Fb Eb]. change (o_le (sc_abs (o_sub x (cst 1))) almost_zero) with (Bleb (sc_abs (o_sub x (cst 1))) almost_zero).
  rewrite (Fle prec emax) by auto. rewrite Eb, Em, V1, Rabs_mult. apply Rabs_le_inv in Hd. rewrite (Rabs_pos_eq (1 + d)) by lra. assert (P := Rabs_pos (B2R x - 1)).
  destruct (Rle_bool_spec (Rabs (B2R x - 1) * (1 + d)) az); split; intros E; try discriminate; nra.
Qed.
Lemma pos_z_unit : nearly_unit (pos_z3 : list fl).
Proof.
  destruct (F_cst0 prec emax) as (F0 & V0). destruct (F_cst1 prec emax) as (F1 & V1). destruct (u_small prec ltac:(assumption)) as (U0 & U1).
  split; [reflexivity|]. split; [repeat (apply Forall_cons; [assumption|]); apply Forall_nil|]. unfold values, pos_z3. cbn [map]. rewrite V0, V1. unfold rnorm. cbn [rdot].
  replace (0 * 0 + (0 * 0 + (1 * 1 + 0))) with 1 by ring. rewrite sqrt_1, Rminus_diag_eq, Rabs_R0 by reflexivity. lra.
Qed.
Lemma pos_x_unit : nearly_unit (pos_x3 : list fl).
Proof.
  destruct (F_cst0 prec emax) as (F0 & V0). destruct (F_cst1 prec emax) as (F1 & V1). destruct (u_small prec ltac:(assumption)) as (U0 & U1).
  split; [reflexivity|]. split; [repeat (apply Forall_cons; [assumption|]); apply Forall_nil|]. unfold values, pos_x3. cbn [map]. rewrite V0, V1. unfold rnorm. cbn [rdot].
  replace (1 * 1 + (0 * 0 + (0 * 0 + 0))) with 1 by ring. rewrite sqrt_1, Rminus_diag_eq, Rabs_R0 by reflexivity. lra.
Qed.
Lemma axis_returns : forall axis angle, nearly_unit axis -> q_axis_angle axis angle = Ret (Q (f_cos (o_div angle (cst 2))) (v_scale axis (f_sin (o_div angle (cst 2))))).
Proof. intros axis angle H. unfold q_axis_angle. rewrite (unit_test prec emax) by assumption. reflexivity. Qed.
Lemma lagrange : forall a b, length a = 3%nat -> length b = 3%nat -> rdot (rcross a b) (rcross a b) = rdot a a * rdot b b - rdot a b * rdot a b.
Proof. intros a b La Lb. destruct a as [|a0 [|a1 [|a2 [|]]]]; try discriminate. destruct b as [|b0 [|b1 [|b2 [|]]]]; try discriminate. cbn. ring. Qed.
(** The squared length of the cross product as it is tested *)
Lemma cross_size : forall f w : list fl, nearly_unit f -> nearly_unit w ->
  near (v_squared_length (v_cross f w)) (rdot (rcross (values f) (values w)) (rcross (values f) (values w))) (120 * u).
Proof.
  intros f w Hf Hw. destruct (u_small prec ltac:(assumption)) as (U0 & U1). destruct (eta_small prec emax ltac:(assumption)) as (E0 & E1). assert (OB := om_big emax ltac:(assumption)).
  destruct (unit_facts prec emax ltac:(assumption) f Hf) as (Bf & _). destruct (unit_facts prec emax ltac:(assumption) w Hw) as (Bw & _). destruct Hf as (Lf & Ff & _), Hw as (Lw & Fw & _).
  assert (C := cross3_near prec emax ltac:(assumption) ltac:(assumption) f w (1001 / 1000) Lf Lw Ff Fw Bf Bw ltac:(lra) ltac:(lra)). unfold v_squared_length. set (x := v_cross f w) in *. assert (Lx : length x = 3%nat) by reflexivity.
  assert (LX : length (rcross (values f) (values w)) = 3%nat) by (destruct f as [|f0 [|f1 [|f2 [|]]]]; try discriminate; destruct w as [|w0 [|w1 [|w2 [|]]]]; try discriminate; reflexivity).
  set (X := rcross (values f) (values w)) in *. clearbody x X.
  assert (CN : Forall2 (fun x y => near x y (51 / 10 * u)) x X) by (clear - C U0; induction C as [|? ? ? ? (N & _) _ IH]; [apply Forall2_nil|]; apply Forall2_cons; [eapply near_le; [exact N|lra]|exact IH]).
  assert (CB : Forall (fun y => Rabs y <= 201 / 100) X) by (clear - C; induction C as [|? ? ? ? (_ & N) _ IH]; [apply Forall_nil|]; apply Forall_cons; [lra|exact IH]).
  eapply near_le; [apply (dot3_near prec emax x x X X (51 / 10 * u) (51 / 10 * u) (201 / 100) (201 / 100)); auto; nra|]. nra.
Qed.

Lemma from_to_raw : forall f t : list fl, nearly_unit f -> nearly_unit t -> let c := rdot (values f) (values t) in
  exists axis angle, q_from_to f t = Ret (Q (f_cos (o_div angle (cst 2))) (v_scale axis (f_sin (o_div angle (cst 2))))) /\ nearly_unit axis
  /\ (axis = pos_z3 /\ angle = cst 0 /\ Rabs (c - 1) <= az + 12 * u
      \/ (exists w, nearly_unit w /\ / 1250 <= rdot (rcross (values f) (values w)) (rcross (values f) (values w)) /\ axis = v_normalize (v_cross f w)) /\ Rabs (rdot (values axis) (values f)) <= 800 * u /\ angle = to_radians (cst 180) /\ Rabs (c + 1) <= az + 12 * u
      \/ / 1250 <= rdot (rcross (values f) (values t)) (rcross (values f) (values t)) /\ Rabs (rdot (values axis) (values f)) <= 800 * u /\ Rabs (rdot (values axis) (values t)) <= 800 * u /\ axis = v_normalize (v_cross f t) /\ angle = f_acos (v_dot f t) /\ Rabs c <= 1 - az + 12 * u).
Proof.
  intros f t Hf Ht c. destruct (u_small prec ltac:(assumption)) as (U0 & U1). destruct (az_near prec emax ltac:(assumption) ltac:(assumption)) as (Fa & Va). apply Rabs_le_inv in Va.
  destruct (den_near prec emax ltac:(assumption) ltac:(assumption) f t Hf Ht) as (FC & HC). fold c in HC. apply Rabs_le_inv in HC.
  destruct (unit_facts prec emax ltac:(assumption) f Hf) as (_ & QF & _). destruct (unit_facts prec emax ltac:(assumption) t Ht) as (_ & QT & _). apply Rabs_le_inv in QF, QT.
  assert (LG := lagrange (values f) (values t)). unfold values in LG at 1 2. rewrite !map_length in LG. specialize (LG (proj1 Hf) (proj1 Ht)). fold c in LG.
  assert (CC : c * c <= rdot (values f) (values f) * rdot (values t) (values t)) by (assert (P := rdot_nonneg (rcross (values f) (values t))); lra).
  set (ff := rdot (values f) (values f)) in *. set (tt := rdot (values t) (values t)) in *.
  assert (C1 : - (1 + 34 * u) <= c <= 1 + 34 * u). { assert (PP : ff * tt <= (1 + 33 * u) * (1 + 33 * u)) by (apply Rmult_le_compat; lra). split; nra. }
  unfold q_from_to. rewrite (unit_test prec emax) by assumption. rewrite (unit_test prec emax) by assumption. cbn [require]. cbv zeta.
  set (x := v_dot f t) in *. assert (BX : Rabs (B2R x) <= 2) by (apply Rabs_le; lra).
  destruct (equal_one x FC BX) as (T1 & T2). destruct (opp_F prec emax x FC) as (FO & VO). destruct (equal_one (o_neg x) FO ltac:(rewrite VO, Rabs_Ropp; exact BX)) as (T3 & T4). rewrite VO in T3, T4.
  destruct (sc_is_equal x (cst 1) almost_zero).
  { specialize (T1 eq_refl). apply Rabs_le_inv in T1. exists pos_z3, (cst 0). split; [apply axis_returns, pos_z_unit|]. split; [apply pos_z_unit|]. left. split; [reflexivity|]. split; [reflexivity|]. apply Rabs_le. lra. }
  specialize (T2 eq_refl). clear T1. destruct (sc_is_equal (o_neg x) (cst 1) almost_zero).
  - specialize (T3 eq_refl). clear T4. apply Rabs_le_inv in T3. assert (CM : Rabs (c + 1) <= az + 12 * u) by (apply Rabs_le; lra).
    destruct (cross_size f pos_z3 Hf pos_z_unit) as (FZ & NZ). apply Rabs_le_inv in NZ. destruct (abs_ok prec emax _ FZ) as (FA & VA).
    assert (FIN : forall w, nearly_unit w -> / 1250 <= rdot (rcross (values f) (values w)) (rcross (values f) (values w)) ->
      exists axis angle, q_axis_angle (v_normalize (v_cross f w)) (to_radians (cst 180)) = Ret (Q (f_cos (o_div angle (cst 2))) (v_scale axis (f_sin (o_div angle (cst 2))))) /\ nearly_unit axis
      /\ (axis = pos_z3 /\ angle = cst 0 /\ Rabs (c - 1) <= az + 12 * u
      \/ (exists w, nearly_unit w /\ / 1250 <= rdot (rcross (values f) (values w)) (rcross (values f) (values w)) /\ axis = v_normalize (v_cross f w)) /\ Rabs (rdot (values axis) (values f)) <= 800 * u /\ angle = to_radians (cst 180) /\ Rabs (c + 1) <= az + 12 * u
      \/ / 1250 <= rdot (rcross (values f) (values t)) (rcross (values f) (values t)) /\ Rabs (rdot (values axis) (values f)) <= 800 * u /\ Rabs (rdot (values axis) (values t)) <= 800 * u /\ axis = v_normalize (v_cross f t) /\ angle = f_acos (v_dot f t) /\ Rabs c <= 1 - az + 12 * u)).
    { intros w Hw HX. destruct (axis_ok prec emax ltac:(assumption) ltac:(assumption) f w Hf Hw HX) as (NU & P1 & _). exists (v_normalize (v_cross f w)), (to_radians (cst 180)). split; [now apply axis_returns|]. split; [exact NU|]. right. left. split; [exists w; auto|auto]. }
    rewrite (is_zero_F prec emax) by (auto; lra). destruct (Rle_bool_spec (Rabs (B2R (v_squared_length (v_cross f pos_z3)))) az) as [L|L].
    + apply FIN; [apply pos_x_unit|]. clear FIN. apply Rabs_le_inv in L. destruct (F_cst0 prec emax) as (F0 & V0). destruct (F_cst1 prec emax) as (F1 & V1).
      unfold ff in *. destruct Hf as (Lf & _). destruct f as [|f0 [|f1 [|f2 [|]]]]; try discriminate. unfold values, pos_z3, pos_x3 in *. cbn [map rcross rdot] in *. rewrite V0, V1 in *. assert (S1 := Rle_0_sqr (B2R f1)). unfold Rsqr in S1. lra.
    + apply FIN; [apply pos_z_unit|]. rewrite Rabs_pos_eq in L; [lra|]. destruct (Rle_dec 0 (B2R (v_squared_length (v_cross f pos_z3)))); [assumption|]. rewrite Rabs_left in L by lra. assert (P := rdot_nonneg (rcross (values f) (values (pos_z3 : list fl)))). lra.
  - specialize (T4 eq_refl). clear T3.
    assert (CM : Rabs c <= 1 - az + 12 * u).
    { apply Rabs_le. revert T2 T4. unfold Rabs. destruct (Rcase_abs (B2R x - 1)); destruct (Rcase_abs (- B2R x - 1)); intros; lra. }
    assert (HX : / 1250 <= rdot (rcross (values f) (values t)) (rcross (values f) (values t))).
    { rewrite LG. apply Rabs_le_inv in CM. assert (c * c <= (1 - / 1100) * (1 - / 1100)) by nra. assert ((1 - 33 * u) * (1 - 33 * u) <= ff * tt) by (apply Rmult_le_compat; lra). nra. }
    destruct (axis_ok prec emax ltac:(assumption) ltac:(assumption) f t Hf Ht HX) as (NU & P1 & P2). exists (v_normalize (v_cross f t)), (f_acos x). split; [now apply axis_returns|]. split; [exact NU|]. right. right. auto 7.
Qed.
Lemma from_to_axis : forall f t : list fl, nearly_unit f -> nearly_unit t -> let c := rdot (values f) (values t) in
  exists axis angle, q_from_to f t = Ret (Q (f_cos (o_div angle (cst 2))) (v_scale axis (f_sin (o_div angle (cst 2))))) /\ nearly_unit axis
  /\ (axis = pos_z3 /\ angle = cst 0 /\ Rabs (c - 1) <= az + 12 * u
      \/ Rabs (rdot (values axis) (values f)) <= 800 * u /\ angle = to_radians (cst 180) /\ Rabs (c + 1) <= az + 12 * u
      \/ Rabs (rdot (values axis) (values f)) <= 800 * u /\ Rabs (rdot (values axis) (values t)) <= 800 * u /\ axis = v_normalize (v_cross f t) /\ angle = f_acos (v_dot f t) /\ Rabs c <= 1 - az + 12 * u).
Proof.
  intros f t Hf Ht c. destruct (from_to_raw f t Hf Ht) as (axis & angle & E & NU & [H|[(_ & H)|(_ & H)]]); exists axis, angle; (split; [exact E|]; split; [exact NU|]); auto.
Qed.
End FP.

(** Vectors that pass the assertions but are not as close to unit length *)
Definition short : list double := [lit 9991 10000; cst 0; cst 0].
Definition asserts {A} (x : outcome A) : bool := match x with Assert => true | _ => false end.
Lemma asserts_eq : forall A (x : outcome A), asserts x = true -> x = Assert.
Proof. intros A x; destruct x; cbn; intros; try discriminate; reflexivity. Qed.
Lemma short_finite : forallb is_finite short = true.
Proof. vm_cast_no_check (eq_refl true). Qed.
Lemma short_unit : v_is_unit short almost_zero = true.
Proof. vm_cast_no_check (eq_refl true). Qed.
Lemma short_asserts : forall lm : libm double, asserts (@q_from_to _ _ lm short short) = true.
Proof. intros lm. vm_cast_no_check (eq_refl true). Qed.
Lemma from_to_fails : forall lm : libm double, exists f : list double, all_finite f /\ v_is_unit f almost_zero = true /\ @q_from_to _ _ lm f f = Assert.
Proof.
  intros lm. exists short. split; [apply Forall_forall; intros x Hx; exact (proj1 (forallb_forall _ _) short_finite x Hx)|]. split; [exact short_unit|]. apply asserts_eq, short_asserts.
Qed.
