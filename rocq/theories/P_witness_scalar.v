(** Concrete inputs on which the scalar functions miss their documented behaviour. *)
From Coq Require Import ZArith Reals List Bool Lra Lia.
From Flocq Require Import Core BinarySingleNaN.
From Verif Require Import Ops M_scalar M_vec Inst_F Inst_XR P_xr P_ieee P_round P_scalar_xr P_solve P_quartic.
Import ListNotations.
Local Open Scope R_scope.

(** 0.49999999999999994 rounds to 1, 2^52+1 to 2^52+2. *)
Definition below_half : double := D (2 ^ 53 - 1) (-54).
(** Turns a boolean test of an outcome into an existence statement. *)
Lemma outcome_test : forall A (x : outcome A) (P : A -> bool),
  match x with Ret r => P r | _ => false end = true -> exists r, x = Ret r /\ P r = true.
Proof. intros A [a| | |] P H; try discriminate. eauto. Qed.

Lemma round_below_half : exists r, sc_round below_half = Ret r /\ Beqb r (D 1 0) = true.
Proof. apply (outcome_test _ _ (fun r => Beqb r (D 1 0))). vm_compute. reflexivity. Qed.
Lemma round_big_odd : exists r, sc_round (D (2 ^ 52 + 1) 0) = Ret r /\ Beqb r (D (2 ^ 52 + 2) 0) = true.
Proof. apply (outcome_test _ _ (fun r => Beqb r (D (2 ^ 52 + 2) 0))). vm_compute. reflexivity. Qed.

(** Snapping up twice moves twice. *)
Definition snap_v : double := D 0x17f14230d1a65e (-46).
Lemma snap_up_twice : exists s t, sc_snap_up snap_v (lit 1 10) = Ret s
  /\ sc_snap_up s (lit 1 10) = Ret t /\ Bltb s t = true.
Proof.
  destruct (outcome_test _ (sc_snap_up snap_v (lit 1 10))
    (fun s => match sc_snap_up s (lit 1 10) with Ret t => Bltb s t | _ => false end)) as (s & E & H).
  { vm_compute. reflexivity. }
  exists s. destruct (outcome_test _ (sc_snap_up s (lit 1 10)) (fun t => Bltb s t) H) as (t & E2 & H2).
  eauto.
Qed.

(** Vector equality up to epsilon is not symmetric in floating point. *)
Definition asym_a : double := D 0x10f310cd19cb00 (-59).
Definition asym_b : double := D 0x1dcd8e25772b80 (-60).
Lemma vec_is_equal_asym : exists eps : double,
  v_is_equal [asym_a] [asym_b] eps <> v_is_equal [asym_b] [asym_a] eps.
Proof. exists (lit 1 1000). vm_compute. discriminate. Qed.

(** The angle loop does not make progress on large negative angles. *)
Definition big_neg : double := D (-1) 70.
Lemma big_neg_stuck : o_add big_neg (cst 360) = big_neg.
Proof. apply B2SF_inj. vm_compute. reflexivity. Qed.
Lemma wrap_up_stuck : forall fuel, wrap_up fuel big_neg (cst 360) = Fuel.
Proof.
  assert (L : o_lt big_neg (cst 0) = true) by (vm_compute; reflexivity).
  induction fuel; cbn [wrap_up]; rewrite L; auto. rewrite big_neg_stuck. exact IHfuel.
Qed.
Lemma normalize_degrees_diverges : forall fuel, sc_normalize_degrees fuel big_neg = Fuel.
Proof. intros. unfold sc_normalize_degrees. now rewrite wrap_up_stuck. Qed.

(** A positive angle normalised to a slightly negative one. *)
Definition double_pi : double := D 0x1921fb54442d18 (-51).
Definition rad_x : double := D 0x1d1ecd928cd637 (-33).
Lemma normalize_radians_negative : forall lm : libm double, k_pi = double_pi ->
  exists r, sc_normalize_radians 0 rad_x = Ret r /\ Bltb r (cst 0) = true.
Proof.
  intros lm Hpi.
  apply (outcome_test _ _ (fun r => Bltb r (cst 0))).
  unfold sc_normalize_radians, two_pi. rewrite Hpi. vm_compute. reflexivity.
Qed.

(** Signed abs_difference *)
Lemma abs_difference_wrong : exists a b : double,
  Beqb (sc_abs_difference a b) (cst 0) = true /\ Beqb (sc_abs (o_sub a b)) (cst 2) = true.
Proof. exists (cst (-1)), (cst 1). vm_compute. auto. Qed.

(** correct() with one decimal leaves 1.1001 alone although 1.1 is within epsilon. *)
Lemma correct_misses : exists v w eps : R, Rabs (v - w) < eps /\ (exists z : Z, w * 10 = IZR z)
  /\ sc_correct (Some v) 1 (Some eps) = Ret (Some v) /\ ~ (exists z : Z, v * 10 = IZR z).
Proof.
  exists (11001 / 10000), (11 / 10), (1 / 1000). split; [ apply Rabs_lt; lra | ].
  split; [ exists 11%Z; lra | ]. split.
  - unfold sc_correct. cbn -[IZR sc_round sc_abs].
    rewrite X_round by (apply Rabs_lt; lra).
    replace (Zround_away _) with 2%Z.
    2: { unfold Zround_away. rewrite Rlt_bool_true by lra. symmetry. apply Zfloor_imp. simpl. lra. }
    cbn -[IZR sc_abs]. rewrite X_abs. cbn -[IZR].
    rewrite Rlt_bool_false; auto. rewrite Rabs_left; lra.
  - intros [z Hz]. assert (H : IZR 11001 = IZR (1000 * z)) by (rewrite mult_IZR; lra).
    apply eq_IZR in H. lia.
Qed.

(** The quartic x^4 reports its root twice. *)
Lemma quartic_twice : solve_quartic (Some 1) (Some 0) (Some 0) (Some 0) (Some 0) (Some 0)
  = Ret (2%nat, [Some 0; Some 0; None; None]).
Proof.
  unfold solve_quartic. rewrite !X_lit by lia.
  change (cst 0) with (Some 0). change (cst 1) with (Some 1).
  rewrite !X_div by lra.
  cbn [o_add o_sub o_mul o_neg XRops X1 X2].
  rewrite !X_is_zero by lra.
  rewrite Rle_bool_true.
  2: { right. match goal with |- Rabs ?x = 0 => replace x with 0 by field end. apply Rabs_R0. }
  rewrite X_cubic_eq by lra. cbv zeta.
  rewrite Rle_bool_true.
  2: { right. match goal with |- Rabs ?x = 0 => replace x with 0 by field end. apply Rabs_R0. }
  rewrite Rle_bool_true.
  2: { right. match goal with |- Rabs ?x = 0 => replace x with 0 by field end. apply Rabs_R0. }
  cbn -[IZR Rmult Rplus Rminus Rdiv Rinv]. do 3 f_equal; [ f_equal; field | ].
  f_equal. f_equal. field.
Qed.

(** With the default tolerance x^4 = 1/10000 is reported to have only the root 0. *)
Lemma quartic_default_eps :
  solve_quartic (Some 1) (Some 0) (Some 0) (Some 0) (Some (- (1 / 10000))) almost_zero
  = Ret (2%nat, [Some 0; Some 0; None; None]).
Proof.
  unfold solve_quartic, almost_zero. rewrite !X_lit by lia.
  change (cst 0) with (Some 0). change (cst 1) with (Some 1).
  rewrite !X_div by lra.
  cbn [o_add o_sub o_mul o_neg XRops X1 X2].
  rewrite !X_is_zero by lra.
  rewrite Rle_bool_true.
  2: { match goal with |- Rabs ?x <= _ => replace x with (- (1 / 10000)) by field end. rewrite Rabs_left; lra. }
  rewrite X_cubic_eq by lra. cbv zeta.
  rewrite Rle_bool_true.
  2: { match goal with |- Rabs ?x <= _ => replace x with 0 by field end. rewrite Rabs_R0; lra. }
  rewrite Rle_bool_true.
  2: { match goal with |- Rabs ?x <= _ => replace x with 0 by field end. rewrite Rabs_R0; lra. }
  cbn -[IZR Rmult Rplus Rminus Rdiv Rinv]. do 3 f_equal; [ f_equal; field | ].
  f_equal. f_equal. field.
Qed.
