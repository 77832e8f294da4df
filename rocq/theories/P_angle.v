(** Errors of converting angles in double precision. *)
From Coq Require Import ZArith Reals List Lia Lra Bool.
From Flocq Require Import Core BinarySingleNaN.
From Verif Require Import Ops M_scalar M_vec M_limits Inst_F S_rnd P_ord P_ieee P_fp P_fp5 P_pi.
Import ListNotations.
Local Open Scope R_scope.

Notation u := (unit_roundoff 53).
Lemma mul_rel : forall x y : double, is_finite x = true -> is_finite y = true -> bpow radix2 (-1022) <= Rabs (B2R x * B2R y) <= bpow radix2 1022 ->
  is_finite (o_mul x y) = true /\ exists d, Rabs d <= u /\ B2R (o_mul x y) = B2R x * B2R y * (1 + d).
Proof.
  intros x y Fx Fy [H1 H2]. destruct (rnd_error_big 53 1024 (B2R x * B2R y)) as (d & Hd & E); [exact H1|].
  generalize (Bmult_correct 53 1024 _ _ mode_NE x y). rewrite Rlt_bool_true.
  - intros (E' & G & _). rewrite Fx, Fy in G. split; auto. exists d. split; auto. change (o_mul x y) with (Bmult mode_NE x y). now rewrite E', E.
  - rewrite E, Rabs_mult. apply Rle_lt_trans with (bpow radix2 1022 * 2).
    + apply Rmult_le_compat; auto using Rabs_pos. apply Rabs_le_inv in Hd. rewrite u_53 in Hd. apply Rabs_le. lra.
    + change 2 with (bpow radix2 1). rewrite <- bpow_plus. apply bpow_lt. lia.
Qed.
Lemma div_rel : forall x y : double, is_finite x = true -> B2R y <> 0 -> bpow radix2 (-1022) <= Rabs (B2R x / B2R y) <= bpow radix2 1022 ->
  is_finite (o_div x y) = true /\ exists d, Rabs d <= u /\ B2R (o_div x y) = B2R x / B2R y * (1 + d).
Proof.
  intros x y Fx Fy [H1 H2]. destruct (rnd_error_big 53 1024 (B2R x / B2R y)) as (d & Hd & E); [exact H1|].
  generalize (Bdiv_correct 53 1024 _ _ mode_NE x y Fy). rewrite Rlt_bool_true.
  - intros (E' & G & _). rewrite Fx in G. split; auto. exists d. split; auto. change (o_div x y) with (Bdiv mode_NE x y). now rewrite E', E.
  - rewrite E, Rabs_mult. apply Rle_lt_trans with (bpow radix2 1022 * 2).
    + apply Rmult_le_compat; auto using Rabs_pos. apply Rabs_le_inv in Hd. rewrite u_53 in Hd. apply Rabs_le. lra.
    + change 2 with (bpow radix2 1). rewrite <- bpow_plus. apply bpow_lt. lia.
Qed.
(** x differs from y by a factor between a and b *)
Lemma within : forall x y a b c e lo hi : R, 0 < a -> a <= Rabs (x) -> Rabs x <= b -> 0 < lo -> lo <= Rabs y <= hi -> c <= a * lo -> b * hi <= e -> 0 <= b ->
  c <= Rabs (x * y) <= e.
Proof.
  intros. rewrite Rabs_mult. assert (X := Rabs_pos x). assert (Y := Rabs_pos y). split.
  - apply Rle_trans with (a * lo); auto. apply Rmult_le_compat; lra.
  - apply Rle_trans with (b * hi); auto. apply Rmult_le_compat; lra.
Qed.
Lemma bpow_shift : forall (a b : Z) k, 0 < k -> k <= bpow radix2 (b - a) -> bpow radix2 a * k <= bpow radix2 b.
Proof.
  intros a b k K H. replace b with (a + (b - a))%Z at 1 by lia. rewrite bpow_plus. apply Rmult_le_compat_l; auto. apply bpow_ge_0.
Qed.
Lemma bpow_shift' : forall (a b : Z) k, bpow radix2 (b - a) <= k -> bpow radix2 b <= bpow radix2 a * k.
Proof.
  intros a b k H. replace b with (a + (b - a))%Z at 1 by lia. rewrite bpow_plus. apply Rmult_le_compat_l; auto. apply bpow_ge_0.
Qed.
Definition mid (x : R) : Prop := bpow radix2 (-1000) <= Rabs x <= bpow radix2 1000.
Lemma scaled : forall x k, mid x -> bpow radix2 (-22) <= Rabs k <= bpow radix2 22 -> bpow radix2 (-1022) <= Rabs (x * k) <= bpow radix2 1022.
Proof.
  intros x k [H1 H2] [K1 K2]. rewrite Rabs_mult.
  replace (bpow radix2 (-1022)) with (bpow radix2 (-1000) * bpow radix2 (-22)) by now rewrite <- bpow_plus.
  replace (bpow radix2 1022) with (bpow radix2 1000 * bpow radix2 22) by now rewrite <- bpow_plus.
  split; apply Rmult_le_compat; auto using bpow_ge_0, Rabs_pos.
Qed.

Section Angle.
Context {lm : libm double}.
Hypothesis PI_LIT : k_pi = pi_literal.
Notation P := (B2R (pi_literal : double)).
Lemma P_range : 3 < P < 4. Proof. rewrite (proj2 pi_double). lra. Qed.
Lemma c180 : is_finite (cst 180 : double) = true /\ B2R (cst 180 : double) = 180.
Proof. apply cst_double. lia. Qed.

Lemma b22 : bpow radix2 (-22) = / 4194304. Proof. reflexivity. Qed.
Lemma b22' : bpow radix2 22 = 4194304. Proof. reflexivity. Qed.
Lemma radians_factors : forall d : double, is_finite d = true -> mid (B2R d) ->
  is_finite (to_radians d) = true /\ exists a b, Rabs a <= u /\ Rabs b <= u /\ B2R (to_radians d) = B2R d * P / 180 * (1 + a) * (1 + b).
Proof.
  intros d Fd M. unfold to_radians. rewrite PI_LIT. destruct pi_double as [FP _]. assert (R := P_range). destruct c180 as [F1 V1].
  destruct (mul_rel d pi_literal Fd FP) as (FA & a & Ha & EA).
  { apply scaled; auto. rewrite Rabs_pos_eq by lra. rewrite b22, b22'. lra. }
  assert (Hu := u_53). assert (Ha' := Ha). apply Rabs_le_inv in Ha'.
  destruct (div_rel (o_mul d pi_literal) (cst 180) FA) as (FB & b & Hb & EB).
  - rewrite V1. lra.
  - rewrite V1, EA. unfold Rdiv. replace (B2R d * P * (1 + a) * / 180) with (B2R d * (P * (1 + a) / 180)) by field. apply scaled; auto.
    assert (G : / 100 <= P * (1 + a) / 180 <= 1) by nra. rewrite Rabs_pos_eq by lra. rewrite b22, b22'. lra.
  - split; [exact FB|]. exists a, b. split; auto. split; auto. rewrite EB, V1, EA. field.
Qed.
Lemma degrees_factors : forall r : double, is_finite r = true -> mid (B2R r) ->
  is_finite (to_degrees r) = true /\ exists a b, Rabs a <= u /\ Rabs b <= u /\ B2R (to_degrees r) = B2R r * 180 / P * (1 + a) * (1 + b).
Proof.
  intros d Fd M. unfold to_degrees. rewrite PI_LIT. destruct pi_double as [FP _]. assert (R := P_range). destruct c180 as [F1 V1].
  destruct (mul_rel d (cst 180) Fd F1) as (FA & a & Ha & EA).
  { apply scaled; auto. rewrite V1. rewrite Rabs_pos_eq by lra. rewrite b22, b22'. lra. }
  assert (Hu := u_53). assert (Ha' := Ha). apply Rabs_le_inv in Ha'. rewrite V1 in EA.
  destruct (div_rel (o_mul d (cst 180)) pi_literal FA) as (FB & b & Hb & EB).
  - lra.
  - rewrite EA. replace (B2R d * 180 * (1 + a) / P) with (B2R d * (180 * (1 + a) / P)) by (field; lra). apply scaled; auto.
    assert (G1 : / 4 < / P < / 3) by (split; apply Rinv_lt_contravar; nra). unfold Rdiv.
    assert (G : 1 <= 180 * (1 + a) * / P <= 1000) by nra. rewrite Rabs_pos_eq by lra. rewrite b22, b22'. lra.
  - split; [exact FB|]. exists a, b. split; auto. split; auto. rewrite EB, EA. field. lra.
Qed.
Lemma factors_error : forall x k t a b, Rabs a <= u -> Rabs b <= u -> Rabs t <= 9 / 20 * u -> x = k * (1 + t) * (1 + a) * (1 + b) -> Rabs (x - k) <= 5 / 2 * u * Rabs k.
Proof.
  intros x k t a b Ha Hb Ht ->. apply Rabs_le_inv in Ha. apply Rabs_le_inv in Hb. apply Rabs_le_inv in Ht.
  replace (k * (1 + t) * (1 + a) * (1 + b) - k) with (((1 + t) * (1 + a) * (1 + b) - 1) * k) by ring. rewrite Rabs_mult.
  apply Rmult_le_compat_r; [apply Rabs_pos|]. rewrite u_53 in *. set (U := / 9007199254740992) in *.
  assert (U0 : 0 < U < / 1000000) by (unfold U; lra). 
  assert (E1 : Rabs ((1 + t) * (1 + a) - 1) <= 29 / 20 * U + U * U).
  { replace ((1 + t) * (1 + a) - 1) with (t + a + t * a) by ring. apply Rabs_le. nra. }
  apply Rabs_le_inv in E1. set (z := (1 + t) * (1 + a) - 1) in *. replace ((1 + t) * (1 + a) * (1 + b) - 1) with (z + b + z * b) by (unfold z; ring).
  apply Rabs_le. nra.
Qed.
Lemma radians_ok : forall d : double, is_finite d = true -> mid (B2R d) ->
  near (to_radians d) (B2R d * PI / 180) (5 / 2 * u * Rabs (B2R d * PI / 180)).
Proof.
  intros d Fd M. destruct (radians_factors d Fd M) as (F & a & b & Ha & Hb & E). split; auto. assert (PP := PI_RGT_0).
  apply factors_error with ((P - PI) / PI) a b; auto.
  - unfold Rdiv. rewrite Rabs_mult, (Rabs_pos_eq (/ PI)) by (left; now apply Rinv_0_lt_compat). assert (H := pi_error). 
    apply Rmult_le_reg_r with PI; auto. rewrite Rmult_assoc, Rinv_l, Rmult_1_r by lra. assert (0 < u * PI) by (rewrite u_53; lra). lra.
  - rewrite E. field. lra.
Qed.
Lemma degrees_ok : forall r : double, is_finite r = true -> mid (B2R r) ->
  near (to_degrees r) (B2R r * 180 / PI) (5 / 2 * u * Rabs (B2R r * 180 / PI)).
Proof.
  intros d Fd M. destruct (degrees_factors d Fd M) as (F & a & b & Ha & Hb & E). split; auto. assert (PP := PI_RGT_0). assert (R := P_range).
  apply factors_error with ((PI - P) / P) a b; auto.
  - unfold Rdiv. rewrite Rabs_mult, (Rabs_pos_eq (/ P)) by (left; apply Rinv_0_lt_compat; lra). assert (H := pi_error). rewrite Rabs_minus_sym in H.
    apply Rmult_le_reg_r with P; [lra|]. rewrite Rmult_assoc, Rinv_l, Rmult_1_r by lra. rewrite Rabs_minus_sym in H. assert (H' := H). apply Rabs_le_inv in H'. rewrite Rabs_minus_sym. rewrite Rabs_minus_sym. rewrite Rabs_minus_sym in H. rewrite u_53 in *.
    eapply Rle_trans; [exact H|]. lra.
  - rewrite E. field. lra.
Qed.
Lemma round_trip : forall d : double, is_finite d = true -> bpow radix2 (-990) <= Rabs (B2R d) <= bpow radix2 990 ->
  near (to_degrees (to_radians d)) (B2R d) (5 * u * Rabs (B2R d)).
Proof.
  intros d Fd M.
  assert (M1 : mid (B2R d)). { split; [apply Rle_trans with (bpow radix2 (-990))|apply Rle_trans with (bpow radix2 990)]; try apply M; apply bpow_le; lia. }
  destruct (radians_factors d Fd M1) as (F & a & b & Ha & Hb & E). assert (R := P_range). assert (Hu := u_53).
  assert (Ha' := Ha). assert (Hb' := Hb). apply Rabs_le_inv in Ha'. apply Rabs_le_inv in Hb'.
  assert (M2 : mid (B2R (to_radians d))).
  { rewrite E. replace (B2R d * P / 180 * (1 + a) * (1 + b)) with (B2R d * (P / 180 * (1 + a) * (1 + b))) by field.
    assert (G : / 100 <= P / 180 * ((1 + a) * (1 + b)) <= 1).
    { assert (99 / 100 <= (1 + a) * (1 + b) <= 101 / 100) by nra. assert (3 / 180 < P / 180 < 4 / 180) by lra. nra. }
    rewrite <- Rmult_assoc in G. unfold mid. rewrite Rabs_mult, (Rabs_pos_eq (P / 180 * (1 + a) * (1 + b))) by lra.
    assert (B0 := bpow_gt_0 radix2 (-990)).
    split.
    - replace (bpow radix2 (-1000)) with (bpow radix2 (-990) * bpow radix2 (-10)) by now rewrite <- bpow_plus.
      apply Rmult_le_compat; try apply bpow_ge_0; try apply M. change (bpow radix2 (-10)) with (/ 1024). lra.
    - apply Rle_trans with (bpow radix2 990 * 1); [apply Rmult_le_compat; try apply Rabs_pos; try apply M; lra|]. rewrite Rmult_1_r. apply bpow_le. lia. }
  destruct (degrees_factors _ F M2) as (F' & a' & b' & Ha2 & Hb2 & E'). split; [exact F'|]. rewrite E', E.
  apply Rabs_le_inv in Ha2. apply Rabs_le_inv in Hb2.
  replace (B2R d * P / 180 * (1 + a) * (1 + b) * 180 / P * (1 + a') * (1 + b') - B2R d) with (((1 + a) * (1 + b) * ((1 + a') * (1 + b')) - 1) * B2R d) by (field; lra).
  rewrite Rabs_mult. apply Rmult_le_compat_r; [apply Rabs_pos|]. rewrite u_53 in *. set (U := / 9007199254740992) in *. assert (U0 : 0 < U < / 1000000) by (unfold U; lra).
  assert (G : forall x y, - U <= x <= U -> - U <= y <= U -> Rabs ((1 + x) * (1 + y) - 1) <= 2 * U + U * U).
  { intros x y Hx Hy. replace ((1 + x) * (1 + y) - 1) with (x + y + x * y) by ring. apply Rabs_le. nra. }
  assert (G1 := G a b Ha' Hb'). assert (G2 := G a' b' Ha2 Hb2). apply Rabs_le_inv in G1. apply Rabs_le_inv in G2.
  set (x := (1 + a) * (1 + b) - 1) in *. set (y := (1 + a') * (1 + b') - 1) in *.
  replace ((1 + a) * (1 + b) * ((1 + a') * (1 + b')) - 1) with (x + y + x * y) by (unfold x, y; ring). clearbody x y.
  assert (W : U * U <= / 1000000 * U) by nra. assert (X : - (3 * U) <= x <= 3 * U) by lra. assert (Y : - (3 * U) <= y <= 3 * U) by lra.
  assert (XY : Rabs (x * y) <= (3 * U) * (3 * U)). { rewrite Rabs_mult. apply Rmult_le_compat; auto using Rabs_pos; now apply Rabs_le. }
  apply Rabs_le_inv in XY. apply Rabs_le. lra.
Qed.
Lemma pi_multiples : B2R (two_pi : double) = 2 * P /\ B2R (half_pi : double) = P / 2 /\ B2R (quarter_pi : double) = P / 4
  /\ Rabs (B2R (three_half_pi : double) - 3 * PI / 2) <= u * (3 * PI / 2).
Proof.
  unfold two_pi, half_pi, quarter_pi, three_half_pi. rewrite PI_LIT. 
  assert (V : forall (x : double) m e, B2SF x = SpecFloat.S754_finite false m e -> B2R x = IZR (Zpos m) * bpow radix2 e).
  { intros x m e H. rewrite <- SF2R_B2SF, H. reflexivity. }
  rewrite (proj2 pi_double).
  rewrite (V (o_mul (cst 2) pi_literal) 7074237752028440%positive (-50)%Z) by (vm_compute; reflexivity).
  rewrite (V (o_div pi_literal (cst 2)) 7074237752028440%positive (-52)%Z) by (vm_compute; reflexivity).
  rewrite (V (o_div pi_literal (cst 4)) 7074237752028440%positive (-53)%Z) by (vm_compute; reflexivity).
  rewrite (V (o_div (o_mul (cst 3) pi_literal) (cst 2)) 5305678314021330%positive (-50)%Z) by (vm_compute; reflexivity).
  change (bpow radix2 (-50)) with (/ 1125899906842624). change (bpow radix2 (-52)) with (/ 4503599627370496). change (bpow radix2 (-53)) with (/ 9007199254740992).
  repeat split; try lra. rewrite u_53. assert (B := PI_bounds). replace (10 ^ 17) with 100000000000000000 in B by ring. apply Rabs_le. lra.
Qed.
End Angle.
Lemma multiples : forall lm : libm double, k_pi = pi_literal ->
  B2R (two_pi : double) = 2 * B2R (k_pi : double) /\ B2R (half_pi : double) = B2R (k_pi : double) / 2 /\ B2R (quarter_pi : double) = B2R (k_pi : double) / 4
  /\ Rabs (B2R (three_half_pi : double) - 3 * PI / 2) <= u * (3 * PI / 2).
Proof. intros lm E. assert (G := @pi_multiples lm E). rewrite <- E in G. exact G. Qed.
