(** Rounding errors of lengths and of normalized vectors. *)
From Coq Require Import ZArith Reals List Lia Lra Bool.
From Flocq Require Import Core BinarySingleNaN.
From Verif Require Import Ops M_scalar M_vec Inst_F S_vec S_rnd P_ieee P_vec P_fp.
Import ListNotations.
Local Open Scope R_scope.

Section FP.
Variables prec emax : Z.
Context {Hprec : Prec_gt_0 prec} {Hmax : Prec_lt_emax prec emax}.
Notation fl := (binary_float prec emax).
Notation emin := (3 - emax - prec)%Z.
Notation u := (unit_roundoff prec).
Notation eta := (underflow_error prec emax).
Notation rnd := (round radix2 (SpecFloat.fexp prec emax) (round_mode mode_NE)).
Notation F := (generic_format radix2 (SpecFloat.fexp prec emax)).

Lemma pow_bound : forall n, (1 + u) ^ n * (1 - INR n * u) <= 1.
Proof.
  assert (P := u_pos prec). intros n. induction n as [|n IH]; [simpl; lra|].
  rewrite S_INR. cbn [pow]. assert (Q := pow1 prec n). assert (N := pos_INR n).
  apply Rle_trans with ((1 + u) ^ n * (1 - INR n * u)); auto.
  rewrite (Rmult_comm (1 + u)), Rmult_assoc. apply Rmult_le_compat_l; [lra|]. nra.
Qed.
Lemma pow_few : forall n, few prec n -> (1 + u) ^ n <= 1 + 16 / 15 * (INR n * u).
Proof.
  unfold few. intros n H. assert (B := pow_bound n). assert (Q := pow1 prec n). assert (N := pos_INR n). assert (P := u_pos prec).
  set (x := INR n * u) in *. assert (0 <= x) by (apply Rmult_le_pos; lra). set (y := (1 + u) ^ n) in *. clearbody x y.
  apply Rmult_le_reg_r with (1 - x); [lra|]. eapply Rle_trans; [exact B|]. nra.
Qed.
Lemma error_few : forall n size, few prec n -> 0 <= size -> rounding_error prec emax n size <= 2 * INR n * u * size + 2 * INR n * eta.
Proof.
  intros n size H S0. assert (B := pow_few n H). assert (Q := pow1 prec n). assert (N := pos_INR n). assert (P := u_pos prec). assert (E := eta_pos prec emax).
  unfold few in H. set (x := INR n * u) in *. assert (0 <= x) by (apply Rmult_le_pos; lra).
  unfold rounding_error. assert (0 <= INR n * eta) by (apply Rmult_le_pos; lra).
  replace (2 * INR n * u * size) with (2 * x * size) by (unfold x; ring). 
  replace (INR n * (1 + u) ^ n * eta) with ((1 + u) ^ n * (INR n * eta)) by ring. 
  assert (((1 + u) ^ n - 1) * size <= (2 * x) * size) by (apply Rmult_le_compat_r; lra).
  assert ((1 + u) ^ n * (INR n * eta) <= 2 * (INR n * eta)) by (apply Rmult_le_compat_r; lra).
  lra.
Qed.

Lemma size_self : forall a, size_dot a a = rdot a a.
Proof.
  intros a. unfold size_dot. induction a as [|x a IH]; simpl; auto. rewrite IH. f_equal.
  rewrite <- Rabs_mult, Rabs_pos_eq; auto. nra.
Qed.
Lemma values_length : forall v : list fl, length (values v) = length v.
Proof. intros. apply map_length. Qed.

Lemma eta_u : eta = u * bpow radix2 (2 - emax).
Proof. unfold unit_roundoff, underflow_error. rewrite <- bpow_plus. f_equal. lia. Qed.
Lemma half_range : (2 * (emax / 2) <= emax < 2 * (emax / 2) + 2)%Z.
Proof. assert (H := Z.div_mod emax 2). assert (B := Z.mod_pos_bound emax 2). lia. Qed.
Lemma emax_big : (2 <= emax)%Z.
Proof. assert (A := Hprec). assert (B := Hmax). unfold Prec_gt_0, Prec_lt_emax in *. lia. Qed.

(** bounds for squared lengths of moderate vectors *)
Lemma moderate_sq : forall a, moderate emax a -> 0 < rnorm a /\ 32 * bpow radix2 (2 - emax) <= rdot a a /\ 2 * rdot a a < bpow radix2 emax.
Proof.
  intros a [L U]. assert (HR := half_range). assert (P : 0 < rnorm a) by (eapply Rlt_le_trans; [apply bpow_gt_0|exact L]).
  split; auto. rewrite <- rnorm_sq. split.
  - change 32 with (bpow radix2 5). rewrite <- bpow_plus. 
    apply Rle_trans with (bpow radix2 (4 - emax / 2) * bpow radix2 (4 - emax / 2)).
    + rewrite <- bpow_plus. apply bpow_le. lia.
    + apply Rmult_le_compat; auto; apply bpow_ge_0.
  - apply Rle_lt_trans with (2 * (bpow radix2 (emax / 2 - 1) * bpow radix2 (emax / 2 - 1))).
    + apply Rmult_le_compat_l; [lra|]. apply Rmult_le_compat; auto; lra.
    + change 2 with (bpow radix2 1). rewrite <- !bpow_plus. apply bpow_lt. lia.
Qed.

Lemma squared_length_ok : forall v : list fl, all_finite v -> few prec (length v) -> moderate emax (values v) ->
  near (v_squared_length v) (rdot (values v) (values v)) (11 / 10 * (INR (length v) * u) * rdot (values v) (values v)).
Proof.
  intros v Fv Hn M. assert (P := u_pos prec). assert (E := eta_pos prec emax).
  destruct (moderate_sq _ M) as (M0 & M1 & M2). assert (B := pow_few _ Hn). assert (Q := pow1 prec (length v)). assert (N := pos_INR (length v)).
  set (s := rdot (values v) (values v)) in *. set (n := INR (length v)) in *. assert (X0 : 0 <= n * u) by (apply Rmult_le_pos; lra).
  assert (S0 : 0 < s). { eapply Rlt_le_trans; [|exact M1]. assert (G := bpow_gt_0 radix2 (2 - emax)). lra. }
  assert (U : n * eta <= / 32 * (n * u) * s).
  { rewrite eta_u. replace (n * (u * bpow radix2 (2 - emax))) with (/ 32 * (n * u) * (32 * bpow radix2 (2 - emax))) by field.
    apply Rmult_le_compat_l; [lra|]. exact M1. }
  unfold few in Hn. fold n in Hn.
  assert (Y : rounding_error prec emax (length v) s <= 11 / 10 * (n * u) * s).
  { unfold rounding_error. fold n. set (y := (1 + u) ^ length v) in *. clearbody y.
    assert (A1 : (y - 1) * s <= 16 / 15 * (n * u) * s) by (apply Rmult_le_compat_r; lra).
    assert (A2 : n * y * eta <= 16 / 15 * (/ 32 * (n * u) * s)).
    { replace (n * y * eta) with (y * (n * eta)) by ring. apply Rmult_le_compat; try lra. apply Rmult_le_pos; lra. }
    assert (0 <= n * u * s) by (apply Rmult_le_pos; lra). lra. }
  destruct (dot_ok prec emax v v eq_refl Fv Fv) as [A1 A2].
  { rewrite size_self. fold s. unfold no_overflow. fold n. 
    replace ((1 + u) ^ length v * (s + n * eta)) with (s + rounding_error prec emax (length v) s) by (unfold rounding_error; fold n; ring).
    assert (n * u * s <= / 16 * s) by (apply Rmult_le_compat_r; lra). lra. }
  split; [exact A1|]. rewrite size_self in A2. fold s in A2. unfold v_squared_length. lra.
Qed.

Lemma sqrt_between : forall x y, 0 <= y -> 0 <= x -> x * x <= y -> x <= sqrt y.
Proof. intros x y Hy Hx H. rewrite <- (sqrt_square x) by auto. now apply sqrt_le_1_alt. Qed.
Lemma sqrt_upto : forall x y, 0 <= x -> y <= x * x -> sqrt y <= x.
Proof. intros x y Hx H. rewrite <- (sqrt_square x) by auto. now apply sqrt_le_1_alt. Qed.

Lemma few_u : forall n, few prec n -> (0 < n)%nat -> u <= / 16.
Proof.
  unfold few. intros n H Hn. assert (P := u_pos prec). assert (1 <= INR n) by (change 1 with (INR 1); apply le_INR; lia). nra.
Qed.
Lemma moderate_length : forall v : list fl, moderate emax (values v) -> (0 < length v)%nat.
Proof.
  intros v M. destruct (moderate_sq _ M) as (M0 & _). destruct v; [|simpl; lia]. unfold rnorm in M0. simpl in M0. rewrite sqrt_0 in M0. lra.
Qed.

Lemma length_ok : forall v : list fl, all_finite v -> few prec (length v) -> moderate emax (values v) ->
  near (v_length v) (rnorm (values v)) (INR (length v + 1) * u * rnorm (values v)).
Proof.
  intros v Fv Hn M. assert (P := u_pos prec). assert (N0 := moderate_length v M). assert (U := few_u _ Hn N0).
  destruct (squared_length_ok v Fv Hn M) as [FS ES]. destruct (moderate_sq _ M) as (M0 & M1 & M2).
  rewrite <- rnorm_sq in ES. rewrite plus_INR. simpl (INR 1).
  set (r := rnorm (values v)) in *. set (n := INR (length v)) in *. unfold few in Hn. fold n in Hn.
  assert (N : 0 <= n) by apply pos_INR. set (x := n * u) in *. assert (X : 0 <= x) by (apply Rmult_le_pos; lra).
  set (S := v_squared_length v) in *. apply Rabs_le_inv in ES. 
  assert (L : (1 - 6 / 10 * x) * r <= sqrt (B2R S)).
  { apply sqrt_between.
    - assert (x * (r * r) <= / 16 * (r * r)) by (apply Rmult_le_compat_r; nra). nra.
    - apply Rmult_le_pos; lra.
    - assert (0 <= x * (r * r)) by nra. assert (x * (x * (r * r)) <= / 16 * (x * (r * r))) by (apply Rmult_le_compat_r; lra). nra. }
  assert (H : sqrt (B2R S) <= (1 + 6 / 10 * x) * r).
  { apply sqrt_upto.
    - apply Rmult_le_pos; lra.
    - assert (0 <= x * (r * r)) by nra. assert (0 <= x * (x * (r * r))) by (apply Rmult_le_pos; lra). nra. }
  destruct (sqrt_ok prec emax S FS) as (FL & d & Hd & ED).
  { apply Rle_trans with (/ 2 * r).
    - destruct M as [Ml _]. fold r in Ml. apply Rle_trans with (/ 2 * bpow radix2 (4 - emax / 2)); [|lra].
      change (/ 2) with (bpow radix2 (-1)). rewrite <- bpow_plus. apply bpow_le. assert (HR := half_range). assert (EB := emax_big). lia.
    - eapply Rle_trans; [|exact L]. apply Rmult_le_compat_r; lra. }
  split; [exact FL|]. change (v_length v) with (o_sqrt S). rewrite ED.
  apply Rabs_le_inv in Hd. set (q := sqrt (B2R S)) in *. clearbody q.
  assert (Q0 : 0 <= q) by nra.
  replace ((n + 1) * u * r) with (x * r + u * r) by (unfold x; ring).
  assert (T1 : Rabs (q * d) <= u * ((1 + 6 / 10 * x) * r)).
  { rewrite Rabs_mult, Rmult_comm. apply Rmult_le_compat; auto using Rabs_pos; [apply Rabs_le; lra|]. rewrite Rabs_pos_eq; lra. }
  apply Rabs_le_inv in T1.
  assert (T2 : u * (x * r) <= / 16 * (x * r)) by (apply Rmult_le_compat_r; [apply Rmult_le_pos|]; lra).
  assert (0 <= x * r) by (apply Rmult_le_pos; lra).
  apply Rabs_le. split; nra.
Qed.
End FP.
