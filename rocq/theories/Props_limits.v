(** Final theorems: the limits of the number formats, the next greater number, constants and angle conversions (C92, C93). *)
From Coq Require Import ZArith Reals List Lia Lra Bool.
From Flocq Require Import Core BinarySingleNaN.
From Verif Require Import Ops M_scalar M_vec M_limits Inst_F S_order S_rnd P_fp P_fp5 P_limits P_pi P_angle.
Import ListNotations.
Local Open Scope R_scope.

Section IEEE.
Variables prec emax : Z.
Context {Hprec : Prec_gt_0 prec} {Hmax : Prec_lt_emax prec emax}.
Notation fl := (binary_float prec emax).

(** C92. Missing: min() for floating point types, refuted below. *)
Theorem C92_nextgreater : forall x : fl,
  (o_lt x (B754_infinity false) = true -> o_lt x (nextgreater prec emax x) = true /\ forall y : fl, o_lt x y = true -> o_le (nextgreater prec emax x) y = true)
  /\ nextgreater prec emax (B754_infinity false) = B754_infinity false /\ nextgreater prec emax B754_nan = B754_nan.
Proof. exact (fun x => conj (fun H => conj (next_greater prec emax x H) (next_least prec emax x)) (conj eq_refl eq_refl)). Qed.
Theorem C92_max : forall (n : nat) (v : list fl), length v = n -> all_finite v ->
  all_finite (v_max_value (numeric_max prec emax) n) /\ Forall2 (fun x m => o_le x m = true) v (v_max_value (numeric_max prec emax) n).
Proof. exact (max_vec prec emax). Qed.
Theorem C92_min_positive : (3 <= emax)%Z -> forall n : nat,
  Forall (fun m : fl => is_finite m = true /\ B2R m = bpow radix2 (2 - emax)) (v_min_value (numeric_min prec emax) n).
Proof. exact (min_vec prec emax). Qed.
Theorem C92_min_refuted : (3 <= emax)%Z -> forall n : nat, (0 < n)%nat ->
  exists v : list fl, length v = n /\ all_finite v /\ Forall2 (fun m x => o_lt x m = true) (v_min_value (numeric_min prec emax) n) v.
Proof. exact (min_not_least prec emax). Qed.
End IEEE.
Theorem C92_min_max_integers_partial : forall (w : Z) (n : nat) (v : list Z), (0 < w)%Z -> length v = n ->
  Forall (fun x => - 2 ^ (w - 1) <= x < 2 ^ (w - 1))%Z v ->
  Forall2 Z.le (v_min_value (numeric_min_int w) n) v /\ Forall2 Z.le v (v_max_value (numeric_max_int w) n)
  /\ Forall (fun x => - 2 ^ (w - 1) <= x < 2 ^ (w - 1))%Z (v_min_value (numeric_min_int w) n ++ v_max_value (numeric_max_int w) n).
Proof. exact int_limits. Qed.
Theorem C92_get_vertices : forall (T : Type) (range out : list (list T)), v_get_vertices range out = out ++ range.
Proof. exact @get_vertices_app. Qed.
Example C92_case : B2R (nextgreater 53 1024 (cst 1)) = 1 + bpow radix2 (-52) /\ o_lt (cst 0) (numeric_min 24 128) = true
  /\ v_min_value (numeric_min_int 8) 3 = [-128; -128; -128]%Z /\ v_get_vertices [[1]; [2]] [[7]] = [[7]; [1]; [2]].
Proof.
  split; [|split; [vm_compute; reflexivity|split; reflexivity]].
  rewrite <- SF2R_B2SF. replace (B2SF (nextgreater 53 1024 (cst 1))) with (SpecFloat.S754_finite false 4503599627370497 (-52)) by (vm_compute; reflexivity).
  unfold SF2R, F2R. cbn [Fnum Fexp cond_Zopp]. change (bpow radix2 (-52)) with (/ 4503599627370496). lra.
Qed.

(** C93. The value of pi() is the literal in constants.h; the conversions do not depend on the rest of the math library. *)
Theorem C93_pi : near (pi_literal : double) PI (2 / 5 * (unit_roundoff 53 * PI)).
Proof. exact (conj (proj1 pi_double) pi_error). Qed.
Theorem C93_e : near (euler : double) (exp 1) (unit_roundoff 53 * exp 1).
Proof. exact (conj (proj1 e_double) e_error). Qed.
Theorem C93_multiples_of_pi : forall lm : libm double, k_pi = pi_literal ->
  B2R (two_pi : double) = 2 * B2R (k_pi : double) /\ B2R (half_pi : double) = B2R (k_pi : double) / 2 /\ B2R (quarter_pi : double) = B2R (k_pi : double) / 4
  /\ Rabs (B2R (three_half_pi : double) - 3 * PI / 2) <= unit_roundoff 53 * (3 * PI / 2).
Proof. exact multiples. Qed.
Theorem C93_to_radians : forall lm : libm double, k_pi = pi_literal -> forall d : double, is_finite d = true ->
  bpow radix2 (-1000) <= Rabs (B2R d) <= bpow radix2 1000 ->
  near (to_radians d) (B2R d * PI / 180) (5 / 2 * unit_roundoff 53 * Rabs (B2R d * PI / 180)).
Proof. exact @radians_ok. Qed.
Theorem C93_to_degrees : forall lm : libm double, k_pi = pi_literal -> forall r : double, is_finite r = true ->
  bpow radix2 (-1000) <= Rabs (B2R r) <= bpow radix2 1000 ->
  near (to_degrees r) (B2R r * 180 / PI) (5 / 2 * unit_roundoff 53 * Rabs (B2R r * 180 / PI)).
Proof. exact @degrees_ok. Qed.
Theorem C93_round_trip : forall lm : libm double, k_pi = pi_literal -> forall d : double, is_finite d = true ->
  bpow radix2 (-990) <= Rabs (B2R d) <= bpow radix2 990 ->
  near (to_degrees (to_radians d)) (B2R d) (5 * unit_roundoff 53 * Rabs (B2R d)).
Proof. exact @round_trip. Qed.
Example C93_case : exists lm : libm double, k_pi = pi_literal
  /\ near (to_degrees (to_radians (cst 90))) 90 (450 * unit_roundoff 53).
Proof.
  pose (lm := mk_libm double pi_literal (fun x => x) (fun x => x) (fun x => x) (fun x => x) (fun x => x) (fun x _ => x) (fun x => x)). exists lm. split; [reflexivity|].
  destruct (cst_double 90 ltac:(lia)) as [F V]. destruct (C93_round_trip lm eq_refl (cst 90) F) as [A B].
  - rewrite V, Rabs_pos_eq by lra. split.
    + apply Rle_trans with (bpow radix2 0); [apply bpow_le; lia|change (bpow radix2 0) with 1; lra].
    + apply Rle_trans with (bpow radix2 7); [change (bpow radix2 7) with 128; lra|apply bpow_le; lia].
  - split; [exact A|]. rewrite V, (Rabs_pos_eq 90) in B by lra. replace (450 * unit_roundoff 53) with (5 * unit_roundoff 53 * 90) by ring. exact B.
Qed.
Print Assumptions C92_nextgreater.
Print Assumptions C92_max.
Print Assumptions C92_min_positive.
Print Assumptions C92_min_refuted.
Print Assumptions C92_min_max_integers_partial.
Print Assumptions C92_get_vertices.
Print Assumptions C93_pi.
Print Assumptions C93_e.
Print Assumptions C93_multiples_of_pi.
Print Assumptions C93_to_radians.
Print Assumptions C93_to_degrees.
Print Assumptions C93_round_trip.
