(** The value of pi to 17 digits and the errors of converting angles. *)
From Coq Require Import ZArith Reals List Lia Lra Bool Machin QArith Qreals.
From Flocq Require Import Core BinarySingleNaN.
From Verif Require Import Ops M_scalar M_vec M_limits Inst_F S_rnd P_ord P_ieee P_fp P_fp5.
Import ListNotations.

Fixpoint qpow (x : Q) (n : nat) : Q := match n with O => 1 | S m => Qred (x * qpow x m) end.
Definition qterm (n : nat) : Q := (2 * (qpow (1 # 3) (2 * n + 1) / inject_Z (Z.of_nat (2 * n + 1))) + qpow (1 # 7) (2 * n + 1) / inject_Z (Z.of_nat (2 * n + 1)))%Q.
Fixpoint qsum (n : nat) : Q := match n with O => qterm 0 | S m => Qred (qsum m + (qpow (-1 # 1) n * qterm n))%Q end.
Local Open Scope R_scope.
Lemma Qpow_R : forall x n, Q2R (qpow x n) = Q2R x ^ n.
Proof.
  intros x n. induction n as [|n IH]; [unfold Q2R; simpl; field|]. cbn [qpow pow]. rewrite (Qeq_eqR _ _ (Qred_correct _)), Q2R_mult, IH. reflexivity.
Qed.
Lemma Qterm_R : forall n, Q2R (qterm n) = PI_2_3_7_tg n.
Proof.
  intros n. unfold qterm, PI_2_3_7_tg, Ratan_seq.
  assert (D : ~ inject_Z (Z.of_nat (2 * n + 1)) == 0) by (unfold Qeq, inject_Z; simpl; lia).
  rewrite Q2R_plus, Q2R_mult, !Q2R_div, !Qpow_R by exact D.
  assert (E : Q2R (inject_Z (Z.of_nat (2 * n + 1))) = INR (2 * n + 1)).
  { unfold Q2R, inject_Z. cbn [Qnum Qden]. rewrite INR_IZR_INZ. field. }
  rewrite E. replace (Q2R 2) with 2 by (unfold Q2R; simpl; field). replace (Q2R (1 # 3)) with (/ 3) by (unfold Q2R; simpl; field).
  replace (Q2R (1 # 7)) with (/ 7) by (unfold Q2R; simpl; field). reflexivity.
Qed.
Lemma Qsum_R : forall n, Q2R (qsum n) = sum_f_R0 (tg_alt PI_2_3_7_tg) n.
Proof.
  intros n. induction n as [|n IH].
  - cbn [qsum sum_f_R0]. rewrite Qterm_R. unfold tg_alt. simpl. ring.
  - change (sum_f_R0 (tg_alt PI_2_3_7_tg) (S n)) with (sum_f_R0 (tg_alt PI_2_3_7_tg) n + tg_alt PI_2_3_7_tg (S n)).
    change (qsum (S n)) with (Qred (qsum n + (qpow (-1 # 1) (S n) * qterm (S n)))%Q).
    rewrite (Qeq_eqR _ _ (Qred_correct _)), Q2R_plus, Q2R_mult, IH, Qpow_R, Qterm_R. unfold tg_alt.
    replace (Q2R (-1 # 1)) with (-1) by (unfold Q2R; simpl; field). reflexivity.
Qed.
Lemma PI_bounds : 314159265358979323 / 10 ^ 17 < PI < 314159265358979324 / 10 ^ 17.
Proof.
  assert (H := PI_2_3_7_ineq 18). rewrite <- !Qsum_R in H. destruct H as [H1 H2].
  assert (L : ((314159265358979323 # 400000000000000000) < qsum (S (2 * 18)))%Q) by (vm_compute; reflexivity).
  assert (U : (qsum (2 * 18) < 314159265358979324 # 400000000000000000)%Q) by (vm_compute; reflexivity).
  apply Qlt_Rlt in L. apply Qlt_Rlt in U. unfold Q2R in L at 1. unfold Q2R in U at 2. cbn [Qnum Qden] in L, U. 
  replace (10 ^ 17) with 100000000000000000 by ring. split; lra.
Qed.

(** Euler's number *)
Fixpoint qfact (n : nat) : Q := match n with O => 1 | S m => Qred (inject_Z (Z.of_nat n) * qfact m) end.
Fixpoint qexp (n : nat) : Q := match n with O => 1 | S m => Qred (qexp m + (qpow (-1 # 1) n * / qfact n))%Q end.
Lemma Qfact_R : forall n, Q2R (qfact n) = INR (fact n).
Proof.
  intros n. induction n as [|n IH]; [unfold Q2R; simpl; field|]. change (qfact (S n)) with (Qred (inject_Z (Z.of_nat (S n)) * qfact n)).
  rewrite (Qeq_eqR _ _ (Qred_correct _)), Q2R_mult, IH, fact_simpl, mult_INR. f_equal. unfold Q2R, inject_Z. cbn [Qnum Qden]. rewrite INR_IZR_INZ. field.
Qed.
Lemma Qexp_R : forall n, Q2R (qexp n) = sum_f_R0 (tg_alt (fun i => / INR (fact i))) n.
Proof.
  intros n. induction n as [|n IH].
  - cbn [qexp sum_f_R0]. unfold tg_alt, Q2R. simpl. field.
  - change (sum_f_R0 (tg_alt (fun i => / INR (fact i))) (S n)) with (sum_f_R0 (tg_alt (fun i => / INR (fact i))) n + tg_alt (fun i => / INR (fact i)) (S n)).
    change (qexp (S n)) with (Qred (qexp n + (qpow (-1 # 1) (S n) * / qfact (S n)))%Q).
    rewrite (Qeq_eqR _ _ (Qred_correct _)), Q2R_plus, Q2R_mult, IH, Qpow_R.
    rewrite Q2R_inv, Qfact_R.
    + unfold tg_alt. replace (Q2R (-1 # 1)) with (-1) by (unfold Q2R; simpl; field). reflexivity.
    + intros E. apply Qeq_eqR in E. rewrite Qfact_R in E. replace (Q2R 0) with 0 in E by (unfold Q2R; simpl; field).
      assert (P := INR_fact_neq_0 (S n)). contradiction.
Qed.
Lemma exp_m1 : forall N, sum_f_R0 (tg_alt (fun i => / INR (fact i))) (S (2 * N)) <= exp (-1) <= sum_f_R0 (tg_alt (fun i => / INR (fact i))) (2 * N).
Proof.
  intros N. apply alternated_series_ineq.
  - intros n. apply Rinv_le_contravar; [apply INR_fact_lt_0|]. apply le_INR, fact_le. lia.
  - intros eps He. destruct (archimed_cor1 eps He) as (K & K1 & K2). exists K. intros n Hn. unfold R_dist. rewrite Rminus_0_r.
    rewrite Rabs_pos_eq by (left; apply Rinv_0_lt_compat, INR_fact_lt_0). eapply Rle_lt_trans; [|exact K1].
    assert (KI : 0 < INR K) by (apply lt_0_INR; lia). apply Rinv_le_contravar; auto.
    apply le_INR. apply Nat.le_trans with n; [lia|]. clear. induction n as [|n IH]; [lia|]. rewrite fact_simpl. assert (F := lt_O_fact n). nia.
  - unfold exp. destruct (exist_exp (-1)) as [l Hl]. cbn [proj1_sig]. intros eps He. destruct (Hl eps He) as (M & HM). exists M. intros n Hn.
    specialize (HM n Hn). erewrite sum_eq; [exact HM|]. intros i Hi. unfold tg_alt. ring.
Qed.
Lemma e_bounds : 27182818284590452 / 10 ^ 16 < exp 1 < 27182818284590453 / 10 ^ 16.
Proof.
  assert (H := exp_m1 10). rewrite <- !Qexp_R in H. destruct H as [H1 H2].
  assert (L : ((10000000000000000 # 27182818284590453) < qexp (S (2 * 10)))%Q) by (vm_compute; reflexivity).
  assert (U : (qexp (2 * 10) < 10000000000000000 # 27182818284590452)%Q) by (vm_compute; reflexivity).
  apply Qlt_Rlt in L. apply Qlt_Rlt in U. unfold Q2R in L at 1. unfold Q2R in U at 2. cbn [Qnum Qden] in L, U.
  assert (E : exp 1 * exp (-1) = 1). { rewrite <- exp_plus. replace (1 + -1) with 0 by ring. apply exp_0. }
  assert (P := exp_pos 1). replace (10 ^ 16) with 10000000000000000 by ring.
  assert (L' : 10000000000000000 / 27182818284590453 < exp (-1)) by lra. assert (U' : exp (-1) < 10000000000000000 / 27182818284590452) by lra.
  split.
  - apply Rmult_lt_reg_r with (exp (-1)); [apply exp_pos|]. rewrite E. lra.
  - apply Rmult_lt_reg_r with (exp (-1)); [apply exp_pos|]. rewrite E. lra.
Qed.

(** The constants in double precision *)
Lemma pi_double : is_finite (pi_literal : double) = true /\ B2R (pi_literal : double) = 884279719003555 / 281474976710656.
Proof.
  split; [vm_compute; reflexivity|]. rewrite <- SF2R_B2SF.
  replace (B2SF (pi_literal : double)) with (SpecFloat.S754_finite false 7074237752028440 (-51)) by (vm_compute; reflexivity).
  unfold SF2R, F2R. cbn [Fnum Fexp cond_Zopp]. change (bpow radix2 (-51)) with (/ 2251799813685248). lra.
Qed.
Lemma e_double : is_finite (euler : double) = true /\ B2R (euler : double) = 6121026514868073 / 2251799813685248.
Proof.
  split; [vm_compute; reflexivity|]. rewrite <- SF2R_B2SF.
  replace (B2SF (euler : double)) with (SpecFloat.S754_finite false 6121026514868073 (-51)) by (vm_compute; reflexivity).
  unfold SF2R, F2R. cbn [Fnum Fexp cond_Zopp]. change (bpow radix2 (-51)) with (/ 2251799813685248). lra.
Qed.
Lemma u_53 : unit_roundoff 53 = / 9007199254740992.
Proof. unfold unit_roundoff. reflexivity. Qed.
Lemma pi_error : Rabs (B2R (pi_literal : double) - PI) <= 2 / 5 * (unit_roundoff 53 * PI).
Proof.
  rewrite (proj2 pi_double), u_53. assert (P := PI_bounds). replace (10 ^ 17) with 100000000000000000 in P by ring. apply Rabs_le. lra.
Qed.
Lemma e_error : Rabs (B2R (euler : double) - exp 1) <= unit_roundoff 53 * exp 1.
Proof.
  rewrite (proj2 e_double), u_53. assert (P := e_bounds). replace (10 ^ 16) with 10000000000000000 in P by ring. apply Rabs_le. lra.
Qed.
