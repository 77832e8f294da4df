(** Rounding errors of normalized vectors, distances to planes. *)
From Coq Require Import ZArith Reals List Lia Lra Bool.
From Flocq Require Import Core BinarySingleNaN.
From Verif Require Import Ops M_scalar M_vec Inst_F S_vec S_rnd P_ieee P_vec P_line P_fp P_fp2.
Import ListNotations.
Local Open Scope R_scope.

Section FP.
Variables prec emax : Z.
Context {Hprec : Prec_gt_0 prec} {Hmax : Prec_lt_emax prec emax}.
Notation fl := (binary_float prec emax).
Notation u := (unit_roundoff prec).
Notation eta := (underflow_error prec emax).

Lemma component_le_norm : forall a x, In x a -> Rabs x <= rnorm a.
Proof.
  intros a x H. unfold rnorm. apply sqrt_between; auto using rdot_nonneg, Rabs_pos. rewrite <- Rabs_mult, Rabs_pos_eq by nra.
  induction a as [|y a IH]; [easy|]. destruct H as [->|H]; simpl.
  - assert (Q := rdot_nonneg a). lra.
  - specialize (IH H). nra.
Qed.
Lemma eta_le_u : eta <= u.
Proof. unfold unit_roundoff, underflow_error. apply bpow_le. assert (B := emax_big prec emax). lia. Qed.
Lemma bpow_emax_4 : (3 <= emax)%Z -> 8 <= bpow radix2 emax.
Proof. intros H. change 8 with (bpow radix2 3). now apply bpow_le. Qed.

Lemma normalize_ok : forall v : list fl, all_finite v -> few prec (length v) -> moderate emax (values v) ->
  Forall2 (fun x y => near y (B2R x / rnorm (values v)) (INR (2 * length v + 2) * u * (Rabs (B2R x) / rnorm (values v)) + eta)) v (v_normalize v).
Proof.
  intros v Fv Hn M. assert (P := u_pos prec). assert (E0 := eta_pos prec emax). assert (N0 := moderate_length prec emax v M). assert (U := few_u prec _ Hn N0).
  destruct (length_ok prec emax v Fv Hn M) as [FL EL]. destruct (moderate_sq emax _ M) as (M0 & _ & _).
  unfold v_normalize. assert (C : Forall (fun x => is_finite x = true /\ Rabs (B2R x) <= rnorm (values v)) v).
  { apply Forall_forall. intros x Hx. split.
    - unfold all_finite in Fv. rewrite Forall_forall in Fv. auto.
    - apply component_le_norm. unfold values. now apply in_map. }
  replace (INR (2 * length v + 2)) with (2 * INR (length v) + 2) by (rewrite plus_INR, mult_INR; simpl; ring).
  rewrite plus_INR in EL. simpl (INR 1) in EL.
  assert (N1 : 1 <= INR (length v)) by (change 1 with (INR 1); apply le_INR; lia).
  unfold few in Hn. set (r := rnorm (values v)) in *. set (n := INR (length v)) in *. set (L := v_length v) in *.
  assert (EM : (3 <= emax)%Z).
  { assert (A := Hmax). unfold Prec_lt_emax in A. unfold unit_roundoff in U. change (/ 16) with (bpow radix2 (-4)) in U.
    apply le_bpow in U. lia. }
  assert (B8 := bpow_emax_4 EM). assert (EU := eta_le_u).
  clearbody r n L. clear Fv M FL N0.
  assert (Lb : 7 / 8 * r <= B2R L). { apply Rabs_le_inv in EL. nra. }
  unfold v_div_s. clear - C EL Hn M0 P E0 U N1 B8 EU Lb Hprec Hmax. induction C as [|x v [Fx Bx] C IH]; cbn [map]; [constructor|].
  constructor; auto. clear IH C v.
  assert (Q1 : Rabs (B2R x / B2R L) <= 8 / 7).
  { unfold Rdiv at 1. rewrite Rabs_mult, Rabs_inv, (Rabs_pos_eq (B2R L)) by lra. apply Rmult_le_reg_r with (B2R L); [lra|].
    rewrite Rmult_assoc, Rinv_l by lra. lra. }
  destruct (div_ok prec emax x L Fx ltac:(lra)) as (FD & d & e & Hd & He & ED).
  { eapply Rle_lt_trans; [|eapply Rlt_le_trans; [|exact B8]].
    - apply Rplus_le_compat; [|exact EU]. apply Rmult_le_compat_r; [lra|exact Q1].
    - lra. }
  split; [exact FD|]. rewrite ED.
  replace (B2R x / B2R L * (1 + d) + e - B2R x / r) with (B2R x / r * ((r - B2R L + d * r) / B2R L) + e) by (field; lra).
  eapply Rle_trans; [apply Rabs_triang|]. apply Rplus_le_compat; [|exact He].
  rewrite Rabs_mult. rewrite Rmult_comm. unfold Rdiv at 2. rewrite Rabs_mult, Rabs_inv, (Rabs_pos_eq r) by lra.
  apply Rmult_le_compat_r. { apply Rmult_le_pos; [apply Rabs_pos|]. apply Rlt_le, Rinv_0_lt_compat. lra. }
  unfold Rdiv. rewrite Rabs_mult, Rabs_inv, (Rabs_pos_eq (B2R L)) by lra.
  apply Rmult_le_reg_r with (B2R L); [lra|]. rewrite Rmult_assoc, Rinv_l, Rmult_1_r by lra.
  assert (T1 : Rabs (r - B2R L + d * r) <= (n + 2) * u * r).
  { eapply Rle_trans; [apply Rabs_triang|]. rewrite Rabs_minus_sym, Rabs_mult, (Rabs_pos_eq r) by lra.
    assert (Rabs d * r <= u * r) by (apply Rmult_le_compat_r; lra). lra. }
  eapply Rle_trans; [exact T1|]. apply Rle_trans with ((2 * n + 2) * u * (7 / 8 * r)).
  - assert (0 < u * r) by (apply Rmult_lt_0_compat; lra). nra.
  - apply Rmult_le_compat_l; [|lra]. nra.
Qed.

Lemma norm_mono : forall a b, Forall2 (fun x y => Rabs x <= Rabs y) a b -> rnorm a <= rnorm b.
Proof.
  intros a b H. unfold rnorm. apply sqrt_le_1_alt. induction H as [|x y a b E H IH]; simpl; [lra|].
  assert (x * x <= y * y). { rewrite <- (Rabs_pos_eq (x * x)), <- (Rabs_pos_eq (y * y)), !Rabs_mult by nra. apply Rmult_le_compat; auto using Rabs_pos. }
  lra.
Qed.
Lemma norm_repeat : forall n b, 0 <= b -> rnorm (repeat b n) <= INR n * b.
Proof.
  intros n b Hb. unfold rnorm. apply sqrt_upto. { apply Rmult_le_pos; auto using pos_INR. }
  induction n as [|n IH]; [simpl; lra|]. cbn [repeat rdot]. rewrite S_INR. assert (N := pos_INR n). nra.
Qed.
Lemma norm_abs : forall a, rnorm (map Rabs a) = rnorm a.
Proof. intros a. unfold rnorm. f_equal. rewrite <- (size_self a). reflexivity. Qed.

(** Vectors with close components have close lengths. *)
Lemma norm_close : forall a b p q, 0 <= p -> 0 <= q -> Forall2 (fun x y => Rabs (y - x) <= p * Rabs x + q) a b ->
  Rabs (rnorm b - rnorm a) <= p * rnorm a + INR (length a) * q.
Proof.
  intros a b p q Hp Hq H. assert (L : length a = length b) by (clear -H; induction H; simpl; congruence).
  assert (D : rnorm (rsub b a) <= p * rnorm a + INR (length a) * q).
  { apply Rle_trans with (rnorm (radd (rscale p (map Rabs a)) (repeat q (length a)))).
    - apply norm_mono. clear L. induction H as [|x y a b E H IH]; simpl; constructor; auto.
      rewrite (Rabs_pos_eq (_ + _)); auto. assert (0 <= p * Rabs x) by (apply Rmult_le_pos; auto using Rabs_pos). lra.
    - eapply Rle_trans; [apply triangle|].
      + unfold rscale. now rewrite !map_length, repeat_length.
      + rewrite rnorm_scale, norm_abs, Rabs_pos_eq by auto. apply Rplus_le_compat_l. now apply norm_repeat. }
  assert (T : forall a b, length a = length b -> rnorm b <= rnorm a + rnorm (rsub b a)).
  { clear. intros a b L. eapply Rle_trans; [|apply triangle].
    - apply Req_le, f_equal. revert b L. induction a as [|x a IH]; intros [|y b] L; simpl in *; try discriminate; auto. unfold radd, rsub in *. simpl. rewrite <- IH by lia. f_equal. ring.
    - unfold rsub. revert b L. induction a as [|x a IH]; intros [|y b] L; simpl in *; try discriminate; auto. }
  assert (T1 := T a b L). assert (T2 := T b a (eq_sym L)).
  assert (T3 : rnorm (rsub a b) = rnorm (rsub b a)) by apply rdist_sym.
  apply Rabs_le. split; lra.
Qed.

Lemma normalize_norm : forall v : list fl, all_finite v -> few prec (length v) -> moderate emax (values v) ->
  Rabs (rnorm (values (v_normalize v)) - 1) <= INR (2 * length v + 3) * u.
Proof.
  intros v Fv Hn M. assert (H := normalize_ok v Fv Hn M). destruct (moderate_sq emax _ M) as (M0 & _ & _).
  assert (P := u_pos prec). assert (E0 := eta_pos prec emax). assert (N0 := moderate_length prec emax v M).
  set (r := rnorm (values v)) in *. set (k := INR (2 * length v + 2)) in *.
  assert (K0 : 0 <= k) by apply pos_INR.
  assert (Ir : 0 < / r) by (apply Rinv_0_lt_compat; lra).
  assert (X : rnorm (rscale (/ r) (values v)) = 1). { rewrite rnorm_scale, Rabs_pos_eq by lra. fold r. apply Rinv_l. lra. }
  assert (C := norm_close (rscale (/ r) (values v)) (values (v_normalize v)) (k * u) eta).
  rewrite X in C. replace (INR (2 * length v + 3)) with (k + 1).
  2:{ unfold k. rewrite !plus_INR. simpl. ring. }
  eapply Rle_trans; [apply C|].
  - apply Rmult_le_pos; lra.
  - lra.
  - clearbody r k. clear - H Ir. unfold values. induction H as [|x y v w [_ E] H IH]; simpl; constructor; auto.
    rewrite Rabs_mult, (Rabs_pos_eq (/ r)) by lra. unfold Rdiv in E. rewrite (Rmult_comm (/ r)), (Rmult_comm (/ r) (Rabs _)). exact E.
  - unfold rscale. rewrite map_length, values_length.
    assert (INR (length v) * eta <= u); [|lra].
    unfold few in Hn. rewrite eta_u. rewrite <- Rmult_assoc.
    apply Rle_trans with (/ 16 * bpow radix2 (2 - emax)).
    + apply Rmult_le_compat_r; [apply bpow_ge_0|]. exact Hn.
    + change (/ 16) with (bpow radix2 (-4)). rewrite <- bpow_plus. apply bpow_le. assert (A := Hmax). unfold Prec_lt_emax in A. lia.
Qed.

Lemma normalize_length : forall v : list fl, length (v_normalize v) = length v.
Proof. intros. apply map_length. Qed.

Lemma abs_ok : forall x : fl, is_finite x = true -> is_finite (sc_abs x) = true /\ B2R (sc_abs x) = Rabs (B2R x).
Proof.
  intros x Fx. unfold sc_abs. destruct (F_cst0 prec emax) as [A B].
  change (o_lt x (cst 0)) with (Bltb x (cst 0)). rewrite (Flt prec emax) by auto. rewrite B. change (o_neg x) with (Bopp x).
  destruct (Rlt_bool_spec (B2R x) 0).
  - rewrite is_finite_Bopp, B2R_Bopp. split; auto. now rewrite Rabs_left.
  - split; auto. rewrite Rabs_pos_eq; auto.
Qed.

Lemma is_equal_near : forall (x y eps : fl), is_finite x = true -> is_finite y = true -> is_finite eps = true ->
  Rabs (B2R x - B2R y) * (1 + u) <= B2R eps -> sc_is_equal x y eps = true.
Proof.
  intros x y eps Fx Fy Fe H. destruct (minus_ok prec emax x y Fx Fy) as (Fm & d & Hd & Em).
  { eapply Rle_lt_trans; [exact H|]. eapply Rle_lt_trans; [apply Rle_abs|]. now apply abs_B2R_lt_emax. }
  unfold sc_is_equal. destruct (abs_ok _ Fm) as [Fa Ea]. change (o_le (sc_abs (o_sub x y)) eps) with (Bleb (sc_abs (o_sub x y)) eps).
  rewrite (Fle prec emax) by auto. apply Rle_bool_true. rewrite Ea, Em, Rabs_mult. eapply Rle_trans; [|exact H].
  apply Rmult_le_compat_l; [apply Rabs_pos|]. apply Rabs_le_inv in Hd. apply Rabs_le. split; lra.
Qed.

Lemma normalize_is_unit : forall (v : list fl) eps, (10 <= emax)%Z -> all_finite v -> few prec (length v) -> moderate emax (values v) ->
  is_finite eps = true -> INR (4 * length v + 5) * u <= B2R eps -> v_is_unit (v_normalize v) eps = true.
Proof.
  intros v eps EM Fv Hn M Fe He. assert (H := normalize_ok v Fv Hn M). assert (HN := normalize_norm v Fv Hn M).
  assert (P := u_pos prec). assert (N0 := moderate_length prec emax v M). assert (U := few_u prec _ Hn N0).
  assert (Fw : all_finite (v_normalize v)).
  { clear - H. revert H. generalize (rnorm (values v)) (INR (2 * length v + 2)). intros r k H. unfold all_finite. induction H as [|x y v w [F1 _] H IH]; constructor; auto. }
  replace (INR (2 * length v + 3)) with (2 * INR (length v) + 3) in HN by (rewrite plus_INR, mult_INR; simpl; ring).
  replace (INR (4 * length v + 5)) with (4 * INR (length v) + 5) in He by (rewrite plus_INR, mult_INR; simpl; ring).
  assert (N1 : 1 <= INR (length v)) by (change 1 with (INR 1); apply le_INR; lia).
  assert (Hn' := Hn). unfold few in Hn'. apply Rabs_le_inv in HN.
  destruct (length_ok prec emax (v_normalize v)) as [FL EL]; auto.
  { now rewrite normalize_length. }
  { assert (R1 : / 2 <= rnorm (values (v_normalize v)) <= 2) by nra. assert (HR := half_range emax).
    split.
    - eapply Rle_trans; [|apply R1]. change (/ 2) with (bpow radix2 (-1)). apply bpow_le. lia.
    - eapply Rle_trans; [apply R1|]. change 2 with (bpow radix2 1). apply bpow_le. lia. }
  rewrite normalize_length, plus_INR in EL. simpl (INR 1) in EL. apply Rabs_le_inv in EL.
  destruct (F_cst1 prec emax) as [F1 V1].
  apply is_equal_near; auto. rewrite V1.
  set (L := v_length (v_normalize v)) in *. set (r := rnorm (values (v_normalize v))) in *. set (n := INR (length v)) in *.
  clearbody L r n. eapply Rle_trans; [|exact He].
  assert (T : Rabs (B2R L - 1) <= (331 / 100 * n + 432 / 100) * u).
  { assert (R2 : r <= 1 + 5 / 16) by nra. assert (0 <= (n + 1) * u) by (apply Rmult_le_pos; lra).
    assert ((n + 1) * u * r <= (n + 1) * u * (1 + 5 / 16)) by (apply Rmult_le_compat_l; lra).
    apply Rabs_le. split; nra. }
  assert (0 < n * u) by (apply Rmult_lt_0_compat; lra).
  apply Rle_trans with ((331 / 100 * n + 432 / 100) * u * (17 / 16)).
  - apply Rmult_le_compat; try lra. apply Rabs_pos.
  - nra.
Qed.
End FP.
