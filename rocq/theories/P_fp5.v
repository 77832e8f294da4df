(** Concrete cases for the theorems on rounding errors. *)
From Coq Require Import ZArith Reals List Lia Lra Bool.
From Flocq Require Import Core BinarySingleNaN.
From Verif Require Import Ops M_scalar M_vec M_bbox M_geom Inst_F S_order S_boxset S_vec S_rnd P_ieee P_vec P_fp P_fp2 P_fp3 P_fp4.
Import ListNotations.
Local Open Scope R_scope.

Definition v345 : list double := [cst 3; cst 4; cst 12].
Lemma cst_double : forall n, (Z.abs n <= 2 ^ 53)%Z -> is_finite (cst n : double) = true /\ B2R (cst n : double) = IZR n.
Proof. intros n H. exact (F_cst 53 1024 n H). Qed.
Lemma v345_values : values v345 = [3; 4; 12].
Proof.
  unfold values, v345. cbn [map]. rewrite (proj2 (cst_double 3 ltac:(lia))), (proj2 (cst_double 4 ltac:(lia))), (proj2 (cst_double 12 ltac:(lia))). reflexivity.
Qed.
Lemma v345_finite : all_finite v345.
Proof. unfold all_finite, v345. repeat constructor; apply cst_double; lia. Qed.
Lemma few_double : forall n, (n <= 1000)%nat -> few 53 n.
Proof.
  intros n H. unfold few. apply le_INR in H. rewrite (INR_IZR_INZ 1000) in H. simpl (Z.of_nat 1000) in H.
  assert (U : unit_roundoff 53 <= / 16000).
  { unfold unit_roundoff. rewrite bpow_opp. apply Rinv_le; [lra|]. rewrite <- (IZR_Zpower radix2) by lia. apply IZR_le. vm_compute. discriminate. }
  assert (0 < unit_roundoff 53) by apply bpow_gt_0. assert (N := pos_INR n). nra.
Qed.
Lemma v345_moderate : moderate 1024 (values v345).
Proof.
  rewrite v345_values. unfold moderate, rnorm. replace (rdot [3; 4; 12] [3; 4; 12]) with (13 * 13) by (simpl; ring). rewrite sqrt_square by lra.
  split.
  - apply Rle_trans with (bpow radix2 0); [apply bpow_le; vm_compute; discriminate|simpl; lra].
  - apply Rle_trans with (bpow radix2 4); [simpl; lra|apply bpow_le; vm_compute; discriminate].
Qed.
Lemma u_double : 0 < unit_roundoff 53 <= / 16000.
Proof.
  split; [apply bpow_gt_0|]. unfold unit_roundoff. rewrite bpow_opp. apply Rinv_le; [lra|]. rewrite <- (IZR_Zpower radix2) by lia. apply IZR_le. vm_compute. discriminate.
Qed.
Lemma lit_milli : is_finite (almost_zero : double) = true /\ / 2000 <= B2R (almost_zero : double).
Proof.
  destruct u_double as [U0 U1]. destruct (F_cst 53 1024 1 ltac:(lia)) as [F1 V1]. destruct (F_cst 53 1024 1000 ltac:(lia)) as [F2 V2].
  assert (E0 := eta_pos 53 1024). assert (E1 := eta_le_u 53 1024). assert (B8 : 8 <= bpow radix2 1024) by (change 8 with (bpow radix2 3); apply bpow_le; lia).
  destruct (div_ok 53 1024 _ (@cst _ (Fops 53 1024 _ _) 1000) F1) as (FD & d & e & Hd & He & ED).
  - rewrite V2. lra.
  - rewrite V1, V2. rewrite Rabs_pos_eq by lra. lra.
  - split; [exact FD|]. match type of ED with B2R ?x = _ => change (/ 2000 <= B2R x) end. rewrite ED, V1, V2.
    apply Rabs_le_inv in Hd, He. assert (unit_roundoff 53 <= / 16000) by exact U1. 
    assert (Ue : underflow_error 53 1024 <= / 16000) by lra. nra.
Qed.

Section Sym.
Variables prec emax : Z.
Context {Hprec : Prec_gt_0 prec} {Hmax : Prec_lt_emax prec emax}.
Notation fl := (binary_float prec emax).
Lemma opposite_ok : forall v : list fl, v_length (v_neg v) = v_length v /\ v_squared_length (v_neg v) = v_squared_length v
  /\ v_normalize (v_neg v) = v_neg (v_normalize v).
Proof. intros v. destruct (length_neg prec emax v). auto using (normalize_neg prec emax). Qed.
Lemma cross_opposite : forall v w : list fl, Forall2 comp_eq (v_cross v w) (v_neg (v_cross w v)).
Proof.
  intros v w. assert (H := cross_neg prec emax v w). unfold v_neg. remember (v_cross v w) as a. remember (v_cross w v) as b. clear Heqa Heqb.
  induction H; simpl; constructor; auto. now apply opp_equal.
Qed.
End Sym.

Lemma nonzero : forall x : double, Beqb x (cst 0) = false -> is_finite x = true -> B2R x <> 0.
Proof. intros x H F E. rewrite (Feq 53 1024) in H by (auto; reflexivity). match type of H with Req_bool ?a ?b = _ => destruct (Req_bool_spec a b) as [|K] end; [discriminate H|]. apply K. rewrite E. symmetry. exact (proj2 (F_cst0 53 1024)). Qed.
Lemma normalize_extreme :
  (exists v : list double, all_finite v /\ ~ Forall (fun x => B2R x = 0) v /\ Forall (fun x => is_finite x = false) (v_normalize v))
  /\ exists v : list double, all_finite v /\ ~ Forall (fun x => B2R x = 0) v /\ Forall (fun x => B2R x = 0) (v_normalize v).
Proof.
  split.
  - exists [D 1 (-600); D 3 (-600); D 1 (-600)]. split; [|split].
    + repeat constructor.
    + intros H. apply Forall_inv in H. revert H. now apply nonzero.
    + apply Forall_forall. intros x Hx. assert (A : forallb (fun x => negb (is_finite x)) (v_normalize [D 1 (-600); D 3 (-600); D 1 (-600)]) = true) by (vm_compute; reflexivity).
      rewrite forallb_forall in A. apply A in Hx. now destruct (is_finite x).
  - exists [D 1 600; D 3 600; D 1 600]. split; [|split].
    + repeat constructor.
    + intros H. apply Forall_inv in H. revert H. now apply nonzero.
    + apply Forall_forall. intros x Hx. assert (A : forallb (fun x => Beqb x (cst 0) && is_finite x) (v_normalize [D 1 600; D 3 600; D 1 600]) = true) by (vm_compute; reflexivity).
      rewrite forallb_forall in A. apply A in Hx. apply andb_true_iff in Hx as [H1 H2].
      rewrite (Feq 53 1024) in H1 by (auto; reflexivity). match type of H1 with Req_bool ?a ?b = _ => destruct (Req_bool_spec a b) as [H|]; [|discriminate H1] end. rewrite H.
      exact (proj2 (F_cst0 53 1024)).
Qed.
Lemma center_overflow : exists b : bbox double, box_of 1 b /\ all_finite (bb_min b) /\ all_finite (bb_max b)
  /\ exists c, bb_center b = Ret c /\ ~ in_set b c.
Proof.
  set (m := D 1 1023). assert (N : ~ NaN m) by (vm_compute; discriminate). assert (Lm : o_le m m = true) by (vm_compute; reflexivity).
  assert (Fm : is_finite m = true) by (vm_compute; reflexivity).
  exists (BB [m] [m]). unfold box_of, point_of, vec_below, all_finite. cbn [bb_min bb_max]. repeat split; auto.
  exists [o_div (o_add m m) (cst 2)]. split.
  - unfold bb_center, bb_is_valid. cbn [bb_min bb_max bb_valid2]. replace (o_lt m m) with false by (vm_compute; reflexivity). reflexivity.
  - intros [_ H]. inversion H; subst. revert H3. vm_compute. discriminate.
Qed.
Lemma bpow_1024 : 1000000 < bpow radix2 1024.
Proof. apply Rlt_le_trans with (bpow radix2 20); [simpl; lra|apply bpow_le; lia]. Qed.
Lemma no_overflow_double : forall n size, (n <= 16)%nat -> 0 <= size <= 1000 -> no_overflow 53 1024 n size.
Proof.
  intros n size Hn Hs. unfold no_overflow. assert (F := few_double n ltac:(lia)). assert (P := pow_few 53 n F). unfold few in F.
  apply le_INR in Hn. replace (INR 16) with 16 in Hn by (simpl; lra). assert (E0 := eta_pos 53 1024). assert (E1 := eta_le_u 53 1024). destruct u_double as [U0 U1].
  assert (Q := pow1 53 n). assert (N := pos_INR n). assert (B := bpow_1024).
  assert (INR n * underflow_error 53 1024 <= 1) by nra. 
  apply Rle_lt_trans with (2 * (1000 + 1)); [|lra]. apply Rmult_le_compat; try lra. nra.
Qed.
Lemma v345_overflow : no_overflow 53 1024 3 (size_dot (values v345) (values v345)).
Proof. apply no_overflow_double; [lia|]. rewrite size_self, v345_values. simpl. lra. Qed.
Lemma v345_unit : v_is_unit (v_normalize v345) almost_zero = true.
Proof.
  destruct lit_milli as [F L]. destruct u_double as [U0 U1].
  apply (normalize_is_unit 53 1024); auto using v345_finite, v345_moderate; [lia|apply few_double; simpl; lia|].
  change (length v345) with 3%nat. replace (INR (4 * 3 + 5)) with 17 by (simpl; ring). change (B2R (almost_zero : double)) with (B2R (almost_zero : double)) in L. 
  eapply Rle_trans; [|exact L]. assert (U := u_double). unfold unit_roundoff in *. 
  apply Rle_trans with (17 * / 34000); [|lra]. apply Rmult_le_compat_l; [lra|]. rewrite bpow_opp. apply Rinv_le; [lra|]. rewrite <- (IZR_Zpower radix2) by lia. apply IZR_le. vm_compute. discriminate.
Qed.
Lemma plane_case : let p := Pl (cst 2) (v_normalize v345) : plane double in
  no_overflow 53 1024 (length v345 + 1) (plane_size p v345) /\ pl_point_status p v345 point_status_epsilon = Above.
Proof.
  split; [|vm_compute; reflexivity]. apply no_overflow_double; [simpl; lia|]. unfold plane_size. cbn [pl_dist pl_normal].
  assert (S0 := size_dot_pos (values v345) (values (v_normalize v345))).
  assert (C := normalize_ok 53 1024 v345 v345_finite (few_double 3 ltac:(lia)) v345_moderate).
  replace (B2R (cst 2 : double)) with 2 by (symmetry; apply cst_double; lia). rewrite (Rabs_pos_eq 2) by lra.
  assert (HN : Rabs (rnorm (values (v_normalize v345)) - 1) <= 9 * unit_roundoff 53).
  { eapply Rle_trans; [exact (normalize_norm 53 1024 v345 v345_finite (few_double 3 ltac:(lia)) v345_moderate)|]. simpl. lra. }
  split; [lra|]. unfold size_dot in *.
  assert (CS := cauchy_schwarz (map Rabs (values v345)) (map Rabs (values (v_normalize v345))) eq_refl).
  rewrite <- !rnorm_sq, !norm_abs in CS.
  assert (N13 : rnorm (values v345) = 13). { rewrite v345_values. unfold rnorm. replace (rdot [3; 4; 12] [3; 4; 12]) with (13 * 13) by (simpl; ring). now rewrite sqrt_square by lra. }
  rewrite N13 in CS. destruct u_double as [U0 U1]. apply Rabs_le_inv in HN.
  assert (R2 : rnorm (values (v_normalize v345)) <= 2) by lra.
  assert (R0 := rnorm_nonneg (values (v_normalize v345))).
  assert (rnorm (values (v_normalize v345)) * rnorm (values (v_normalize v345)) <= 2 * 2) by (apply Rmult_le_compat; lra).
  nra.
Qed.
Lemma box_case : let b := BB [cst (-1); cst 0; cst 2] v345 in box_of 3 b
  /\ Forall2 (fun x y : double => Rabs (B2R x + B2R y) * (1 + unit_roundoff 53) < bpow radix2 1024) (bb_min b) (bb_max b).
Proof.
  split.
  - unfold box_of, point_of, vec_below. cbn [bb_min bb_max]. repeat split; try (repeat constructor; vm_compute; congruence). 
  - cbn [bb_min bb_max]. assert (B := bpow_1024). destruct u_double as [U0 U1]. unfold v345.
    repeat constructor; rewrite !(fun n H => proj2 (cst_double n H)) by lia; rewrite Rabs_pos_eq by lra; lra.
Qed.
Lemma cross_case : v_eq (v_cross v345 [cst 0; cst 0; cst 1]) [cst 4; cst (-3); cst 0] = true /\ v_eq (v_cross [cst 0; cst 0; cst 1] v345) [cst (-4); cst 3; cst 0] = true.
Proof. split; vm_compute; reflexivity. Qed.
