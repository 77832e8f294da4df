(** Rounding errors of the operations and of the inner product. *)
From Coq Require Import ZArith Reals List Lia Lra Bool.
From Flocq Require Import Core BinarySingleNaN Relative Plus_error.
From Verif Require Import Ops M_scalar M_vec Inst_F S_vec S_rnd P_ieee.
Import ListNotations.
Local Open Scope R_scope.

Section FP.
Variables prec emax : Z.
Context {Hprec : Prec_gt_0 prec} {Hmax : Prec_lt_emax prec emax}.
Notation fl := (binary_float prec emax).
Notation emin := (3 - emax - prec)%Z.
Notation u := (unit_roundoff prec).
Notation eta := (underflow_error prec emax).
Notation rnd := (round radix2 (SpecFloat.fexp prec emax) (round_mode mode_NE)).
Notation F := (generic_format radix2 (SpecFloat.fexp prec emax)).

Lemma u_pos : 0 < u. Proof. apply bpow_gt_0. Qed.
Lemma eta_pos : 0 < eta. Proof. apply bpow_gt_0. Qed.
Lemma u_half : / 2 * bpow radix2 (- prec + 1) = u.
Proof. unfold unit_roundoff. rewrite bpow_plus. simpl (bpow radix2 1). lra. Qed.
Lemma eta_half : / 2 * bpow radix2 emin = eta.
Proof. unfold underflow_error. replace emin with (2 - emax - prec + 1)%Z by lia. rewrite bpow_plus. simpl (bpow radix2 1). lra. Qed.

Lemma rnd_error : forall x, exists d e, Rabs d <= u /\ Rabs e <= eta /\ rnd x = x * (1 + d) + e.
Proof.
  intros x. destruct (error_N_FLT radix2 emin prec Hprec (fun z => negb (Z.even z)) x) as (d & e & A & B & C & D).
  exists d, e. rewrite <- u_half, <- eta_half. auto.
Qed.
Lemma rnd_error_big : forall x, bpow radix2 (emin + prec - 1) <= Rabs x -> exists d, Rabs d <= u /\ rnd x = x * (1 + d).
Proof.
  intros x H. destruct (relative_error_N_FLT_ex radix2 emin prec Hprec (fun z => negb (Z.even z)) x H) as (d & A & D).
  exists d. rewrite <- u_half. auto.
Qed.
Lemma rnd_error_plus : forall x y, F x -> F y -> exists d, Rabs d <= u /\ rnd (x + y) = (x + y) * (1 + d).
Proof.
  intros x y Fx Fy. destruct (FLT_plus_error_N_ex radix2 emin prec (fun z => negb (Z.even z)) x y Fx Fy) as (d & A & D).
  exists d. split; auto. eapply Rle_trans; [exact A|]. unfold u_ro. rewrite u_half. assert (P := u_pos).
  apply Rmult_le_reg_r with (1 + u); [lra|]. unfold Rdiv. rewrite Rmult_assoc, Rinv_l by lra. nra.
Qed.

(** Operations *)
Lemma plus_ok : forall x y : fl, is_finite x = true -> is_finite y = true ->
  Rabs (B2R x + B2R y) * (1 + u) < bpow radix2 emax ->
  is_finite (o_add x y) = true /\ exists d, Rabs d <= u /\ B2R (o_add x y) = (B2R x + B2R y) * (1 + d).
Proof.
  intros x y Fx Fy H. destruct (rnd_error_plus (B2R x) (B2R y)) as (d & A & D); try apply generic_format_B2R.
  generalize (Bplus_correct prec emax Hprec Hmax mode_NE x y Fx Fy). rewrite Rlt_bool_true.
  - intros (E & G & _). split; auto. exists d. split; auto. change (o_add x y) with (Bplus mode_NE x y). now rewrite E, D.
  - rewrite D, Rabs_mult. eapply Rle_lt_trans; [|exact H]. apply Rmult_le_compat_l; [apply Rabs_pos|].
    apply Rabs_le_inv in A. apply Rabs_le. assert (P := u_pos). split; lra.
Qed.
Lemma minus_ok : forall x y : fl, is_finite x = true -> is_finite y = true ->
  Rabs (B2R x - B2R y) * (1 + u) < bpow radix2 emax ->
  is_finite (o_sub x y) = true /\ exists d, Rabs d <= u /\ B2R (o_sub x y) = (B2R x - B2R y) * (1 + d).
Proof.
  intros x y Fx Fy H. destruct (rnd_error_plus (B2R x) (- B2R y)) as (d & A & D); try apply generic_format_opp; try apply generic_format_B2R.
  generalize (Bminus_correct prec emax Hprec Hmax mode_NE x y Fx Fy). unfold Rminus in *. rewrite Rlt_bool_true.
  - intros (E & G & _). split; auto. exists d. split; auto. change (o_sub x y) with (Bminus mode_NE x y). now rewrite E, D.
  - rewrite D, Rabs_mult. eapply Rle_lt_trans; [|exact H]. apply Rmult_le_compat_l; [apply Rabs_pos|].
    apply Rabs_le_inv in A. apply Rabs_le. assert (P := u_pos). split; lra.
Qed.
Lemma bound_mul : forall z d e, Rabs d <= u -> Rabs e <= eta -> Rabs (z * (1 + d) + e) <= Rabs z * (1 + u) + eta.
Proof.
  intros z d e A B. eapply Rle_trans; [apply Rabs_triang|]. rewrite Rabs_mult. assert (P := u_pos).
  apply Rplus_le_compat; auto. apply Rmult_le_compat_l; [apply Rabs_pos|]. apply Rabs_le_inv in A. apply Rabs_le. split; lra.
Qed.
Lemma mult_ok : forall x y : fl, is_finite x = true -> is_finite y = true ->
  Rabs (B2R x * B2R y) * (1 + u) + eta < bpow radix2 emax ->
  is_finite (o_mul x y) = true /\ exists d e, Rabs d <= u /\ Rabs e <= eta /\ B2R (o_mul x y) = (B2R x * B2R y) * (1 + d) + e.
Proof.
  intros x y Fx Fy H. destruct (rnd_error (B2R x * B2R y)) as (d & e & A & B & D).
  generalize (Bmult_correct prec emax Hprec Hmax mode_NE x y). rewrite Rlt_bool_true.
  - intros (E & G & _). rewrite Fx, Fy in G. split; auto. exists d, e. split; auto. split; auto. change (o_mul x y) with (Bmult mode_NE x y). now rewrite E, D.
  - rewrite D. eapply Rle_lt_trans; [|exact H]. now apply bound_mul.
Qed.
Lemma div_ok : forall x y : fl, is_finite x = true -> B2R y <> 0 ->
  Rabs (B2R x / B2R y) * (1 + u) + eta < bpow radix2 emax ->
  is_finite (o_div x y) = true /\ exists d e, Rabs d <= u /\ Rabs e <= eta /\ B2R (o_div x y) = (B2R x / B2R y) * (1 + d) + e.
Proof.
  intros x y Fx Fy H. destruct (rnd_error (B2R x / B2R y)) as (d & e & A & B & D).
  generalize (Bdiv_correct prec emax Hprec Hmax mode_NE x y Fy). rewrite Rlt_bool_true.
  - intros (E & G & _). rewrite Fx in G. split; auto. exists d, e. split; auto. split; auto. change (o_div x y) with (Bdiv mode_NE x y). now rewrite E, D.
  - rewrite D. eapply Rle_lt_trans; [|exact H]. now apply bound_mul.
Qed.
Lemma sqrt_ok : forall x : fl, is_finite x = true -> bpow radix2 (emin + prec - 1) <= sqrt (B2R x) ->
  is_finite (o_sqrt x) = true /\ exists d, Rabs d <= u /\ B2R (o_sqrt x) = sqrt (B2R x) * (1 + d).
Proof.
  intros x Fx H. assert (P : 0 < sqrt (B2R x)). { eapply Rlt_le_trans; [apply bpow_gt_0|exact H]. }
  destruct (rnd_error_big (sqrt (B2R x))) as (d & A & D). { rewrite Rabs_pos_eq by lra. exact H. }
  destruct (Bsqrt_correct prec emax Hprec Hmax mode_NE x) as (E & G & _). split.
  - change (o_sqrt x) with (Bsqrt mode_NE x). rewrite G. destruct x as [s|s| |s m e B]; auto; try discriminate. destruct s; auto.
    exfalso. rewrite sqrt_neg in P; [lra|]. apply Rlt_le, F2R_lt_0. reflexivity.
  - exists d. split; auto. change (o_sqrt x) with (Bsqrt mode_NE x). now rewrite E, D.
Qed.

(** Inner product *)
Lemma pow1 : forall n, 1 <= (1 + u) ^ n.
Proof. intros n. apply pow_R1_Rle. assert (P := u_pos). lra. Qed.
Lemma size_dot_pos : forall a b, 0 <= size_dot a b.
Proof.
  intros a. unfold size_dot. induction a as [|x a IH]; intros [|y b]; simpl; try lra.
  specialize (IH b). assert (X := Rabs_pos x). assert (Y := Rabs_pos y). nra.
Qed.
Lemma rdot_le_size : forall a b, Rabs (rdot a b) <= size_dot a b.
Proof.
  intros a. unfold size_dot. induction a as [|x a IH]; intros [|y b]; simpl; try (rewrite Rabs_R0; lra).
  eapply Rle_trans; [apply Rabs_triang|]. rewrite Rabs_mult. specialize (IH b). lra.
Qed.
Lemma rdot_snoc : forall a b x y, length a = length b -> rdot (a ++ [x]) (b ++ [y]) = rdot a b + x * y.
Proof.
  intros a. induction a as [|c a IH]; intros [|d b] x y L; simpl in *; try discriminate; try lra.
  rewrite IH by lia. lra.
Qed.
Lemma size_dot_snoc : forall a b x y, length a = length b -> size_dot (a ++ [x]) (b ++ [y]) = size_dot a b + Rabs (x * y).
Proof. intros. unfold size_dot. rewrite !map_app. simpl. rewrite rdot_snoc by now rewrite !map_length. now rewrite Rabs_mult. Qed.
Lemma combine_snoc : forall A B (a : list A) (b : list B) x y, length a = length b -> combine (a ++ [x]) (b ++ [y]) = combine a b ++ [(x, y)].
Proof. intros A B a. induction a as [|c a IH]; intros [|d b] x y L; simpl in *; try discriminate; auto. rewrite IH; auto. Qed.
Lemma dot_snoc : forall (v w : list fl) x y, length v = length w -> v_dot (v ++ [x]) (w ++ [y]) = o_add (v_dot v w) (o_mul x y).
Proof. intros. unfold v_dot. rewrite combine_snoc by auto. rewrite fold_left_app. reflexivity. Qed.
Lemma snoc_cases : forall A (l : list A), l = [] \/ exists l' x, l = l' ++ [x].
Proof.
  intros A l. destruct l as [|a l]; [now left|right].
  destruct (@exists_last _ (a :: l)) as (l' & x & E); [discriminate|eauto].
Qed.

Notation dot_error := (rounding_error prec emax).

Lemma dot_error_S : forall n s, 0 <= s -> (1 + u) * dot_error n s + u * s + (1 + u) * eta <= dot_error (S n) s.
Proof.
  intros n s Hs. unfold rounding_error. rewrite S_INR. simpl. assert (P := u_pos). assert (E := eta_pos). assert (Q := pow1 n).
  assert (G : (1 + u) * eta <= (1 + u) * (1 + u) ^ n * eta).
  { apply Rmult_le_compat_r; [lra|]. nra. }
  nra.
Qed.

Lemma dot_ok : forall v w : list fl, length v = length w -> all_finite v -> all_finite w ->
  no_overflow prec emax (length v) (size_dot (values v) (values w)) ->
  near (v_dot v w) (rdot (values v) (values w)) (dot_error (length v) (size_dot (values v) (values w))).
Proof.
  unfold no_overflow, near.
  assert (P := u_pos). assert (E0 := eta_pos).
  intros v. induction v as [|x v IH] using rev_ind; intros w L Fv Fw H.
  - destruct w; [|discriminate]. destruct (F_cst0 prec emax) as [A B]. change (v_dot (@nil fl) []) with (cst 0 : fl). rewrite B. split; [exact A|].
    unfold rounding_error, size_dot. simpl. rewrite Rminus_0_r, Rabs_R0. lra.
  - destruct (snoc_cases _ w) as [->|(w' & y & ->)]; [rewrite app_length in L; simpl in L; lia|].
    rewrite !app_length in L. simpl in L. assert (L' : length v = length w') by lia.
    unfold values in *. rewrite !map_app in *. cbn [map] in *. rewrite app_length in *. cbn [length] in *.
    rewrite rdot_snoc, size_dot_snoc in * by now rewrite !map_length. rewrite dot_snoc by auto.
    apply Forall_app in Fv, Fw. destruct Fv as [Fv Fx]. destruct Fw as [Fw Fy].
    apply Forall_inv in Fx. apply Forall_inv in Fy.
    set (A := size_dot (map B2R v) (map B2R w')) in *. set (p := B2R x * B2R y) in *.
    assert (A0 : 0 <= A) by apply size_dot_pos. assert (p0 := Rabs_pos p).
    assert (Q := pow1 (length v)). assert (N := pos_INR (length v)).
    replace (length v + 1)%nat with (S (length v)) in * by lia. rewrite S_INR in H. cbn [pow] in H.
    destruct (IH w' L' Fv Fw) as [Fs Es].
    { fold A. eapply Rle_lt_trans; [|exact H].
      apply Rle_trans with ((1 + u) ^ length v * (A + Rabs p + (INR (length v) + 1) * eta)).
      - apply Rmult_le_compat_l; lra || nra.
      - rewrite Rmult_assoc, <- (Rmult_1_l ((1 + u) ^ length v * _)) at 1. apply Rmult_le_compat_r; [|lra].
        apply Rmult_le_pos; [lra|]. nra. }
    assert (M := rdot_le_size (map B2R v) (map B2R w')). fold A in M, Es.
    destruct (mult_ok x y Fx Fy) as (Fp & d & e & Hd & He & Ep).
    { fold p. eapply Rle_lt_trans; [|exact H]. 
      apply Rle_trans with ((1 + u) * 1 * (A + Rabs p + (INR (length v) + 1) * eta)).
      { assert (K1 : 0 <= INR (length v) * eta) by (apply Rmult_le_pos; lra). assert (K2 : 0 <= (1 + u) * (A + INR (length v) * eta)) by (apply Rmult_le_pos; lra).
        assert (K3 : 0 <= u * eta) by nra. nra. }
      apply Rmult_le_compat_r; [nra|]. apply Rmult_le_compat_l; lra. }
    fold p in Ep. set (s := v_dot v w') in *. set (t := rdot (map B2R v) (map B2R w')) in *.
    set (q := o_mul x y) in *.
    assert (AE : A + dot_error (length v) A = (1 + u) ^ length v * (A + INR (length v) * eta)) by (unfold rounding_error; ring).
    assert (Bq : Rabs (B2R q - p) <= u * Rabs p + eta).
    { rewrite Ep. replace (p * (1 + d) + e - p) with (p * d + e) by ring. eapply Rle_trans; [apply Rabs_triang|]. rewrite Rabs_mult.
      apply Rplus_le_compat; auto. rewrite Rmult_comm. apply Rmult_le_compat_r; auto. }
    assert (Bq' : Rabs (B2R q) <= (1 + u) * Rabs p + eta).
    { replace (B2R q) with (B2R q - p + p) by ring. eapply Rle_trans; [apply Rabs_triang|]. lra. }
    assert (Bs : Rabs (B2R s) <= A + dot_error (length v) A).
    { replace (B2R s) with (B2R s - t + t) by ring. eapply Rle_trans; [apply Rabs_triang|]. lra. }
    destruct v as [|x0 v'].
    + destruct w'; [|discriminate]. destruct (F_cst0 prec emax) as [Z0 Z1]. change s with (cst 0 : fl) in *.
      destruct (Fplus_exact prec emax (cst 0) q Z0 Fp) as [R0 R1].
      * rewrite Z1, Rplus_0_l. apply generic_format_B2R.
      * rewrite Z1, Rplus_0_l. eapply Rle_lt_trans; [exact Bq'|]. eapply Rle_lt_trans; [|exact H]. simpl. nra.
      * split; [exact R0|]. rewrite R1, Z1. unfold t. simpl. rewrite !Rplus_0_l. eapply Rle_trans; [exact Bq|].
        unfold rounding_error, A, size_dot. simpl. nra.
    + set (n := length (x0 :: v')) in *.
      assert (Q2 : (1 + u) * (1 + u) <= (1 + u) ^ S n).
      { unfold n. simpl length. rewrite <- Rmult_1_r at 1. change ((1 + u) ^ S (S (length v'))) with ((1 + u) * ((1 + u) * (1 + u) ^ length v')).
        rewrite Rmult_1_r. apply Rmult_le_compat_l; [lra|]. assert (Q3 := pow1 (length v')). nra. }
      destruct (plus_ok s q Fs Fp) as (Fa & d' & Hd' & Ea).
      { eapply Rle_lt_trans; [|exact H]. rewrite (Rmult_comm _ (1 + u)), Rmult_assoc. apply Rmult_le_compat_l; [lra|].
        eapply Rle_trans; [apply Rabs_triang|]. rewrite AE in Bs. assert (Q1 : 1 + u <= (1 + u) ^ n).
        { apply Rmult_le_reg_l with (1 + u); [lra|]. exact Q2. }
        assert (T1 := Rmult_le_compat_r _ _ _ p0 Q1). assert (T2 : 1 * eta <= (1 + u) ^ n * eta) by (apply Rmult_le_compat_r; lra).
        lra. }
      split; [exact Fa|]. rewrite Ea.
      replace ((B2R s + B2R q) * (1 + d') - (t + p)) with ((B2R s - t) * (1 + d') + t * d' + ((B2R q - p) * (1 + d') + p * d')) by ring.
      assert (D1 : Rabs (1 + d') <= 1 + u). { apply Rabs_le_inv in Hd'. apply Rabs_le. split; lra. }
      assert (E1 : Rabs ((B2R s - t) * (1 + d')) <= (1 + u) * dot_error n A).
      { rewrite Rabs_mult, Rmult_comm. apply Rmult_le_compat; auto using Rabs_pos. }
      assert (E2 : Rabs (t * d') <= u * A). { rewrite Rabs_mult, Rmult_comm. apply Rmult_le_compat; auto using Rabs_pos. }
      assert (E3 : Rabs ((B2R q - p) * (1 + d')) <= (1 + u) * (u * Rabs p + eta)).
      { rewrite Rabs_mult, Rmult_comm. apply Rmult_le_compat; auto using Rabs_pos. }
      assert (E4 : Rabs (p * d') <= u * Rabs p). { rewrite Rabs_mult, Rmult_comm. apply Rmult_le_compat_r; auto. }
      assert (E5 := dot_error_S n A A0).
      eapply Rle_trans; [apply Rabs_triang|]. eapply Rle_trans; [apply Rplus_le_compat; apply Rabs_triang|].
      replace (dot_error (S n) (A + Rabs p)) with (dot_error (S n) A + ((1 + u) ^ S n - 1) * Rabs p) by (unfold rounding_error; ring).
      nra.
Qed.
End FP.
