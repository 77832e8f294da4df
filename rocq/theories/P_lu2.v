(** LUP decomposition in machine arithmetic: the loop invariant with rounding errors (C108). *)
From Coq Require Import ZArith Reals List Bool Lra Lia Arith Permutation Psatz.
From Flocq Require Import Core Mult_error BinarySingleNaN.
From Verif Require Import Ops M_scalar M_vec M_mat Inst_F S_mat S_rnd P_ieee P_mat P_mat2 P_lup P_fp P_lu.
Import ListNotations.
Local Open Scope R_scope.

Section FP.
Variables prec emax : Z.
Context {Hprec : Prec_gt_0 prec} {Hmax : Prec_lt_emax prec emax}.
Notation fl := (binary_float prec emax).
Notation u := (unit_roundoff prec).
Notation eta := (underflow_error prec emax).
Notation Om := (bpow radix2 emax).
Notation rnd := (round radix2 (SpecFloat.fexp prec emax) (round_mode mode_NE)).
Notation F := (generic_format radix2 (SpecFloat.fexp prec emax)).
Hypothesis U20 : (20 <= prec)%Z.
Hypothesis E64 : (64 <= emax)%Z.

Lemma u_tiny : 0 < u <= / 1000000.
Proof.
  split; [apply u_pos|]. apply Rle_trans with (bpow radix2 (-20)); [apply bpow_le; lia|]. change (bpow radix2 (-20)) with (/ IZR (2 ^ 20)). apply Rinv_le; [lra|].
  change (IZR (2 ^ 20)) with 1048576. lra.
Qed.
Lemma eta_tiny : 0 < eta <= u * / 10 ^ 18.
Proof.
  split; [apply eta_pos|]. unfold underflow_error, unit_roundoff. replace (2 - emax - prec)%Z with (- prec + (2 - emax))%Z by lia. rewrite bpow_plus.
  apply Rmult_le_compat_l; [apply bpow_ge_0|]. apply Rle_trans with (bpow radix2 (-62)); [apply bpow_le; lia|]. change (bpow radix2 (-62)) with (/ IZR (2 ^ 62)).
  apply Rinv_le; [apply pow_lt; lra|]. change (IZR (2 ^ 62)) with 4611686018427387904. simpl. lra.
Qed.
Lemma cst_big : forall n, (0 <= n <= 2 ^ 60)%Z -> exists d e, Rabs d <= u /\ Rabs e <= eta /\ is_finite (cst n : fl) = true /\ B2R (cst n : fl) = IZR n * (1 + d) + e.
Proof.
  intros n Hn. destruct u_tiny as (U0 & U1). destruct eta_tiny as (E0 & E1).
  destruct (rnd_error prec emax (IZR n)) as (d & e & Hd & He & ER). exists d, e. split; [exact Hd|]. split; [exact He|].
  assert (NB : 0 <= IZR n <= bpow radix2 60) by (change (bpow radix2 60) with (IZR (2 ^ 60)); split; apply IZR_le; lia).
  assert (BN := binary_normalize_correct prec emax Hprec Hmax mode_NE n 0 false). cbv zeta in BN. replace (F2R {| Fnum := n; Fexp := 0 |}) with (IZR n) in BN by (unfold F2R; cbn; ring).
  rewrite Rlt_bool_true in BN.
  - destruct BN as (V & FF & _). split; [exact FF|]. change (cst n : fl) with (binary_normalize prec emax Hprec Hmax mode_NE n 0 false). rewrite V. exact ER.
  - rewrite ER. assert (BB : bpow radix2 60 * 4 <= Om) by (change 4 with (bpow radix2 2); rewrite <- bpow_plus; apply bpow_le; lia).
    assert (B1 : 1 <= bpow radix2 60) by (change 1 with (bpow radix2 0); apply bpow_le; lia).
    assert (E18 : / 10 ^ 18 <= 1). { rewrite <- Rinv_1. apply Rinv_le; simpl; lra. }
    eapply Rle_lt_trans; [apply (bound_mul prec emax); [exact Hd|exact He]|]. rewrite Rabs_pos_eq by lra. nra.
Qed.
Lemma threshold : is_finite (lit 1 1000000000000000 : fl) = true /\ 999 / 1000 / 10 ^ 15 <= B2R (lit 1 1000000000000000 : fl) <= 1001 / 1000 / 10 ^ 15.
Proof.
  destruct u_tiny as (U0 & U1). destruct eta_tiny as (E0 & E1).
  assert (P20 : (2 ^ 20 <= 2 ^ prec)%Z) by (apply Z.pow_le_mono_r; lia).
  destruct (F_cst prec emax 1 ltac:(lia)) as [F1 V1].
  destruct (cst_big 1000000000000000 ltac:(lia)) as (d & e & Hd & He & F2 & V2).
  apply Rabs_le_inv in Hd, He.
  assert (E18 : 0 < / 10 ^ 18) by (apply Rinv_0_lt_compat, pow_lt; lra).
  assert (E2 : eta <= / 10 ^ 18 / 1000000) by nra.
  assert (V3 : B2R (cst 1000000000000000 : fl) = 10 ^ 15 * (1 + d) + e) by (rewrite V2; f_equal; f_equal; simpl; ring).
  set (c := B2R (cst 1000000000000000 : fl)) in *. clear V2.
  assert (C1 : 10 ^ 15 * (9999 / 10000) <= c <= 10 ^ 15 * (10001 / 10000)).
  { rewrite V3. assert (P : 0 < 10 ^ 15) by (apply pow_lt; lra). assert (P1 : / 10 ^ 18 <= 1). { rewrite <- Rinv_1. apply Rinv_le; simpl; lra. }
    assert (P2 : 1 <= 10 ^ 15) by (simpl; lra). split; nra. }
  assert (C0 : 0 < c). { assert (P : 0 < 10 ^ 15) by (apply pow_lt; lra). lra. }
  assert (I1 : / c <= / 10 ^ 15 * (10000 / 9999)).
  { replace (/ 10 ^ 15 * (10000 / 9999)) with (/ (10 ^ 15 * (9999 / 10000))) by (field; simpl; lra). apply Rinv_le; [|lra]. assert (P : 0 < 10 ^ 15) by (apply pow_lt; lra). lra. }
  assert (I2 : / 10 ^ 15 * (10000 / 10001) <= / c).
  { replace (/ 10 ^ 15 * (10000 / 10001)) with (/ (10 ^ 15 * (10001 / 10000))) by (field; simpl; lra). apply Rinv_le; lra. }
  assert (B8 : 8 <= Om) by (change 8 with (bpow radix2 3); apply bpow_le; lia).
  assert (T15 : 0 < / 10 ^ 15 <= / 1000) by (split; [apply Rinv_0_lt_compat, pow_lt; lra|apply Rinv_le; simpl; lra]).
  assert (T18 : / 10 ^ 18 = / 10 ^ 15 / 1000) by (simpl; field).
  destruct (div_ok prec emax _ (@cst _ (Fops prec emax _ _) 1000000000000000) F1) as (FD & d' & e' & Hd' & He' & ED).
  - fold c. lra.
  - rewrite V1. fold c. unfold Rdiv. rewrite Rmult_1_l. rewrite Rabs_pos_eq by lra. nra.
  - split; [exact FD|]. match type of ED with B2R ?x = _ => change (B2R (lit 1 1000000000000000 : fl)) with (B2R x) end. rewrite ED, V1. fold c. unfold Rdiv. rewrite Rmult_1_l.
    apply Rabs_le_inv in Hd', He'. set (q := / c) in *. set (t := / 10 ^ 15) in *. split; nra.
Qed.
Lemma abs_F : forall x : fl, is_finite x = true -> is_finite (sc_abs x) = true /\ B2R (sc_abs x) = Rabs (B2R x).
Proof.
  intros x H. unfold sc_abs. destruct (F_cst0 prec emax) as [A B].
  change (o_lt x (cst 0)) with (Bltb x (cst 0)). rewrite (Flt prec emax) by auto. rewrite B.
  destruct (Rlt_bool_spec (B2R x) 0).
  - change (o_neg x) with (Bopp x). rewrite is_finite_Bopp, B2R_Bopp, Rabs_left by auto. auto.
  - rewrite Rabs_pos_eq by auto. auto.
Qed.
Lemma pivot_F : forall n k m (f : nat -> nat -> fl), grid n m f -> (k < n)%nat -> (forall i j, (i < n)%nat -> (j < n)%nat -> is_finite (f i j) = true) ->
  exists p k', lup_pivot n k m = (p, k') /\ is_finite p = true /\ 0 <= B2R p /\
    (0 < B2R p -> (k <= k' < n)%nat /\ B2R p = Rabs (B2R (f k' k))) /\
    forall i, (k <= i < n)%nat -> Rabs (B2R (f i k)) <= B2R p.
Proof.
  intros n k m f [_ H] Hk HF. unfold lup_pivot.
  set (I := fun i (s : fl * nat) => exists p k', s = (p, k') /\ is_finite p = true /\ 0 <= B2R p /\
    (0 < B2R p -> (k <= k' < n)%nat /\ B2R p = Rabs (B2R (f k' k))) /\
    forall j, (k <= j < i)%nat -> Rabs (B2R (f j k)) <= B2R p).
  assert (HI : I (k + (n - k))%nat (for_loop (n - k) k (fun i pk =>
    if o_lt (fst pk) (sc_abs (mget m k i)) then (sc_abs (mget m k i), i) else pk) (cst 0, 0%nat))).
  { apply for_ind.
    - destruct (F_cst0 prec emax) as [A B]. exists (cst 0), 0%nat. rewrite B. split; [reflexivity|]. split; [exact A|]. split; [lra|]. split; [lra|]. intros; lia.
    - intros i s Hi (p & k' & -> & Fp & Hp & Hk' & Hj). rewrite H by lia. destruct (abs_F (f i k) (HF i k ltac:(lia) Hk)) as [FA VA]. cbn [fst].
      change (o_lt p (sc_abs (f i k))) with (Bltb p (sc_abs (f i k))). rewrite (Flt prec emax) by auto. rewrite VA.
      destruct (Rlt_bool_spec (B2R p) (Rabs (B2R (f i k)))) as [L|L].
      + exists (sc_abs (f i k)), i. rewrite VA. split; [reflexivity|]. split; [exact FA|]. split; [lra|]. split; [intros _; split; [lia|reflexivity]|]. intros j Hjj.
        destruct (Nat.eq_dec j i) as [-> |]; [lra|]. apply Rle_trans with (B2R p); [apply Hj; lia|lra].
      + exists p, k'. split; [reflexivity|]. split; [exact Fp|]. split; [exact Hp|]. split; [exact Hk'|]. intros j Hjj.
        destruct (Nat.eq_dec j i) as [-> |]; [lra|]. apply Hj; lia. }
  destruct HI as (p & k' & E & H0 & H1 & H2 & H3). exists p, k'. split; [exact E|]. split; [exact H0|]. split; [exact H1|]. split; [exact H2|].
  intros i Hi. apply H3. lia.
Qed.

(** ** The loop invariant *)
Section Loop.
Variables (n : nat) (A : nat -> nat -> R) (M : R).
Hypothesis M0 : 0 < M.
Hypothesis M15 : 8 / 10 / 10 ^ 15 <= M.
Hypothesis FM : F M.
Hypothesis HM : 2 ^ n * M < Om.

Definition finv (k : nat) (f : nat -> nat -> fl) (pi : list nat) : Prop :=
  Permutation pi (seq 0 n) /\
  (forall i j, (i < n)%nat -> (j < n)%nat -> is_finite (f i j) = true) /\
  (forall t, (t < k)%nat -> B2R (f t t) <> 0) /\
  (forall i j, (i < n)%nat -> (j < n)%nat -> Rabs (B2R (f i j)) <= if Nat.ltb j (Nat.min i k) then 1 else 2 ^ Nat.min i k * M) /\
  forall i j, (i < n)%nat -> (j < n)%nat ->
    Rabs (A (nth i pi 0%nat) j -
      (Rsum (Nat.min k (Nat.min i j)) (fun t => B2R (f i t) * B2R (f t j))
      + (if Nat.ltb j (Nat.min i k) then B2R (f i j) * B2R (f j j) else B2R (f i j))))
    <= if Nat.ltb j (Nat.min i k) then (4 * (2 ^ j - 1) + 2 * 2 ^ j) * (u * M) else 4 * (2 ^ Nat.min i k - 1) * (u * M).

Lemma finv_swap : forall k k' f pi, finv k f pi -> (k <= k' < n)%nat -> finv k (fun r c => f (sw k k' r) c) (swap_nth 0%nat k k' pi).
Proof.
  intros k k' f pi (H1 & H2 & H3 & H4 & H5) Hk.
  assert (Hl : length pi = n) by (rewrite (Permutation_length H1); apply seq_length).
  assert (Hsw : forall t, (t < k)%nat -> sw k k' t = t) by (intros t Ht; unfold sw; natcase).
  assert (Hsn : forall i, (i < n)%nat -> (sw k k' i < n)%nat) by (intros i Hi; unfold sw; natcase).
  assert (Hmin : forall i, Nat.min (sw k k' i) k = Nat.min i k) by (intros i; unfold sw; natcase).
  split; [|split; [|split; [|split]]].
  - rewrite <- H1. symmetry. apply swap_nth_perm; lia.
  - intros i j Hi Hj. auto.
  - intros t Ht. rewrite Hsw by auto. auto.
  - intros i j Hi Hj. specialize (H4 (sw k k' i) j (Hsn i Hi) Hj). rewrite Hmin in H4. exact H4.
  - intros i j Hi Hj. rewrite swap_nth_nth by lia. specialize (H5 (sw k k' i) j (Hsn i Hi) Hj). rewrite Hmin in H5.
    assert (E : Nat.min k (Nat.min (sw k k' i) j) = Nat.min k (Nat.min i j)) by (unfold sw; natcase). rewrite E in H5.
    rewrite (Rsum_ext _ (fun t => B2R (f (sw k k' i) t) * B2R (f (sw k k' t) j)) (fun t => B2R (f (sw k k' i) t) * B2R (f t j))).
    2: { intros t Ht. rewrite (Hsw t) by lia. reflexivity. }
    destruct (Nat.ltb_spec j (Nat.min i k)); auto. rewrite (Hsw j) by lia. exact H5.
Qed.
Lemma pow_le_n : forall k, (k <= n)%nat -> 1 <= 2 ^ k <= 2 ^ n.
Proof. intros k Hk. split; [apply pow_R1_Rle; lra|apply Rle_pow; [lra|exact Hk]]. Qed.
Lemma F_pow : forall k, F (2 ^ k * M).
Proof.
  intros k. replace (2 ^ k) with (bpow radix2 (Z.of_nat k)) by (rewrite <- (IZR_Zpower radix2) by lia; change (Zaux.radix_val radix2) with 2%Z; rewrite pow_IZR; reflexivity).
  rewrite Rmult_comm. apply (mult_bpow_pos_exact_FLT radix2 (3 - emax - prec) prec); [exact FM|lia].
Qed.
Lemma eta_M : eta <= u * M /\ eta <= u / 10.
Proof.
  destruct u_tiny as (U0 & U1). destruct eta_tiny as (E0 & E1).
  assert (T : / 10 ^ 18 = / 10 ^ 15 / 1000) by (simpl; field). assert (P : 0 < / 10 ^ 15 <= 1) by (split; [apply Rinv_0_lt_compat, pow_lt; lra|rewrite <- Rinv_1; apply Rinv_le; simpl; lra]).
  split; nra.
Qed.
Lemma finv_elim : forall k f pi, finv k f pi -> (k < n)%nat -> B2R (f k k) <> 0 -> (forall i, (k <= i < n)%nat -> Rabs (B2R (f i k)) <= Rabs (B2R (f k k))) ->
  finv (S k) (elimT k f) pi.
Proof.
  intros k f pi (H1 & H2 & H3 & H4 & H5) Hk Hf Hpiv.
  destruct u_tiny as (U0 & U1). destruct eta_M as (E0 & E1). assert (EP := eta_pos prec emax).
  assert (UM : 0 < u * M) by (apply Rmult_lt_0_compat; lra).
  destruct (pow_le_n k ltac:(lia)) as [K1 K2]. assert (K3 := pow_le_n (S k) ltac:(lia)).
  assert (OM1 : 1 < Om) by (change 1 with (bpow radix2 0); apply bpow_lt; lia).
  assert (F1 : F 1) by (apply (generic_format_FLT_1 radix2 (3 - emax - prec) prec); lia).
  assert (KM : 2 ^ k * M < Om /\ 2 ^ S k * M < Om) by (split; apply Rle_lt_trans with (2 ^ n * M); auto; apply Rmult_le_compat_r; lra).
  (* the multipliers *)
  assert (L : forall i, (k < i < n)%nat -> let l := o_div (f i k) (f k k) in is_finite l = true /\ Rabs (B2R l) <= 1 /\ Rabs (B2R (f i k) - B2R l * B2R (f k k)) <= 2 * 2 ^ k * (u * M)).
  { intros i Hi l. assert (Q : Rabs (B2R (f i k) / B2R (f k k)) <= 1).
    { unfold Rdiv. rewrite Rabs_mult, Rabs_inv. apply Rmult_le_reg_r with (Rabs (B2R (f k k))); [now apply Rabs_pos_lt|].
      rewrite Rmult_assoc, Rinv_l by now apply Rabs_no_R0. specialize (Hpiv i ltac:(lia)). lra. }
    destruct (div_bound prec emax (f i k) (f k k) 1 (H2 i k ltac:(lia) ltac:(lia)) Hf F1 Q OM1) as (G1 & G2 & G3). fold l in G1, G2, G3.
    split; [exact G1|]. split; [exact G3|]. rewrite G2. assert (ER := err_any prec emax (B2R (f i k) / B2R (f k k))).
    replace (B2R (f i k)) with (B2R (f i k) / B2R (f k k) * B2R (f k k)) at 1 by (field; exact Hf).
    rewrite <- Rmult_minus_distr_r, Rabs_mult, Rabs_minus_sym.
    assert (W := H4 k k Hk Hk). rewrite Nat.min_id in W. destruct (Nat.ltb_spec k k); [lia|].
    assert (P := Rabs_pos (B2R (f k k))). set (q := B2R (f i k) / B2R (f k k)) in *. set (p := Rabs (B2R (f k k))) in *.
    apply Rle_trans with ((u + eta) * (2 ^ k * M)); [|nra].
    apply Rmult_le_compat; auto using Rabs_pos. assert (0 <= Rabs q) by apply Rabs_pos. nra. }
  (* the updated entries *)
  assert (UP : forall i j, (k < i < n)%nat -> (k < j < n)%nat -> let l := o_div (f i k) (f k k) in let s := o_sub (f i j) (o_mul l (f k j)) in
    is_finite s = true /\ Rabs (B2R s) <= 2 ^ S k * M /\ Rabs (B2R (f i j) - (B2R l * B2R (f k j) + B2R s)) <= 4 * 2 ^ k * (u * M)).
  { intros i j Hi Hj l s. destruct (L i Hi) as (G1 & G2 & _). fold l in G1, G2.
    assert (W1 := H4 i j ltac:(lia) ltac:(lia)). assert (W2 := H4 k j ltac:(lia) ltac:(lia)). 
    replace (Nat.min i k) with k in W1 by lia. rewrite Nat.min_id in W2. destruct (Nat.ltb_spec j k); [lia|].
    assert (P1 := Rabs_pos (B2R l)). assert (P2 := Rabs_pos (B2R (f k j))).
    assert (Q : Rabs (B2R l * B2R (f k j)) <= 2 ^ k * M). { rewrite Rabs_mult. nra. }
    destruct (mul_bound prec emax l (f k j) (2 ^ k * M) G1 (H2 k j ltac:(lia) ltac:(lia)) (F_pow k) Q (proj1 KM)) as (N1 & N2 & N3).
    set (w := o_mul l (f k j)) in *.
    assert (Q2 : Rabs (B2R (f i j) - B2R w) <= 2 ^ S k * M). { eapply Rle_trans; [apply Rabs_triang|]. rewrite Rabs_Ropp. simpl. lra. }
    destruct (sub_bound prec emax (f i j) w _ (H2 i j ltac:(lia) ltac:(lia)) N1 (F_pow (Datatypes.S k)) Q2 (proj2 KM)) as (D1 & D2 & D3). fold s in D1, D2, D3.
    split; [exact D1|]. split; [exact D3|].
    assert (ER1 := err_any prec emax (B2R l * B2R (f k j))). rewrite <- N2 in ER1.
    assert (ER2 := err_sub prec emax (f i j) w). rewrite <- D2 in ER2.
    replace (B2R (f i j) - (B2R l * B2R (f k j) + B2R s)) with (- (B2R s - (B2R (f i j) - B2R w)) + (B2R w - B2R l * B2R (f k j))) by ring.
    eapply Rle_trans; [apply Rabs_triang|]. rewrite Rabs_Ropp. cbn [pow] in Q2. nra. }
  split; [exact H1|]. split; [|split; [|split]].
  - intros i j Hi Hj. unfold elimT. destruct (Nat.ltb_spec k i); [|auto]. destruct (Nat.eqb_spec j k) as [->|].
    + apply (L i). lia.
    + destruct (Nat.ltb_spec k j); [|auto]. apply (UP i j); lia.
  - intros t Ht. unfold elimT. destruct (Nat.ltb_spec k t); [lia|]. destruct (Nat.eq_dec t k) as [-> |]; auto. apply H3. lia.
  - intros i j Hi Hj. unfold elimT. destruct (Nat.ltb_spec k i) as [Li|Li].
    + replace (Nat.min i (Datatypes.S k)) with (Datatypes.S k) by lia. destruct (Nat.eqb_spec j k) as [->|Nj].
      * destruct (Nat.ltb_spec k (Datatypes.S k)); [|lia]. apply (L i). lia.
      * destruct (Nat.ltb_spec k j).
        -- destruct (Nat.ltb_spec j (Datatypes.S k)); [lia|]. apply (UP i j); lia.
        -- destruct (Nat.ltb_spec j (Datatypes.S k)); [|lia]. specialize (H4 i j Hi Hj). replace (Nat.min i k) with k in H4 by lia. destruct (Nat.ltb_spec j k); [exact H4|lia].
    + replace (Nat.min i (Datatypes.S k)) with (Nat.min i k) by lia. auto.
  - intros i j Hi Hj. specialize (H5 i j Hi Hj).
    destruct (Nat.le_gt_cases i k) as [Li|Li].
    + replace (Nat.min (Datatypes.S k) (Nat.min i j)) with (Nat.min k (Nat.min i j)) by lia. replace (Nat.min i (Datatypes.S k)) with (Nat.min i k) by lia.
      rewrite (Rsum_ext _ _ (fun t => B2R (f i t) * B2R (f t j))) by (intros t Ht; unfold elimT; natcase; auto).
      replace (elimT k f i j) with (f i j) by (unfold elimT; natcase; auto).
      destruct (Nat.ltb_spec j (Nat.min i k)); [|exact H5]. replace (elimT k f j j) with (f j j) by (unfold elimT; natcase; auto). exact H5.
    + replace (Nat.min i (Datatypes.S k)) with (Datatypes.S k) by lia. replace (Nat.min i k) with k in H5 by lia.
      destruct (lt_eq_lt_dec j k) as [[J| ->]|J].
      * replace (Nat.min (Datatypes.S k) (Nat.min i j)) with j by lia. replace (Nat.min k (Nat.min i j)) with j in H5 by lia.
        rewrite (Rsum_ext _ _ (fun t => B2R (f i t) * B2R (f t j))) by (intros t Ht; unfold elimT; natcase; auto).
        destruct (Nat.ltb_spec j k); [|lia]. destruct (Nat.ltb_spec j (Datatypes.S k)); [|lia].
        replace (elimT k f j j) with (f j j) by (unfold elimT; natcase; auto). replace (elimT k f i j) with (f i j) by (unfold elimT; natcase; auto). exact H5.
      * replace (Nat.min (Datatypes.S k) (Nat.min i k)) with k by lia. replace (Nat.min k (Nat.min i k)) with k in H5 by lia.
        destruct (Nat.ltb_spec k k); [lia|]. destruct (Nat.ltb_spec k (Datatypes.S k)); [|lia].
        rewrite (Rsum_ext _ _ (fun t => B2R (f i t) * B2R (f t k))) by (intros t Ht; unfold elimT; natcase; auto).
        replace (elimT k f k k) with (f k k) by (unfold elimT; natcase; auto). replace (elimT k f i k) with (o_div (f i k) (f k k)) by (unfold elimT; natcase; auto).
        destruct (L i ltac:(lia)) as (_ & _ & G). set (z := Rsum _ _) in *.
        replace (A (nth i pi 0%nat) k - (z + B2R (o_div (f i k) (f k k)) * B2R (f k k))) with ((A (nth i pi 0%nat) k - (z + B2R (f i k))) + (B2R (f i k) - B2R (o_div (f i k) (f k k)) * B2R (f k k))) by ring.
        eapply Rle_trans; [apply Rabs_triang|]. lra.
      * replace (Nat.min (Datatypes.S k) (Nat.min i j)) with (Datatypes.S k) by lia. replace (Nat.min k (Nat.min i j)) with k in H5 by lia.
        destruct (Nat.ltb_spec j k); [lia|]. destruct (Nat.ltb_spec j (Datatypes.S k)); [lia|]. cbn [Rsum].
        rewrite (Rsum_ext k _ (fun t => B2R (f i t) * B2R (f t j))) by (intros t Ht; unfold elimT; natcase; auto).
        replace (elimT k f k j) with (f k j) by (unfold elimT; natcase; auto). replace (elimT k f i k) with (o_div (f i k) (f k k)) by (unfold elimT; natcase; auto).
        replace (elimT k f i j) with (o_sub (f i j) (o_mul (o_div (f i k) (f k k)) (f k j))) by (unfold elimT; natcase; auto).
        destruct (UP i j ltac:(lia) ltac:(lia)) as (_ & _ & G). set (z := Rsum _ _) in *.
        match goal with |- Rabs (?a - (z + ?b + ?c)) <= _ => replace (a - (z + b + c)) with ((a - (z + B2R (f i j))) + (B2R (f i j) - (b + c))) by ring end.
        eapply Rle_trans; [apply Rabs_triang|]. cbn [pow]. lra.
Qed.
Lemma finv_start : forall f, (forall i j, (i < n)%nat -> (j < n)%nat -> is_finite (f i j) = true /\ B2R (f i j) = A i j /\ Rabs (A i j) <= M) -> finv 0 f (seq 0 n).
Proof.
  intros f H. split; [|split; [|split; [|split]]]; auto.
  - intros i j Hi Hj. apply (H i j Hi Hj).
  - intros; lia.
  - intros i j Hi Hj. rewrite Nat.min_0_r. destruct (Nat.ltb_spec j 0); [lia|]. destruct (H i j Hi Hj) as (_ & -> & G). simpl. lra.
  - intros i j Hi Hj. rewrite seq_nth by auto. rewrite Nat.min_0_r. simpl. destruct (Nat.ltb_spec j 0); [lia|]. destruct (H i j Hi Hj) as (_ & -> & _).
    replace (A i j - (0 + A i j)) with 0 by ring. rewrite Rabs_R0. simpl. lra.
Qed.

(** The search for a pivot failed at step k. *)
Definition ffail : Prop := exists k f pi, (k < n)%nat /\ finv k f pi /\ forall i, (k <= i < n)%nat -> Rabs (B2R (f i k)) < 1001 / 1000 / 10 ^ 15.
Lemma loop_F : forall j k m f pi, grid n m f -> finv k f pi -> (k + j = n)%nat ->
  match lup_loop j n k m pi with
  | Some (lu, pi') => exists g, grid n lu g /\ finv n g pi'
  | None => ffail
  end.
Proof.
  destruct threshold as [TF TV]. assert (T0 : 0 < 999 / 1000 / 10 ^ 15) by (unfold Rdiv; apply Rmult_lt_0_compat; [lra|]; apply Rinv_0_lt_compat, pow_lt; lra).
  induction j as [|j IH]; intros k m f pi Hm Hi Hk; cbn [lup_loop].
  - exists f. split; auto. replace k with n in Hi by lia. auto.
  - destruct (pivot_F n k m f Hm ltac:(lia) (proj1 (proj2 Hi))) as (p & k' & -> & Fp & Hp & Hp' & Hmaxp).
    change (o_lt p (lit 1 1000000000000000)) with (Bltb p (lit 1 1000000000000000)). rewrite (Flt prec emax) by auto.
    destruct (Rlt_bool_spec (B2R p) (B2R (lit 1 1000000000000000 : fl))) as [L|L].
    + exists k, f, pi. split; [lia|]. split; [exact Hi|]. intros i Hi'. specialize (Hmaxp i Hi'). lra.
    + destruct (Hp' ltac:(lra)) as [Hk' Ep]. apply IH with (f := elimT k (fun r c => f (sw k k' r) c)); try lia.
      * apply grid_eliminate; [|lia]. apply grid_swap; auto; lia.
      * assert (SK : sw k k' k = k') by (unfold sw; rewrite Nat.eqb_refl; reflexivity). apply finv_elim; try lia.
        -- now apply finv_swap.
        -- rewrite SK. intros Z. rewrite Z, Rabs_R0 in Ep. lra.
        -- intros i Hi'. rewrite SK, <- Ep. apply Hmaxp. unfold sw. natcase.
Qed.
End Loop.
End FP.
