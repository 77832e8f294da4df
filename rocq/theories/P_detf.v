(** Determinants in machine arithmetic (C123). *)
From Coq Require Import ZArith Reals List Lia Lra Bool Psatz Factorial.
From Flocq Require Import Core BinarySingleNaN.
From Verif Require Import Ops M_scalar M_vec M_mat Inst_F S_vec S_mat S_rnd S_hit P_ieee P_vec P_mat P_mat2 P_fp P_fp4 P_fp5 P_fp6 P_grid2 P_hit P_hit2 P_ft P_ldet.
Import ListNotations.
Local Open Scope R_scope.

Lemma Rsum_le : forall k (y : nat -> R) Y, (forall i, (i < k)%nat -> Rabs (y i) <= Y) -> Rabs (Rsum k y) <= INR k * Y.
Proof.
  induction k as [|k IH]; intros y Y H; [cbn; rewrite Rabs_R0; lra|]. rewrite S_INR. cbn [Rsum]. apply Rle_trans with (1 := Rabs_triang _ _). assert (A := IH y Y ltac:(intros; apply H; lia)). assert (B := H k ltac:(lia)). lra.
Qed.

Section FP.
Variables prec emax : Z.
Context {Hprec : Prec_gt_0 prec} {Hmax : Prec_lt_emax prec emax}.
Notation fl := (binary_float prec emax).
Notation u := (unit_roundoff prec).
Notation eta := (underflow_error prec emax).
Notation Om := (bpow radix2 emax).
Hypothesis U20 : (20 <= prec)%Z.
Hypothesis E20 : (20 <= emax)%Z.

Lemma acc_near : forall n (f : nat -> fl) (y : nat -> R) Y t, 0 < Y -> 0 <= t <= Y / 50 -> 100 * (INR n * u) <= 1 -> 2 * (INR n * Y) <= Om -> (forall i, (i < n)%nat -> near (f i) (y i) t /\ Rabs (y i) <= Y) ->
  forall k, (k <= n)%nat -> near (acc_sum k 0 f (cst 0)) (Rsum k y) (INR k * (t + 105 / 100 * (INR n * (u * Y)))).
Proof.
  intros n f y Y t Y0 T NU NO H. destruct (u_small prec U20) as [U0 U1]. set (d := 105 / 100 * (INR n * (u * Y))). assert (Dd : 0 <= d <= 1051 / 100000 * Y). { unfold d. replace (105 / 100 * (INR n * (u * Y))) with (105 / 100 * (INR n * u) * Y) by ring. assert (0 <= INR n * u) by (apply Rmult_le_pos; [apply pos_INR|lra]). split; [apply Rmult_le_pos; lra|apply Rmult_le_compat_r; lra]. }
  induction k as [|k IH]; intros K.
  - rewrite Rmult_0_l. destruct (F_cst0 prec emax) as [F0 V0]. assert (NZ := near_exact prec emax _ F0). rewrite V0 in NZ. exact NZ.
  - assert (N := IH ltac:(lia)). destruct (H k ltac:(lia)) as (Nk & Bk). rewrite acc_last. cbn [Rsum plus]. assert (KN : INR k + 1 <= INR n) by (rewrite <- S_INR; apply le_INR; lia). assert (K0 := pos_INR k).
    assert (A : Rabs (Rsum k y + y k) <= INR (S k) * Y) by (apply (Rsum_le (S k)); intros i I; apply H; lia). rewrite S_INR in *.
    assert (W : (INR k + 1) * Y + INR k * (t + d) + t <= 105 / 100 * (INR n * Y)). { apply Rle_trans with ((INR k + 1) * (Y + (t + d))); [rewrite Rmult_plus_distr_l; lra|]. apply Rle_trans with (INR n * (105 / 100 * Y)); [apply Rmult_le_compat; lra|lra]. }
    assert (W0 : 0 <= INR k * (t + d)) by (apply Rmult_le_pos; lra). assert (W1 : 0 <= (INR k + 1) * Y) by (apply Rmult_le_pos; lra).
    eapply near_le; [apply (near_add prec emax _ _ _ _ _ _ _ N Nk A)|].
    + apply Rle_lt_trans with (105 / 100 * (INR n * Y) * (1001 / 1000)); [apply Rmult_le_compat; lra|]. assert (0 < INR n * Y) by (apply Rmult_lt_0_compat; lra). lra.
    + assert (u * ((INR k + 1) * Y + INR k * (t + d) + t) <= d) by (unfold d at 2; replace (105 / 100 * (INR n * (u * Y))) with (u * (105 / 100 * (INR n * Y))) by ring; apply Rmult_le_compat_l; lra). lra.
Qed.

Variable M : R.
Hypothesis M1 : 1 <= M.
Definition dbound (n : nat) : R := INR (fact n) * M ^ n.
Lemma dbound_S : forall n, dbound (S n) = INR (S n) * (M * dbound n).
Proof. intros n. unfold dbound. rewrite fact_simpl, mult_INR. cbn [pow]. ring. Qed.
Lemma dbound_ge1 : forall n, 1 <= dbound n.
Proof. intros n. unfold dbound. assert (1 <= M ^ n) by (apply pow_R1_Rle, M1). assert (1 <= INR (fact n)) by (apply (le_INR 1), lt_O_fact). apply Rle_trans with (1 * 1); [lra|apply Rmult_le_compat; lra]. Qed.
Lemma dbound_le : forall n, dbound n <= dbound (S n).
Proof. intros n. rewrite dbound_S. assert (D := dbound_ge1 n). assert (I : 1 <= INR (S n)) by (rewrite S_INR; assert (P := pos_INR n); lra). apply Rle_trans with (1 * (1 * dbound n)); [lra|]. apply Rmult_le_compat; try lra. apply Rmult_le_compat; lra. Qed.
Definition sq (n : nat) : R := INR n * INR n.
Definition detnear (N : nat) : Prop := forall (m : list (list fl)) (f : nat -> nat -> R), is_mat N N m -> (forall r c, (r < N)%nat -> (c < N)%nat -> near (mget m c r) (f r c) 0 /\ Rabs (f r c) <= M) ->
  100 * (sq N * u) <= 1 -> 2 * dbound N <= Om -> near (m_det N m) (ldet N f) (sq N * (u * dbound N)) /\ Rabs (ldet N f) <= dbound N.

Lemma prod2 : forall (x y : fl) a b, near x a 0 -> near y b 0 -> Rabs a <= M -> Rabs b <= M -> 2 * (M * M) <= Om -> near (o_mul x y) (a * b) (1002 / 1000 * (u * (M * M))) /\ Rabs (a * b) <= M * M.
Proof.
  intros x y a b X Y A B O. destruct (u_small prec U20) as [U0 U1]. destruct (eta_small prec emax E20) as [E0 E1]. assert (MM : 1 * 1 <= M * M) by (apply Rmult_le_compat; lra). assert (u * 1 <= u * (M * M)) by (apply Rmult_le_compat_l; lra). split.
  - eapply near_le; [apply (near_mul prec emax _ _ _ _ _ _ M M X Y A B)|]; rewrite ?Rplus_0_r; [|lra]. assert (M * M * u <= M * M * / 1000000) by (apply Rmult_le_compat_l; lra). lra.
  - rewrite Rabs_mult. apply Rmult_le_compat; try apply Rabs_pos; assumption.
Qed.
Lemma det_near1 : detnear 1.
Proof.
  intros m f S H NU NO. destruct (H 0%nat 0%nat ltac:(lia) ltac:(lia)) as (A & B). assert (L : ldet 1 f = f 0%nat 0%nat) by (cbn; unfold sgn; cbn; ring). rewrite L. cbn [m_det]. destruct (u_small prec U20) as [U0 U1]. assert (D := dbound_ge1 1). split; [eapply near_le; [exact A|]; unfold sq; cbn [INR]; assert (0 <= u * dbound 1) by (apply Rmult_le_pos; lra); lra|]. unfold dbound. cbn. lra.
Qed.
Lemma det_near2 : detnear 2.
Proof.
  intros m f S H NU NO. destruct (u_small prec U20) as [U0 U1]. assert (L : ldet 2 f = f 0%nat 0%nat * f 1%nat 1%nat - f 0%nat 1%nat * f 1%nat 0%nat) by (cbn; unfold sgn, skip; cbn; ring). rewrite L. cbn [m_det]. assert (DB : dbound 2 = 2 * (M * M)) by (unfold dbound; cbn; ring). rewrite DB in *. assert (SQ : sq 2 = 4) by (unfold sq; cbn; ring). rewrite SQ in *. assert (MM : 1 * 1 <= M * M) by (apply Rmult_le_compat; lra).
  destruct (H 0%nat 0%nat ltac:(lia) ltac:(lia)) as (A1 & B1). destruct (H 1%nat 1%nat ltac:(lia) ltac:(lia)) as (A2 & B2). destruct (H 0%nat 1%nat ltac:(lia) ltac:(lia)) as (A3 & B3). destruct (H 1%nat 0%nat ltac:(lia) ltac:(lia)) as (A4 & B4).
  destruct (prod2 _ _ _ _ A1 A2 B1 B2 ltac:(lra)) as (P & PB). destruct (prod2 _ _ _ _ A3 A4 B3 B4 ltac:(lra)) as (Q & QB). set (C := M * M) in *. clearbody C. assert (UC0 : 0 < u * C) by (apply Rmult_lt_0_compat; lra). assert (UC : u * C <= / 1000000 * C) by (apply Rmult_le_compat_r; lra).
  assert (BB : Rabs (f 0%nat 0%nat * f 1%nat 1%nat - f 0%nat 1%nat * f 1%nat 0%nat) <= 2 * C) by (apply Rabs_le; apply Rabs_le_inv in PB; apply Rabs_le_inv in QB; lra). split; [|exact BB].
  eapply near_le; [apply (near_sub prec emax _ _ _ _ _ _ (2 * C) P Q BB)|].
  - apply Rle_lt_trans with (2001 / 1000 * C * (1001 / 1000)); [apply Rmult_le_compat; lra|lra].
  - assert (u * (2 * C + 1002 / 1000 * (u * C) + 1002 / 1000 * (u * C)) <= u * (2001 / 1000 * C)) by (apply Rmult_le_compat_l; lra). lra.
Qed.
Lemma det_near3 : detnear 3.
Proof.
  intros m f S H NU NO. destruct (u_small prec U20) as [U0 U1]. destruct (eta_small prec emax E20) as [E0 E1].
  assert (L : ldet 3 f = f 0%nat 0%nat * f 1%nat 1%nat * f 2%nat 2%nat + f 0%nat 1%nat * f 1%nat 2%nat * f 2%nat 0%nat + f 0%nat 2%nat * f 1%nat 0%nat * f 2%nat 1%nat - f 0%nat 2%nat * f 1%nat 1%nat * f 2%nat 0%nat - f 0%nat 1%nat * f 1%nat 0%nat * f 2%nat 2%nat - f 0%nat 0%nat * f 1%nat 2%nat * f 2%nat 1%nat) by (cbn; unfold sgn, skip; cbn; ring). rewrite L. cbn [m_det].
  assert (DB : dbound 3 = 6 * (M * M * M)) by (unfold dbound; cbn; ring). rewrite DB in *. assert (SQ : sq 3 = 9) by (unfold sq; cbn; ring). rewrite SQ in *. assert (MM : 1 * 1 <= M * M) by (apply Rmult_le_compat; lra). assert (MC : M * M * 1 <= M * M * M) by (apply Rmult_le_compat_l; lra).
  assert (P : forall a b c d g h, (a < 3)%nat -> (b < 3)%nat -> (c < 3)%nat -> (d < 3)%nat -> (g < 3)%nat -> (h < 3)%nat -> near (o_mul (o_mul (mget m a b) (mget m c d)) (mget m g h)) (f b a * f d c * f h g) (201 / 100 * (u * (M * M * M))) /\ - (M * M * M) <= f b a * f d c * f h g <= M * M * M).
  { intros a b c d g h Ha Hb Hc Hd Hg Hh. destruct (H b a Hb Ha) as (N1 & B1). destruct (H d c Hd Hc) as (N2 & B2). destruct (H h g Hh Hg) as (N3 & B3). destruct (prod2 _ _ _ _ N1 N2 B1 B2 ltac:(lra)) as (Q & QB). split; [|apply Rabs_le_inv; rewrite Rabs_mult; apply Rmult_le_compat; try apply Rabs_pos; assumption].
    assert (X : u * (M * M) <= / 1000000 * (M * M)) by (apply Rmult_le_compat_r; lra). assert (X0 : 0 < u * (M * M)) by (apply Rmult_lt_0_compat; lra). assert (X1 : u * 1 <= u * (M * M * M)) by (apply Rmult_le_compat_l; lra).
    assert (Z : (M * M + 1002 / 1000 * (u * (M * M))) * M <= 1001 / 1000 * (M * M * M)) by (replace (1001 / 1000 * (M * M * M)) with (1001 / 1000 * (M * M) * M) by ring; apply Rmult_le_compat_r; lra).
    assert (Z0 : 0 <= (M * M + 1002 / 1000 * (u * (M * M))) * M) by (apply Rmult_le_pos; lra).
    eapply near_le; [apply (near_mul prec emax _ _ _ _ _ _ (M * M) M Q N3 QB B3)|]; rewrite ?Rplus_0_r.
    - apply Rle_lt_trans with (1001 / 1000 * (M * M * M) * (1001 / 1000) + eta); [apply Rplus_le_compat_r, Rmult_le_compat; lra|lra].
    - assert (u * ((M * M + 1002 / 1000 * (u * (M * M))) * M) <= u * (1001 / 1000 * (M * M * M))) by (apply Rmult_le_compat_l; lra). replace (M * (1002 / 1000 * (u * (M * M)))) with (1002 / 1000 * (u * (M * M * M))) by ring. lra. }
  destruct (P 0 0 1 1 2 2)%nat as (P1 & Q1); try lia. destruct (P 1 0 2 1 0 2)%nat as (P2 & Q2); try lia. destruct (P 2 0 0 1 1 2)%nat as (P3 & Q3); try lia. destruct (P 2 0 1 1 0 2)%nat as (P4 & Q4); try lia. destruct (P 1 0 0 1 2 2)%nat as (P5 & Q5); try lia. destruct (P 0 0 2 1 1 2)%nat as (P6 & Q6); try lia. clear P H L.
  set (C := M * M * M) in *. clearbody C. assert (UC0 : 0 < u * C) by (apply Rmult_lt_0_compat; lra). assert (UC : u * C <= / 1000000 * C) by (apply Rmult_le_compat_r; lra).
  set (y1 := f 0%nat 0%nat * f 1%nat 1%nat * f 2%nat 2%nat) in *. set (y2 := f 0%nat 1%nat * f 1%nat 2%nat * f 2%nat 0%nat) in *. set (y3 := f 0%nat 2%nat * f 1%nat 0%nat * f 2%nat 1%nat) in *. set (y4 := f 0%nat 2%nat * f 1%nat 1%nat * f 2%nat 0%nat) in *. set (y5 := f 0%nat 1%nat * f 1%nat 0%nat * f 2%nat 2%nat) in *. set (y6 := f 0%nat 0%nat * f 1%nat 2%nat * f 2%nat 1%nat) in *. clearbody y1 y2 y3 y4 y5 y6.
  assert (OV : forall z, 0 <= z <= 7 * C -> z * (1 + u) < Om) by (intros z Hz; apply Rle_lt_trans with (7 * C * (1001 / 1000)); [apply Rmult_le_compat; lra|lra]).
  assert (UZ : forall z k, z <= k * C -> u * z <= k * (u * C)) by (intros z k Hz; replace (k * (u * C)) with (u * (k * C)) by ring; apply Rmult_le_compat_l; lra).
  assert (STEP : forall (s p : fl) a y k e, near s a (e * (u * C)) -> near p y (201 / 100 * (u * C)) -> - (k * C) <= a <= k * C -> - C <= y <= C -> 0 <= k <= 5 -> 0 <= e <= 30 -> near (o_add s p) (a + y) ((e + 202 / 100 + (k + 1)) * (u * C)) /\ near (o_sub s p) (a - y) ((e + 202 / 100 + (k + 1)) * (u * C))).
  { intros s p a y k e Ns Np Ba By Bk Be. assert (KC : k * C <= 5 * C) by (apply Rmult_le_compat_r; lra). assert (KC0 : 0 <= k * C) by (apply Rmult_le_pos; lra). assert (EU : e * (u * C) <= 30 * (u * C)) by (apply Rmult_le_compat_r; lra). assert (EU0 : 0 <= e * (u * C)) by (apply Rmult_le_pos; lra).
    assert (Z := UZ ((k + 1) * C + e * (u * C) + 201 / 100 * (u * C)) (k + 1 + / 1000) ltac:(lra)). assert (O := OV ((k + 1) * C + e * (u * C) + 201 / 100 * (u * C)) ltac:(lra)).
    split; (eapply near_le; [first [apply (near_add prec emax _ _ _ _ _ _ ((k + 1) * C) Ns Np)|apply (near_sub prec emax _ _ _ _ _ _ ((k + 1) * C) Ns Np)]; [apply Rabs_le; lra|exact O]|lra]). }
  destruct (STEP _ _ _ _ 1 (201 / 100) P1 P2 ltac:(lra) Q2 ltac:(lra) ltac:(lra)) as (S2 & _). destruct (STEP _ _ _ _ 2 _ S2 P3 ltac:(lra) Q3 ltac:(lra) ltac:(lra)) as (S3 & _). destruct (STEP _ _ _ _ 3 _ S3 P4 ltac:(lra) Q4 ltac:(lra) ltac:(lra)) as (_ & S4). destruct (STEP _ _ _ _ 4 _ S4 P5 ltac:(lra) Q5 ltac:(lra) ltac:(lra)) as (_ & S5). destruct (STEP _ _ _ _ 5 _ S5 P6 ltac:(lra) Q6 ltac:(lra) ltac:(lra)) as (_ & S6).
  split; [eapply near_le; [exact S6|lra]|apply Rabs_le; lra].
Qed.
Lemma sign_near : forall r, near (if Nat.even r then cst 1 else cst (-1) : fl) (sgn r) 0 /\ Rabs (sgn r) <= 1.
Proof.
  intros r. assert (P1 : (1 <= 2 ^ prec)%Z) by (assert (0 < 2 ^ prec)%Z by (apply Z.pow_pos_nonneg; lia); lia). unfold sgn. destruct (F_cst prec emax 1 ltac:(lia)) as [F1 V1]. destruct (F_cst prec emax (-1) ltac:(lia)) as [F2 V2]. destruct (Nat.even r); (split; [|apply Rabs_le; lra]); [rewrite <- V1|rewrite <- V2]; apply near_exact; assumption.
Qed.
Lemma det_near_next : forall n, detnear (S (S (S n))) -> detnear (S (S (S (S n)))).
Proof.
  intros n IH m f Sm H NU NO. rewrite det_unfold. set (N := S (S (S n))) in *. destruct (u_small prec U20) as [U0 U1]. destruct (eta_small prec emax E20) as [E0 E1].
  assert (N3 : 3 <= INR N) by (replace 3 with (INR 3) by (cbn; lra); apply le_INR; unfold N; lia). assert (SN : INR (S N) = INR N + 1) by apply S_INR. assert (SQ : sq (S N) = sq N + 2 * INR N + 1) by (unfold sq; rewrite SN; ring). assert (SQ0 : 0 <= sq N) by (unfold sq; apply Rmult_le_pos; lra).
  assert (NUN : 100 * (sq N * u) <= 1) by (assert (sq N * u <= sq (S N) * u) by (apply Rmult_le_compat_r; lra); lra). assert (DL := dbound_le N). assert (D1 := dbound_ge1 N). rewrite (dbound_S N) in *. set (D := dbound N) in *.
  set (Y := M * D) in *. assert (DY : D <= Y) by (unfold Y; apply Rle_trans with (1 * D); [lra|apply Rmult_le_compat_r; lra]). assert (MY : M <= Y) by (unfold Y; apply Rle_trans with (M * 1); [lra|apply Rmult_le_compat_l; lra]). assert (NY : 4 * Y <= INR (S N) * Y) by (apply Rmult_le_compat_r; lra).
  assert (UY0 : 0 < u * Y) by (apply Rmult_lt_0_compat; lra). assert (UY : u * Y <= / 1000000 * Y) by (apply Rmult_le_compat_r; lra). assert (UY1 : u * 1 <= u * Y) by (apply Rmult_le_compat_l; lra).
  assert (UM0 : 0 < u * M) by (apply Rmult_lt_0_compat; lra). assert (UM : u * M <= / 1000000 * M) by (apply Rmult_le_compat_r; lra). assert (UM1 : u * 1 <= u * M) by (apply Rmult_le_compat_l; lra).
  set (E := sq N * (u * D)). assert (EB : 0 <= E <= / 100 * D). { unfold E. replace (sq N * (u * D)) with (sq N * u * D) by ring. assert (0 <= sq N * u) by (apply Rmult_le_pos; lra). split; [apply Rmult_le_pos; lra|apply Rmult_le_compat_r; lra]. }
  set (t := (sq N + 203 / 100) * (u * Y)). assert (T : 0 <= t <= Y / 50). { unfold t. replace ((sq N + 203 / 100) * (u * Y)) with (sq N * u * Y + 203 / 100 * (u * Y)) by ring. assert (0 <= sq N * u) by (apply Rmult_le_pos; lra). assert (sq N * u * Y <= / 100 * Y) by (apply Rmult_le_compat_r; lra). assert (0 <= sq N * u * Y) by (apply Rmult_le_pos; lra). lra. }
  set (y := fun r => sgn r * f r 0%nat * ldet N (fun i j => f (skip r i) (S j))). change (ldet (S N) f) with (Rsum (S N) y).
  set (g := fun r => o_mul (o_mul (if Nat.even r then cst 1 else cst (-1)) (mget m 0 r)) (m_det N (m_minor (S N) (S N) m r 0))).
  assert (TERM : forall r, (r < S N)%nat -> near (g r) (y r) t /\ Rabs (y r) <= Y).
  { intros r Hr. destruct (sign_near r) as (Ns & Bs). destruct (H r 0%nat Hr ltac:(lia)) as (Nm & Bm).
    destruct (IH (m_minor (S N) (S N) m r 0) (fun i j => f (skip r i) (S j))) as (Nd & Bd).
    - rewrite minor_mk by (auto; lia). replace (S N - 1)%nat with N by lia. apply mk_shape.
    - intros i j Hi Hj. rewrite minor_mk by (auto; lia). rewrite mk_get by lia. replace (skip 0 j) with (S j) by reflexivity. apply H; [unfold skip; destruct (Nat.ltb_spec i r); lia|lia].
    - exact NUN.
    - change (2 * D <= Om). lra.
    - fold D in Nd, Bd. fold E in Nd.
      assert (A : near (o_mul (if Nat.even r then cst 1 else cst (-1)) (mget m 0 r)) (sgn r * f r 0%nat) (1001 / 1000 * (u * M))) by (eapply near_le; [apply (near_mul prec emax _ _ _ _ _ _ 1 M Ns Nm Bs Bm)|]; rewrite ?Rplus_0_r; lra).
      assert (AB : Rabs (sgn r * f r 0%nat) <= M) by (rewrite Rabs_mult; apply Rle_trans with (1 * M); [apply Rmult_le_compat; try apply Rabs_pos; assumption|lra]).
      split; [|unfold y; rewrite Rabs_mult; apply Rmult_le_compat; try apply Rabs_pos; assumption].
      assert (W : (M + 1001 / 1000 * (u * M)) * (D + E) <= 1011 / 1000 * Y). { apply Rle_trans with (10001 / 10000 * M * (101 / 100 * D)); [apply Rmult_le_compat; lra|]. unfold Y. assert (0 <= M * D) by (apply Rmult_le_pos; lra). lra. }
      assert (W0 : 0 <= (M + 1001 / 1000 * (u * M)) * (D + E)) by (apply Rmult_le_pos; lra).
      unfold g, y. eapply near_le; [apply (near_mul prec emax _ _ _ _ _ _ M D A Nd AB Bd)|].
      + apply Rle_lt_trans with (1011 / 1000 * Y * (1001 / 1000) + eta); [apply Rplus_le_compat_r, Rmult_le_compat; lra|lra].
      + assert (X1 : M * E = sq N * (u * Y)) by (unfold E, Y; ring). assert (X2 : D * (1001 / 1000 * (u * M)) = 1001 / 1000 * (u * Y)) by (unfold Y; ring). assert (X3 : 1001 / 1000 * (u * M) * E <= 1001 / 1000 * (u * M) * (/ 100 * D)) by (apply Rmult_le_compat_l; lra). replace (1001 / 1000 * (u * M) * (/ 100 * D)) with (1001 / 100000 * (u * Y)) in X3 by (unfold Y; field).
        assert (X4 : u * ((M + 1001 / 1000 * (u * M)) * (D + E)) <= u * (1011 / 1000 * Y)) by (apply Rmult_le_compat_l; lra). unfold t. rewrite X1, X2. lra. }
  assert (NN : INR (S N) <= sq (S N)) by (unfold sq; rewrite <- (Rmult_1_r (INR (S N))) at 1; apply Rmult_le_compat_l; lra). assert (NUS : INR (S N) * u <= sq (S N) * u) by (apply Rmult_le_compat_r; lra).
  assert (RES := acc_near (S N) g y Y t ltac:(lra) T ltac:(lra) NO TERM (S N) (Nat.le_refl _)). split; [|apply (Rsum_le (S N)); intros i I; apply TERM, I].
  eapply near_le; [exact RES|]. replace (sq (S N) * (u * (INR (S N) * Y))) with (INR (S N) * (sq (S N) * (u * Y))) by ring. apply Rmult_le_compat_l; [lra|]. unfold t. rewrite SQ, SN. replace ((sq N + 203 / 100) * (u * Y) + 105 / 100 * ((INR N + 1) * (u * Y))) with ((sq N + 105 / 100 * INR N + 308 / 100) * (u * Y)) by field. apply Rmult_le_compat_r; lra.
Qed.
Lemma det_near : forall n, detnear (S n).
Proof. intros n. destruct n as [|[|n]]; [exact det_near1|exact det_near2|]. induction n as [|n IH]; [exact det_near3|exact (det_near_next n IH)]. Qed.
End FP.
