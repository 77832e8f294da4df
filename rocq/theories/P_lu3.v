(** Substitution in machine arithmetic: the residual of the solution (C108). *)
From Coq Require Import ZArith Reals List Bool Lra Lia Arith Permutation Psatz.
From Flocq Require Import Core BinarySingleNaN.
From Verif Require Import Ops M_scalar M_vec M_mat Inst_F S_mat S_rnd S_lu P_ieee P_mat P_mat2 P_lup P_cond P_fp P_lu P_lu2.
Import ListNotations.
Local Open Scope R_scope.

Fixpoint pos (l : list nat) (r : nat) : nat := match l with [] => 0%nat | a :: l' => if Nat.eqb a r then 0%nat else S (pos l' r) end.
Lemma pos_nth : forall l i, NoDup l -> (i < length l)%nat -> pos l (nth i l 0%nat) = i.
Proof.
  induction l as [|a l IH]; intros i HN Hi; simpl in Hi; [lia|]. inversion HN; subst. destruct i as [|i]; cbn [nth pos].
  - now rewrite Nat.eqb_refl.
  - destruct (Nat.eqb_spec a (nth i l 0%nat)) as [E|].
    + exfalso. apply H1. rewrite E. apply nth_In. lia.
    + rewrite IH; auto; lia.
Qed.
Lemma Rsum_pos : forall n f, (forall i, (i < n)%nat -> 0 <= f i) -> 0 <= Rsum n f.
Proof. induction n as [|n IH]; intros f H; simpl; [lra|]. assert (0 <= Rsum n f) by (apply IH; auto). specialize (H n ltac:(lia)). lra. Qed.
Lemma Rsum_abs_sum : forall n f, Rabs (Rsum n f) <= Rsum n (fun i => Rabs (f i)).
Proof. induction n as [|n IH]; intros f; simpl; [rewrite Rabs_R0; lra|]. eapply Rle_trans; [apply Rabs_triang|]. specialize (IH f). lra. Qed.
Lemma Rsum_le_n : forall n f k, (forall i, (i < n)%nat -> f i <= k) -> Rsum n f <= INR n * k.
Proof. induction n as [|n IH]; intros f k H; [simpl; lra|]. rewrite S_INR. cbn [Rsum]. specialize (IH f k ltac:(auto)). specialize (H n ltac:(lia)). lra. Qed.

Section FP.
Variables prec emax : Z.
Context {Hprec : Prec_gt_0 prec} {Hmax : Prec_lt_emax prec emax}.
Notation fl := (binary_float prec emax).
Notation u := (unit_roundoff prec).
Notation eta := (underflow_error prec emax).
Notation Om := (bpow radix2 emax).
Notation F := (generic_format radix2 (SpecFloat.fexp prec emax)).
Hypothesis U20 : (20 <= prec)%Z.
Hypothesis E64 : (64 <= emax)%Z.

Lemma sum_F : forall n lo (a b : nat -> fl), INR n * u <= / 100 -> let s := acc_sum n lo (fun j => o_mul (a j) (b j)) (cst 0) in is_finite s = true ->
  (forall j, (lo <= j < lo + n)%nat -> is_finite (a j) = true /\ is_finite (b j) = true)
  /\ Rabs (B2R s - Rsum n (fun t => B2R (a (lo + t)%nat) * B2R (b (lo + t)%nat)))
     <= 3 * INR n * u * Rsum n (fun t => Rabs (B2R (a (lo + t)%nat) * B2R (b (lo + t)%nat))) + 2 * INR n * eta.
Proof.
  destruct (u_tiny prec ltac:(assumption)) as (U0 & U1). assert (E0 := eta_pos prec emax).
  induction n as [|n IH]; intros lo a b Hn s Fs.
  - split; [intros; lia|]. unfold s, acc_sum. cbn [for_loop Rsum]. destruct (F_cst0 prec emax) as [_ ->]. rewrite Rminus_0_r, Rabs_R0. simpl. lra.
  - unfold s in *. rewrite acc_snoc in *. rewrite S_INR in *. assert (N0 := pos_INR n).
    destruct (add_inv prec emax _ _ Fs) as (Fp & Fm & V). destruct (mul_inv prec emax _ _ Fm) as (Fa & Fb & Vm).
    destruct (IH lo a b ltac:(nra) Fp) as (HF & HE). split.
    { intros j Hj. destruct (Nat.eq_dec j (lo + n)) as [->|]; [auto|apply HF; lia]. }
    cbn [Rsum]. set (z := acc_sum n lo (fun j => o_mul (a j) (b j)) (cst 0)) in *. set (p := o_mul (a (lo + n)%nat) (b (lo + n)%nat)) in *.
    assert (EA := err_add prec emax z p). rewrite <- V in EA. assert (EM := err_any prec emax (B2R (a (lo + n)%nat) * B2R (b (lo + n)%nat))). rewrite <- Vm in EM.
    set (w := B2R (a (lo + n)%nat) * B2R (b (lo + n)%nat)) in *. set (S := Rsum n (fun t => B2R (a (lo + t)%nat) * B2R (b (lo + t)%nat))) in *.
    assert (SQ := Rsum_abs_sum n (fun t => B2R (a (lo + t)%nat) * B2R (b (lo + t)%nat))). cbv beta in SQ. fold S in SQ.
    set (Q := Rsum n (fun t => Rabs (B2R (a (lo + t)%nat) * B2R (b (lo + t)%nat)))) in *.
    assert (Q0 : 0 <= Q) by (assert (0 <= Rabs S) by apply Rabs_pos; lra). assert (W0 := Rabs_pos w).
    set (e := Rabs (B2R z - S)) in *.
    assert (BZ : Rabs (B2R z) <= Q + e). { replace (B2R z) with (S + (B2R z - S)) by ring. eapply Rle_trans; [apply Rabs_triang|]. fold e. lra. }
    assert (BP : Rabs (B2R p) <= Rabs w * (1 + u) + eta). { replace (B2R p) with (w + (B2R p - w)) by ring. eapply Rle_trans; [apply Rabs_triang|]. lra. }
    assert (BS : Rabs (B2R z + B2R p) <= Q + e + Rabs w * (1 + u) + eta) by (eapply Rle_trans; [apply Rabs_triang|]; lra).
    replace (B2R (o_add z p) - (S + w)) with ((B2R (o_add z p) - (B2R z + B2R p)) + (B2R z - S) + (B2R p - w)) by ring.
    eapply Rle_trans; [apply Rabs_triang|]. eapply Rle_trans; [apply Rplus_le_compat_r, Rabs_triang|]. fold e.
    assert (EU : u * e <= / 10 * (u * Q) + / 10 * eta).
    { apply Rle_trans with (u * (3 * INR n * u * Q + 2 * INR n * eta)); [apply Rmult_le_compat_l; lra|]. assert (INR n * u <= / 100) by nra.
      replace (u * (3 * INR n * u * Q + 2 * INR n * eta)) with (3 * (INR n * u) * (u * Q) + 2 * (INR n * u) * eta) by ring. assert (0 <= u * Q) by (apply Rmult_le_pos; lra).
      assert (0 <= INR n * u) by (apply Rmult_le_pos; lra). nra. }
    assert (T1 : u * Rabs (B2R z + B2R p) <= u * Q + u * e + u * (Rabs w * (1 + u)) + u * eta) by nra.
    assert (T2 : u * (Rabs w * (1 + u)) <= 11 / 10 * (u * Rabs w)). { assert (0 <= u * Rabs w) by (apply Rmult_le_pos; lra). nra. }
    assert (T3 : u * eta <= / 10 * eta) by nra.
    assert (P1 : 0 <= u * Q) by (apply Rmult_le_pos; lra). assert (P2 : 0 <= u * Rabs w) by (apply Rmult_le_pos; lra).
    assert (P3 : 0 <= INR n * (u * Rabs w)) by (apply Rmult_le_pos; lra).
    replace (3 * (INR n + 1) * u * (Q + Rabs w)) with (3 * INR n * u * Q + 3 * (u * Q) + 3 * (INR n * (u * Rabs w)) + 3 * (u * Rabs w)) by ring. lra.
Qed.

Section Solve.
Variables (n : nat) (A : nat -> nat -> R) (M : R).
Hypothesis M0 : 0 < M.
Hypothesis M15 : 8 / 10 / 10 ^ 15 <= M.

(** The stored factors are the exact factors of a matrix close to A. *)
Lemma exact_of : forall k f pi, finv prec emax n A M k f pi -> (k <= n)%nat ->
  exists A', lupinv n k A' (fun i j => B2R (f i j)) pi /\ forall r c, (r < n)%nat -> (c < n)%nat -> Rabs (A r c - A' r c) <= 3 * 2 ^ n * u * M.
Proof.
  intros k f pi (H1 & H2 & H3 & H4 & H5) Hk. destruct (u_tiny prec ltac:(assumption)) as (U0 & U1).
  assert (Hl : length pi = n) by (rewrite (Permutation_length H1); apply seq_length).
  assert (HND : NoDup pi) by (apply (Permutation_NoDup (Permutation_sym H1)), seq_NoDup).
  set (E := fun i j => Rsum (Nat.min k (Nat.min i j)) (fun t => B2R (f i t) * B2R (f t j)) + (if Nat.ltb j (Nat.min i k) then B2R (f i j) * B2R (f j j) else B2R (f i j))).
  exists (fun r j => E (pos pi r) j). split; [split; [exact H1|split; [exact H3|]]|].
  - intros i j Hi Hj. rewrite pos_nth by (auto; lia). reflexivity.
  - intros r c Hr Hc. destruct (perm_onto n pi r H1 Hr) as (i & Hi & <-). rewrite pos_nth by (auto; lia). eapply Rle_trans; [apply (H5 i c Hi Hc)|].
    assert (UM : 0 < u * M) by (apply Rmult_lt_0_compat; lra).
    assert (PW : forall q, (q < n)%nat -> 1 <= 2 ^ q /\ 2 * 2 ^ q <= 2 ^ n).
    { intros q Hq. split; [apply pow_R1_Rle; lra|]. change (2 * 2 ^ q) with (2 ^ S q). apply Rle_pow; [lra|lia]. }
    destruct (Nat.ltb_spec c (Nat.min i k)).
    + destruct (PW c Hc). replace (3 * 2 ^ n * u * M) with (3 * 2 ^ n * (u * M)) by ring. apply Rmult_le_compat_r; lra.
    + destruct (PW (Nat.min i k) ltac:(lia)). replace (3 * 2 ^ n * u * M) with (3 * 2 ^ n * (u * M)) by ring. apply Rmult_le_compat_r; lra.
Qed.

Variables (lu : list (list fl)) (g : nat -> nat -> fl) (pi : list nat) (b : list fl) (x y : nat -> fl) (X : R).
Hypothesis NU : INR n ^ 2 * u <= / 100.
Hypothesis Hg : finv prec emax n A M n g pi.
Hypothesis Hy : forall i, (i < n)%nat -> y i = o_sub (vget b (nth i pi 0%nat)) (acc_sum i 0 (fun j => o_mul (g i j) (y j)) (cst 0)).
Hypothesis Hx : forall i, (i < n)%nat -> x i = o_div (o_sub (y i) (acc_sum (n - (i + 1)) (i + 1) (fun j => o_mul (g i j) (x j)) (cst 0))) (g i i).
Hypothesis FX : forall i, (i < n)%nat -> is_finite (x i) = true /\ Rabs (B2R (x i)) <= X.

Let N := INR n.
Let W := 2 ^ n / 2 * M.
Let G i j := B2R (g i j).

Lemma n_facts : forall i, (i < n)%nat -> 1 <= N /\ N * u <= / 100 /\ 0 <= X /\ 0 < W.
Proof.
  intros i Hi. assert (N1 : 1 <= N) by (unfold N; change 1 with (INR 1); apply le_INR; lia). destruct (u_tiny prec ltac:(assumption)) as (U0 & U1).
  split; [exact N1|]. split; [fold N in NU; simpl in NU; nra|]. split; [destruct (FX i Hi) as [_ H]; assert (P := Rabs_pos (B2R (x i))); lra|].
  unfold W. assert (P : 0 < 2 ^ n) by (apply pow_lt; lra). nra.
Qed.
Lemma upper_le : forall i j, (i < n)%nat -> (i <= j < n)%nat -> Rabs (G i j) <= W.
Proof.
  intros i j Hi Hj. destruct Hg as (_ & _ & _ & H & _). specialize (H i j Hi ltac:(lia)). replace (Nat.min i n) with i in H by lia.
  destruct (Nat.ltb_spec j i); [lia|]. unfold G, W. eapply Rle_trans; [exact H|]. apply Rmult_le_compat_r; [lra|].
  assert (2 ^ S i <= 2 ^ n) by (apply Rle_pow; [lra|lia]). simpl in *. lra.
Qed.
Lemma lower_le : forall i t, (i < n)%nat -> (t < n)%nat -> Rabs (lo_ G i t) <= 1.
Proof.
  intros i t Hi Ht. unfold lo_, delta. destruct Hg as (_ & _ & _ & H & _). specialize (H i t Hi Ht). replace (Nat.min i n) with i in H by lia.
  destruct (Nat.ltb_spec t i); [exact H|]. destruct (Nat.eqb i t); [rewrite Rabs_R1; lra|rewrite Rabs_R0; lra].
Qed.
Let rho := 9 * N ^ 2 * u * W * X + 2 * N * eta + 2 * W * eta.
Lemma back_step : forall i, (i < n)%nat -> is_finite (y i) = true /\ Rabs (B2R (y i) - Rsum n (fun j => up_ G i j * B2R (x j))) <= rho.
Proof.
  intros i Hi. destruct (n_facts i Hi) as (N1 & N2 & X0 & W0). destruct (u_tiny prec ltac:(assumption)) as (U0 & U1). assert (E0 := eta_pos prec emax).
  destruct (eta_tiny prec emax ltac:(assumption)) as (_ & E1). 
  destruct Hg as (_ & HF & HD & _ & _). destruct (FX i Hi) as [Fx Bx]. assert (Ex := Hx i Hi).
  set (t := acc_sum (n - (i + 1)) (i + 1) (fun j => o_mul (g i j) (x j)) (cst 0)) in *. set (d := o_sub (y i) t) in *.
  rewrite Ex in Fx. destruct (div_inv prec emax d (g i i) Fx (HF i i Hi Hi) (HD i Hi)) as (Fd & Vd). rewrite <- Ex in Vd.
  destruct (sub_inv prec emax (y i) t Fd) as (Fy & Ft & Vy). fold d in Vy.
  assert (LN : INR (n - (i + 1)) <= N) by (apply le_INR; lia). assert (L0 := pos_INR (n - (i + 1))).
  destruct (sum_F (n - (i + 1)) (i + 1) (g i) x ltac:(nra) Ft) as (_ & ES). fold t in ES.
  split; [exact Fy|]. rewrite up_mul by exact Hi. set (S := Rsum (n - (i + 1)) (fun j => G i (i + 1 + j)%nat * B2R (x (i + 1 + j)%nat))) in *.
  assert (QB : Rsum (n - (i + 1)) (fun t => Rabs (B2R (g i (i + 1 + t)%nat) * B2R (x (i + 1 + t)%nat))) <= N * (W * X)).
  { eapply Rle_trans; [apply Rsum_le_n with (k := W * X)|].
    - intros j Hj. rewrite Rabs_mult. apply Rmult_le_compat; auto using Rabs_pos; [apply (upper_le i (i + 1 + j)); lia|apply FX; lia].
    - apply Rmult_le_compat_r; [apply Rmult_le_pos; lra|exact LN]. }
  set (Q := Rsum _ (fun t => Rabs _)) in *. change (Rsum (n - (i + 1)) (fun t => B2R (g i (i + 1 + t)%nat) * B2R (x (i + 1 + t)%nat))) with S in ES.
  assert (Q0 : 0 <= Q) by (apply Rsum_pos; intros; apply Rabs_pos).
  assert (WX : 0 <= W * X) by (apply Rmult_le_pos; lra).
  assert (ES' : Rabs (B2R t - S) <= 3 * (N ^ 2 * (u * (W * X))) + 2 * N * eta).
  { eapply Rle_trans; [exact ES|]. apply Rplus_le_compat.
    - apply Rle_trans with (3 * N * u * (N * (W * X))); [|right; ring]. apply Rmult_le_compat; try lra; [apply Rmult_le_pos; lra|]. apply Rmult_le_compat_r; lra.
    - apply Rmult_le_compat_r; lra. }
  assert (EY := err_sub prec emax (y i) t). rewrite <- Vy in EY.
  assert (ED := err_any prec emax (B2R d / G i i)). unfold G in ED at 1. rewrite <- Vd in ED.
  assert (GW := upper_le i i Hi ltac:(lia)). assert (GN : G i i <> 0) by (apply HD; exact Hi). assert (G0 := Rabs_pos_lt _ GN).
  set (q := B2R d / G i i) in *. assert (DQ : B2R d = q * G i i) by (unfold q; field; exact GN).
  assert (QX : Rabs q <= 2 * (X + eta)).
  { assert (Rabs q <= Rabs (B2R (x i)) + (u * Rabs q + eta)). { replace q with (B2R (x i) - (B2R (x i) - q)) at 1 by ring. eapply Rle_trans; [apply Rabs_triang|]. rewrite Rabs_Ropp. lra. }
    assert (P := Rabs_pos q). nra. }
  assert (BD : Rabs (B2R d) <= 2 * (X + eta) * W). { rewrite DQ, Rabs_mult. apply Rmult_le_compat; auto using Rabs_pos. }
  assert (YT : Rabs (B2R (y i) - B2R t) <= 2 * Rabs (B2R d)).
  { assert (Rabs (B2R (y i) - B2R t) <= Rabs (B2R d) + u * Rabs (B2R (y i) - B2R t)). { replace (B2R (y i) - B2R t) with (B2R d - (B2R d - (B2R (y i) - B2R t))) at 1 by ring. eapply Rle_trans; [apply Rabs_triang|]. rewrite Rabs_Ropp. lra. }
    assert (P := Rabs_pos (B2R (y i) - B2R t)). nra. }
  assert (PX : Rabs (G i i * B2R (x i) - B2R d) <= (u * (2 * (X + eta)) + eta) * W).
  { rewrite DQ. replace (G i i * B2R (x i) - q * G i i) with ((B2R (x i) - q) * G i i) by ring. rewrite Rabs_mult. apply Rmult_le_compat; auto using Rabs_pos. nra. }
  replace (B2R (y i) - (G i i * B2R (x i) + S)) with (- (B2R d - (B2R (y i) - B2R t)) - (G i i * B2R (x i) - B2R d) + (B2R t - S)) by ring.
  eapply Rle_trans; [apply Rabs_triang|]. eapply Rle_trans; [apply Rplus_le_compat_r, Rabs_triang|]. rewrite !Rabs_Ropp.
  assert (T1 : u * Rabs (B2R (y i) - B2R t) <= 4 * (u * (W * X)) + 4 * (u * (W * eta))).
  { apply Rle_trans with (u * (2 * (2 * (X + eta) * W))); [apply Rmult_le_compat_l; lra|right; ring]. }
  assert (N11 : 1 <= N ^ 2) by (simpl; nra). assert (P1 : 0 <= u * (W * X)) by (apply Rmult_le_pos; lra).
  assert (P2 : u * (W * X) <= N ^ 2 * (u * (W * X))) by (rewrite <- (Rmult_1_l (u * (W * X))) at 1; apply Rmult_le_compat_r; lra).
  assert (WE : 0 < W * eta) by (apply Rmult_lt_0_compat; lra). assert (P3 : u * (W * eta) <= / 100 * (W * eta)) by (apply Rmult_le_compat_r; lra).
  unfold rho. lra.
Qed.
Lemma solve_residual : forall i, (i < n)%nat -> Rabs (Rsum n (fun j => A (nth i pi 0%nat) j * B2R (x j)) - B2R (vget b (nth i pi 0%nat))) <= residual_bound prec emax n M X.
Proof.
  intros i Hi. destruct (n_facts i Hi) as (N1 & N2 & X0 & W0). destruct (u_tiny prec ltac:(assumption)) as (U0 & U1). assert (E0 := eta_pos prec emax).
  destruct (exact_of n g pi Hg (le_n n)) as (A' & HI & HA). assert (HP := proj1 Hg).
  assert (WX : 0 <= W * X) by (apply Rmult_le_pos; lra). assert (uWX : 0 <= u * (W * X)) by (apply Rmult_le_pos; lra). assert (WE : 0 < W * eta) by (apply Rmult_lt_0_compat; lra).
  assert (NN : 1 <= N ^ 2) by (simpl; nra). assert (R0 : 0 <= rho). { unfold rho. assert (0 <= N ^ 2 * (u * (W * X))) by (apply Rmult_le_pos; lra). assert (0 <= N * eta) by (apply Rmult_le_pos; lra). lra. }
  assert (Hpi : (nth i pi 0 < n)%nat). { assert (In (nth i pi 0%nat) (seq 0 n)). { apply (Permutation_in _ HP), nth_In. rewrite (Permutation_length HP), seq_length. exact Hi. } apply in_seq in H. lia. }
  set (Y := N * (W * X) + rho). 
  assert (BY : forall t, (t < n)%nat -> is_finite (y t) = true /\ Rabs (B2R (y t)) <= Y).
  { intros t Ht. destruct (back_step t Ht) as (Fy & By). split; [exact Fy|]. set (z := Rsum n _) in By.
    assert (Rabs z <= N * (W * X)).
    { unfold z. apply Rsum_abs_le. intros j Hj. rewrite Rabs_mult. apply Rmult_le_compat; auto using Rabs_pos; [|apply FX; exact Hj]. unfold up_. destruct (Nat.leb_spec t j); [apply upper_le; lia|rewrite Rabs_R0; lra]. }
    replace (B2R (y t)) with (z + (B2R (y t) - z)) by ring. eapply Rle_trans; [apply Rabs_triang|]. unfold Y. lra. }
  assert (Y0 : 0 <= Y). { destruct (BY i Hi) as [_ H]. assert (P := Rabs_pos (B2R (y i))). lra. }
  (* forward substitution *)
  assert (FW : Rabs (B2R (y i) + Rsum i (fun j => G i j * B2R (y j)) - B2R (vget b (nth i pi 0%nat))) <= 5 * N ^ 2 * u * Y + 2 * N * eta).
  { destruct (BY i Hi) as [Fy By]. assert (Ey := Hy i Hi). set (bi := vget b (nth i pi 0%nat)) in *. rewrite Ey in Fy. destruct (sub_inv prec emax _ _ Fy) as (Fb & Fs & V). rewrite <- Ey in V.
    assert (LN : INR i <= N) by (apply le_INR; lia). assert (L0 := pos_INR i).
    destruct (sum_F i 0 (g i) y ltac:(nra) Fs) as (_ & ES). set (s := acc_sum i 0 _ _) in *. cbn [Nat.add] in ES.
    assert (EY := err_sub prec emax bi s). rewrite <- V in EY.
    assert (QB : Rsum i (fun t => Rabs (B2R (g i t) * B2R (y t))) <= N * Y).
    { eapply Rle_trans; [apply Rsum_le_n with (k := Y)|apply Rmult_le_compat_r; lra]. intros j Hj. rewrite Rabs_mult. rewrite <- (Rmult_1_l Y). apply Rmult_le_compat; auto using Rabs_pos; [|apply BY; lia].
      generalize (lower_le i j Hi ltac:(lia)). unfold lo_. destruct (Nat.ltb_spec j i); [auto|lia]. }
    set (Q := Rsum i (fun t => Rabs _)) in *. assert (Q0 : 0 <= Q) by (apply Rsum_pos; intros; apply Rabs_pos).
    change (Rsum i (fun t => B2R (g i t) * B2R (y t))) with (Rsum i (fun j => G i j * B2R (y j))) in ES. set (S := Rsum i (fun j => G i j * B2R (y j))) in *.
    assert (ES' : Rabs (B2R s - S) <= 3 * (N ^ 2 * (u * Y)) + 2 * N * eta).
    { eapply Rle_trans; [exact ES|]. apply Rplus_le_compat.
      - apply Rle_trans with (3 * N * u * (N * Y)); [|right; ring]. apply Rmult_le_compat; try lra; [apply Rmult_le_pos; lra|]. apply Rmult_le_compat_r; lra.
      - apply Rmult_le_compat_r; lra. }
    assert (BS : Rabs (B2R bi - B2R s) <= 2 * Rabs (B2R (y i))).
    { assert (Rabs (B2R bi - B2R s) <= Rabs (B2R (y i)) + u * Rabs (B2R bi - B2R s)). { replace (B2R bi - B2R s) with (B2R (y i) - (B2R (y i) - (B2R bi - B2R s))) at 1 by ring. eapply Rle_trans; [apply Rabs_triang|]. rewrite Rabs_Ropp. lra. }
      assert (P := Rabs_pos (B2R bi - B2R s)). nra. }
    assert (T1 : u * Rabs (B2R bi - B2R s) <= 2 * (u * Y)). { apply Rle_trans with (u * (2 * Y)); [apply Rmult_le_compat_l; lra|right; ring]. }
    assert (uY : 0 <= u * Y) by (apply Rmult_le_pos; lra). assert (P2 : u * Y <= N ^ 2 * (u * Y)) by (rewrite <- (Rmult_1_l (u * Y)) at 1; apply Rmult_le_compat_r; lra).
    replace (B2R (y i) + S - B2R bi) with ((B2R (y i) - (B2R bi - B2R s)) - (B2R s - S)) by ring. eapply Rle_trans; [apply Rabs_triang|]. rewrite Rabs_Ropp. lra. }
  (* the exact product with A' *)
  set (xr := fun j => B2R (x j)).
  assert (LM : Rsum n (fun j => A' (nth i pi 0%nat) j * xr j) = B2R (y i) + Rsum i (fun j => G i j * B2R (y j)) - Rsum n (fun t => lo_ G i t * (B2R (y t) - Rsum n (fun j => up_ G t j * xr j)))).
  { rewrite (lu_mul n A' G pi xr HI i Hi). rewrite <- (lo_mul n G (fun t => B2R (y t)) i Hi). rewrite <- Rsum_sub. apply Rsum_ext. intros t Ht. ring. }
  assert (LR : Rabs (Rsum n (fun t => lo_ G i t * (B2R (y t) - Rsum n (fun j => up_ G t j * xr j)))) <= N * rho).
  { apply Rsum_abs_le. intros t Ht. rewrite Rabs_mult, <- (Rmult_1_l rho). apply Rmult_le_compat; auto using Rabs_pos; [apply lower_le; auto|apply back_step; exact Ht]. }
  assert (DA : Rabs (Rsum n (fun j => (A (nth i pi 0%nat) j - A' (nth i pi 0%nat) j) * xr j)) <= N * (6 * (u * W) * X)).
  { apply Rsum_abs_le. intros j Hj. rewrite Rabs_mult. apply Rmult_le_compat; auto using Rabs_pos; [|apply FX; exact Hj]. eapply Rle_trans; [apply HA; auto|]. unfold W. right. field. }
  change (Rsum n (fun j => A (nth i pi 0%nat) j * B2R (x j))) with (Rsum n (fun j => A (nth i pi 0%nat) j * xr j)).
  replace (Rsum n (fun j => A (nth i pi 0%nat) j * xr j)) with (Rsum n (fun j => (A (nth i pi 0%nat) j - A' (nth i pi 0%nat) j) * xr j) + Rsum n (fun j => A' (nth i pi 0%nat) j * xr j)).
  2: { rewrite <- Rsum_add. apply Rsum_ext. intros; ring. }
  rewrite LM. set (a1 := Rsum n (fun j => (_ - _) * _)) in *. set (a2 := Rsum n (fun t => lo_ G i t * _)) in *. set (a3 := B2R (y i) + _) in *. set (bi := B2R (vget b _)) in *.
  replace (a1 + (a3 - a2) - bi) with (a1 - a2 + (a3 - bi)) by ring. eapply Rle_trans; [apply Rabs_triang|]. eapply Rle_trans; [apply Rplus_le_compat_r, Rabs_triang|]. rewrite Rabs_Ropp.
  (* collect *)
  clear - U0 U1 E0 N1 N2 X0 W0 WX uWX WE NN R0 FW LR DA NU M0.
  assert (NU' : N ^ 2 * u <= / 100) by exact NU. 
  set (w := u * (W * X)) in *. assert (C1 : 5 * N ^ 2 * u * Y <= 5 * (N ^ 3 * w) + / 20 * rho).
  { unfold Y. replace (5 * N ^ 2 * u * (N * (W * X) + rho)) with (5 * (N ^ 3 * w) + 5 * (N ^ 2 * u) * rho) by (unfold w; ring). apply Rplus_le_compat_l. apply Rmult_le_compat_r; lra. }
  assert (C2 : rho = 9 * (N ^ 2 * w) + 2 * (N * eta) + 2 * (W * eta)) by (unfold rho, w; ring).
  assert (N3 : N ^ 2 <= N ^ 3 /\ N <= N ^ 2 /\ N <= N ^ 3). { assert (N <= N ^ 2) by (simpl; nra). assert (N ^ 2 <= N ^ 3) by (replace (N ^ 3) with (N * N ^ 2) by ring; nra). lra. }
  assert (B1 : N ^ 2 * w <= N ^ 3 * w) by (apply Rmult_le_compat_r; lra). assert (B2 : N * w <= N ^ 3 * w) by (apply Rmult_le_compat_r; lra).
  assert (B3 : N * eta <= N ^ 2 * eta) by (apply Rmult_le_compat_r; lra). assert (B4 : W * eta <= N ^ 3 * (W * eta)) by (rewrite <- (Rmult_1_l (W * eta)) at 1; apply Rmult_le_compat_r; lra).
  assert (B5 : N * (W * eta) <= N ^ 3 * (W * eta)) by (apply Rmult_le_compat_r; lra).
  assert (C3 : N * rho = 9 * (N ^ 3 * w) + 2 * (N ^ 2 * eta) + 2 * (N * (W * eta))) by (rewrite C2; ring).
  assert (C4 : N * (6 * (u * W) * X) = 6 * (N * w)) by (unfold w; ring).
  assert (C5 : residual_bound prec emax n M X = 22 * (N ^ 3 * w) + 22 * (N ^ 3 * (W * eta)) + 5 * (N ^ 2 * eta)) by (unfold residual_bound; fold N; unfold w, W; field).
  rewrite C5. assert (0 <= N ^ 3 * w) by (apply Rmult_le_pos; [apply pow_le|]; lra). assert (0 <= N ^ 2 * eta) by (apply Rmult_le_pos; lra).
  assert (0 <= N ^ 3 * (W * eta)) by (apply Rmult_le_pos; [apply pow_le|]; lra). lra.
Qed.
End Solve.
End FP.
