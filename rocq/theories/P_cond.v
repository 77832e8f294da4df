(** Well-conditioned systems are solved: they are not close to a singular matrix. *)
From Coq Require Import ZArith Reals List Bool Lra Lia Arith.
From Verif Require Import Ops M_scalar M_vec M_mat Inst_XR S_vec S_mat.
From Verif Require Import P_xr P_vec P_mat P_mat2 P_mat3.
Import ListNotations.
Local Open Scope R_scope.

Lemma Rsum_abs_le : forall n f k, (forall i, (i < n)%nat -> Rabs (f i) <= k) -> Rabs (Rsum n f) <= INR n * k.
Proof.
  induction n as [|n IH]; intros f k H.
  - simpl. rewrite Rabs_R0. lra.
  - cbn [Rsum]. rewrite S_INR. eapply Rle_trans; [apply Rabs_triang|].
    specialize (IH f k (fun i L => H i (Nat.lt_lt_succ_r _ _ L))). specialize (H n (Nat.lt_succ_diag_r n)). lra.
Qed.
Lemma max_abs : forall v : list R, v <> [] -> exists i, (i < length v)%nat /\ forall j, Rabs (nth j v 0) <= Rabs (nth i v 0).
Proof.
  induction v as [|x v IH]; intros H; [congruence|]. destruct v as [|y v].
  - exists 0%nat. split; [simpl; lia|]. intros [|[|j]]; simpl; rewrite ?Rabs_R0; try lra; apply Rabs_pos.
  - destruct IH as (i & Hi & M); [discriminate|].
    destruct (Rle_dec (Rabs x) (Rabs (nth i (y :: v) 0))) as [L|L].
    + exists (S i). split; [simpl in *; lia|]. intros [|j]; [exact L|apply M].
    + exists 0%nat. split; [simpl; lia|]. intros [|j]; [apply Rle_refl|]. cbn [nth]. specialize (M j).
      cbn [nth] in M. apply Rle_trans with (Rabs (nth i (y :: v) 0)); [exact M|]. lra.
Qed.
Lemma not_near_singular_eps : forall n A C K eps, 0 <= K -> 0 < eps -> rmul n n n C A = rid n ->
  (forall r c, (r < n)%nat -> (c < n)%nat -> Rabs (ent C r c) <= K) ->
  INR n * INR n * K * eps < 1 ->
  ~ exists B, is_mat n n B /\ singular n B /\
      forall r c, (r < n)%nat -> (c < n)%nat -> Rabs (ent A r c - ent B r c) < eps.
Proof.
  intros n A C K eps HK P15 CA BC Hn (B & _ & (v & Lv & Nv & Bv) & D).
  assert (Hv : v <> []). { intros ->. apply Nv. simpl in Lv. now subst n. }
  destruct (max_abs v Hv) as (i & Hi & M). rewrite Lv in Hi.
  set (m := Rabs (nth i v 0)) in *. assert (Pm : 0 <= m) by apply Rabs_pos.
  assert (E : nth i v 0 = Rsum n (fun r => ent C i r * Rsum n (fun c => (ent A r c - ent B r c) * nth c v 0))).
  { transitivity (Rsum n (fun c => ent (rid n) i c * nth c v 0)).
    - unfold rid. rewrite (Rsum_ext n _ (fun c => delta i c * nth c v 0)).
      + now rewrite Rsum_delta.
      + intros c Hc. now rewrite of_ent_get.
    - rewrite <- CA. unfold rmul.
      rewrite (Rsum_ext n _ (fun c => Rsum n (fun r => ent C i r * ent A r c * nth c v 0))).
      2:{ intros c Hc. rewrite of_ent_get by auto. now rewrite Rsum_mul_r. }
      rewrite Rsum_swap. apply Rsum_ext. intros r Hr.
      assert (Z : Rsum n (fun c => ent B r c * nth c v 0) = 0).
      { apply (f_equal (fun l => nth r l 0)) in Bv. rewrite rmulv_nth in Bv by auto. rewrite Bv. apply nth_repeat. }
      rewrite (Rsum_ext n (fun c => (ent A r c - ent B r c) * nth c v 0) (fun c => ent A r c * nth c v 0 - ent B r c * nth c v 0)) by (intros; ring).
      rewrite Rsum_sub, Z, Rminus_0_r, <- Rsum_mul_l. apply Rsum_ext. intros; ring. }
  assert (Hm : m <= INR n * (K * (INR n * (eps * m)))).
  { unfold m at 1. rewrite E. apply Rsum_abs_le. intros r Hr. rewrite Rabs_mult.
    apply Rmult_le_compat; auto using Rabs_pos. apply Rsum_abs_le. intros c Hc. rewrite Rabs_mult.
    apply Rmult_le_compat; auto using Rabs_pos. specialize (D r c Hr Hc). lra. }
  assert (m <> 0).
  { intros Z. apply Nv. rewrite <- Lv. apply nth_ext with 0 0; [now rewrite repeat_length|]. intros j Hj.
    rewrite nth_repeat. specialize (M j). rewrite Z in M. pose proof (Rabs_pos (nth j v 0)).
    destruct (Req_dec (nth j v 0) 0) as [|N]; auto. apply Rabs_no_R0 in N. lra. }
  assert (Q : INR n * (K * (INR n * (eps * m))) = (INR n * INR n * K * eps) * m) by ring.
  rewrite Q in Hm. nra.
Qed.
Lemma not_near_singular : forall n A C K, 0 <= K -> rmul n n n C A = rid n ->
  (forall r c, (r < n)%nat -> (c < n)%nat -> Rabs (ent C r c) <= K) ->
  INR n * INR n * K < 10 ^ 15 ->
  ~ exists B, is_mat n n B /\ singular n B /\
      forall r c, (r < n)%nat -> (c < n)%nat -> Rabs (ent A r c - ent B r c) < 1 / 10 ^ 15.
Proof.
  intros n A C K HK CA BC Hn. assert (P15 : 0 < 10 ^ 15) by (apply pow_lt; lra).
  apply (not_near_singular_eps n A C K); auto.
  - unfold Rdiv. rewrite Rmult_1_l. now apply Rinv_0_lt_compat.
  - unfold Rdiv. rewrite Rmult_1_l. apply Rmult_lt_reg_r with (10 ^ 15); auto. rewrite Rmult_assoc, Rinv_l by lra. lra.
Qed.
(** A matrix whose inverse has entries up to K is inverted if n*n*K < 10^15. *)
Lemma invert_complete : forall n A C K, is_mat n n A -> is_mat n n C -> inverse n A C -> 0 <= K ->
  (forall r c, (r < n)%nat -> (c < n)%nat -> Rabs (ent C r c) <= K) -> INR n * INR n * K < 10 ^ 15 ->
  m_invert n (mS A) = (true, mS C).
Proof.
  intros n A C K HA HC HI HK BC Hn. destruct (m_invert n (mS A)) as [[|] res] eqn:E.
  - destruct (invert_correct _ _ _ HA E) as (B & -> & HB & HI2). f_equal. apply (f_equal (map (map (@Some R)))).
    transitivity (rmul n n n (rmul n n n B A) C).
    + rewrite rmul_assoc. destruct HI as [HI _]. rewrite HI. symmetry. now apply rmul_id_r.
    + destruct HI2 as [_ HI2]. rewrite HI2. now apply rmul_id_l.
  - exfalso. destruct (invert_failure _ _ _ HA E) as (_ & F). destruct HI as [_ HI].
    exact (not_near_singular n A C K HK HI BC Hn F).
Qed.
Lemma solve_complete : forall n A C K b, is_mat n n A -> is_mat n n C -> inverse n A C -> 0 <= K -> length b = n ->
  (forall r c, (r < n)%nat -> (c < n)%nat -> Rabs (ent C r c) <= K) -> INR n * INR n * K < 10 ^ 15 ->
  lup_solve n (mS A) (vS b) = (true, m_mul_v n (mS C) (vS b)).
Proof.
  intros n A C K b HA HC HI HK Hb BC Hn. destruct (lup_solve n (mS A) (vS b)) as [[|] res] eqn:E.
  - destruct (solve_correct _ _ _ _ HA Hb E) as (x & -> & Lx & _ & U). f_equal.
    rewrite X_m_mul_v by auto. f_equal. symmetry. apply U; [apply rmulv_length|].
    rewrite <- rmulv_mul. destruct HI as [-> _]. now apply rmulv_id.
  - exfalso. destruct (solve_failure _ _ _ _ HA E) as (_ & F). destruct HI as [_ HI].
    exact (not_near_singular n A C K HK HI BC Hn F).
Qed.
