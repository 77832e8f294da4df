(** The matrix operations in exact arithmetic compute the textbook operations. *)
From Coq Require Import ZArith Reals List Bool Lra Lia Arith.
From Flocq Require Import Core.
From Verif Require Import Ops M_scalar M_vec M_mat Inst_XR P_xr S_vec S_mat P_vec P_mat.
Import ListNotations.
Local Open Scope R_scope.

Notation mS := (map (map (@Some R))).

(** ** Sums *)
Lemma Rsum_ext : forall n f g, (forall i, (i < n)%nat -> f i = g i) -> Rsum n f = Rsum n g.
Proof.
  induction n as [|n IH]; intros f g H; simpl; auto. rewrite (IH f g), H; auto.
Qed.
Lemma Rsum_0 : forall n, Rsum n (fun _ => 0) = 0.
Proof. induction n; simpl; lra. Qed.
Lemma Rsum_zero : forall n f, (forall i, (i < n)%nat -> f i = 0) -> Rsum n f = 0.
Proof. intros. rewrite (Rsum_ext n f (fun _ => 0)); auto. apply Rsum_0. Qed.
Lemma Rsum_add : forall n f g, Rsum n (fun i => f i + g i) = Rsum n f + Rsum n g.
Proof. induction n as [|n IH]; intros; simpl; [lra|]. rewrite IH. lra. Qed.
Lemma Rsum_sub : forall n f g, Rsum n (fun i => f i - g i) = Rsum n f - Rsum n g.
Proof. induction n as [|n IH]; intros; simpl; [lra|]. rewrite IH. lra. Qed.
Lemma Rsum_opp : forall n f, Rsum n (fun i => - f i) = - Rsum n f.
Proof. induction n as [|n IH]; intros; simpl; [lra|]. rewrite IH. lra. Qed.
Lemma Rsum_mul_l : forall n f k, Rsum n (fun i => k * f i) = k * Rsum n f.
Proof. induction n as [|n IH]; intros; simpl; [lra|]. rewrite IH. lra. Qed.
Lemma Rsum_mul_r : forall n f k, Rsum n (fun i => f i * k) = Rsum n f * k.
Proof. induction n as [|n IH]; intros; simpl; [lra|]. rewrite IH. lra. Qed.
Lemma Rsum_swap : forall n m (f : nat -> nat -> R),
  Rsum n (fun i => Rsum m (fun j => f i j)) = Rsum m (fun j => Rsum n (fun i => f i j)).
Proof.
  induction n as [|n IH]; intros; simpl.
  - symmetry. apply Rsum_0.
  - rewrite IH, <- Rsum_add. reflexivity.
Qed.
Lemma Rsum_split : forall n m f, Rsum (n + m) f = Rsum n f + Rsum m (fun i => f (n + i)%nat).
Proof.
  induction m as [|m IH]; intros; simpl.
  - rewrite Nat.add_0_r. lra.
  - rewrite Nat.add_succ_r. simpl. rewrite IH. lra.
Qed.
Lemma Rsum_first : forall n f, Rsum (S n) f = f 0%nat + Rsum n (fun i => f (S i)).
Proof.
  intros. change (S n) with (1 + n)%nat. rewrite Rsum_split. simpl. lra.
Qed.
Lemma Rsum_delta : forall n k f, (k < n)%nat -> Rsum n (fun i => delta k i * f i) = f k.
Proof.
  unfold delta. induction n as [|n IH]; intros k f H; [lia|]. simpl.
  destruct (Nat.eqb_spec k n) as [->|].
  - rewrite Rsum_zero; [lra|]. intros i Hi. destruct (Nat.eqb_spec n i); [lia|lra].
  - rewrite IH by lia. lra.
Qed.
Lemma Rsum_delta_r : forall n k f, (k < n)%nat -> Rsum n (fun i => f i * delta i k) = f k.
Proof.
  intros. rewrite <- (Rsum_delta n k f) by auto. apply Rsum_ext. intros. unfold delta.
  rewrite Nat.eqb_sym. lra.
Qed.
Lemma delta_sym : forall i j, delta i j = delta j i.
Proof. intros. unfold delta. now rewrite Nat.eqb_sym. Qed.

(** ** Translation *)
Lemma mS_get : forall A c r, mget (mS A) c r = Some (ent A r c).
Proof.
  intros. unfold mget, mcol, vget, ent.
  replace (nth c (mS A) []) with (map (@Some R) (nth c A [])).
  - change (cst 0 : XR) with (Some 0). now rewrite map_nth.
  - change (@nil XR) with (map (@Some R) []). now rewrite map_nth.
Qed.
Lemma vS_get : forall v i, vget (vS v) i = Some (nth i v 0).
Proof. intros. unfold vget. change (cst 0 : XR) with (Some 0). now rewrite map_nth. Qed.
Lemma mS_shape : forall R C A, is_mat R C A -> is_mat R C (mS A).
Proof. intros. now apply map_shape. Qed.
Lemma mS_shape_inv : forall R C A, is_mat R C (mS A) -> is_mat R C A.
Proof.
  intros R C A [H1 H2]. rewrite map_length in H1. split; auto.
  rewrite Forall_map in H2. eapply Forall_impl; [|exact H2]. simpl. intros a. now rewrite map_length.
Qed.
Lemma mk_mS : forall nr nc f, mk_mat nr nc (fun c r => Some (f r c)) = mS (of_ent nr nc f).
Proof.
  intros. unfold mk_mat, of_ent. rewrite map_map. apply map_ext. intros. now rewrite map_map.
Qed.
Lemma of_ent_shape : forall {T} nr nc (f : nat -> nat -> T), is_mat nr nc (of_ent nr nc f).
Proof.
  intros. unfold of_ent. split.
  - now rewrite map_length, seq_length.
  - apply Forall_forall. intros col H. apply in_map_iff in H. destruct H as (c & <- & _).
    now rewrite map_length, seq_length.
Qed.
Lemma of_ent_get : forall nr nc f r c, (r < nr)%nat -> (c < nc)%nat -> ent (of_ent nr nc f) r c = f r c.
Proof.
  intros. unfold ent, of_ent. rewrite nth_map_seq by auto. now rewrite nth_map_seq.
Qed.
Lemma of_ent_ext : forall {T} nr nc (f g : nat -> nat -> T),
  (forall r c, (r < nr)%nat -> (c < nc)%nat -> f r c = g r c) -> of_ent nr nc f = of_ent nr nc g.
Proof.
  intros. unfold of_ent. apply map_ext_in. intros c Hc. apply in_seq in Hc.
  apply map_ext_in. intros r Hr. apply in_seq in Hr. apply H; lia.
Qed.
Lemma ent_ext : forall nr nc A B, is_mat nr nc A -> is_mat nr nc B ->
  (forall r c, (r < nr)%nat -> (c < nc)%nat -> ent A r c = ent B r c) -> A = B.
Proof.
  intros nr nc A B [HA HA'] [HB HB'] H. rewrite Forall_forall in *.
  apply nth_ext with (d := []) (d' := []); [lia|]. intros c Hc.
  apply nth_ext with (d := 0) (d' := 0).
  - rewrite HA', HB'; auto; apply nth_In; lia.
  - intros r Hr. apply H; [|lia]. rewrite HA' in Hr; auto. apply nth_In; lia.
Qed.
Lemma ent_eta : forall nr nc A, is_mat nr nc A -> A = of_ent nr nc (ent A).
Proof.
  intros. apply (ent_ext nr nc); auto using of_ent_shape. intros. now rewrite of_ent_get.
Qed.
Lemma mS_inj : forall A B, mS A = mS B -> A = B.
Proof.
  intros A. induction A as [|a A IH]; intros [|b B] H; try discriminate; auto.
  simpl in H. injection H as H1 H2. f_equal; auto. now apply map_Some_inj.
Qed.
Lemma acc_sum_S : forall n lo f i, acc_sum n lo (fun k => Some (f k)) (Some i) = Some (i + Rsum n (fun k => f (lo + k)%nat)).
Proof.
  induction n as [|n IH]; intros; unfold acc_sum.
  - simpl. f_equal. lra.
  - rewrite for_last. fold (acc_sum (T := XR) n lo (fun k => Some (f k)) (Some i)).
    rewrite IH. simpl. f_equal. lra.
Qed.
Lemma acc_sum_ext : forall {T} {o : ops T} n lo (f g : nat -> T) i,
  (forall k, (lo <= k < lo + n)%nat -> f k = g k) -> acc_sum n lo f i = acc_sum n lo g i.
Proof. intros. unfold acc_sum. apply for_ext. intros. now rewrite H. Qed.

Lemma X_m_identity : forall n, m_identity n n = mS (rid n).
Proof.
  intros. unfold m_identity, rid. rewrite <- mk_mS. apply mk_ext. intros.
  unfold delta. rewrite Nat.eqb_sym. now destruct (Nat.eqb r c).
Qed.
Lemma X_m_mul : forall nr n nc A B, m_mul nr n nc (mS A) (mS B) = mS (rmul nr n nc A B).
Proof.
  intros. unfold m_mul, rmul. rewrite <- mk_mS. apply mk_ext. intros.
  rewrite (acc_sum_ext _ _ _ (fun i => Some (ent A r i * ent B i c))).
  - change (cst 0) with (Some 0). rewrite acc_sum_S. f_equal. rewrite Rplus_0_l. reflexivity.
  - intros. now rewrite !mS_get.
Qed.
Lemma X_m_mul_v : forall n A v, m_mul_v n (mS A) (vS v) = vS (rmulv n n A v).
Proof.
  intros. unfold m_mul_v, rmulv. rewrite map_map. apply map_ext. intros r.
  rewrite (acc_sum_ext _ _ _ (fun c => Some (ent A r c * nth c v 0))).
  - change (cst 0) with (Some 0). rewrite acc_sum_S. f_equal. rewrite Rplus_0_l. reflexivity.
  - intros. now rewrite mS_get, vS_get.
Qed.
Lemma rdot_Rsum : forall n a b, length a = n -> length b = n ->
  rdot a b = Rsum n (fun i => nth i a 0 * nth i b 0).
Proof.
  induction n as [|n IH]; intros [|x a] [|y b] Ha Hb; try discriminate; auto.
  rewrite Rsum_first. simpl. rewrite (IH a b); auto.
Qed.
Lemma nth_rows : forall nr nc (A : list (list R)) c, is_mat nr nc A -> (c < nc)%nat -> length (nth c A []) = nr.
Proof.
  intros nr nc A c [H1 H2] Hc. rewrite Forall_forall in H2. apply H2, nth_In. lia.
Qed.
Lemma X_v_mul_m : forall n A v, is_mat n n A -> length v = n ->
  v_mul_m n n (vS v) (mS A) = Ret (vS (rvmul n n v A)).
Proof.
  intros n A v HA Hv. unfold v_mul_m, rvmul. rewrite Nat.leb_refl, Nat.sub_diag. simpl repeat.
  rewrite app_nil_r. f_equal. rewrite map_map. apply map_ext_in. intros c Hc. apply in_seq in Hc.
  assert (E : mcol (mS A) c = vS (nth c A [])).
  { unfold mcol. change (@nil XR) with (map (@Some R) []). now rewrite map_nth. }
  rewrite E, X_dot. f_equal. apply rdot_Rsum; auto. apply (nth_rows n n); auto. lia.
Qed.
Lemma nth_zip_lt : forall g a b i, length a = length b -> (i < length a)%nat ->
  nth i (zip g a b) 0 = g (nth i a 0) (nth i b 0).
Proof.
  intros g. induction a as [|x a IH]; intros [|y b] [|i] H Hi; simpl in *; try discriminate; try lia; auto.
  apply IH; lia.
Qed.
Lemma zip_ent : forall g nr (A B : list (list R)) nc, is_mat nr nc A -> is_mat nr nc B ->
  map2 (zip g) A B = of_ent nr nc (fun r c => g (ent A r c) (ent B r c)).
Proof.
  intros g nr A B nc [HA FA] [HB FB].
  assert (G : is_mat nr nc (map2 (zip g) A B) /\ forall r c, (r < nr)%nat -> (c < nc)%nat ->
     ent (map2 (zip g) A B) r c = g (ent A r c) (ent B r c)).
  { revert B nc HA HB FA FB. induction A as [|a A IH]; intros [|b B] nc HA HB FA FB; simpl in *; subst; try discriminate.
    - split; [repeat constructor|]. intros; lia.
    - inversion FA; inversion FB; subst. injection HB as HB.
      destruct (IH B (length A)) as [[I1 I2] I3]; auto. split.
      + split; [simpl; auto|]. constructor; auto. rewrite zip_length; auto.
      + intros r [|c] Hr Hc.
        * unfold ent. simpl. apply nth_zip_lt; lia.
        * unfold ent in *. simpl. apply I3; auto. lia. }
  destruct G as [G1 G2].
  apply (ent_ext nr nc); auto using of_ent_shape. intros. rewrite of_ent_get; auto.
Qed.
Lemma X_m_add : forall nr nc A B, is_mat nr nc A -> is_mat nr nc B ->
  m_add (mS A) (mS B) = mS (of_ent nr nc (fun r c => ent A r c + ent B r c)).
Proof.
  intros nr nc A B HA HB. rewrite <- (zip_ent Rplus); auto. unfold m_add. clear.
  revert B. induction A as [|a A IH]; intros [|b B]; simpl; auto. now rewrite IH, X_add.
Qed.
Lemma X_m_sub : forall nr nc A B, is_mat nr nc A -> is_mat nr nc B ->
  m_sub (mS A) (mS B) = mS (of_ent nr nc (fun r c => ent A r c - ent B r c)).
Proof.
  intros nr nc A B HA HB. rewrite <- (zip_ent Rminus); auto. unfold m_sub. clear.
  revert B. induction A as [|a A IH]; intros [|b B]; simpl; auto. now rewrite IH, X_sub.
Qed.
Lemma map_ent : forall (g : R -> R) nr (A : list (list R)) nc, is_mat nr nc A ->
  map (map g) A = of_ent nr nc (fun r c => g (ent A r c)).
Proof.
  intros g nr A nc H. apply (ent_ext nr nc); auto using of_ent_shape.
  - now apply map_shape.
  - intros r c Hr Hc. rewrite of_ent_get by auto. unfold ent.
    change (@nil R) with (map g []) at 1. rewrite map_nth.
    rewrite nth_indep with (d' := g 0).
    + now rewrite map_nth.
    + rewrite map_length. rewrite (nth_rows nr nc); auto.
Qed.
Lemma X_m_neg : forall nr nc A, is_mat nr nc A ->
  m_neg (mS A) = mS (of_ent nr nc (fun r c => - ent A r c)).
Proof.
  intros nr nc A H. rewrite <- (map_ent Ropp); auto. unfold m_neg. rewrite !map_map.
  apply map_ext. intros. now rewrite X_neg.
Qed.
Lemma X_m_scale : forall nr nc A k, is_mat nr nc A ->
  m_scale (mS A) (Some k) = mS (of_ent nr nc (fun r c => k * ent A r c)).
Proof.
  intros nr nc A k H. rewrite <- (map_ent (fun x => k * x)); auto. unfold m_scale. rewrite !map_map.
  apply map_ext. intros. now rewrite X_scale.
Qed.
Lemma X_m_div_s : forall nr nc A k, is_mat nr nc A -> k <> 0 ->
  m_div_s (mS A) (Some k) = mS (of_ent nr nc (fun r c => ent A r c / k)).
Proof.
  intros nr nc A k H Hk. rewrite <- (map_ent (fun x => x / k)); auto. unfold m_div_s. rewrite !map_map.
  apply map_ext. intros. rewrite X_div_s by auto. f_equal. unfold rscale. apply map_ext. intros; lra.
Qed.
Lemma X_transpose : forall n A, is_mat n n A -> m_transpose n (mS A) = mS (rtrans n n A).
Proof.
  intros n A H. rewrite transpose_mk by now apply mS_shape.
  unfold rtrans. rewrite <- mk_mS. apply mk_ext. intros. now rewrite mS_get.
Qed.

(** ** Laws *)
Lemma rmul_assoc : forall n1 n2 n3 n4 A B C,
  rmul n1 n3 n4 (rmul n1 n2 n3 A B) C = rmul n1 n2 n4 A (rmul n2 n3 n4 B C).
Proof.
  intros. unfold rmul at 1 3. apply of_ent_ext. intros r c Hr Hc.
  etransitivity.
  - apply Rsum_ext. intros i Hi. unfold rmul. rewrite of_ent_get by auto. rewrite <- Rsum_mul_r. reflexivity.
  - rewrite Rsum_swap. apply Rsum_ext. intros j Hj. unfold rmul. rewrite of_ent_get by auto.
    rewrite <- Rsum_mul_l. apply Rsum_ext. intros. ring.
Qed.
Lemma rmul_id_l : forall n nc A, is_mat n nc A -> rmul n n nc (rid n) A = A.
Proof.
  intros n nc A H. rewrite (ent_eta n nc A) at 2 by auto. apply of_ent_ext. intros r c Hr Hc.
  rewrite <- (Rsum_delta n r (fun i => ent A i c)) by auto. apply Rsum_ext. intros i Hi.
  unfold rid. now rewrite of_ent_get.
Qed.
Lemma rmul_id_r : forall nr n A, is_mat nr n A -> rmul nr n n A (rid n) = A.
Proof.
  intros n nc A H. rewrite (ent_eta n nc A) at 2 by auto. apply of_ent_ext. intros r c Hr Hc.
  rewrite <- (Rsum_delta_r nc c (fun i => ent A r i)) by auto. apply Rsum_ext. intros i Hi.
  unfold rid. now rewrite of_ent_get.
Qed.
Lemma rmulv_length : forall nr nc A v, length (rmulv nr nc A v) = nr.
Proof. intros. unfold rmulv. now rewrite map_length, seq_length. Qed.
Lemma rvmul_length : forall nr nc A v, length (rvmul nr nc A v) = nc.
Proof. intros. unfold rvmul. now rewrite map_length, seq_length. Qed.
Lemma rmulv_nth : forall nr nc A v i, (i < nr)%nat ->
  nth i (rmulv nr nc A v) 0 = Rsum nc (fun c => ent A i c * nth c v 0).
Proof. intros. unfold rmulv. now rewrite nth_map_seq. Qed.
Lemma rvmul_nth : forall nr nc A v i, (i < nc)%nat ->
  nth i (rvmul nr nc v A) 0 = Rsum nr (fun r => nth r v 0 * ent A r i).
Proof. intros. unfold rvmul. now rewrite nth_map_seq. Qed.
Lemma rmulv_mul : forall n1 n2 n3 A B v, rmulv n1 n3 (rmul n1 n2 n3 A B) v = rmulv n1 n2 A (rmulv n2 n3 B v).
Proof.
  intros. unfold rmulv at 1 2. apply map_ext_in. intros r Hr. apply in_seq in Hr.
  etransitivity.
  - apply Rsum_ext. intros i Hi. unfold rmul. rewrite of_ent_get by lia. rewrite <- Rsum_mul_r. reflexivity.
  - rewrite Rsum_swap. apply Rsum_ext. intros j Hj. rewrite rmulv_nth by auto.
    rewrite <- Rsum_mul_l. apply Rsum_ext. intros. ring.
Qed.
Lemma rvmul_mul : forall n1 n2 n3 A B v, rvmul n1 n3 v (rmul n1 n2 n3 A B) = rvmul n2 n3 (rvmul n1 n2 v A) B.
Proof.
  intros. unfold rvmul at 1 2. apply map_ext_in. intros r Hr. apply in_seq in Hr.
  etransitivity.
  - apply Rsum_ext. intros i Hi. unfold rmul. rewrite of_ent_get by lia. rewrite <- Rsum_mul_l. reflexivity.
  - rewrite Rsum_swap. apply Rsum_ext. intros j Hj. rewrite rvmul_nth by auto.
    rewrite <- Rsum_mul_r. apply Rsum_ext. intros. ring.
Qed.
Lemma list_eta : forall n (v : list R), length v = n -> v = map (fun i => nth i v 0) (seq 0 n).
Proof.
  intros n v H. apply nth_ext with (d := 0) (d' := 0).
  - now rewrite map_length, seq_length.
  - intros i Hi. rewrite nth_map_seq; auto. lia.
Qed.
Lemma rmulv_id : forall n v, length v = n -> rmulv n n (rid n) v = v.
Proof.
  intros n v H. rewrite (list_eta n v) at 2 by auto. apply map_ext_in. intros r Hr. apply in_seq in Hr.
  rewrite <- (Rsum_delta n r (fun i => nth i v 0)) by lia. apply Rsum_ext. intros i Hi.
  unfold rid. rewrite of_ent_get by lia. reflexivity.
Qed.
Lemma rvmul_id : forall n v, length v = n -> rvmul n n v (rid n) = v.
Proof.
  intros n v H. rewrite (list_eta n v) at 2 by auto. apply map_ext_in. intros r Hr. apply in_seq in Hr.
  rewrite <- (Rsum_delta_r n r (fun i => nth i v 0)) by lia. apply Rsum_ext. intros i Hi.
  unfold rid. rewrite of_ent_get by lia. reflexivity.
Qed.
Lemma rtrans_mul : forall n1 n2 n3 A B,
  rtrans n1 n3 (rmul n1 n2 n3 A B) = rmul n3 n2 n1 (rtrans n2 n3 B) (rtrans n1 n2 A).
Proof.
  intros. unfold rtrans at 1. unfold rmul at 2. apply of_ent_ext. intros r c Hr Hc.
  unfold rmul. rewrite of_ent_get by auto. apply Rsum_ext. intros i Hi. unfold rtrans.
  rewrite !of_ent_get by auto. ring.
Qed.
