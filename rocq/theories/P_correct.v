(** correct() with one or more decimals. *)
From Coq Require Import ZArith Reals List Lia Lra Bool.
From Flocq Require Import Core.
From Verif Require Import Ops M_scalar Inst_XR P_xr P_scalar_xr.
Local Open Scope R_scope.

Lemma X_correct_more : forall v decimals eps, (1 <= decimals < 32)%Z -> eps <= / 4 -> Rabs (v * IZR (2 ^ decimals)) < i64 - 1 ->
  (Rabs v < eps -> Rabs (v * IZR (2 ^ decimals)) < / 2 -> sc_correct (Some v) decimals (Some eps) = Ret (Some 0))
  /\ (eps <= Rabs v \/ / 2 <= Rabs (v * IZR (2 ^ decimals)) -> sc_correct (Some v) decimals (Some eps) = Ret (Some v)).
Proof.
  intros v d eps D E H. set (m := IZR (2 ^ d)) in *. 
  assert (M : 2 <= m) by (apply IZR_le; change 2%Z with (2 ^ 1)%Z at 1; apply Z.pow_le_mono_r; lia).
  destruct (X_round_spec (v * m) H) as (z & Ez & A & B & TIE).
  assert (V : sc_correct (Some v) d (Some eps) = Ret (Some (if Rlt_bool (Rabs (v - IZR z)) eps then IZR z / m else v))).
  { unfold sc_correct. rewrite (proj2 (Z.ltb_lt d 32)) by lia. cbn [o_of_Z o_mul XRops X2]. fold m. rewrite Ez. cbn [bind o_sub XRops X2]. rewrite X_abs. cbn [o_lt XRops].
    rewrite X_div by lra. cbn. now destruct (Rlt_bool (Rabs (v - IZR z)) eps). }
  rewrite V. assert (B0 := B 0%Z). rewrite Rminus_0_r in B0.
  assert (BS : forall x y, Rabs (x - y) <= / 2 -> Rabs y - / 2 <= Rabs x <= Rabs y + / 2) by (intros x y; unfold Rabs; repeat destruct Rcase_abs; lra).
  split.
  - intros L1 L2. assert (z = 0)%Z.
    { assert (Rabs (v * m - IZR z) < / 2) by lra. assert (-1 < IZR z < 1) by (revert L2 H0; unfold Rabs; repeat destruct Rcase_abs; lra).
      assert (IZR (-1) < IZR z) by lra. apply lt_IZR in H2. destruct H1 as [_ H1]. apply (lt_IZR _ 1) in H1. lia. }
    subst z. rewrite Rminus_0_r, Rlt_bool_true by auto. do 2 f_equal. field. lra.
  - intros C. rewrite Rlt_bool_false; [reflexivity|].
    destruct (Z.eq_dec z 0) as [->|NZ].
    + rewrite Rminus_0_r. destruct C as [C|C]; auto. rewrite Rminus_0_r in A.
      exfalso. assert (W : v * m = / 2 \/ v * m = - / 2) by (revert A C; unfold Rabs; destruct Rcase_abs; lra).
      destruct W as [W|W]; [assert (T := TIE 1%Z)|assert (T := TIE (-1)%Z)]; rewrite W in T; revert T; rewrite Rminus_0_r, Rabs_R0; unfold Rabs; repeat destruct Rcase_abs; lra.
    + assert (Z1 : 1 <= Rabs (IZR z)) by (rewrite <- abs_IZR; apply IZR_le; lia).
      destruct (BS _ _ A) as [_ U]. assert (N := Rabs_pos v). rewrite Rabs_mult, (Rabs_pos_eq m) in U by lra.
      assert (2 * Rabs v <= Rabs v * m) by nra. assert (T := Rabs_triang_inv (IZR z) v). rewrite <- Rabs_Ropp. replace (- (v - IZR z)) with (IZR z - v) by ring. lra.
Qed.
