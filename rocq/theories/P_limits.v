(** Proofs about limits and successors. *)
From Coq Require Import ZArith Reals List Lia Lra Bool.
From Flocq Require Import Core BinarySingleNaN.
From Verif Require Import Ops M_scalar M_vec M_limits Inst_F S_order S_rnd P_ord P_ieee P_vec2 P_fp4.
Import ListNotations.
Local Open Scope R_scope.

Section FP.
Variables prec emax : Z.
Context {Hprec : Prec_gt_0 prec} {Hmax : Prec_lt_emax prec emax}.
Notation fl := (binary_float prec emax).
Notation fexp := (SpecFloat.fexp prec emax).

Lemma lt_fin : forall x y : fl, is_finite x = true -> is_finite y = true -> (o_lt x y = true <-> B2R x < B2R y).
Proof.
  intros x y Fx Fy. cbn [o_lt Fops]. rewrite (Flt prec emax) by auto. destruct (Rlt_bool_spec (B2R x) (B2R y)); split; auto; try lra; discriminate.
Qed.
Lemma max_value : is_finite (numeric_max prec emax) = true /\ B2R (numeric_max prec emax) = bpow radix2 emax - bpow radix2 (emax - prec).
Proof.
  unfold numeric_max. assert (P := Hp prec). assert (Q := Hm prec emax). split; [reflexivity|].
  unfold Bmax_float. rewrite B2R_SF2B. unfold SF2R. unfold F2R. cbn [Fnum Fexp cond_Zopp].
  rewrite Pos2Z.inj_sub, shift_pos_correct.
  - rewrite Z.mul_1_r, Z.pow_pos_fold, Z2Pos.id by lia. rewrite minus_IZR.
    rewrite (IZR_Zpower radix2) by lia. rewrite Rmult_minus_distr_r, <- bpow_plus.
    replace (prec + (emax - prec))%Z with emax by lia. ring.
  - change (1 < Zpower.shift_pos (Z.to_pos prec) 1)%positive.
    change (Z.pos 1 < Z.pos (Zpower.shift_pos (Z.to_pos prec) 1))%Z. rewrite shift_pos_correct. rewrite Z.mul_1_r, Z.pow_pos_fold, Z2Pos.id by lia.
    change (Z.pos 1) with (2 ^ 0)%Z. apply Z.pow_lt_mono_r; lia.
Qed.
Lemma le_max : forall x : fl, is_finite x = true -> o_le x (numeric_max prec emax) = true /\ o_le (Bopp (numeric_max prec emax)) x = true.
Proof.
  intros x Fx. destruct max_value as [F V]. assert (B := abs_B2R_le_emax_minus_prec _ _ _ x). rewrite <- V in B. apply Rabs_le_inv in B.
  split; apply (le_fin prec emax); auto; try now rewrite is_finite_Bopp.
  - lra.
  - rewrite B2R_Bopp. lra.
Qed.

Lemma succ_finite : forall x : fl, is_finite x = true ->
  (is_finite (nextgreater prec emax x) = true /\ B2R (nextgreater prec emax x) = succ radix2 fexp (B2R x))
  \/ (nextgreater prec emax x = B754_infinity false /\ bpow radix2 emax <= succ radix2 fexp (B2R x)).
Proof.
  intros x Fx. unfold nextgreater. assert (C := Bsucc_correct prec emax _ _ x Fx).
  destruct (Rlt_bool_spec (succ radix2 fexp (B2R x)) (bpow radix2 emax)) as [L|L].
  - left. destruct C as (A & B & _). split; auto.
  - right. split; auto. destruct (Bsucc x) as [|[|]| |]; try discriminate. reflexivity.
Qed.
Lemma next_nan : forall x : fl, x <> B754_nan -> nextgreater prec emax x <> B754_nan.
Proof.
  intros x N E. destruct (is_finite x) eqn:F.
  - destruct (succ_finite x F) as [[A _]|[A _]]; rewrite E in A; discriminate.
  - destruct x as [|[|]| |]; try discriminate. apply N. reflexivity.
Qed.
Lemma next_least : forall x y : fl, o_lt x y = true -> o_le (nextgreater prec emax x) y = true.
Proof.
  intros x y H. destruct (is_finite x) eqn:Fx, (is_finite y) eqn:Fy.
  - apply lt_fin in H; auto. assert (V := @FLT_exp_valid (3 - emax - prec) prec Hprec).
    assert (S : succ radix2 fexp (B2R x) <= B2R y).
    { apply succ_le_lt; auto; try apply generic_format_B2R. }
    destruct (succ_finite x Fx) as [[A B]|[A B]].
    + apply (le_fin prec emax); auto. now rewrite B.
    + exfalso. assert (L := abs_B2R_lt_emax _ _ y). apply Rabs_lt_inv in L. lra.
  - destruct y as [|[|]| |]; try discriminate.
    + exfalso. destruct x as [[|]|[|]| |[|]]; discriminate.
    + destruct (nextgreater prec emax x) as [|[|]| |] eqn:E; try reflexivity. exfalso. apply (next_nan x); auto. intros ->. discriminate.
    + exfalso. destruct x as [[|]|[|]| |[|]]; discriminate.
  - destruct x as [|[|]| |]; try discriminate.
    + change (nextgreater prec emax (B754_infinity true)) with (Bopp (numeric_max prec emax)). now apply le_max.
    + exfalso. destruct y as [[|]|[|]| |[|]]; discriminate.
  - destruct x as [|[|]| |]; try discriminate; destruct y as [|[|]| |]; try discriminate. reflexivity.
Qed.
Lemma zero_or : forall x : fl, (exists s, x = B754_zero s) \/ ~ (exists s, x = B754_zero s).
Proof. intros [s| | |]; [left; now exists s|..]; right; intros [t E]; discriminate. Qed.
Lemma next_greater : forall x : fl, o_lt x (B754_infinity false) = true -> o_lt x (nextgreater prec emax x) = true.
Proof.
  intros x H. destruct (is_finite x) eqn:Fx.
  - destruct (zero_or x) as [[s ->]|N]; [reflexivity|]. destruct (succ_finite x Fx) as [[A B]|[A B]].
    + apply lt_fin; auto. rewrite B. destruct (Req_dec (B2R x) 0) as [Z|Z].
      * exfalso. apply N. revert Z Fx. clear. destruct x as [s|s| |s m e h]; try discriminate; [now exists s|]. intros Z. apply eq_0_F2R in Z. destruct s; discriminate.
      * now apply succ_gt_id.
    + rewrite A. exact H.
  - destruct x as [|[|]| |]; try discriminate. change (nextgreater prec emax (B754_infinity true)) with (Bopp (numeric_max prec emax)). reflexivity.
Qed.
Lemma min_value : (3 <= emax)%Z -> is_finite (numeric_min prec emax) = true /\ B2R (numeric_min prec emax) = bpow radix2 (2 - emax).
Proof.
  intros E. assert (P := Hp prec). assert (Q := Hm prec emax). destruct (F_cst1 prec emax) as [F1 V1].
  assert (C := Bldexp_correct prec emax _ _ mode_NE (cst 1) (2 - emax)). rewrite V1, Rmult_1_l, F1 in C. unfold numeric_min.
  rewrite round_generic in C; [|auto with typeclass_instances|].
  - rewrite Rlt_bool_true in C; [destruct C as (A & B & _); auto|]. rewrite Rabs_pos_eq by apply bpow_ge_0. apply bpow_lt. lia.
  - apply generic_format_bpow. unfold SpecFloat.fexp, SpecFloat.emin. lia.
Qed.
End FP.
Section Vec.
Variables prec emax : Z.
Context {Hprec : Prec_gt_0 prec} {Hmax : Prec_lt_emax prec emax}.
Notation fl := (binary_float prec emax).
Lemma max_vec : forall (n : nat) (v : list fl), length v = n -> all_finite v ->
  all_finite (v_max_value (numeric_max prec emax) n) /\ Forall2 (fun x m => o_le x m = true) v (v_max_value (numeric_max prec emax) n).
Proof.
  unfold v_max_value, v_fill. intros n v <- F. split.
  - apply Forall_forall. intros x H. apply repeat_spec in H. subst. apply max_value.
  - induction F as [|x v Fx F IH]; simpl; constructor; auto. now apply le_max.
Qed.
Lemma min_vec : (3 <= emax)%Z -> forall n : nat,
  Forall (fun m : fl => is_finite m = true /\ B2R m = bpow radix2 (2 - emax)) (v_min_value (numeric_min prec emax) n).
Proof. intros E n. apply Forall_forall. intros x H. apply repeat_spec in H. subst. now apply min_value. Qed.
Lemma min_not_least : (3 <= emax)%Z -> forall n : nat, (0 < n)%nat ->
  exists v : list fl, length v = n /\ all_finite v /\ Forall2 (fun m x => o_lt x m = true) (v_min_value (numeric_min prec emax) n) v.
Proof.
  intros E n _. exists (repeat (B754_zero false) n). split; [apply repeat_length|]. split.
  - apply Forall_forall. intros x H. apply repeat_spec in H. now subst.
  - unfold v_min_value, v_fill. induction n; simpl; constructor; auto. destruct (min_value prec emax E) as [F V].
    apply (lt_fin prec emax); auto. rewrite V. apply bpow_gt_0.
Qed.
End Vec.
Lemma int_limits : forall (w : Z) (n : nat) (v : list Z), (0 < w)%Z -> length v = n ->
  Forall (fun x => - 2 ^ (w - 1) <= x < 2 ^ (w - 1))%Z v ->
  Forall2 Z.le (v_min_value (numeric_min_int w) n) v /\ Forall2 Z.le v (v_max_value (numeric_max_int w) n)
  /\ Forall (fun x => - 2 ^ (w - 1) <= x < 2 ^ (w - 1))%Z (v_min_value (numeric_min_int w) n ++ v_max_value (numeric_max_int w) n).
Proof.
  unfold v_min_value, v_max_value, v_fill, numeric_min_int, numeric_max_int. intros w n v W <- F.
  assert (P : (0 < 2 ^ (w - 1))%Z) by (apply Z.pow_pos_nonneg; lia). split; [|split].
  - induction F; simpl; constructor; auto; lia.
  - induction F; simpl; constructor; auto; lia.
  - apply Forall_app. split; apply Forall_forall; intros x H; apply repeat_spec in H; subst; lia.
Qed.
Lemma get_vertices_app : forall (T : Type) (range out : list (list T)), v_get_vertices range out = out ++ range.
Proof. induction range as [|v r IH]; intros; simpl; [now rewrite app_nil_r|]. rewrite IH, <- app_assoc. reflexivity. Qed.
