(** IEEE behaviour of the integer part functions. *)
From Coq Require Import ZArith Reals List Bool Lra Lia.
From Flocq Require Import Core BinarySingleNaN.
From Verif Require Import Ops M_scalar Inst_F P_ord.
Local Open Scope R_scope.

Section F.
Variables prec emax : Z.
Context {Hprec : Prec_gt_0 prec} {Hmax : Prec_lt_emax prec emax}.
Notation fl := (binary_float prec emax).
Notation fexp := (SpecFloat.fexp prec emax).
Notation F := (generic_format radix2 fexp).
Notation rnd := (round radix2 fexp ZnearestE).
#[local] Existing Instance fexp_correct.

Lemma Hp : (0 < prec)%Z. Proof. exact Hprec. Qed.
Lemma Hm : (prec < emax)%Z. Proof. exact Hmax. Qed.

Lemma fl_format : forall (z e : Z), (Z.abs z <= 2 ^ prec)%Z -> (3 - emax - prec <= e)%Z ->
  F (IZR z * bpow radix2 e).
Proof.
  intros z e Hz He. generalize Hp Hm. intros P M.
  destruct (Z.eq_dec (Z.abs z) (2 ^ prec)) as [E|N].
  - assert (G : F (bpow radix2 (prec + e))).
    { apply generic_format_bpow. unfold SpecFloat.fexp, SpecFloat.emin. lia. }
    rewrite bpow_plus in G.
    assert (B : bpow radix2 prec = IZR (2 ^ prec)) by (rewrite <- (IZR_Zpower radix2) by lia; reflexivity).
    rewrite B in G. rewrite <- E in G.
    destruct (Z.abs_eq_or_opp z) as [E'|E']; rewrite E' in G; auto.
    rewrite opp_IZR in G. replace (IZR z * bpow radix2 e) with (- (- IZR z * bpow radix2 e)) by ring.
    now apply generic_format_opp.
  - apply generic_format_FLT. exists (Float radix2 z e); simpl; auto; try lia.
Qed.

Lemma IZR_format : forall z, (Z.abs z <= 2 ^ prec)%Z -> F (IZR z).
Proof.
  intros z Hz. generalize (fl_format z 0 Hz). change (bpow radix2 0) with 1. rewrite Rmult_1_r. intros H; apply H.
  generalize Hp Hm. lia.
Qed.

Lemma F_of_Z_exact : forall z, F (IZR z) -> Rabs (IZR z) < bpow radix2 emax ->
  is_finite (F_of_Z prec emax Hprec Hmax z) = true
  /\ B2R (F_of_Z prec emax Hprec Hmax z) = IZR z.
Proof.
  intros z Hf Hz. unfold F_of_Z.
  generalize (binary_normalize_correct prec emax Hprec Hmax mode_NE z 0 false). cbv zeta.
  replace (F2R {| Fnum := z; Fexp := 0 |}) with (IZR z) by (unfold F2R; simpl; ring).
  rewrite round_generic by (auto with typeclass_instances).
  rewrite Rlt_bool_true by auto. tauto.
Qed.

(** A number of the format is an integer or smaller than 2^(prec-1). *)
Lemma format_int_or_small : forall x, F x ->
  (exists z, x = IZR z) \/ Rabs x < bpow radix2 (prec - 1).
Proof.
  intros x Fx. generalize Hp Hm; intros P M.
  destruct (Req_dec x 0) as [->|Nz]. { left. now exists 0%Z. }
  destruct (Z_le_gt_dec 0 (cexp radix2 fexp x)) as [Hc|Hc].
  - left. rewrite Fx. unfold F2R; simpl.
    exists (Ztrunc (scaled_mantissa radix2 fexp x) * radix2 ^ (cexp radix2 fexp x))%Z.
    rewrite mult_IZR. rewrite (IZR_Zpower radix2) by auto. reflexivity.
  - right. apply Rlt_le_trans with (bpow radix2 (mag radix2 x)).
    + apply bpow_mag_gt.
    + apply bpow_le. revert Hc. unfold cexp, SpecFloat.fexp. lia.
Qed.

Lemma Ztrunc_exact : forall x : fl, is_finite x = true ->
  F (IZR (Ztrunc (B2R x))) /\ Rabs (IZR (Ztrunc (B2R x))) < bpow radix2 emax.
Proof.
  intros x Fx.
  assert (A : Rabs (IZR (Ztrunc (B2R x))) <= Rabs (B2R x)).
  { rewrite <- abs_IZR, <- Ztrunc_abs.
    rewrite Ztrunc_floor by apply Rabs_pos. apply Zfloor_lb. }
  split.
  - destruct (format_int_or_small (B2R x) (generic_format_B2R _ _ x)) as [[z E]|L].
    + rewrite E, Ztrunc_IZR, <- E. apply generic_format_B2R.
    + apply IZR_format. apply le_IZR. rewrite abs_IZR.
      apply Rle_trans with (1 := A). apply Rlt_le. apply Rlt_trans with (1 := L).
      change 2%Z with (radix_val radix2). rewrite (IZR_Zpower radix2) by (generalize Hp; lia).
      apply bpow_lt. lia.
  - apply Rle_lt_trans with (1 := A). apply abs_B2R_lt_emax.
Qed.

Lemma Btrunc_Ztrunc : forall x : fl, Btrunc x = Ztrunc (B2R x).
Proof.
  intros x. apply eq_IZR. rewrite Btrunc_correct by auto. rewrite round_FIX_IZR. reflexivity.
Qed.

Lemma bpow63 : bpow radix2 63 = IZR (2 ^ 63).
Proof. rewrite <- (IZR_Zpower radix2) by lia. reflexivity. Qed.

Lemma Ztrunc_range : forall x (n : Z), (0 < n)%Z ->
  ((- n <= Ztrunc x < n)%Z <-> - IZR n - 1 < x < IZR n).
Proof.
  intros x n Hn. assert (0 < IZR n) by (now apply IZR_lt).
  destruct (Rle_or_lt 0 x) as [H'|H'].
  - rewrite Ztrunc_floor by auto. assert (0 <= Zfloor x)%Z by (apply Zfloor_lub; auto).
    generalize (Zfloor_lb x) (Zfloor_ub x); intros L U. split.
    + intros [_ B]. split; [ lra | ]. apply Rlt_le_trans with (1 := U).
      change 1 with (IZR 1). rewrite <- plus_IZR. apply IZR_le. lia.
    + intros [_ B]. split; [ lia | ]. apply lt_IZR. lra.
  - rewrite Ztrunc_ceil by lra. assert (Zceil x <= 0)%Z by (apply Zceil_glb; lra).
    generalize (Zceil_lb x) (Zceil_ub x); intros L U.
    split.
    + intros [B _]. split; [ | lra ].
      apply IZR_le in B. rewrite opp_IZR in B. lra.
    + intros [B _]. split; [ | lia ].
      assert (- n - 1 < Zceil x)%Z; [ | lia ]. apply lt_IZR. rewrite minus_IZR, opp_IZR. lra.
Qed.

Definition i64_range (x : R) : Prop := - bpow radix2 63 - 1 < x < bpow radix2 63.

Lemma F_trunc : forall x : fl, is_finite x = true -> i64_range (B2R x) ->
  exists r, sc_trunc x = Ret r /\ is_finite r = true /\ B2R r = IZR (Ztrunc (B2R x)).
Proof.
  intros x Fx Hx. unfold sc_trunc. simpl. unfold F_to_i64. rewrite Fx, Btrunc_Ztrunc.
  unfold i64_range in Hx. rewrite bpow63 in Hx.
  apply Ztrunc_range in Hx; [ | lia ].
  replace ((_ <=? _) && (_ <? _))%Z with true by (symmetry; apply andb_true_iff; rewrite Z.leb_le, Z.ltb_lt; lia).
  destruct (Ztrunc_exact x Fx) as [G1 G2].
  destruct (F_of_Z_exact _ G1 G2) as [H1 H2].
  eexists; split; [ reflexivity | ]. auto.
Qed.

Lemma F_trunc_UB : forall x : fl,
  sc_trunc x = UB <-> ~ (is_finite x = true /\ i64_range (B2R x)).
Proof.
  intros x. unfold sc_trunc. simpl. unfold F_to_i64.
  destruct (is_finite x); [ | split; auto; intros _ [? _]; discriminate ].
  rewrite Btrunc_Ztrunc. unfold i64_range. rewrite bpow63.
  rewrite <- Ztrunc_range by lia.
  destruct ((_ <=? _) && (_ <? _))%Z eqn:E.
  - apply andb_true_iff in E. rewrite Z.leb_le, Z.ltb_lt in E. split; [ discriminate | ].
    intros H. exfalso. apply H. split; auto. 
  - apply andb_false_iff in E. rewrite Z.leb_gt, Z.ltb_ge in E. split; auto. intros _ [_ H]. lia.
Qed.

Lemma F_cst : forall n, (Z.abs n <= 2 ^ prec)%Z -> is_finite (cst n : fl) = true /\ B2R (cst n : fl) = IZR n.
Proof. intros n H. generalize (F_of_Z_small prec emax Hprec Hmax n H). intros (A & B & _). auto. Qed.
Lemma F_cst0 : is_finite (cst 0 : fl) = true /\ B2R (cst 0 : fl) = 0.
Proof. apply F_cst. generalize (prec_ge_1 prec Hprec). simpl. lia. Qed.
Lemma F_cst1 : is_finite (cst 1 : fl) = true /\ B2R (cst 1 : fl) = 1.
Proof. apply F_cst. generalize (prec_ge_1 prec Hprec). simpl. lia. Qed.

Lemma Fle : forall x y : fl, is_finite x = true -> is_finite y = true ->
  Bleb x y = Rle_bool (B2R x) (B2R y).
Proof. intros. now apply Bleb_correct. Qed.
Lemma Flt : forall x y : fl, is_finite x = true -> is_finite y = true ->
  Bltb x y = Rlt_bool (B2R x) (B2R y).
Proof. intros. now apply Bltb_correct. Qed.
Lemma Feq : forall x y : fl, is_finite x = true -> is_finite y = true ->
  Beqb x y = Req_bool (B2R x) (B2R y).
Proof. intros. now apply Beqb_correct. Qed.

Lemma Fplus_exact : forall x y : fl, is_finite x = true -> is_finite y = true ->
  F (B2R x + B2R y) -> Rabs (B2R x + B2R y) < bpow radix2 emax ->
  is_finite (o_add x y) = true /\ B2R (o_add x y) = B2R x + B2R y.
Proof.
  intros x y Fx Fy HF HB.
  generalize (Bplus_correct prec emax Hprec Hmax mode_NE x y Fx Fy).
  rewrite round_generic by auto with typeclass_instances.
  rewrite Rlt_bool_true by auto. simpl. tauto.
Qed.
Lemma Fminus_exact : forall x y : fl, is_finite x = true -> is_finite y = true ->
  F (B2R x - B2R y) -> Rabs (B2R x - B2R y) < bpow radix2 emax ->
  is_finite (o_sub x y) = true /\ B2R (o_sub x y) = B2R x - B2R y.
Proof.
  intros x y Fx Fy HF HB.
  generalize (Bminus_correct prec emax Hprec Hmax mode_NE x y Fx Fy).
  rewrite round_generic by auto with typeclass_instances.
  rewrite Rlt_bool_true by auto. simpl. tauto.
Qed.

Lemma small_IZR : forall z, Rabs (IZR z) <= bpow radix2 prec -> F (IZR z) /\ Rabs (IZR z) < bpow radix2 emax.
Proof.
  intros z H. split.
  - apply IZR_format. apply le_IZR. rewrite abs_IZR.
    change 2%Z with (radix_val radix2). rewrite (IZR_Zpower radix2) by (generalize Hp; lia). exact H.
  - apply Rle_lt_trans with (1 := H). apply bpow_lt. exact Hmax.
Qed.

Lemma bpow_prec : bpow radix2 prec = 2 * bpow radix2 (prec - 1).
Proof. replace prec with (1 + (prec - 1))%Z at 1 by ring. now rewrite bpow_plus. Qed.

Lemma F_floor : forall x : fl, is_finite x = true -> i64_range (B2R x) ->
  exists r, sc_floor x = Ret r /\ is_finite r = true /\ B2R r = IZR (Zfloor (B2R x)).
Proof.
  intros x Fx Hx. destruct (F_trunc x Fx Hx) as (r & E & Fr & Br).
  unfold sc_floor. rewrite E. cbn [bind].
  destruct F_cst0 as [F0 B0]. destruct F_cst1 as [F1 B1].
  change (o_le (cst 0) x) with (Bleb (cst 0) x). change (o_eq r x) with (Beqb r x).
  rewrite Fle, Feq by auto. rewrite B0, Br.
  destruct (Rle_bool_spec 0 (B2R x)) as [P|N].
  - eexists; split; [ reflexivity | ]. split; auto. now rewrite Br, Ztrunc_floor.
  - destruct (Req_bool_spec (IZR (Ztrunc (B2R x))) (B2R x)) as [Q|Q].
    + eexists; split; [ reflexivity | ]. split; auto. rewrite <- Q at 2. now rewrite Zfloor_IZR.
    + assert (Q' : IZR (Ztrunc (B2R x)) - 1 = IZR (Zfloor (B2R x))).
      { rewrite Ztrunc_ceil by lra. rewrite Zceil_floor_neq.
        - rewrite plus_IZR. ring.
        - intros K. apply Q. rewrite <- K at 1. now rewrite Ztrunc_IZR. }
      destruct (Fminus_exact r (cst 1) Fr F1) as [A1 A2].
      * rewrite Br, B1, Q'. apply small_IZR.
        rewrite <- Q', Ztrunc_ceil by lra. generalize (Zceil_lb (B2R x)) (Zceil_ub (B2R x)). intros L U.
        destruct (format_int_or_small (B2R x) (generic_format_B2R _ _ x)) as [[z K]|K].
        { exfalso. apply Q. now rewrite K, Ztrunc_IZR. }
        assert (1 <= bpow radix2 (prec - 1)) by (apply (bpow_le radix2 0); generalize Hp; lia).
        rewrite bpow_prec.
        apply Rabs_lt_inv in K. apply Rabs_le.
        assert (IZR (Zceil (B2R x)) <= 0). { apply (IZR_le _ 0). apply Zceil_glb. lra. }
        lra.
      * rewrite Br, B1, Q'. apply small_IZR.
        rewrite <- Q', Ztrunc_ceil by lra. generalize (Zceil_lb (B2R x)) (Zceil_ub (B2R x)). intros L U.
        destruct (format_int_or_small (B2R x) (generic_format_B2R _ _ x)) as [[z K]|K].
        { exfalso. apply Q. now rewrite K, Ztrunc_IZR. }
        assert (1 <= bpow radix2 (prec - 1)) by (apply (bpow_le radix2 0); generalize Hp; lia).
        rewrite bpow_prec.
        apply Rabs_lt_inv in K. apply Rabs_le.
        assert (IZR (Zceil (B2R x)) <= 0). { apply (IZR_le _ 0). apply Zceil_glb. lra. }
        lra.
      * eexists; split; [ reflexivity | ]. split; auto. rewrite A2, Br, B1. exact Q'.
Qed.

Lemma F_ceil : forall x : fl, is_finite x = true -> i64_range (B2R x) ->
  exists r, sc_ceil x = Ret r /\ is_finite r = true /\ B2R r = IZR (Zceil (B2R x)).
Proof.
  intros x Fx Hx. destruct (F_trunc x Fx Hx) as (r & E & Fr & Br).
  unfold sc_ceil. rewrite E. cbn [bind].
  destruct F_cst0 as [F0 B0]. destruct F_cst1 as [F1 B1].
  change (o_lt x (cst 0)) with (Bltb x (cst 0)). change (o_eq r x) with (Beqb r x).
  rewrite Flt, Feq by auto. rewrite B0, Br.
  destruct (Rlt_bool_spec (B2R x) 0) as [P|N].
  - eexists; split; [ reflexivity | ]. split; auto. rewrite Br, Ztrunc_ceil; auto. lra.
  - destruct (Req_bool_spec (IZR (Ztrunc (B2R x))) (B2R x)) as [Q|Q].
    + eexists; split; [ reflexivity | ]. split; auto. rewrite Br. rewrite <- Q at 2. now rewrite Zceil_IZR.
    + assert (Q' : IZR (Ztrunc (B2R x)) + 1 = IZR (Zceil (B2R x))).
      { rewrite Ztrunc_floor by lra. rewrite Zceil_floor_neq.
        - rewrite plus_IZR. ring.
        - intros K. apply Q. rewrite <- K at 1. now rewrite Ztrunc_IZR. }
      assert (G : F (IZR (Zceil (B2R x))) /\ Rabs (IZR (Zceil (B2R x))) < bpow radix2 emax).
      { apply small_IZR.
        rewrite <- Q', Ztrunc_floor by lra. generalize (Zfloor_lb (B2R x)) (Zfloor_ub (B2R x)). intros L U.
        destruct (format_int_or_small (B2R x) (generic_format_B2R _ _ x)) as [[z K]|K].
        { exfalso. apply Q. now rewrite K, Ztrunc_IZR. }
        assert (1 <= bpow radix2 (prec - 1)) by (apply (bpow_le radix2 0); generalize Hp; lia).
        rewrite bpow_prec.
        apply Rabs_lt_inv in K. apply Rabs_le.
        assert (0 <= IZR (Zfloor (B2R x))). { apply (IZR_le 0). apply Zfloor_lub. lra. }
        lra. }
      destruct (Fplus_exact r (cst 1) Fr F1) as [A1 A2].
      * rewrite Br, B1, Q'. apply G.
      * rewrite Br, B1, Q'. apply G.
      * eexists; split; [ reflexivity | ]. split; auto. rewrite A2, Br, B1. exact Q'.
Qed.

Lemma F_floor_ceil_UB : forall x : fl,
  (sc_floor x = UB <-> sc_trunc x = UB) /\ (sc_ceil x = UB <-> sc_trunc x = UB).
Proof.
  intros x. unfold sc_floor, sc_ceil. destruct (sc_trunc x); simpl; split; split; intros; congruence.
Qed.
End F.
