(** Order laws shared by the scalar instances: on non-NaN values the comparison operators are those
    of a real-valued key, and every comparison with NaN is false. *)
From Coq Require Import ZArith Reals List Bool Lra Lia.
From Flocq Require Import Core BinarySingleNaN.
From Verif Require Import Ops M_scalar Inst_F Inst_XR.
Local Open Scope R_scope.

Class ordlaws {T : Type} (o : ops T) := {
  key : T -> R;
  lt_key : forall x y, is_nan x = false -> is_nan y = false ->
                       o_lt x y = Rlt_bool (key x) (key y);
  le_key : forall x y, is_nan x = false -> is_nan y = false ->
                       o_le x y = Rle_bool (key x) (key y);
  eq_key : forall x y, is_nan x = false -> is_nan y = false ->
                       o_eq x y = Req_bool (key x) (key y);
  nan_l : forall x y, is_nan x = true -> o_lt x y = false /\ o_le x y = false /\ o_eq x y = false;
  nan_r : forall x y, is_nan y = true -> o_lt x y = false /\ o_le x y = false /\ o_eq x y = false;
  num_of_Z : forall z, (0 <= z <= 1)%Z -> is_nan (o_of_Z z) = false /\ key (o_of_Z z) = IZR z;
  num_sub0 : forall x, is_nan (o_sub x (o_of_Z 0)) = is_nan x
                       /\ (is_nan x = false -> key (o_sub x (o_of_Z 0)) = key x);
  num_add0 : forall x, is_nan (o_add x (o_of_Z 0)) = is_nan x
                       /\ (is_nan x = false -> key (o_add x (o_of_Z 0)) = key x)
}.
(** Negation; machine integers do not have it. *)
Class neglaws {T : Type} (o : ops T) {ol : ordlaws o} :=
  num_neg : forall x, is_nan (o_neg x) = is_nan x /\ (is_nan x = false -> key (o_neg x) = - key x).

(** ** Exact arithmetic *)
#[global] Instance XR_ord : ordlaws XRops.
Proof.
  refine {| key := fun x : XR => match x with Some a => a | None => 0 end |}.
  - intros [a|] [b|]; unfold is_nan; simpl; try discriminate; reflexivity.
  - intros [a|] [b|]; unfold is_nan; simpl; try discriminate; reflexivity.
  - intros [a|] [b|]; unfold is_nan; simpl; try discriminate; reflexivity.
  - intros [a|] y; unfold is_nan; simpl.
    + rewrite Req_bool_true by reflexivity. discriminate.
    + auto.
  - intros x [a|]; unfold is_nan; simpl. 
    + rewrite Req_bool_true by reflexivity. discriminate.
    + destruct x; auto.
  - intros z _. unfold is_nan; simpl. rewrite Req_bool_true by reflexivity. auto.
  - intros [a|]; unfold is_nan; simpl; [ | split; [ reflexivity | intros; reflexivity ] ].
    rewrite !Req_bool_true by reflexivity. split; [ reflexivity | intros; lra ].
  - intros [a|]; unfold is_nan; simpl; [ | split; [ reflexivity | intros; reflexivity ] ].
    rewrite !Req_bool_true by reflexivity. split; [ reflexivity | intros; lra ].
Defined.
#[global] Instance XR_neg : neglaws XRops.
Proof.
  intros [a|]; unfold is_nan; simpl; [ | split; [ reflexivity | discriminate ] ].
  rewrite !Req_bool_true by reflexivity. auto.
Qed.

(** ** IEEE arithmetic *)
Section F.
Variables prec emax : Z.
Context (Hprec : Prec_gt_0 prec) (Hmax : Prec_lt_emax prec emax).
Notation fl := (binary_float prec emax).
Local Notation FO := (Fops prec emax Hprec Hmax).

Definition Fkey (x : fl) : R :=
  match x with
  | B754_infinity false => bpow radix2 emax
  | B754_infinity true => - bpow radix2 emax
  | _ => B2R x
  end.

Lemma F_is_nan : forall x : fl, @is_nan _ FO x = BinarySingleNaN.is_nan x.
Proof.
  intros x. unfold is_nan. simpl. rewrite Beqb_refl.
  now rewrite negb_involutive.
Qed.

Lemma Fkey_finite : forall x : fl, is_finite x = true -> Fkey x = B2R x.
Proof. now intros [s|s| |s m e H]. Qed.

Lemma Fkey_bound : forall x : fl, is_finite x = true ->
  - bpow radix2 emax < Fkey x < bpow radix2 emax.
Proof.
  intros x Hx. rewrite (Fkey_finite x Hx).
  generalize (abs_B2R_lt_emax prec emax x). intros H. apply Rabs_lt_inv in H. exact H.
Qed.

Lemma Fcompare_key : forall x y : fl, BinarySingleNaN.is_nan x = false -> BinarySingleNaN.is_nan y = false ->
  Bcompare x y = Some (Rcompare (Fkey x) (Fkey y)).
Proof.
  intros x y Hx Hy.
  assert (Hb := bpow_gt_0 radix2 emax).
  destruct (is_finite x) eqn:Fx, (is_finite y) eqn:Fy.
  - rewrite Bcompare_correct by assumption. now rewrite !Fkey_finite.
  - destruct (Fkey_bound x Fx) as [Bx1 Bx2].
    destruct y as [s|[|]| |s m e H]; try discriminate.
    + change (Fkey (B754_infinity true)) with (- bpow radix2 emax).
      rewrite Rcompare_Gt by lra. destruct x as [[|]|[|]| |[|] m e H]; try discriminate; reflexivity.
    + change (Fkey (B754_infinity false)) with (bpow radix2 emax).
      rewrite Rcompare_Lt by lra. destruct x as [[|]|[|]| |[|] m e H]; try discriminate; reflexivity.
  - destruct (Fkey_bound y Fy) as [By1 By2].
    destruct x as [s|[|]| |s m e H]; try discriminate.
    + change (Fkey (B754_infinity true)) with (- bpow radix2 emax).
      rewrite Rcompare_Lt by lra. destruct y as [[|]|[|]| |[|] m e H]; try discriminate; reflexivity.
    + change (Fkey (B754_infinity false)) with (bpow radix2 emax).
      rewrite Rcompare_Gt by lra. destruct y as [[|]|[|]| |[|] m e H]; try discriminate; reflexivity.
  - destruct x as [s|[|]| |s m e H]; try discriminate;
    destruct y as [s'|[|]| |s' m' e' H']; try discriminate;
    simpl; unfold Bcompare, SpecFloat.SFcompare; simpl; f_equal.
    + now rewrite Rcompare_Eq.
    + rewrite Rcompare_Lt; [ reflexivity | lra ].
    + rewrite Rcompare_Gt; [ reflexivity | lra ].
    + now rewrite Rcompare_Eq.
Qed.

Lemma Fcompare_nan : forall x y : fl,
  BinarySingleNaN.is_nan x = true \/ BinarySingleNaN.is_nan y = true -> Bcompare x y = None.
Proof.
  intros x y [H|H]; [ destruct x | destruct y ]; try discriminate; [ reflexivity | ].
  destruct x; reflexivity.
Qed.

Lemma Fltb_cmp : forall x y : fl, Bltb x y = match Bcompare x y with Some Lt => true | _ => false end.
Proof. reflexivity. Qed.
Lemma Fleb_cmp : forall x y : fl, Bleb x y = match Bcompare x y with Some (Lt|Eq) => true | _ => false end.
Proof. reflexivity. Qed.
Lemma Feqb_cmp : forall x y : fl, Beqb x y = match Bcompare x y with Some Eq => true | _ => false end.
Proof. reflexivity. Qed.

Lemma F_of_Z_small : forall z, (Z.abs z <= 2 ^ prec)%Z ->
  is_finite (F_of_Z prec emax Hprec Hmax z) = true
  /\ B2R (F_of_Z prec emax Hprec Hmax z) = IZR z
  /\ Bsign (F_of_Z prec emax Hprec Hmax z) = (z <? 0)%Z.
Proof.
  intros z Hz.
  unfold F_of_Z.
  generalize (binary_normalize_correct prec emax Hprec Hmax mode_NE z 0 false). cbv zeta.
  replace (F2R {| Fnum := z; Fexp := 0 |}) with (IZR z) by (unfold F2R; simpl; ring).
  assert (Hf : generic_format radix2 (SpecFloat.fexp prec emax) (IZR z)).
  { replace (IZR z) with (F2R (Float radix2 z 0)) by (unfold F2R; simpl; ring).
    destruct (Z.eq_dec (Z.abs z) (2 ^ prec)) as [E|N].
    - (* a power of two *)
      assert (Hp : (0 < prec)%Z) by exact Hprec.
      assert (Hm : (prec < emax)%Z) by exact Hmax.
      assert (G : generic_format radix2 (SpecFloat.fexp prec emax) (bpow radix2 prec)).
      { apply generic_format_bpow. unfold SpecFloat.fexp, SpecFloat.emin. lia. }
      assert (B : bpow radix2 prec = IZR (2 ^ prec)).
      { rewrite <- (IZR_Zpower radix2) by lia. reflexivity. }
      unfold F2R; simpl. rewrite Rmult_1_r.
      destruct (Z.abs_eq_or_opp z) as [E'|E']; rewrite E' in E.
      + rewrite E, <- B. exact G.
      + replace z with (- (2 ^ prec))%Z by lia. rewrite opp_IZR, <- B. now apply generic_format_opp.
    - apply generic_format_FLT. exists (Float radix2 z 0).
      + reflexivity.
      + simpl. assert (Hp : (0 < prec)%Z) by exact Hprec. lia.
      + simpl. unfold SpecFloat.emin.
        assert (Hp : (0 < prec)%Z) by exact Hprec.
        assert (Hm : (prec < emax)%Z) by exact Hmax. lia. }
  rewrite round_generic by (auto with typeclass_instances; apply fexp_correct; exact Hprec).
  rewrite Rlt_bool_true.
  - intros (H1 & H2 & H3). split; [ exact H2 | split; [ exact H1 | ] ].
    rewrite H3. 
    destruct (Rcompare_spec (IZR z) 0) as [L|E|G].
    + apply lt_IZR in L. symmetry. now apply Z.ltb_lt.
    + apply eq_IZR in E. subst z. reflexivity.
    + apply lt_IZR in G. symmetry. apply Z.ltb_ge. lia.
  - rewrite <- abs_IZR.
    apply Rle_lt_trans with (IZR (2 ^ prec)); [ now apply IZR_le | ].
    change 2%Z with (radix_val radix2) at 1.
    rewrite (IZR_Zpower radix2).
    + apply bpow_lt. exact Hmax.
    + assert (Hp : (0 < prec)%Z) by exact Hprec. lia.
Qed.

Lemma prec_ge_1 : (1 <= 2 ^ prec)%Z.
Proof. assert (Hp : (0 < prec)%Z) by exact Hprec. change 1%Z with (2 ^ 0)%Z. apply Z.pow_le_mono_r; lia. Qed.

Lemma Bminus_0 : forall x : fl, is_finite x = true ->
  B2R (Bminus mode_NE x (F_of_Z prec emax Hprec Hmax 0)) = B2R x
  /\ is_finite (Bminus mode_NE x (F_of_Z prec emax Hprec Hmax 0)) = true.
Proof.
  intros x Fx.
  destruct (F_of_Z_small 0) as (Z1 & Z2 & _); [ generalize prec_ge_1; simpl; lia | ].
  generalize (Bminus_correct prec emax Hprec Hmax mode_NE x _ Fx Z1).
  rewrite Z2, Rminus_0_r.
  rewrite round_generic; auto with typeclass_instances; [ | apply generic_format_B2R ].
  rewrite Rlt_bool_true by apply abs_B2R_lt_emax. tauto.
Qed.

Lemma Bplus_0 : forall x : fl, is_finite x = true ->
  B2R (Bplus mode_NE x (F_of_Z prec emax Hprec Hmax 0)) = B2R x
  /\ is_finite (Bplus mode_NE x (F_of_Z prec emax Hprec Hmax 0)) = true.
Proof.
  intros x Fx.
  destruct (F_of_Z_small 0) as (Z1 & Z2 & _); [ generalize prec_ge_1; simpl; lia | ].
  generalize (Bplus_correct prec emax Hprec Hmax mode_NE x _ Fx Z1).
  rewrite Z2, Rplus_0_r.
  rewrite round_generic; auto with typeclass_instances; [ | apply generic_format_B2R ].
  rewrite Rlt_bool_true by apply abs_B2R_lt_emax. tauto.
Qed.

Lemma finite_not_nan : forall x : fl, is_finite x = true -> BinarySingleNaN.is_nan x = false.
Proof. now intros [| | |]. Qed.

#[global] Instance F_ord : ordlaws FO.
Proof.
  refine {| key := Fkey : fl -> R |}.
  - intros x y Hx Hy. rewrite F_is_nan in Hx, Hy.
    change (Bltb x y = Rlt_bool (Fkey x) (Fkey y)).
    rewrite Fltb_cmp, Fcompare_key by assumption. reflexivity.
  - intros x y Hx Hy. rewrite F_is_nan in Hx, Hy.
    change (Bleb x y = Rle_bool (Fkey x) (Fkey y)).
    rewrite Fleb_cmp, Fcompare_key by assumption. unfold Rle_bool.
    now destruct (Rcompare (Fkey x) (Fkey y)).
  - intros x y Hx Hy. rewrite F_is_nan in Hx, Hy.
    change (Beqb x y = Req_bool (Fkey x) (Fkey y)).
    rewrite Feqb_cmp, Fcompare_key by assumption. reflexivity.
  - intros x y Hx. rewrite F_is_nan in Hx.
    change (Bltb x y = false /\ Bleb x y = false /\ Beqb x y = false).
    now rewrite Fltb_cmp, Fleb_cmp, Feqb_cmp, Fcompare_nan by auto.
  - intros x y Hx. rewrite F_is_nan in Hx.
    change (Bltb x y = false /\ Bleb x y = false /\ Beqb x y = false).
    now rewrite Fltb_cmp, Fleb_cmp, Feqb_cmp, Fcompare_nan by auto.
  - intros z Hz. rewrite F_is_nan.
    destruct (F_of_Z_small z) as (Z1 & Z2 & _); [ generalize prec_ge_1; lia | ].
    split; [ now apply finite_not_nan | ].
    change (Fkey (F_of_Z prec emax Hprec Hmax z) = IZR z).
    now rewrite Fkey_finite.
  - intros x. rewrite !F_is_nan.
    change (BinarySingleNaN.is_nan (Bminus mode_NE x (F_of_Z prec emax Hprec Hmax 0)) = BinarySingleNaN.is_nan x
            /\ (BinarySingleNaN.is_nan x = false -> Fkey (Bminus mode_NE x (F_of_Z prec emax Hprec Hmax 0)) = Fkey x)).
    destruct (is_finite x) eqn:Fx.
    + destruct (Bminus_0 x Fx) as [E F].
      rewrite (finite_not_nan _ F), (finite_not_nan _ Fx). split; [ reflexivity | intros _ ].
      rewrite (Fkey_finite _ F), (Fkey_finite _ Fx). exact E.
    + destruct x as [s|s| |s m e H]; try discriminate; now split.
  - intros x. rewrite !F_is_nan.
    change (BinarySingleNaN.is_nan (Bplus mode_NE x (F_of_Z prec emax Hprec Hmax 0)) = BinarySingleNaN.is_nan x
            /\ (BinarySingleNaN.is_nan x = false -> Fkey (Bplus mode_NE x (F_of_Z prec emax Hprec Hmax 0)) = Fkey x)).
    destruct (is_finite x) eqn:Fx.
    + destruct (Bplus_0 x Fx) as [E F].
      rewrite (finite_not_nan _ F), (finite_not_nan _ Fx). split; [ reflexivity | intros _ ].
      rewrite (Fkey_finite _ F), (Fkey_finite _ Fx). exact E.
    + destruct x as [s|s| |s m e H]; try discriminate; now split.
Defined.
#[global] Instance F_neg : neglaws FO.
Proof.
  intros x. rewrite !F_is_nan. split; [ apply is_nan_Bopp | ].
  intros Hx. change (Fkey (Bopp x) = - Fkey x).
  destruct x as [s|[|]| |s m e H]; simpl; try discriminate; try lra.
  rewrite <- F2R_Zopp. now destruct s.
Qed.
End F.
