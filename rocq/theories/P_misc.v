(** Index stepping, epsilon equality, sign and step. *)
From Coq Require Import ZArith Reals List Bool Lra Lia.
From Flocq Require Import Core BinarySingleNaN.
From Verif Require Import Ops M_scalar M_vec Inst_F Inst_XR S_order P_ord P_compare P_scalar_ord P_ieee P_xr.
Import ListNotations.

(** ** succ and pred *)
Lemma u_succ_spec : forall w i n s, (0 <= i < n)%Z -> (0 <= s)%Z -> (i + s < 2 ^ w)%Z ->
  u_succ w i n s = Ret ((i + s) mod n)%Z /\ (0 <= (i + s) mod n < n)%Z.
Proof.
  intros w i n s Hi Hs Hw. unfold u_succ.
  replace (n =? 0)%Z with false by (symmetry; apply Z.eqb_neq; lia).
  rewrite (Z.mod_small (i + s) (2 ^ w)) by lia. split; auto. apply Z.mod_pos_bound. lia.
Qed.
Lemma u_pred_spec : forall w i n s, (0 <= i < n)%Z -> (0 <= s)%Z -> (i + n < 2 ^ w)%Z ->
  u_pred w i n s = Ret ((i - s) mod n)%Z /\ (0 <= (i - s) mod n < n)%Z.
Proof.
  intros w i n s Hi Hs Hw. unfold u_pred.
  replace (n =? 0)%Z with false by (symmetry; apply Z.eqb_neq; lia).
  assert (B := Z.mod_pos_bound s n ltac:(lia)).
  rewrite (Z.mod_small (i + n) (2 ^ w)) by lia.
  rewrite (Z.mod_small (i + n - s mod n) (2 ^ w)) by lia. split; [ | apply Z.mod_pos_bound; lia ].
  f_equal. rewrite Zminus_mod_idemp_r. rewrite <- (Z_mod_plus_full (i - s) 1 n). f_equal. lia.
Qed.
Lemma u_succ_pred : forall w i n s, (0 <= i < n)%Z -> (0 <= s)%Z -> (n + n < 2 ^ w)%Z -> (n + s < 2 ^ w)%Z ->
  (do j <- u_succ w i n s; u_pred w j n s) = Ret i
  /\ (do j <- u_pred w i n s; u_succ w j n s) = Ret i.
Proof.
  intros w i n s Hi Hs Hw1 Hw2.
  destruct (u_succ_spec w i n s) as [E1 B1]; try lia. destruct (u_pred_spec w i n s) as [E2 B2]; try lia.
  rewrite E1, E2. cbn [bind].
  destruct (u_pred_spec w _ n s B1) as [E3 _]; try lia. destruct (u_succ_spec w _ n s B2) as [E4 _]; try lia.
  rewrite E3, E4. split; f_equal.
  - rewrite Zminus_mod_idemp_l. replace (i + s - s)%Z with i by ring. now apply Z.mod_small.
  - rewrite Zplus_mod_idemp_l. replace (i - s + s)%Z with i by ring. now apply Z.mod_small.
Qed.

Local Open Scope R_scope.
(** ** Epsilon equality, IEEE *)
Section F.
Variables prec emax : Z.
Context {Hprec : Prec_gt_0 prec} {Hmax : Prec_lt_emax prec emax}.
Notation fl := (binary_float prec emax).

Lemma Bminus_swap : forall a b : fl,
  is_nan (o_sub a b) = is_nan (o_sub b a)
  /\ (is_nan (o_sub a b) = false -> key (o_sub a b) = - key (o_sub b a)).
Proof.
  intros a b. rewrite !F_is_nan.
  change (key (o_sub a b)) with (Fkey prec emax (Bminus mode_NE a b)).
  change (key (o_sub b a)) with (Fkey prec emax (Bminus mode_NE b a)).
  change (o_sub a b) with (Bminus mode_NE a b). change (o_sub b a) with (Bminus mode_NE b a).
  destruct (is_finite a) eqn:Fa, (is_finite b) eqn:Fb.
  - generalize (Bminus_correct prec emax Hprec Hmax mode_NE a b Fa Fb).
    generalize (Bminus_correct prec emax Hprec Hmax mode_NE b a Fb Fa).
    replace (B2R b - B2R a) with (- (B2R a - B2R b)) by ring.
    change (round_mode mode_NE) with ZnearestE. rewrite round_NE_opp, Rabs_Ropp.
    destruct (Rlt_bool_spec (Rabs (round radix2 (SpecFloat.fexp prec emax) ZnearestE (B2R a - B2R b))) (bpow radix2 emax)).
    + intros (A1 & A2 & _) (B1 & B2 & _). rewrite !finite_not_nan by auto. split; auto.
      intros _. rewrite !Fkey_finite by auto. rewrite A1, B1. ring.
    + intros (A1 & A2) (B1 & B2).
      assert (SA : Bsign a = negb (Bsign b)) by auto.
      cbn [binary_overflow overflow_to_inf] in A1, B1.
      assert (EA : forall x s, B2SF x = SpecFloat.S754_infinity s -> x = (B754_infinity s : fl)).
      { intros [s|s| |s m e He] s'; simpl; intros; try discriminate. congruence. }
      apply EA in A1, B1. rewrite A1, B1. simpl. split; auto. intros _.
      rewrite SA. destruct (Bsign b); simpl; lra.
  - destruct a as [s|s| |s m e He], b as [s'|s'| |s' m' e' He']; try discriminate; simpl; split; auto;
      try discriminate; intros _; destruct s'; simpl; lra.
  - destruct a as [s|s| |s m e He], b as [s'|s'| |s' m' e' He']; try discriminate; simpl; split; auto;
      try discriminate; intros _; destruct s; simpl; lra.
  - destruct a as [s|s| |s m e He], b as [s'|s'| |s' m' e' He']; try discriminate; simpl; split; auto;
      try discriminate; destruct s, s'; simpl; auto; try discriminate; intros _; lra.
Qed.

Lemma F_is_equal_sym : forall a b eps : fl, sc_is_equal a b eps = sc_is_equal b a eps.
Proof.
  intros a b eps. unfold sc_is_equal.
  destruct (Bminus_swap a b) as [N K].
  destruct (is_nan (o_sub a b)) eqn:Na.
  - assert (Ha : is_nan (sc_abs (o_sub a b)) = true) by (rewrite abs_nan; auto).
    assert (Hb : is_nan (sc_abs (o_sub b a)) = true) by (rewrite abs_nan; auto).
    destruct (nan_l _ eps Ha) as (_ & -> & _). now destruct (nan_l _ eps Hb) as (_ & -> & _).
  - symmetry in N.
    assert (Ha : is_nan (sc_abs (o_sub a b)) = false) by (rewrite abs_nan; auto).
    assert (Hb : is_nan (sc_abs (o_sub b a)) = false) by (rewrite abs_nan; auto).
    destruct (is_nan eps) eqn:Ne.
    + destruct (nan_r (sc_abs (o_sub a b)) _ Ne) as (_ & -> & _). now destruct (nan_r (sc_abs (o_sub b a)) _ Ne) as (_ & -> & _).
    + rewrite !le_key by auto. rewrite !abs_key by auto. rewrite K by auto. now rewrite Rabs_Ropp.
Qed.
Lemma F_is_equal_refl : forall a eps : fl, is_finite a = true -> Bleb (cst 0) eps = true ->
  sc_is_equal a a eps = true.
Proof.
  intros a eps Fa He. unfold sc_is_equal.
  assert (H := Bminus_correct prec emax Hprec Hmax mode_NE a a Fa Fa).
  rewrite Rminus_eq_0, round_0 in H by auto with typeclass_instances.
  rewrite Rabs_R0, Rlt_bool_true in H by apply bpow_gt_0. destruct H as (H1 & H2 & _).
  change (o_sub a a) with (Bminus mode_NE a a).
  assert (Nd : is_nan (Bminus mode_NE a a : fl) = false) by (rewrite F_is_nan; now apply finite_not_nan).
  apply (le_true (o := Fops prec emax Hprec Hmax)) in He. destruct He as (_ & Ne & Ke).
  apply le_true. rewrite abs_nan, abs_key by auto. split; auto. split; auto.
  change (key (Bminus mode_NE a a : fl)) with (Fkey prec emax (Bminus mode_NE a a)).
  rewrite Fkey_finite, H1, Rabs_R0 by auto.
  assert (K0 : key (cst 0 : fl) = 0) by (apply num_of_Z; simpl; lia). lra.
Qed.
End F.

(** ** Exact arithmetic *)
Lemma X_compare_zero : forall (a b : list R) eps, length a = length b -> 0 <= eps ->
  (v_compare (map Some a) (map Some b) (Some eps) = 0%Z
   <-> Forall2 (fun x y => Rabs (x - y) <= eps) a b).
Proof.
  induction a as [|x a IH]; intros [|y b] eps L He; try discriminate.
  - simpl. split; auto.
  - injection L as L. cbn -[Rlt_bool Req_bool].
    rewrite !Req_bool_true by auto. cbn [negb andb].
    destruct (Rlt_bool_spec x (y - eps)) as [H|H]; [ | destruct (Rlt_bool_spec (y + eps) x) as [H'|H'] ].
    + split; [ discriminate | ]. intros K. inversion_clear K. apply Rabs_le_inv in H0. lra.
    + split; [ discriminate | ]. intros K. inversion_clear K. apply Rabs_le_inv in H0. lra.
    + rewrite IH by auto. split; intros K.
      * constructor; auto. apply Rabs_le. lra.
      * now inversion_clear K.
Qed.
Lemma X_v_is_equal : forall (a b : list R) eps, length a = length b -> 0 <= eps ->
  (v_is_equal (map Some a) (map Some b) (Some eps) = true
   <-> Forall2 (fun x y => Rabs (x - y) <= eps) a b).
Proof. intros. unfold v_is_equal. rewrite Z.eqb_eq. now apply X_compare_zero. Qed.

(** ** sign and step, any scalar type *)
Section O.
Context {T : Type} {o : ops T} {ol : ordlaws o}.
Lemma sc_sign_spec : forall v : T,
  (o_lt v (cst 0) = true -> sc_sign v = cst (-1))
  /\ (o_lt (cst 0) v = true -> sc_sign v = cst 1)
  /\ (o_lt v (cst 0) = false -> o_lt (cst 0) v = false -> sc_sign v = cst 0).
Proof.
  intros v. unfold sc_sign. repeat split.
  - intros ->. reflexivity.
  - intros H. rewrite H. replace (o_lt v (cst 0)) with false; auto.
    symmetry. apply lt_true in H. destruct H as (A & B & C). rewrite lt_key by auto.
    apply Rlt_bool_false. lra.
  - intros -> ->. reflexivity.
Qed.
End O.
