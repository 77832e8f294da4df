(** Proofs about vectors of machine integers. *)
From Coq Require Import ZArith Reals List Bool Lia Lra.
From Flocq Require Import Core.
From Verif Require Import Ops M_scalar M_vec M_bbox Inst_I S_order S_boxset S_int P_ord P_compare P_order_final P_components.
Import ListNotations.
Local Open Scope Z_scope.

(** ** Signed *)
Lemma s_ok_iff : forall w z, s_ok w z = true <-> signed w z.
Proof. intros. unfold s_ok, signed. rewrite andb_true_iff, Z.leb_le, Z.ltb_lt. tauto. Qed.
Lemma u_ok_iff : forall w z, u_ok w z = true <-> unsigned w z.
Proof. intros. unfold u_ok, unsigned. rewrite andb_true_iff, Z.leb_le, Z.ltb_lt. tauto. Qed.
Lemma s_fit_in : forall w z, signed w z -> is_sint (s_fit w z) z.
Proof.
  intros w z H. apply s_ok_iff in H. unfold s_fit. destruct (Sumbool.sumbool_of_bool (s_ok w z)) as [E|E]; [reflexivity|congruence].
Qed.
Lemma s_fit_out : forall w z, ~ signed w z -> s_fit w z = S_undef.
Proof.
  intros w z H. unfold s_fit. destruct (Sumbool.sumbool_of_bool (s_ok w z)) as [E|E]; [|reflexivity]. exfalso. now apply H, s_ok_iff.
Qed.
Lemma signed_dec : forall w z, signed w z \/ ~ signed w z.
Proof. intros. unfold signed. lia. Qed.
Lemma s_fit_result : forall w z, s_result (s_fit w z) z.
Proof.
  intros w z. destruct (signed_dec w z) as [H|H]; [left|right]; split; auto; [now apply s_fit_in|now apply s_fit_out].
Qed.
Lemma sint_signed : forall w (x : sint w) z, is_sint x z -> signed w z.
Proof. intros w [a H|] z E; [|destruct E]. simpl in E. subst. now apply s_ok_iff. Qed.
Lemma sint_eq : forall w (x y : sint w) z, is_sint x z -> is_sint y z -> x = y.
Proof.
  intros w [a H|] [b G|] z E F; try contradiction. simpl in *. subst. f_equal. apply (Eqdep_dec.UIP_dec bool_dec).
Qed.
Lemma s_op2_result : forall w f (x y : sint w) a b, is_sint x a -> is_sint y b -> s_result (s_op2 f x y) (f a b).
Proof. intros w f [p H|] [q G|] a b E F; try contradiction. simpl in *. subst. apply s_fit_result. Qed.
Lemma s_op1_result : forall w f (x : sint w) a, is_sint x a -> s_result (s_op1 f x) (f a).
Proof. intros w f [p H|] a E; try contradiction. simpl in *. subst. apply s_fit_result. Qed.
Lemma s_result_in : forall w (r : sint w) e, s_result r e -> signed w e -> is_sint r e.
Proof. intros w r e [[_ H]|[N _]] S; [exact H|contradiction]. Qed.

Lemma s_map2 : forall w (f : sint w -> sint w -> sint w) g, (forall x y a b, is_sint x a -> is_sint y b -> s_result (f x y) (g a b)) ->
  forall v u a b, are_sints v a -> are_sints u b -> Forall2 s_result (map2 f v u) (zzip g a b).
Proof.
  intros w f g H v u a b V. revert u b. induction V as [|x p v a X V IH]; intros u b U; simpl; [constructor|].
  inversion_clear U; constructor; auto.
Qed.
Lemma s_map : forall w (f : sint w -> sint w) g, (forall x a, is_sint x a -> s_result (f x) (g a)) ->
  forall v a, are_sints v a -> Forall2 s_result (map f v) (map g a).
Proof. intros w f g H v a V. induction V; simpl; constructor; auto. Qed.
Lemma s_div_result : forall w (x y : sint w) a b, is_sint x a -> is_sint y b -> b <> 0 -> s_result (o_div x y) (Z.quot a b).
Proof.
  intros w [p H|] [q G|] a b E F N; try contradiction. simpl in *. subst. destruct (Z.eqb_spec b 0); [contradiction|]. apply s_fit_result.
Qed.
Lemma s_div_zero : forall w (x y : sint w), is_sint y 0 -> o_div x y = S_undef.
Proof. intros w [p H|] [q G|] E; try contradiction; auto. simpl in *. now subst. Qed.

Lemma s_div_vec : forall w (v u : list (sint w)) a b, are_sints v a -> are_sints u b -> Forall (fun z => z <> 0) b ->
  Forall2 s_result (v_div v u) (zzip Z.quot a b).
Proof.
  unfold v_div. intros w v u a b V. revert u b. induction V as [|x p v a X V IH]; intros u b U N; simpl; [constructor|].
  inversion U; subst; constructor; inversion_clear N; auto. now apply s_div_result.
Qed.
Lemma abs_signed : forall w (x : sint w) a, 1 <= w -> is_sint x a -> s_result (sc_abs x) (Z.abs a).
Proof.
  intros w x a W E. assert (S := sint_signed _ _ _ E). unfold sc_abs. assert (P : 0 < 2 ^ (w - 1)) by (apply Z.pow_pos_nonneg; lia).
  assert (Z0 : is_sint (cst 0 : sint w) 0) by (apply s_fit_in; unfold signed; lia).
  destruct x as [p H|]; try contradiction. simpl in E. subst p. destruct (cst 0 : sint w) as [q G|]; try contradiction. simpl in Z0. subst q.
  cbn [o_lt Sops s_cmp]. destruct (Z.ltb_spec a 0).
  - rewrite Z.abs_neq by lia. apply s_fit_result.
  - rewrite Z.abs_eq by lia. left. split; [exact S|reflexivity].
Qed.

(** Sums of products that do not overflow *)
Lemma zabs_pos : forall a b, 0 <= zsum (zzip (fun x y => Z.abs (x * y)) a b).
Proof.
  induction a as [|p a IH]; intros [|q b]; try (simpl; lia). cbn [zzip]. unfold zsum. cbn [fold_right]. specialize (IH b). unfold zsum in IH. lia.
Qed.
Lemma dot_step : forall w (v u : list (sint w)) a b, 1 <= w -> are_sints v a -> are_sints u b -> length a = length b ->
  forall (acc : sint w) s, is_sint acc s -> Z.abs s + zsum (zzip (fun x y => Z.abs (x * y)) a b) < 2 ^ (w - 1) ->
  is_sint (fold_left (fun result p => o_add result (o_mul (fst p) (snd p))) (combine v u) acc) (s + zdot a b).
Proof.
  intros w v u a b W V. revert u b. unfold zdot. induction V as [|x p v a X V IH]; intros u b U L acc s A B; destruct b as [|q b]; inversion L.
  - inversion U; subst. simpl in *. now rewrite Z.add_0_r.
  - inversion U as [|y q' u' b' Y U']; subst. cbn [zzip] in B. unfold zsum in B. cbn [fold_right] in B. simpl combine. cbn [fold_left fst snd zzip zsum fold_right].
    assert (P : 0 <= zsum (zzip (fun x y => Z.abs (x * y)) a b)).
    { apply zabs_pos. }
    assert (M : is_sint (o_mul x y) (p * q)).
    { apply s_result_in; [apply (s_op2_result w Z.mul); auto|]. unfold signed. unfold zsum in *. lia. }
    assert (A' : is_sint (o_add acc (o_mul x y)) (s + p * q)).
    { apply s_result_in; [apply (s_op2_result w Z.add); auto|]. unfold signed. unfold zsum in *. lia. }
    rewrite Z.add_assoc. apply IH; auto. unfold zsum in *. lia.
Qed.
Lemma s_dot : forall w (v u : list (sint w)) a b, 1 <= w -> are_sints v a -> are_sints u b -> length a = length b ->
  zsum (zzip (fun x y => Z.abs (x * y)) a b) < 2 ^ (w - 1) -> is_sint (v_dot v u) (zdot a b).
Proof.
  intros w v u a b W V U L B. unfold v_dot. assert (P : 0 < 2 ^ (w - 1)) by (apply Z.pow_pos_nonneg; lia). change (zdot a b) with (0 + zdot a b).
  apply dot_step; auto. apply s_fit_in. unfold signed. lia.
Qed.
Lemma s_diff : forall w (x y z t : sint w) a b c d, is_sint x a -> is_sint y b -> is_sint z c -> is_sint t d ->
  Z.abs (a * b) + Z.abs (c * d) < 2 ^ (w - 1) -> is_sint (o_sub (o_mul x y) (o_mul z t)) (a * b - c * d).
Proof.
  intros w x y z t a b c d X Y Z T B.
  assert (M : is_sint (o_mul x y) (a * b)) by (apply s_result_in; [apply (s_op2_result w Z.mul); auto|unfold signed; lia]).
  assert (N : is_sint (o_mul z t) (c * d)) by (apply s_result_in; [apply (s_op2_result w Z.mul); auto|unfold signed; lia]).
  apply s_result_in; [apply (s_op2_result w Z.sub); auto|unfold signed; lia].
Qed.
Lemma s_cross : forall w (v u : list (sint w)) a b, are_sints v a -> are_sints u b -> length a = 3%nat -> length b = 3%nat ->
  (forall i j, Z.abs (nth i a 0 * nth j b 0) + Z.abs (nth j a 0 * nth i b 0) < 2 ^ (w - 1)) -> are_sints (v_cross v u) (zcross a b).
Proof.
  intros w v u a b V U LA LB H. destruct a as [|a0 [|a1 [|a2 [|]]]]; try discriminate. destruct b as [|b0 [|b1 [|b2 [|]]]]; try discriminate.
  inversion_clear V as [|x0 ? v1 ? V0 V']. inversion_clear V' as [|x1 ? v2 ? V1 V'']. inversion_clear V'' as [|x2 ? v3 ? V2 V3]. inversion_clear V3.
  inversion_clear U as [|y0 ? u1 ? U0 U']. inversion_clear U' as [|y1 ? u2 ? U1 U'']. inversion_clear U'' as [|y2 ? u3 ? U2 U3]. inversion_clear U3.
  unfold v_cross, zcross, vget. cbn [nth]. repeat constructor; apply s_diff; auto.
  - apply (H 1%nat 2%nat). - apply (H 2%nat 0%nat). - apply (H 0%nat 1%nat).
Qed.

(** ** Unsigned *)
Lemma u_fit_is : forall w z, 0 <= w -> is_uint (u_fit w z) (z mod 2 ^ w).
Proof.
  intros w z W. unfold u_fit. assert (P : 0 < 2 ^ w) by (apply Z.pow_pos_nonneg; lia).
  destruct (Sumbool.sumbool_of_bool (u_ok w (z mod 2 ^ w))) as [E|E]; [reflexivity|].
  assert (T : u_ok w (z mod 2 ^ w) = true) by (apply u_ok_iff; unfold unsigned; now apply Z.mod_pos_bound). congruence.
Qed.
Lemma uint_unsigned : forall w (x : uint w) z, is_uint x z -> unsigned w z.
Proof. intros w [a H|] z E; [|destruct E]. simpl in E. subst. now apply u_ok_iff. Qed.
Lemma uint_eq : forall w (x y : uint w) z, is_uint x z -> is_uint y z -> x = y.
Proof.
  intros w [a H|] [b G|] z E F; try contradiction. simpl in *. subst. f_equal. apply (Eqdep_dec.UIP_dec bool_dec).
Qed.
Lemma u_op2_result : forall w f (x y : uint w) a b, 0 <= w -> is_uint x a -> is_uint y b -> u_result (u_op2 f x y) (f a b).
Proof. intros w f [p H|] [q G|] a b W E F; try contradiction. simpl in *. subst. now apply u_fit_is. Qed.
Lemma u_op1_result : forall w f (x : uint w) a, 0 <= w -> is_uint x a -> u_result (u_op1 f x) (f a).
Proof. intros w f [p H|] a W E; try contradiction. simpl in *. subst. now apply u_fit_is. Qed.
Lemma u_map2 : forall w (f : uint w -> uint w -> uint w) g, (forall x y a b, is_uint x a -> is_uint y b -> u_result (f x y) (g a b)) ->
  forall v u a b, are_uints v a -> are_uints u b -> Forall2 u_result (map2 f v u) (zzip g a b).
Proof.
  intros w f g H v u a b V. revert u b. induction V as [|x p v a X V IH]; intros u b U; simpl; [constructor|].
  inversion_clear U; constructor; auto.
Qed.
Lemma u_map : forall w (f : uint w -> uint w) g, (forall x a, is_uint x a -> u_result (f x) (g a)) ->
  forall v a, are_uints v a -> Forall2 u_result (map f v) (map g a).
Proof. intros w f g H v a V. induction V; simpl; constructor; auto. Qed.
Lemma u_div_result : forall w (x y : uint w) a b, 0 <= w -> is_uint x a -> is_uint y b -> b <> 0 -> is_uint (o_div x y) (a / b).
Proof.
  intros w x y a b W E F N. assert (A := uint_unsigned _ _ _ E). assert (B := uint_unsigned _ _ _ F). unfold unsigned in *.
  destruct x as [p H|], y as [q G|]; try contradiction. simpl in *. subst. destruct (Z.eqb_spec b 0); [contradiction|].
  assert (D : 0 <= a / b < 2 ^ w). { split; [apply Z.div_pos; lia|]. apply Z.le_lt_trans with a; [|lia]. apply Z.div_le_upper_bound; nia. }
  rewrite <- (Z.mod_small (a / b) (2 ^ w)) at 2 by exact D. now apply u_fit_is.
Qed.
Lemma u_div_zero : forall w (x y : uint w), is_uint y 0 -> o_div x y = U_undef.
Proof. intros w [p H|] [q G|] E; try contradiction; auto. simpl in *. now subst. Qed.
Lemma u_div_vec : forall w (v u : list (uint w)) a b, 0 <= w -> are_uints v a -> are_uints u b -> Forall (fun z => z <> 0) b ->
  are_uints (v_div v u) (zzip Z.div a b).
Proof.
  unfold v_div. intros w v u a b W V. revert u b. induction V as [|x p v a X V IH]; intros u b U N; simpl; [constructor|].
  inversion U; subst; constructor; inversion_clear N; auto. now apply u_div_result.
  now apply IH.
Qed.
Lemma u_dot : forall w (v u : list (uint w)) a b, 0 <= w -> are_uints v a -> are_uints u b -> length a = length b -> u_result (v_dot v u) (zdot a b).
Proof.
  intros w v u a b W V U L. unfold v_dot.
  assert (G : forall acc s, is_uint acc (s mod 2 ^ w) ->
    is_uint (fold_left (fun result p => o_add result (o_mul (fst p) (snd p))) (combine v u) acc) ((s + zdot a b) mod 2 ^ w)).
  { unfold zdot. revert u b U L. induction V as [|x p v a X V IH]; intros u b U L acc s A; destruct b as [|q b]; inversion L.
    - inversion U; subst. simpl in *. now rewrite Z.add_0_r.
    - inversion U as [|y q' u' b' Y U']; subst. simpl combine. cbn [fold_left fst snd zzip zsum fold_right]. rewrite Z.add_assoc. apply IH; auto.
      assert (M := u_op2_result w Z.mul x y p q W X Y). assert (A' := u_op2_result w Z.add acc (o_mul x y) _ _ W A M).
      unfold u_result in A'. now rewrite <- Z.add_mod in A' by (assert (0 < 2 ^ w) by (apply Z.pow_pos_nonneg; lia); lia). }
  unfold u_result. change (zdot a b) with (0 + zdot a b). apply G. now apply u_fit_is.
Qed.
Lemma u_diff : forall w (x y z t : uint w) a b c d, 0 <= w -> is_uint x a -> is_uint y b -> is_uint z c -> is_uint t d ->
  u_result (o_sub (o_mul x y) (o_mul z t)) (a * b - c * d).
Proof.
  intros w x y z t a b c d W X Y Z T.
  assert (M := u_op2_result w Z.mul x y a b W X Y). assert (N := u_op2_result w Z.mul z t c d W Z T).
  assert (D := u_op2_result w Z.sub _ _ _ _ W M N). unfold u_result in *. now rewrite <- Zminus_mod in D.
Qed.
Lemma u_cross : forall w (v u : list (uint w)) a b, 0 <= w -> are_uints v a -> are_uints u b -> length a = 3%nat -> length b = 3%nat ->
  Forall2 u_result (v_cross v u) (zcross a b).
Proof.
  intros w v u a b W V U LA LB. destruct a as [|a0 [|a1 [|a2 [|]]]]; try discriminate. destruct b as [|b0 [|b1 [|b2 [|]]]]; try discriminate.
  inversion_clear V as [|x0 ? v1 ? V0 V']. inversion_clear V' as [|x1 ? v2 ? V1 V'']. inversion_clear V'' as [|x2 ? v3 ? V2 V3]. inversion_clear V3.
  inversion_clear U as [|y0 ? u1 ? U0 U']. inversion_clear U' as [|y1 ? u2 ? U1 U'']. inversion_clear U'' as [|y2 ? u3 ? U2 U3]. inversion_clear U3.
  unfold v_cross, zcross, vget. cbn [nth]. repeat constructor; apply u_diff; auto.
Qed.
Lemma abs_unsigned : forall w (x : uint w), sc_abs x = x.
Proof.
  intros w x. unfold sc_abs. replace (o_lt x (cst 0)) with false; [reflexivity|]. symmetry. destruct x as [a H|]; [|reflexivity].
  cbn [cst o_of_Z Uops o_lt u_cmp]. unfold u_fit. destruct (Sumbool.sumbool_of_bool _); [|reflexivity]. cbn [u_cmp].
  apply u_ok_iff in H. unfold unsigned in H. apply Z.ltb_ge. destruct (Z.eq_dec (2 ^ w) 0) as [E|E]; [lia|]. rewrite Z.mod_0_l by auto. lia.
Qed.

(** ** Order laws *)
Lemma S_nan : forall w (x : sint w), is_nan x = match x with SI _ _ => false | S_undef => true end.
Proof. intros w [a H|]; unfold is_nan; simpl; [now rewrite Z.eqb_refl|reflexivity]. Qed.
Lemma U_nan : forall w (x : uint w), is_nan x = match x with UI _ _ => false | U_undef => true end.
Proof. intros w [a H|]; unfold is_nan; simpl; [now rewrite Z.eqb_refl|reflexivity]. Qed.
Lemma ltb_R : forall a b, (a <? b) = Rlt_bool (IZR a) (IZR b).
Proof. intros. case Z.ltb_spec; case Rlt_bool_spec; intros H G; auto; [apply le_IZR in H|apply lt_IZR in H]; lia. Qed.
Lemma leb_R : forall a b, (a <=? b) = Rle_bool (IZR a) (IZR b).
Proof. intros. case Z.leb_spec; case Rle_bool_spec; intros H G; auto; [apply lt_IZR in H|apply le_IZR in H]; lia. Qed.
Lemma eqb_R : forall a b, (a =? b) = Req_bool (IZR a) (IZR b).
Proof. intros. case Z.eqb_spec; case Req_bool_spec; intros H G; auto; [subst; contradiction|apply eq_IZR in H; contradiction]. Qed.
Definition skey {w} (x : sint w) : R := match x with SI a _ => IZR a | S_undef => 0%R end.
Definition ukey {w} (x : uint w) : R := match x with UI a _ => IZR a | U_undef => 0%R end.
Lemma s_same : forall w (x : sint w) z, is_sint x z -> is_nan x = false /\ skey x = IZR z.
Proof. intros w [a H|] z E; [|destruct E]. simpl in E. subst. rewrite S_nan. auto. Qed.
Lemma u_same : forall w (x : uint w) z, is_uint x z -> is_nan x = false /\ ukey x = IZR z.
Proof. intros w [a H|] z E; [|destruct E]. simpl in E. subst. rewrite U_nan. auto. Qed.
Definition S_ord (w : Z) (W : 2 <= w) : ordlaws (Sops w).
Proof.
  assert (P : 2 <= 2 ^ (w - 1)) by (replace 2 with (2 ^ 1) at 1 by reflexivity; apply Z.pow_le_mono_r; lia).
  assert (C : forall z, 0 <= z <= 1 -> is_sint (s_fit w z) z) by (intros; apply s_fit_in; unfold signed; lia).
  assert (I : forall (x : sint w) (f : Z -> Z -> Z), (forall a, f a 0 = a) -> is_nan (s_op2 f x (s_fit w 0)) = is_nan x
     /\ (is_nan x = false -> skey (s_op2 f x (s_fit w 0)) = skey x)).
  { intros [a H|] f F; [|split; [reflexivity|rewrite S_nan; discriminate]].
    assert (E : is_sint (s_op2 f (SI a H) (s_fit w 0)) a).
    { apply s_result_in; [|now apply s_ok_iff]. rewrite <- (F a) at 2. apply s_op2_result; [reflexivity|apply C; lia]. }
    apply s_same in E. destruct E as [E1 E2]. rewrite E1, E2, S_nan. auto. }
  refine {| key := skey : sint w -> R |}.
  - intros [a H|] [b G|]; rewrite !S_nan; try discriminate. intros _ _. apply ltb_R.
  - intros [a H|] [b G|]; rewrite !S_nan; try discriminate. intros _ _. apply leb_R.
  - intros [a H|] [b G|]; rewrite !S_nan; try discriminate. intros _ _. apply eqb_R.
  - intros [a H|] y; rewrite S_nan; try discriminate. intros _. now destruct y.
  - intros x [a H|]; rewrite S_nan; try discriminate. intros _. now destruct x.
  - intros z Hz. apply s_same, C, Hz.
  - intros x. apply I. intros; lia.
  - intros x. apply I. intros; lia.
Defined.
Definition U_ord (w : Z) (W : 1 <= w) : ordlaws (Uops w).
Proof.
  assert (P : 2 <= 2 ^ w) by (replace 2 with (2 ^ 1) at 1 by reflexivity; apply Z.pow_le_mono_r; lia).
  assert (C : forall z, unsigned w z -> is_uint (u_fit w z) z).
  { intros z Hz. rewrite <- (Z.mod_small z (2 ^ w)) at 2 by exact Hz. apply u_fit_is. lia. }
  assert (I : forall (x : uint w) (f : Z -> Z -> Z), (forall a, f a 0 = a) -> is_nan (u_op2 f x (u_fit w 0)) = is_nan x
     /\ (is_nan x = false -> ukey (u_op2 f x (u_fit w 0)) = ukey x)).
  { intros [a H|] f F; [|split; [reflexivity|rewrite U_nan; discriminate]].
    assert (E : is_uint (u_op2 f (UI a H) (u_fit w 0)) a).
    { assert (E := u_op2_result w f (UI a H) (u_fit w 0) a 0 ltac:(lia) eq_refl (C 0 ltac:(unfold unsigned; lia))).
      unfold u_result in E. rewrite F, Z.mod_small in E; auto. now apply u_ok_iff. }
    apply u_same in E. destruct E as [E1 E2]. rewrite E1, E2, U_nan. auto. }
  refine {| key := ukey : uint w -> R |}.
  - intros [a H|] [b G|]; rewrite !U_nan; try discriminate. intros _ _. apply ltb_R.
  - intros [a H|] [b G|]; rewrite !U_nan; try discriminate. intros _ _. apply leb_R.
  - intros [a H|] [b G|]; rewrite !U_nan; try discriminate. intros _ _. apply eqb_R.
  - intros [a H|] y; rewrite U_nan; try discriminate. intros _. now destruct y.
  - intros x [a H|]; rewrite U_nan; try discriminate. intros _. now destruct x.
  - intros z Hz. apply u_same, C. unfold unsigned. lia.
  - intros x. apply I. intros; lia.
  - intros x. apply I. intros; lia.
Defined.
