(** Conversions between component types. *)
From Coq Require Import ZArith Reals List Lia Lra Bool Psatz.
From Flocq Require Import Core BinarySingleNaN Relative.
From Verif Require Import Ops M_scalar M_vec M_geom M_mat M_matext M_quat M_bbox M_polygon M_convert Inst_F Inst_conv Inst_I S_order S_rnd S_int S_boxset S_convert
  P_ord P_compare P_seg P_int P_bbox P_equal P_ieee P_affine P_fp P_int2 P_int3.
Import ListNotations.
Local Open Scope R_scope.

Section Conv.
Variables p1 e1 p2 e2 : Z.
Context {Hp1 : Prec_gt_0 p1} {Hm1 : Prec_lt_emax p1 e1} {Hp2 : Prec_gt_0 p2} {Hm2 : Prec_lt_emax p2 e2}.
#[local] Existing Instance fexp_correct.
Notation f1 := (binary_float p1 e1).
Notation f2 := (binary_float p2 e2).
Notation conv := (F_conv p2 e2 Hp2 Hm2).
Notation rnd := (round radix2 (SpecFloat.fexp p2 e2) ZnearestE).

Lemma conv_in_format : forall x : f1, is_finite x = true -> generic_format radix2 (SpecFloat.fexp p2 e2) (B2R x) -> Rabs (B2R x) < bpow radix2 e2 ->
  is_finite (conv x) = true /\ B2R (conv x) = B2R x /\ Bsign (conv x) = Bsign x.
Proof.
  intros x Hx G L. destruct x as [s|s| |s m e H]; try discriminate; [repeat split; reflexivity|].
  generalize (binary_normalize_correct p2 e2 Hp2 Hm2 mode_NE (cond_Zopp s (Zpos m)) e s). cbv zeta.
  change (F2R {| Fnum := cond_Zopp s (Zpos m); Fexp := e |}) with (B2R (B754_finite s m e H)).
  rewrite round_generic by (auto with typeclass_instances). rewrite Rlt_bool_true by exact L. intros (C1 & C2 & C3).
  split; [exact C2|]. split; [exact C1|]. unfold F_conv. rewrite C3. cbn [Bsign B2R]. destruct s.
  - rewrite Rcompare_Lt; [reflexivity|]. apply F2R_lt_0. cbn. lia.
  - rewrite Rcompare_Gt; [reflexivity|]. apply F2R_gt_0. cbn. lia.
Qed.
Hypothesis (P : (p1 <= p2)%Z) (E : (e1 <= e2)%Z).
Lemma widen_format : forall x : f1, is_finite x = true -> generic_format radix2 (SpecFloat.fexp p2 e2) (B2R x) /\ Rabs (B2R x) < bpow radix2 e2.
Proof.
  intros x Hx. destruct (conv_exact p1 e1 p2 e2 P E x Hx) as [F V]. split.
  - rewrite <- V. apply generic_format_B2R.
  - rewrite <- V. apply abs_B2R_lt_emax.
Qed.
Lemma widen_same : forall x : f1, same_number x (conv x).
Proof.
  intros x. destruct (is_finite x) eqn:F.
  - right. right. destruct (widen_format x F) as [G L]. destruct (conv_in_format x F G L) as (A & B & C). auto.
  - destruct x as [s|s| |]; try discriminate; [right; left; now exists s|now left].
Qed.
Lemma same_unique : forall (x y : f1), same_number x y -> x = y.
Proof.
  intros x y [[-> ->]|[(s & -> & ->)|(F & G & V & S)]]; auto. destruct x as [s|s| |s m e H]; try discriminate.
  - destruct y as [t|t| |t m e H]; try discriminate; cbn in *; [now subst|]. exfalso. symmetry in V. revert V. apply F2R_neq_0. cbn. now destruct t.
  - destruct y as [t|t| |t m' e' H']; try discriminate; cbn [B2R] in *; [exfalso; revert V; apply F2R_neq_0; cbn; now destruct s|].
    apply B2R_inj; auto.
Qed.
End Conv.
Section Back.
Variables p1 e1 p2 e2 : Z.
Context {Hp1 : Prec_gt_0 p1} {Hm1 : Prec_lt_emax p1 e1} {Hp2 : Prec_gt_0 p2} {Hm2 : Prec_lt_emax p2 e2}.
#[local] Existing Instance fexp_correct.
Notation f1 := (binary_float p1 e1).
Notation f2 := (binary_float p2 e2).
Notation widen := (F_conv p2 e2 Hp2 Hm2 : f1 -> f2).
Notation narrow := (F_conv p1 e1 Hp1 Hm1 : f2 -> f1).
Hypothesis (P : (p1 <= p2)%Z) (E : (e1 <= e2)%Z).
Lemma same_narrow : forall (x : f1) (y : f2), same_number x y -> narrow y = x.
Proof.
  intros x y [[-> ->]|[(s & -> & ->)|(F & G & V & S)]]; try reflexivity.
  destruct (conv_in_format p2 e2 p1 e1 y G) as (A & B & C).
  - rewrite <- V. apply generic_format_B2R.
  - rewrite <- V. apply abs_B2R_lt_emax.
  - apply same_unique. right. right. repeat split; auto; congruence.
Qed.
Lemma round_trip : forall x : f1, narrow (widen x) = x.
Proof. intros x. apply same_narrow. now apply widen_same. Qed.
Lemma map_round_trip : forall v : list f1, map narrow (map widen v) = v.
Proof. intros v. rewrite map_map. rewrite <- (map_id v) at 2. apply map_ext. exact round_trip. Qed.
Lemma v_convert_all : forall {A B} {o : ops B} (f : A -> B) (n : nat) v, length v = n -> v_convert f n v = map f v.
Proof. intros A B o f n v <-. unfold v_convert. rewrite firstn_all, Nat.sub_diag. apply app_nil_r. Qed.
Lemma v_round_trip : forall n (v : list f1), length v = n -> v_convert narrow n (v_convert widen n v) = v.
Proof. intros n v L. rewrite (v_convert_all _ n v L). rewrite v_convert_all by (now rewrite map_length). apply map_round_trip. Qed.
Lemma r_compare_widen : forall l k : list (list f1), r_compare (map (map widen) l) (map (map widen) k) (cst 0) = r_compare l k (cst 0).
Proof.
  induction l as [|a l IH]; intros [|b k]; try reflexivity. cbn [map r_compare]. rewrite (conv_v_compare p1 e1 p2 e2 P E), IH. reflexivity.
Qed.
Lemma mat_round_trip : forall m : list (list f1), m_convert narrow (m_convert widen m) = m.
Proof. intros m. unfold m_convert. rewrite map_map. rewrite <- (map_id m) at 2. apply map_ext. exact map_round_trip. Qed.
Lemma polygon_round_trip : forall p : list (list f1), pg_convert narrow (pg_convert widen p) = p.
Proof. intros p. unfold pg_convert. rewrite !push_loop_map. apply mat_round_trip. Qed.
Lemma box_round_trip : forall n (b : bbox f1), box_of n b -> exists c, bb_convert widen b = Ret c /\ bb_convert narrow c = Ret b.
Proof.
  intros n b B. destruct (box_convert p1 e1 p2 e2 n b B) as (c & C & BC & M1 & M2 & _). exists c. split; [exact C|].
  destruct (box_convert p2 e2 p1 e1 n c BC) as (b' & C' & BC' & M1' & M2' & _). rewrite C'. f_equal.
  rewrite M1, map_round_trip in M1'. rewrite M2, map_round_trip in M2'. destruct b, b'. cbn in *. now subst.
Qed.
Lemma widen_all : forall v : list f1, Forall2 same_number v (map widen v).
Proof. intros v. induction v; simpl; constructor; auto. now apply widen_same. Qed.
Lemma line_round_trip : forall n (l : line f1), length (ln_point l) = n -> length (ln_dir l) = n -> ln_convert narrow n (ln_convert widen n l) = l.
Proof. intros n [a b] A B. unfold ln_convert. cbn [ln_point ln_dir] in *. now rewrite !v_round_trip. Qed.
Lemma ray_round_trip : forall n (l : ray f1), length (ray_origin l) = n -> length (ray_dir l) = n -> ray_convert narrow n (ray_convert widen n l) = l.
Proof. intros n [a b] A B. unfold ray_convert. cbn [ray_origin ray_dir] in *. now rewrite !v_round_trip. Qed.
Lemma plane_round_trip : forall n (p : plane f1), length (pl_normal p) = n -> pl_convert narrow n (pl_convert widen n p) = p.
Proof. intros n [a b] B. unfold pl_convert. cbn [pl_dist pl_normal] in *. now rewrite v_round_trip, round_trip. Qed.
Lemma segment_round_trip : forall s : segment f1, seg_convert narrow (seg_convert widen s) = s.
Proof. intros [a b]. unfold seg_convert. cbn [seg_start seg_end]. now rewrite !map_round_trip. Qed.
Lemma quat_round_trip : forall q : quat f1, q_convert narrow (q_convert widen q) = q.
Proof. intros [a b]. unfold q_convert. cbn [q_r q_v]. now rewrite !map_round_trip, round_trip. Qed.
End Back.

(** ** Narrowing *)
Section Narrow.
Variables p1 e1 p2 e2 : Z.
Context {Hp1 : Prec_gt_0 p1} {Hm1 : Prec_lt_emax p1 e1} {Hp2 : Prec_gt_0 p2} {Hm2 : Prec_lt_emax p2 e2}.
#[local] Existing Instance fexp_correct.
Notation f1 := (binary_float p1 e1).
Notation f2 := (binary_float p2 e2).
Notation conv := (F_conv p2 e2 Hp2 Hm2 : f1 -> f2).
Lemma narrow_error : forall x : f1, is_finite x = true -> (1 + unit_roundoff p2) * Rabs (B2R x) + underflow_error p2 e2 < bpow radix2 e2 ->
  near (conv x) (B2R x) (unit_roundoff p2 * Rabs (B2R x) + underflow_error p2 e2).
Proof.
  intros x F L. assert (U := u_pos p2). assert (H := eta_pos p2 e2). destruct x as [s|s| |s m e B]; try discriminate.
  - split; [reflexivity|]. cbn [F_conv B2R]. rewrite Rabs_R0, Rminus_0_r, Rabs_R0. lra.
  - generalize (binary_normalize_correct p2 e2 Hp2 Hm2 mode_NE (cond_Zopp s (Zpos m)) e s). cbv zeta.
    change (F2R {| Fnum := cond_Zopp s (Zpos m); Fexp := e |}) with (B2R (B754_finite s m e B)). revert L. set (a := B2R (B754_finite s m e B)).
    intros L. destruct (rnd_error p2 e2 a) as (d & t & D & T & EQ). rewrite EQ.
    assert (Q : Rabs (a * d + t) <= unit_roundoff p2 * Rabs a + underflow_error p2 e2).
    { eapply Rle_trans; [apply Rabs_triang|]. rewrite Rabs_mult. assert (K := Rabs_pos a). nra. }
    rewrite Rlt_bool_true.
    + intros (C1 & C2 & _). split; [exact C2|]. unfold F_conv. rewrite C1. replace (a * (1 + d) + t - a) with (a * d + t) by ring. exact Q.
    + replace (a * (1 + d) + t) with (a + (a * d + t)) by ring. eapply Rle_lt_trans; [apply Rabs_triang|]. lra.
Qed.
Lemma narrow_vec : forall (m : R) (v : list f1), all_finite v -> Forall (fun x => Rabs x <= m) (values v) -> (1 + unit_roundoff p2) * m + underflow_error p2 e2 < bpow radix2 e2 ->
  Forall2 (fun y x => near y x (unit_roundoff p2 * Rabs x + underflow_error p2 e2)) (map conv v) (values v).
Proof.
  intros m v F B L. assert (U := u_pos p2). unfold values in *. induction F as [|x v X F IH]; inversion_clear B; simpl; constructor; auto.
  apply narrow_error; auto. eapply Rle_lt_trans; [|exact L]. apply Rplus_le_compat_r, Rmult_le_compat_l; auto; lra.
Qed.
End Narrow.

(** ** Integers and floating point numbers *)
Section Ints.
Variables prec emax : Z.
Context {Hprec : Prec_gt_0 prec} {Hmax : Prec_lt_emax prec emax}.
#[local] Existing Instance fexp_correct.
Notation fl := (binary_float prec emax).
Notation fz := (F_of_Z prec emax Hprec Hmax).

Lemma fz_exact : forall z, (Z.abs z <= 2 ^ prec)%Z -> is_float (fz z) z.
Proof. intros z Z. destruct (F_of_Z_small prec emax Hprec Hmax z Z) as (A & B & _). now split. Qed.
Lemma fz_near : forall z w, (1 <= w < emax)%Z -> (Z.abs z <= 2 ^ w)%Z -> near (fz z) (IZR z) (unit_roundoff prec * Rabs (IZR z)).
Proof.
  intros z w W Z. unfold F_of_Z. assert (M : (prec < emax)%Z) by apply Hmax. assert (P : (0 < prec)%Z) by apply Hprec.
  generalize (binary_normalize_correct prec emax Hprec Hmax mode_NE z 0 false). cbv zeta.
  replace (F2R {| Fnum := z; Fexp := 0 |}) with (IZR z) by (unfold F2R; simpl; ring).
  assert (A : Rabs (IZR z) <= bpow radix2 w).
  { rewrite <- abs_IZR. replace (bpow radix2 w) with (IZR (2 ^ w)); [now apply IZR_le|]. rewrite <- (IZR_Zpower radix2) by lia. reflexivity. }
  assert (Q : exists d, Rabs d <= unit_roundoff prec /\ round radix2 (SpecFloat.fexp prec emax) (round_mode mode_NE) (IZR z) = IZR z * (1 + d)).
  { destruct (Z.eq_dec z 0) as [->|N].
    - exists 0. split; [rewrite Rabs_R0; apply Rlt_le, u_pos|]. rewrite round_0 by typeclasses eauto. ring.
    - apply (rnd_error_big prec emax). apply Rle_trans with 1.
      + change 1 with (bpow radix2 0). apply bpow_le. lia.
      + rewrite <- abs_IZR. apply (IZR_le 1). lia. }
  destruct Q as (d & D & EQ). rewrite Rlt_bool_true.
  - rewrite EQ. intros (C1 & C2 & _). split; [exact C2|]. rewrite C1. replace (IZR z * (1 + d) - IZR z) with (IZR z * d) by ring.
    rewrite Rabs_mult. assert (K := Rabs_pos (IZR z)). nra.
  - apply Rle_lt_trans with (bpow radix2 w); [|apply bpow_lt; lia].
    apply abs_round_le_generic; auto with typeclass_instances. apply generic_format_bpow. unfold SpecFloat.fexp, SpecFloat.emin. lia.
Qed.
Lemma trunc_float : forall (x : fl) z, is_float x z -> Btrunc x = z.
Proof. intros x z [F V]. rewrite (Btrunc_Ztrunc prec emax (Hmax := Hmax)), V. apply Ztrunc_IZR. Qed.
Lemma float_nan : forall (x : fl) z, is_float x z -> M_scalar.is_nan x = false.
Proof. intros x z [F V]. rewrite F_is_nan. now apply finite_not_nan. Qed.
Lemma float_key : forall (x : fl) z, is_float x z -> key x = IZR z.
Proof. intros x z [F V]. change (key x) with (Fkey prec emax x). rewrite Fkey_finite; auto. Qed.
Lemma float_unique : forall (x y : fl) z, is_float x z -> is_float y z -> o_eq x y = true.
Proof. intros x y z X Y. now apply (val_eq is_float float_nan float_key x y z z X Y). Qed.

Notation sf := (s_to_f prec emax Hprec Hmax).
Notation uf := (u_to_f prec emax Hprec Hmax).
Lemma s_exact : forall w (v : list (sint w)) a, (w - 1 <= prec)%Z -> (1 <= w)%Z -> are_sints v a -> Forall2 is_float (map sf v) a.
Proof.
  intros w v a W W1 V. induction V as [|x z v a X V IH]; simpl; constructor; auto.
  assert (S := sint_signed w x z X). destruct x; try contradiction. simpl in X. subst. apply fz_exact. unfold signed in S.
  assert (Q : (2 ^ (w - 1) <= 2 ^ prec)%Z) by (apply Z.pow_le_mono_r; lia). lia.
Qed.
Lemma u_exact : forall w (v : list (uint w)) a, (w <= prec)%Z -> (0 <= w)%Z -> are_uints v a -> Forall2 is_float (map uf v) a.
Proof.
  intros w v a W W1 V. induction V as [|x z v a X V IH]; simpl; constructor; auto.
  assert (S := uint_unsigned w x z X). destruct x; try contradiction. simpl in X. subst. apply fz_exact. unfold unsigned in S.
  assert (Q : (2 ^ w <= 2 ^ prec)%Z) by (apply Z.pow_le_mono_r; lia). lia.
Qed.
Lemma s_back : forall w (v : list (sint w)) a (f : list fl), are_sints v a -> Forall2 is_float f a -> map (f_to_s w) f = v.
Proof.
  intros w v a f V. revert f. induction V as [|x z v a X V IH]; intros f F; inversion_clear F; simpl; auto. f_equal; auto.
  unfold f_to_s. rewrite (trunc_float _ _ H). destruct H as [-> _]. apply sint_eq with z; auto. apply s_fit_in. now apply sint_signed with x.
Qed.
Lemma u_back : forall w (v : list (uint w)) a (f : list fl), (0 <= w)%Z -> are_uints v a -> Forall2 is_float f a -> map (f_to_u w) f = v.
Proof.
  intros w v a f W V. revert f. induction V as [|x z v a X V IH]; intros f F; inversion_clear F; simpl; auto. f_equal; auto.
  assert (S := uint_unsigned w x z X). unfold f_to_u. rewrite (trunc_float _ _ H). destruct H as [-> _]. rewrite (proj2 (u_ok_iff w z) S). cbn [andb].
  apply uint_eq with z; auto. assert (Q := u_fit_is w z W). rewrite Z.mod_small in Q; auto.
Qed.
Lemma cmp_same : forall c c' : Z, ((c = -1 <-> c' = -1) -> (c = 1 <-> c' = 1) -> (c = -1 \/ c = 0 \/ c = 1) -> (c' = -1 \/ c' = 0 \/ c' = 1) -> c = c')%Z.
Proof. intros. lia. Qed.
Lemma s_order : forall w (v u : list (sint w)) a b, (2 <= w <= prec + 1)%Z -> are_sints v a -> are_sints u b -> length a = length b ->
  v_compare (map sf v) (map sf u) (cst 0) = v_compare v u (cst 0).
Proof.
  intros w v u a b W V U L. assert (W2 : (2 <= w)%Z) by lia. destruct (s_compare w W2 v u a b V U L) as (A1 & A2 & _ & A3).
  destruct (compare_z is_float float_nan float_key (map sf v) (map sf u) a b) as (B1 & B2 & _ & B3); auto; try (apply s_exact; auto; lia).
  apply cmp_same; auto; [now rewrite A1, B1|now rewrite A2, B2].
Qed.
Lemma u_order : forall w (v u : list (uint w)) a b, (1 <= w <= prec)%Z -> are_uints v a -> are_uints u b -> length a = length b ->
  v_compare (map uf v) (map uf u) (cst 0) = v_compare v u (cst 0).
Proof.
  intros w v u a b W V U L. assert (W2 : (1 <= w)%Z) by lia. destruct (u_compare w W2 v u a b V U L) as (A1 & A2 & _ & A3).
  destruct (compare_z is_float float_nan float_key (map uf v) (map uf u) a b) as (B1 & B2 & _ & B3); auto; try (apply u_exact; auto; lia).
  apply cmp_same; auto; [now rewrite A1, B1|now rewrite A2, B2].
Qed.
Lemma s_near : forall w (v : list (sint w)) a, (2 <= w <= emax)%Z -> are_sints v a ->
  Forall2 (fun x z => near x (IZR z) (unit_roundoff prec * Rabs (IZR z))) (map sf v) a.
Proof.
  intros w v a W V. induction V as [|x z v a X V IH]; simpl; constructor; auto.
  assert (S := sint_signed w x z X). destruct x; try contradiction. simpl in X. subst. apply fz_near with (w - 1)%Z; [lia|]. unfold signed in S. lia.
Qed.
Lemma u_near : forall w (v : list (uint w)) a, (1 <= w < emax)%Z -> are_uints v a ->
  Forall2 (fun x z => near x (IZR z) (unit_roundoff prec * Rabs (IZR z))) (map uf v) a.
Proof.
  intros w v a W V. induction V as [|x z v a X V IH]; simpl; constructor; auto.
  assert (S := uint_unsigned w x z X). destruct x; try contradiction. simpl in X. subst. apply fz_near with w; [lia|]. unfold unsigned in S. lia.
Qed.
(** Truncation *)
Lemma f_s_trunc : forall w (x : fl), is_finite x = true -> s_result (f_to_s w x) (Ztrunc (B2R x)).
Proof. intros w x F. unfold f_to_s. rewrite F, (Btrunc_Ztrunc prec emax (Hmax := Hmax)). apply s_fit_result. Qed.
Lemma f_u_trunc : forall w (x : fl), (0 <= w)%Z -> is_finite x = true ->
  (unsigned w (Ztrunc (B2R x)) /\ is_uint (f_to_u w x) (Ztrunc (B2R x))) \/ (~ unsigned w (Ztrunc (B2R x)) /\ f_to_u w x = U_undef).
Proof.
  intros w x W F. unfold f_to_u. rewrite F, (Btrunc_Ztrunc prec emax (Hmax := Hmax)). set (z := Ztrunc (B2R x)). cbn [andb].
  destruct (u_ok w z) eqn:E.
  - apply u_ok_iff in E. left. split; auto. assert (Q := u_fit_is w z W). now rewrite Z.mod_small in Q.
  - right. split; auto. intros C. apply u_ok_iff in C. congruence.
Qed.
Lemma f_s_undef : forall w (x : fl), is_finite x = false -> f_to_s w x = S_undef /\ f_to_u w x = U_undef.
Proof. intros w x F. unfold f_to_s, f_to_u. now rewrite F. Qed.
End Ints.

(** ** Between integers *)
Lemma wrap_mod : forall w z, (1 <= w)%Z -> signed w ((z + 2 ^ (w - 1)) mod 2 ^ w - 2 ^ (w - 1)) /\ (((z + 2 ^ (w - 1)) mod 2 ^ w - 2 ^ (w - 1)) mod 2 ^ w = z mod 2 ^ w)%Z
  /\ (signed w z -> (z + 2 ^ (w - 1)) mod 2 ^ w - 2 ^ (w - 1) = z)%Z.
Proof.
  intros w z W. assert (P : (0 < 2 ^ (w - 1))%Z) by (apply Z.pow_pos_nonneg; lia).
  assert (D : (2 ^ w = 2 * 2 ^ (w - 1))%Z) by (rewrite <- Z.pow_succ_r by lia; f_equal; lia).
  assert (B := Z.mod_pos_bound (z + 2 ^ (w - 1)) (2 ^ w) ltac:(lia)). unfold signed. split; [lia|]. split.
  - rewrite Zminus_mod, Z.mod_mod by lia. rewrite <- Zminus_mod. f_equal. lia.
  - intros S. rewrite Z.mod_small by lia. lia.
Qed.
Lemma s_s_conv : forall w w' (v : list (sint w)) a, (1 <= w')%Z -> are_sints v a ->
  Forall2 (fun (x : sint w') z => exists r, is_sint x r /\ (r mod 2 ^ w' = z mod 2 ^ w')%Z /\ (signed w' z -> r = z)) (map (s_to_s w') v) a.
Proof.
  intros w w' v a W V. induction V as [|x z v a X V IH]; simpl; constructor; auto. destruct x; try contradiction. simpl in X. subst.
  destruct (wrap_mod w' z W) as (A & B & C). unfold s_to_s. eexists. split; [apply s_fit_in; exact A|]. auto.
Qed.
Lemma u_s_conv : forall w w' (v : list (uint w)) a, (1 <= w')%Z -> are_uints v a ->
  Forall2 (fun (x : sint w') z => exists r, is_sint x r /\ (r mod 2 ^ w' = z mod 2 ^ w')%Z /\ (signed w' z -> r = z)) (map (u_to_s w') v) a.
Proof.
  intros w w' v a W V. induction V as [|x z v a X V IH]; simpl; constructor; auto. destruct x; try contradiction. simpl in X. subst.
  destruct (wrap_mod w' z W) as (A & B & C). unfold u_to_s. eexists. split; [apply s_fit_in; exact A|]. auto.
Qed.
Lemma s_u_conv : forall w w' (v : list (sint w)) a, (0 <= w')%Z -> are_sints v a -> Forall2 u_result (map (s_to_u w') v) a.
Proof.
  intros w w' v a W V. induction V as [|x z v a X V IH]; simpl; constructor; auto. destruct x; try contradiction. simpl in X. subst.
  now apply u_fit_is.
Qed.
Lemma u_u_conv : forall w w' (v : list (uint w)) a, (0 <= w')%Z -> are_uints v a -> Forall2 u_result (map (u_to_u w') v) a.
Proof.
  intros w w' v a W V. induction V as [|x z v a X V IH]; simpl; constructor; auto. destruct x; try contradiction. simpl in X. subst.
  now apply u_fit_is.
Qed.

(** ** Final statements *)
Lemma widen_ok : forall p1 e1 p2 e2 : Z,
  forall (Hp1 : Prec_gt_0 p1) (Hm1 : Prec_lt_emax p1 e1) (Hp2 : Prec_gt_0 p2) (Hm2 : Prec_lt_emax p2 e2), (p1 <= p2)%Z -> (e1 <= e2)%Z ->
  let widen : binary_float p1 e1 -> binary_float p2 e2 := F_conv p2 e2 Hp2 Hm2 in
  (forall n v, length v = n -> Forall2 same_number v (v_convert widen n v))
  /\ (forall v u, v_compare (map widen v) (map widen u) (cst 0) = v_compare v u (cst 0))
  /\ (forall l k, r_compare (map (map widen) l) (map (map widen) k) (cst 0) = r_compare l k (cst 0)).
Proof.
  intros p1 e1 p2 e2 Hp1 Hm1 Hp2 Hm2 P E widen. split; [|split].
  - intros n v L. rewrite v_convert_all by exact L. now apply widen_all.
  - now apply conv_v_compare.
  - now apply r_compare_widen.
Qed.
Lemma round_trips : forall p1 e1 p2 e2 : Z,
  forall (Hp1 : Prec_gt_0 p1) (Hm1 : Prec_lt_emax p1 e1) (Hp2 : Prec_gt_0 p2) (Hm2 : Prec_lt_emax p2 e2), (p1 <= p2)%Z -> (e1 <= e2)%Z ->
  let widen : binary_float p1 e1 -> binary_float p2 e2 := F_conv p2 e2 Hp2 Hm2 in
  let narrow : binary_float p2 e2 -> binary_float p1 e1 := F_conv p1 e1 Hp1 Hm1 in
  (forall n v, length v = n -> v_convert narrow n (v_convert widen n v) = v)
  /\ (forall m, m_convert narrow (m_convert widen m) = m)
  /\ (forall q, q_convert narrow (q_convert widen q) = q)
  /\ (forall n l, length (ln_point l) = n -> length (ln_dir l) = n -> ln_convert narrow n (ln_convert widen n l) = l)
  /\ (forall n r, length (ray_origin r) = n -> length (ray_dir r) = n -> ray_convert narrow n (ray_convert widen n r) = r)
  /\ (forall n p, length (pl_normal p) = n -> pl_convert narrow n (pl_convert widen n p) = p)
  /\ (forall s, seg_convert narrow (seg_convert widen s) = s)
  /\ (forall p, pg_convert narrow (pg_convert widen p) = p)
  /\ (forall n b, box_of n b -> exists c, bb_convert widen b = Ret c /\ bb_convert narrow c = Ret b).
Proof.
  intros p1 e1 p2 e2 Hp1 Hm1 Hp2 Hm2 P E widen narrow.
  exact (conj (v_round_trip p1 e1 p2 e2 P E) (conj (mat_round_trip p1 e1 p2 e2 P E) (conj (quat_round_trip p1 e1 p2 e2 P E)
    (conj (line_round_trip p1 e1 p2 e2 P E) (conj (ray_round_trip p1 e1 p2 e2 P E) (conj (plane_round_trip p1 e1 p2 e2 P E)
    (conj (segment_round_trip p1 e1 p2 e2 P E) (conj (polygon_round_trip p1 e1 p2 e2 P E) (box_round_trip p1 e1 p2 e2 P E))))))))).
Qed.
Lemma narrow_ok : forall p1 e1 p2 e2 : Z,
  forall (Hp1 : Prec_gt_0 p1) (Hm1 : Prec_lt_emax p1 e1) (Hp2 : Prec_gt_0 p2) (Hm2 : Prec_lt_emax p2 e2),
  let conv : binary_float p1 e1 -> binary_float p2 e2 := F_conv p2 e2 Hp2 Hm2 in
  (forall (m : R) v, all_finite v -> Forall (fun x => Rabs x <= m) (values v) -> (1 + unit_roundoff p2) * m + underflow_error p2 e2 < bpow radix2 e2 ->
     Forall2 (fun y x => near y x (unit_roundoff p2 * Rabs x + underflow_error p2 e2)) (map conv v) (values v))
  /\ (forall x y, o_le x y = true -> o_le (conv x) (conv y) = true)
  /\ (forall x, NaN (conv x) <-> NaN x).
Proof.
  intros p1 e1 p2 e2 Hp1 Hm1 Hp2 Hm2 conv. split; [|split].
  - now apply narrow_vec.
  - now apply conv_le.
  - intros x. rewrite (NaN_is_nan (T := binary_float p2 e2)), (NaN_is_nan (T := binary_float p1 e1)). rewrite !F_is_nan. unfold conv. now rewrite conv_nan.
Qed.
Lemma ints_exact : forall (w prec emax : Z) (Hp : Prec_gt_0 prec) (Hm : Prec_lt_emax prec emax),
  (forall (v : list (sint w)) a, (2 <= w <= prec + 1)%Z -> are_sints v a ->
     Forall2 is_float (map (s_to_f prec emax Hp Hm) v) a /\ map (f_to_s w) (map (s_to_f prec emax Hp Hm) v) = v
     /\ forall u b, are_sints u b -> length a = length b ->
        v_compare (map (s_to_f prec emax Hp Hm) v) (map (s_to_f prec emax Hp Hm) u) (cst 0) = v_compare v u (cst 0))
  /\ (forall (v : list (uint w)) a, (1 <= w <= prec)%Z -> are_uints v a ->
     Forall2 is_float (map (u_to_f prec emax Hp Hm) v) a /\ map (f_to_u w) (map (u_to_f prec emax Hp Hm) v) = v
     /\ forall u b, are_uints u b -> length a = length b ->
        v_compare (map (u_to_f prec emax Hp Hm) v) (map (u_to_f prec emax Hp Hm) u) (cst 0) = v_compare v u (cst 0)).
Proof.
  intros w prec emax Hp Hm. split.
  - intros v a W V. assert (F : Forall2 is_float (map (s_to_f prec emax Hp Hm) v) a) by (apply s_exact; auto; lia).
    split; [exact F|]. split; [now apply s_back with a|]. intros u b U L. now apply s_order with a b.
  - intros v a W V. assert (F : Forall2 is_float (map (u_to_f prec emax Hp Hm) v) a) by (apply u_exact; auto; lia).
    split; [exact F|]. split; [apply u_back with a; auto; lia|]. intros u b U L. now apply u_order with a b.
Qed.
Lemma ints_near : forall (w prec emax : Z) (Hp : Prec_gt_0 prec) (Hm : Prec_lt_emax prec emax), (2 <= w < emax)%Z ->
  (forall (v : list (sint w)) a, are_sints v a ->
     Forall2 (fun x z => near x (IZR z) (unit_roundoff prec * Rabs (IZR z))) (map (s_to_f prec emax Hp Hm) v) a)
  /\ (forall (v : list (uint w)) a, are_uints v a ->
     Forall2 (fun x z => near x (IZR z) (unit_roundoff prec * Rabs (IZR z))) (map (u_to_f prec emax Hp Hm) v) a).
Proof. intros w prec emax Hp Hm W. split; intros v a V; [apply s_near|apply u_near]; auto; lia. Qed.
Lemma truncates : forall (w prec emax : Z) (Hp : Prec_gt_0 prec) (Hm : Prec_lt_emax prec emax) (x : binary_float prec emax), (0 <= w)%Z ->
  (is_finite x = true -> s_result (f_to_s w x) (Ztrunc (B2R x))
     /\ ((unsigned w (Ztrunc (B2R x)) /\ is_uint (f_to_u w x) (Ztrunc (B2R x))) \/ (~ unsigned w (Ztrunc (B2R x)) /\ f_to_u w x = U_undef)))
  /\ (is_finite x = false -> f_to_s w x = S_undef /\ f_to_u w x = U_undef).
Proof.
  intros w prec emax Hp Hm x W. split.
  - intros F. split; [now apply f_s_trunc|now apply f_u_trunc].
  - intros F. now apply f_s_undef.
Qed.
Lemma between_ints : forall (w w' : Z), (1 <= w')%Z ->
  (forall (v : list (sint w)) a, are_sints v a ->
     Forall2 (fun (x : sint w') z => exists r, is_sint x r /\ (r mod 2 ^ w' = z mod 2 ^ w')%Z /\ (signed w' z -> r = z)) (map (s_to_s w') v) a)
  /\ (forall (v : list (uint w)) a, are_uints v a ->
     Forall2 (fun (x : sint w') z => exists r, is_sint x r /\ (r mod 2 ^ w' = z mod 2 ^ w')%Z /\ (signed w' z -> r = z)) (map (u_to_s w') v) a)
  /\ (forall (v : list (sint w)) a, are_sints v a -> Forall2 u_result (map (s_to_u w') v) a)
  /\ (forall (v : list (uint w)) a, are_uints v a -> Forall2 u_result (map (u_to_u w') v) a).
Proof.
  intros w w' W. split; [|split; [|split]]; intros v a V; [now apply s_s_conv|now apply u_s_conv|apply s_u_conv; auto; lia|apply u_u_conv; auto; lia].
Qed.
(** Every part of an object is converted by itself. *)
Lemma parts : forall (T U : Type) (o : ops T) (conv : U -> T),
  (forall n v, length v = n -> v_convert conv n v = map conv v)
  /\ (forall m, m_convert conv m = map (map conv) m)
  /\ (forall q, q_r (q_convert conv q) = conv (q_r q) /\ q_v (q_convert conv q) = map conv (q_v q))
  /\ (forall n l, length (ln_point l) = n -> length (ln_dir l) = n -> ln_point (ln_convert conv n l) = map conv (ln_point l) /\ ln_dir (ln_convert conv n l) = map conv (ln_dir l))
  /\ (forall n r, length (ray_origin r) = n -> length (ray_dir r) = n -> ray_origin (ray_convert conv n r) = map conv (ray_origin r) /\ ray_dir (ray_convert conv n r) = map conv (ray_dir r))
  /\ (forall n p, length (pl_normal p) = n -> pl_dist (pl_convert conv n p) = conv (pl_dist p) /\ pl_normal (pl_convert conv n p) = map conv (pl_normal p))
  /\ (forall s, seg_start (seg_convert conv s) = map conv (seg_start s) /\ seg_end (seg_convert conv s) = map conv (seg_end s))
  /\ (forall p, pg_convert conv p = map (map conv) p)
  /\ (forall b c, bb_convert conv b = Ret c -> bb_min c = map conv (bb_min b) /\ bb_max c = map conv (bb_max b)).
Proof.
  intros T U o conv. split; [|split; [|split; [|split; [|split; [|split; [|split; [|split]]]]]]].
  - intros n v. apply v_convert_all.
  - reflexivity.
  - split; reflexivity.
  - intros n l A B. unfold ln_convert. cbn [ln_point ln_dir]. now rewrite !v_convert_all.
  - intros n l A B. unfold ray_convert. cbn [ray_origin ray_dir]. now rewrite !v_convert_all.
  - intros n p A. unfold pl_convert. cbn [pl_dist pl_normal]. now rewrite v_convert_all.
  - split; reflexivity.
  - intros p. unfold pg_convert. apply push_loop_map.
  - intros b c. unfold bb_convert, bb_make, require. destruct (bb_valid2 _ _); [|discriminate]. intros E. injection E as <-. split; reflexivity.
Qed.
