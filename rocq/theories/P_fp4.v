(** Rounding errors of distances to planes; centers and sizes of boxes; symmetries that rounding keeps. *)
From Coq Require Import ZArith Reals List Lia Lra Bool.
From Flocq Require Import Core BinarySingleNaN.
From Verif Require Import Ops M_scalar M_vec M_bbox M_geom Inst_F S_order S_boxset S_vec S_rnd P_ord P_ieee P_vec P_vec2 P_bbox P_plane P_fp P_fp2 P_fp3.
Import ListNotations.
Local Open Scope R_scope.

Section FP.
Variables prec emax : Z.
Context {Hprec : Prec_gt_0 prec} {Hmax : Prec_lt_emax prec emax}.
Notation fl := (binary_float prec emax).
Notation u := (unit_roundoff prec).
Notation eta := (underflow_error prec emax).

Lemma point_distance_ok : forall (p : plane fl) (q : list fl), length q = length (pl_normal p) ->
  all_finite q -> all_finite (pl_normal p) -> is_finite (pl_dist p) = true ->
  no_overflow prec emax (length q + 1) (plane_size p q) ->
  near (pl_point_distance p q) (plane_distance p q) (rounding_error prec emax (length q + 1) (plane_size p q)).
Proof.
  intros p q L Fq Fn Fd H. assert (P := u_pos prec). assert (E0 := eta_pos prec emax).
  unfold plane_distance, plane_size in *. unfold pl_point_distance.
  set (A := size_dot (values q) (values (pl_normal p))) in *. set (D := pl_dist p) in *. set (t := rdot (values q) (values (pl_normal p))) in *.
  assert (A0 : 0 <= A) by apply size_dot_pos. assert (D0 := Rabs_pos (B2R D)).
  replace (length q + 1)%nat with (S (length q)) in * by lia. unfold no_overflow in H. rewrite S_INR in H. cbn [pow] in H.
  set (n := length q) in *. assert (Q := pow1 prec n). assert (N := pos_INR n).
  assert (NE : 0 <= INR n * eta) by (apply Rmult_le_pos; lra).
  destruct (dot_ok prec emax q (pl_normal p) L Fq Fn) as [Fs Es].
  { unfold no_overflow. fold n A. eapply Rle_lt_trans; [|exact H].
    rewrite (Rmult_comm (1 + u)), Rmult_assoc. apply Rmult_le_compat_l; [lra|]. nra. }
  fold n A t in Es. set (s := v_dot q (pl_normal p)) in *.
  assert (M : Rabs t <= A) by apply rdot_le_size.
  assert (AE : A + rounding_error prec emax n A = (1 + u) ^ n * (A + INR n * eta)) by (unfold rounding_error; ring).
  destruct (minus_ok prec emax s D Fs Fd) as (Fm & d & Hd & Em).
  { eapply Rle_lt_trans; [|exact H]. rewrite (Rmult_comm _ (1 + u)), Rmult_assoc. apply Rmult_le_compat_l; [lra|].
    assert (Rabs (B2R s - B2R D) <= A + rounding_error prec emax n A + Rabs (B2R D)).
    { replace (B2R s - B2R D) with ((B2R s - t) + t + - B2R D) by ring. eapply Rle_trans; [apply Rabs_triang|]. rewrite Rabs_Ropp.
      apply Rplus_le_compat_r. eapply Rle_trans; [apply Rabs_triang|]. lra. }
    assert (1 * Rabs (B2R D) <= (1 + u) ^ n * Rabs (B2R D)) by (apply Rmult_le_compat_r; lra).
    assert (0 <= (1 + u) ^ n * eta) by (apply Rmult_le_pos; lra). lra. }
  split; [exact Fm|]. rewrite Em.
  replace ((B2R s - B2R D) * (1 + d) - (t - B2R D)) with ((B2R s - t) * (1 + d) + (t * d - B2R D * d)) by ring.
  assert (D1 : Rabs (1 + d) <= 1 + u). { apply Rabs_le_inv in Hd. apply Rabs_le. split; lra. }
  assert (E1 : Rabs ((B2R s - t) * (1 + d)) <= (1 + u) * rounding_error prec emax n A).
  { rewrite Rabs_mult, Rmult_comm. apply Rmult_le_compat; auto using Rabs_pos. }
  assert (E2 : Rabs (t * d) <= u * A). { rewrite Rabs_mult, Rmult_comm. apply Rmult_le_compat; auto using Rabs_pos. }
  assert (E4 : Rabs (- (B2R D * d)) <= u * Rabs (B2R D)). { rewrite Rabs_Ropp, Rabs_mult, Rmult_comm. apply Rmult_le_compat_r; auto. }
  assert (E5 := dot_error_S prec emax n A A0).
  eapply Rle_trans; [apply Rabs_triang|]. eapply Rle_trans; [apply Rplus_le_compat_l, Rabs_triang|].
  replace (rounding_error prec emax (S n) (A + Rabs (B2R D))) with (rounding_error prec emax (S n) A + ((1 + u) ^ S n - 1) * Rabs (B2R D)) by (unfold rounding_error; ring).
  assert (u * Rabs (B2R D) <= ((1 + u) ^ S n - 1) * Rabs (B2R D)).
  { apply Rmult_le_compat_r; auto. cbn [pow]. nra. }
  assert (0 <= (1 + u) * eta) by (apply Rmult_le_pos; lra). lra.
Qed.

Lemma point_status_ok : forall (p : plane fl) (q : list fl) (eps : fl), length q = length (pl_normal p) ->
  all_finite q -> all_finite (pl_normal p) -> is_finite (pl_dist p) = true -> is_finite eps = true -> 0 <= B2R eps ->
  no_overflow prec emax (length q + 1) (plane_size p q) ->
  let t := plane_distance p q in let err := rounding_error prec emax (length q + 1) (plane_size p q) in
  (B2R eps + err < t -> pl_point_status p q eps = Above) /\ (t < - (B2R eps + err) -> pl_point_status p q eps = Below)
  /\ (Rabs t <= B2R eps - err -> pl_point_status p q eps = Inside)
  /\ (pl_point_status p q eps = Above -> B2R eps - err < t) /\ (pl_point_status p q eps = Below -> t < - (B2R eps - err))
  /\ (pl_point_status p q eps = Inside -> Rabs t <= B2R eps + err).
Proof.
  intros p q eps L Fq Fn Fd Fe E0 H t err. destruct (point_distance_ok p q L Fq Fn Fd H) as [Fr Er]. fold t err in Er.
  unfold pl_point_status. set (r := pl_point_distance p q) in *. clearbody t err.
  change (o_lt eps r) with (Bltb eps r). change (o_lt r (o_neg eps)) with (Bltb r (Bopp eps)).
  rewrite !(Flt prec emax) by (rewrite ?is_finite_Bopp; auto). rewrite B2R_Bopp. apply Rabs_le_inv in Er.
  destruct (Rlt_bool_spec (B2R eps) (B2R r)); [|destruct (Rlt_bool_spec (B2R r) (- B2R eps))];
    repeat split; intros; try discriminate; try reflexivity; try lra; try (apply Rabs_le; lra);
    try (match goal with K : Rabs t <= _ |- _ => apply Rabs_le_inv in K; lra end).
Qed.

(** Boxes *)
Lemma le_fin : forall x y : fl, is_finite x = true -> is_finite y = true -> (o_le x y = true <-> B2R x <= B2R y).
Proof.
  intros x y Fx Fy. change (o_le x y) with (Bleb x y). rewrite (Fle prec emax) by auto.
  destruct (Rle_bool_spec (B2R x) (B2R y)); split; intros; auto; try discriminate; lra.
Qed.
Notation rnd := (round radix2 (SpecFloat.fexp prec emax) (round_mode mode_NE)).

Lemma F_double : forall x : fl, is_finite x = true -> generic_format radix2 (SpecFloat.fexp prec emax) (2 * B2R x).
Proof.
  intros x Fx. assert (G := generic_format_B2R prec emax x).
  change (generic_format radix2 (FLT.FLT_exp (3 - emax - prec) prec) (2 * B2R x)).
  change (generic_format radix2 (FLT.FLT_exp (3 - emax - prec) prec) (B2R x)) in G.
  apply FLT.FLT_format_generic in G; auto. destruct G as [f E1 E2 E3].
  apply FLT.generic_format_FLT. exists (Float radix2 (Fnum f) (Fexp f + 1)).
  - rewrite E1. unfold F2R. cbn [Fnum Fexp]. rewrite bpow_plus. change (bpow radix2 1) with 2. ring.
  - exact E2.
  - cbn [Fexp]. clear -E3. lia.
Qed.

Lemma middle_ok : forall x y : fl, is_finite x = true -> is_finite y = true -> B2R x <= B2R y ->
  Rabs (B2R x + B2R y) * (1 + u) < bpow radix2 emax ->
  is_finite (o_div (o_add x y) (cst 2)) = true /\ B2R x <= B2R (o_div (o_add x y) (cst 2)) <= B2R y.
Proof.
  intros x y Fx Fy L H. destruct (plus_ok prec emax x y Fx Fy H) as (Fs & _).
  assert (Es : B2R (o_add x y) = rnd (B2R x + B2R y)).
  { generalize (Bplus_correct prec emax Hprec Hmax mode_NE x y Fx Fy). destruct (Rlt_bool _ _).
    - tauto.
    - intros [E _]. change (Bplus mode_NE x y) with (o_add x y) in E. destruct (o_add x y); try discriminate; unfold binary_overflow in E; simpl in E; discriminate. }
  assert (Lo : 2 * B2R x <= B2R (o_add x y)). { rewrite Es. apply round_ge_generic; [apply fexp_correct, Hprec|apply valid_rnd_N|now apply F_double|lra]. }
  assert (Hi : B2R (o_add x y) <= 2 * B2R y). { rewrite Es. apply round_le_generic; [apply fexp_correct, Hprec|apply valid_rnd_N|now apply F_double|lra]. }
  assert (C2 : is_finite (cst 2 : fl) = true /\ B2R (cst 2 : fl) = 2).
  { apply F_cst. change 2%Z with (2 ^ 1)%Z at 1. assert (A := Hprec). unfold Prec_gt_0 in A. rewrite Z.abs_eq by lia. apply Z.pow_le_mono_r; lia. }
  destruct C2 as [F2 V2]. set (s := o_add x y) in *.
  assert (Bd : B2R x <= rnd (B2R s / B2R (cst 2 : fl)) <= B2R y).
  { rewrite V2. split.
    - apply round_ge_generic; [apply fexp_correct, Hprec|apply valid_rnd_N|apply generic_format_B2R|lra].
    - apply round_le_generic; [apply fexp_correct, Hprec|apply valid_rnd_N|apply generic_format_B2R|lra]. }
  generalize (Bdiv_correct prec emax Hprec Hmax mode_NE s (cst 2)). rewrite Rlt_bool_true.
  - intros K. destruct K as (E & G & _); [rewrite V2; lra|]. change (o_div s (cst 2)) with (Bdiv mode_NE s (cst 2)). rewrite E, G. auto.
  - assert (B1 := abs_B2R_lt_emax prec emax x). assert (B2 := abs_B2R_lt_emax prec emax y). apply Rabs_lt_inv in B1, B2. apply Rabs_lt. lra.
Qed.

Lemma sign_value : forall z : fl, if Bsign z then B2R z <= 0 else 0 <= B2R z.
Proof.
  intros [s|s| |s m e B]; simpl; try destruct s; simpl; try lra.
  - now apply F2R_le_0.
  - now apply F2R_ge_0.
Qed.
Lemma size_nonneg : forall x y : fl, is_finite x = true -> is_finite y = true -> B2R x <= B2R y -> o_le (cst 0) (o_sub y x) = true.
Proof.
  intros x y Fx Fy L. destruct (F_cst0 prec emax) as [Z0 Z1].
  generalize (Bminus_correct prec emax Hprec Hmax mode_NE y x Fy Fx).
  assert (R0 : 0 <= rnd (B2R y - B2R x)). { apply round_ge_generic; [apply fexp_correct, Hprec|apply valid_rnd_N|apply generic_format_0|lra]. }
  destruct (Rlt_bool_spec (Rabs (rnd (B2R y - B2R x))) (bpow radix2 emax)).
  - intros (E & G & _). apply le_fin; auto. rewrite Z1. change (o_sub y x) with (Bminus mode_NE y x). lra.
  - intros [E S]. change (o_le (cst 0) (o_sub y x)) with (Bleb (cst 0) (Bminus mode_NE y x)).
    assert (Vy := sign_value y). assert (Vx := sign_value x). destruct (Bsign y) eqn:Sy.
    + exfalso. destruct (Bsign x); [discriminate|]. replace (B2R y - B2R x) with 0 in H by lra.
      rewrite round_0, Rabs_R0 in H by apply valid_rnd_N. assert (G := bpow_gt_0 radix2 emax). lra.
    + assert (K : Bminus mode_NE y x = B754_infinity false).
      { destruct (Bminus mode_NE y x) as [s|s| |s m e B]; try discriminate E. simpl in E. unfold binary_overflow in E. simpl in E. congruence. }
      rewrite K. reflexivity.
Qed.

Lemma valid_box : forall n (b : bbox fl), box_of n b -> bb_is_valid b = true.
Proof.
  intros n b (H1 & H2 & H3). unfold bb_is_valid. apply (valid2_iff n); auto.
Qed.
Lemma center_ok : forall n (b : bbox fl), box_of n b -> all_finite (bb_min b) -> all_finite (bb_max b) ->
  Forall2 (fun x y => Rabs (B2R x + B2R y) * (1 + u) < bpow radix2 emax) (bb_min b) (bb_max b) ->
  exists c, bb_center b = Ret c /\ all_finite c /\ in_set b c.
Proof.
  intros n b Hb F1 F2 H. unfold bb_center. rewrite (valid_box n b Hb). simpl. destruct Hb as (_ & _ & H3).
  exists (v_div_s (v_add (bb_min b) (bb_max b)) (cst 2)). split; [reflexivity|]. unfold in_set, vec_below in *.
  destruct b as [l h]. cbn [bb_min bb_max] in *. unfold v_div_s, v_add. clear n.
  revert h F2 H H3. induction F1 as [|x l Fx F1 IH]; intros h F2 H H3; inversion H3; subst; simpl.
  - repeat split; constructor.
  - inversion F2; subst. inversion H; subst. destruct (IH l') as (I1 & I2 & I3); auto.
    apply le_fin in H2; auto. destruct (middle_ok x y) as (M1 & M2 & M3); auto.
    repeat split; constructor; auto; apply le_fin; auto.
Qed.
Lemma size_ok : forall n (b : bbox fl), box_of n b -> all_finite (bb_min b) -> all_finite (bb_max b) ->
  exists s, bb_size b = Ret s /\ length s = n /\ Forall (fun x => o_le (cst 0) x = true) s.
Proof.
  intros n b Hb F1 F2. unfold bb_size. rewrite (valid_box n b Hb). simpl. destruct Hb as ((L & _) & _ & H3).
  exists (v_sub (bb_max b) (bb_min b)). split; [reflexivity|]. unfold vec_below in *.
  destruct b as [l h]. cbn [bb_min bb_max] in *. unfold v_sub. subst n.
  revert h F2 H3. induction F1 as [|x l Fx F1 IH]; intros h F2 H3; inversion H3; subst; cbn [map2 length].
  - repeat split; constructor.
  - inversion F2; subst. destruct (IH l') as (I1 & I2); auto. apply le_fin in H1; auto.
    split; [now rewrite I1|]. constructor; auto. apply size_nonneg; auto.
Qed.

(** Symmetries *)
Lemma sub_add : forall x y : fl, o_sub x y = o_add x (Bopp y).
Proof. intros [| | |] [| | |]; reflexivity. Qed.
Lemma opp_sym : forall x y : fl, opp_of prec emax x y -> opp_of prec emax y x.
Proof. intros [|[|]| |] [|[|]| |]; simpl; intros; auto; try lra; discriminate. Qed.
Lemma opp_swap : forall x y : fl, opp_of prec emax (o_sub x y) (o_sub y x).
Proof.
  intros x y. rewrite !sub_add. rewrite (Bplus_swap prec emax y (Bopp x)).
  apply opp_add; [apply opp_sym|]; apply opp_of_opp.
Qed.
Lemma opp_cases : forall x y : fl, opp_of prec emax x y -> x = Bopp y \/ exists s t, x = B754_zero s /\ y = B754_zero t.
Proof.
  intros x y H. destruct (is_finite y) eqn:Fy.
  - assert (Fx : is_finite x = true) by (destruct x, y; simpl in *; auto; contradiction). apply opp_of_finite in H; auto.
    destruct (Req_dec (B2R y) 0) as [Z|Z].
    + right. rewrite Z, Ropp_0 in H. destruct x as [s|s| |s m e B]; try discriminate.
      * destruct y as [t|t| |t m e B]; try discriminate; [now exists s, t|].
        exfalso. simpl in Z. apply eq_0_F2R in Z. destruct t; discriminate.
      * exfalso. simpl in H. apply eq_0_F2R in H. destruct s; discriminate.
    + left. apply B2R_inj.
      * destruct x as [s|s| |s m e B]; try discriminate; auto. exfalso. apply Z. simpl in H. lra.
      * destruct y as [s|s| |s m e B]; try discriminate; auto.
      * now rewrite B2R_Bopp.
  - left. destruct x as [|[|]| |], y as [|[|]| |]; try discriminate; simpl in *; auto; try contradiction; discriminate.
Qed.
Lemma opp_square : forall x y : fl, opp_of prec emax x y -> o_mul x x = o_mul y y.
Proof.
  intros x y H. destruct (opp_cases x y H) as [->|(s & t & -> & ->)].
  - destruct y as [s|s| |s m e B]; try (destruct s; reflexivity); try reflexivity.
    apply B2SF_inj. cbn [o_mul Fops Bopp Bmult]. rewrite !B2SF_SF2B. destruct s; reflexivity.
  - destruct s, t; reflexivity.
Qed.
Lemma opp_sqlength : forall v w : list fl, Forall2 (opp_of prec emax) v w -> v_squared_length v = v_squared_length w.
Proof.
  intros v w H. unfold v_squared_length, v_dot. generalize (cst 0 : fl). induction H as [|x y v w E H IH]; intros c; [reflexivity|].
  cbn [combine fold_left fst snd]. rewrite (opp_square x y E). apply IH.
Qed.
Lemma distance_sym : forall v w : list fl, v_distance v w = v_distance w v /\ v_squared_distance v w = v_squared_distance w v.
Proof.
  intros v w. assert (H : v_squared_length (v_sub v w) = v_squared_length (v_sub w v)).
  { apply opp_sqlength. unfold v_sub. revert w. induction v as [|x v IH]; intros [|y w]; simpl; constructor; auto. apply opp_swap. }
  split; auto. unfold v_distance, v_length. now rewrite H.
Qed.
Lemma length_neg : forall v : list fl, v_length (v_neg v) = v_length v /\ v_squared_length (v_neg v) = v_squared_length v.
Proof.
  intros v. assert (H : v_squared_length (v_neg v) = v_squared_length v).
  { apply opp_sqlength. unfold v_neg. induction v; simpl; constructor; auto. apply opp_of_opp. }
  split; auto. unfold v_length. now rewrite H.
Qed.
Lemma div_neg : forall x y : fl, o_div (Bopp x) y = Bopp (o_div x y).
Proof.
  intros x y. destruct x as [sx|sx| |sx mx ex Bx], y as [sy|sy| |sy my ey By];
    try (destruct sx; destruct sy; reflexivity); try (destruct sx; reflexivity); try reflexivity.
  assert (NZ : B2R (B754_finite sy my ey By) <> 0). { simpl. intros E. apply eq_0_F2R in E. destruct sy; discriminate. }
  assert (C := Bdiv_correct prec emax Hprec Hmax mode_NE (B754_finite sx mx ex Bx) (B754_finite sy my ey By) NZ).
  assert (C' := Bdiv_correct prec emax Hprec Hmax mode_NE (Bopp (B754_finite sx mx ex Bx)) (B754_finite sy my ey By) NZ).
  rewrite B2R_Bopp, is_finite_Bopp in C'.
  set (x := B754_finite sx mx ex Bx) in *. set (y := B754_finite sy my ey By) in *.
  change (o_div (Bopp x) y) with (Bdiv mode_NE (Bopp x) y). change (o_div x y) with (Bdiv mode_NE x y).
  replace (- B2R x / B2R y) with (- (B2R x / B2R y)) in C' by (field; exact NZ).
  cbn [round_mode] in C, C'. rewrite round_NE_opp, Rabs_Ropp in C'.
  destruct (Rlt_bool_spec (Rabs (round radix2 (SpecFloat.fexp prec emax) ZnearestE (B2R x / B2R y))) (bpow radix2 emax)) as [L|L].
  - destruct C as (C1 & C2 & C3), C' as (C1' & C2' & C3').
    assert (N : forall z : fl, is_finite z = true -> BinarySingleNaN.is_nan z = false) by (intros [| | |]; auto; discriminate).
    apply B2R_Bsign_inj; rewrite ?is_finite_Bopp; auto.
    + rewrite B2R_Bopp. congruence.
    + assert (F1 := N _ C2). assert (F2 := N _ C2'). rewrite C3' by auto. specialize (C3 F1).
      rewrite (Bsign_Bopp _ _ _ F1). rewrite C3. subst x y. destruct sx, sy; reflexivity.
  - destruct (Bdiv mode_NE x y) as [|[|]| |], (Bdiv mode_NE (Bopp x) y) as [|[|]| |]; cbn in C, C'; try discriminate;
      destruct sx, sy; simpl in *; try discriminate; reflexivity.
Qed.
Lemma normalize_neg : forall v : list fl, v_normalize (v_neg v) = v_neg (v_normalize v).
Proof.
  intros v. unfold v_normalize. destruct (length_neg v) as [-> _]. unfold v_div_s, v_neg. rewrite !map_map. apply map_ext.
  intros x. apply div_neg.
Qed.
Lemma cross_neg : forall v w : list fl, Forall2 (opp_of prec emax) (v_cross v w) (v_cross w v).
Proof.
  intros v w. unfold v_cross.
  assert (E : forall a b c d : fl, opp_of prec emax (o_sub (o_mul a b) (o_mul c d)) (o_sub (o_mul d c) (o_mul b a))).
  { intros a b c d. rewrite (Bmult_swap prec emax d c), (Bmult_swap prec emax b a). apply opp_swap. }
  repeat constructor; apply E.
Qed.
Lemma opp_equal : forall x y : fl, opp_of prec emax x y -> comp_eq x (o_neg y).
Proof.
  intros x y H. unfold comp_eq, NaN. cbn [o_eq o_neg Fops]. destruct (opp_cases x y H) as [->|(s & t & -> & ->)]; [|right; reflexivity].
  destruct (is_finite y) eqn:Fy.
  - right. rewrite (Feq prec emax) by now rewrite is_finite_Bopp. now apply Req_bool_true.
  - destruct y as [|[|]| |]; try discriminate; auto.
Qed.
End FP.
