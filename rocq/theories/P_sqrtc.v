(** Newton's iteration for square roots, with every operation rounded to nearest even: it reaches one of
    the two numbers of the format next to the root and stops there (C70). *)
From Coq Require Import ZArith Reals List Bool Lra Lia Znumtheory Zpow_facts.
From Flocq Require Import Core BinarySingleNaN Sterbenz Mult_error.
From Verif Require Import P_ieee.
Local Open Scope R_scope.

Section F.
Variables prec emax : Z.
Context {Hprec : Prec_gt_0 prec} {Hmax : Prec_lt_emax prec emax}.
Hypothesis Hprec4 : (4 <= prec)%Z.
Notation fexp := (SpecFloat.fexp prec emax).
Notation F := (generic_format radix2 fexp).
Notation rnd := (round radix2 fexp ZnearestE).
Notation emin := (3 - emax - prec)%Z.
#[local] Existing Instance fexp_correct.

Lemma emax_gt : (prec < emax)%Z. Proof. exact Hmax. Qed.
Lemma pow_half : (2 ^ prec = 2 * 2 ^ (prec - 1))%Z.
Proof. rewrite <- Z.pow_succ_r by lia. f_equal. lia. Qed.
Lemma pow_8 : (8 <= 2 ^ (prec - 1))%Z.
Proof. change 8%Z with (2 ^ 3)%Z. apply Z.pow_le_mono_r; lia. Qed.
Lemma bpowZ : forall e, (0 <= e)%Z -> bpow radix2 e = IZR (2 ^ e).
Proof. intros e He. now rewrite <- (IZR_Zpower radix2). Qed.

Lemma fmt : forall m e, (0 <= m <= 2 ^ prec)%Z -> (emin <= e)%Z -> F (IZR m * bpow radix2 e).
Proof. intros m e Hm He. apply (fl_format prec emax); lia. Qed.
(** Even multiples up to twice as far *)
Lemma fmt2 : forall m e, (0 <= m <= 2 ^ prec)%Z -> (emin <= e)%Z -> F (2 * IZR m * bpow radix2 e).
Proof.
  intros m e Hm He. replace (2 * IZR m * bpow radix2 e) with (IZR m * bpow radix2 (e + 1)).
  - apply fmt; lia.
  - rewrite bpow_plus. cbn. ring.
Qed.

Lemma multiple : forall y e, F y -> IZR (2 ^ (prec - 1)) * bpow radix2 e <= y ->
  exists k, y = IZR k * bpow radix2 e.
Proof.
  intros y e Fy Hy. rewrite <- bpowZ, <- bpow_plus in Hy by lia.
  assert (P : 0 < y) by (eapply Rlt_le_trans; [apply bpow_gt_0|exact Hy]).
  assert (M : (prec - 1 + e < mag radix2 y)%Z). { apply mag_gt_bpow. rewrite Rabs_pos_eq by lra. exact Hy. }
  exists (Ztrunc (scaled_mantissa radix2 fexp y) * 2 ^ (cexp radix2 fexp y - e))%Z.
  rewrite mult_IZR. change 2%Z with (radix_val radix2). rewrite IZR_Zpower.
  - rewrite Rmult_assoc, <- bpow_plus. replace (cexp radix2 fexp y - e + e)%Z with (cexp radix2 fexp y) by lia. exact Fy.
  - unfold cexp, SpecFloat.fexp, SpecFloat.emin. lia.
Qed.

Lemma nearest : forall y g, F g -> Rabs (rnd y - y) <= Rabs (g - y).
Proof. intros y g Fg. apply (round_N_pt radix2 fexp (fun x => negb (Z.even x)) y). exact Fg. Qed.
Lemma rnd_F : forall y, F (rnd y).
Proof. intros y. apply generic_format_round; auto with typeclass_instances. Qed.
Lemma rnd_le : forall y g, F g -> y <= g -> rnd y <= g.
Proof. intros y g Fg H. apply round_le_generic; auto with typeclass_instances. Qed.
Lemma rnd_ge : forall y g, F g -> g <= y -> g <= rnd y.
Proof. intros y g Fg H. apply round_ge_generic; auto with typeclass_instances. Qed.
Lemma rnd_id : forall y, F y -> rnd y = y.
Proof. intros y Fy. apply round_generic; auto with typeclass_instances. Qed.

(** Halfway between two neighbours *)
Lemma tie : forall m e, (2 ^ (prec - 1) <= m < 2 ^ prec)%Z -> (emin <= e)%Z ->
  rnd (IZR (2 * m + 1) * bpow radix2 e) = 2 * IZR (if Z.even m then m else m + 1) * bpow radix2 e.
Proof.
  intros m e Hm He.
  assert (B : 0 < bpow radix2 e) by apply bpow_gt_0.
  assert (M : mag radix2 (IZR (2 * m + 1) * bpow radix2 e) = (prec + 1 + e)%Z :> Z).
  { apply mag_unique. rewrite Rabs_pos_eq.
    2: { apply Rmult_le_pos; [|lra]. assert (P := pow_8). apply IZR_le. lia. }
    split.
    - replace (prec + 1 + e - 1)%Z with (prec + e)%Z by lia. rewrite bpow_plus, (bpowZ prec) by lia.
      apply Rmult_le_compat_r; [lra|]. apply IZR_le. rewrite pow_half. lia.
    - rewrite bpow_plus, (bpowZ (prec + 1)) by lia. apply Rmult_lt_compat_r; [exact B|]. apply IZR_lt.
      rewrite Z.pow_add_r by lia. lia. }
  assert (C : cexp radix2 fexp (IZR (2 * m + 1) * bpow radix2 e) = (e + 1)%Z).
  { unfold cexp. rewrite M. unfold SpecFloat.fexp, SpecFloat.emin. lia. }
  unfold round, scaled_mantissa, F2R. rewrite C. cbn [Fnum Fexp].
  replace (IZR (2 * m + 1) * bpow radix2 e * bpow radix2 (- (e + 1))) with (IZR m + / 2).
  2: { rewrite Rmult_assoc, <- bpow_plus. replace (e + - (e + 1))%Z with (- 1)%Z by lia.
       rewrite plus_IZR, mult_IZR. cbn. lra. }
  assert (Z : ZnearestE (IZR m + / 2) = if Z.even m then m else (m + 1)%Z).
  { unfold Znearest. replace (Zfloor (IZR m + / 2)) with m.
    2: { symmetry. apply Zfloor_imp. rewrite plus_IZR. lra. }
    rewrite Rcompare_Eq by lra. replace (Zceil (IZR m + / 2)) with (m + 1)%Z.
    2: { symmetry. apply Zceil_imp. replace (m + 1 - 1)%Z with m by lia. rewrite plus_IZR. lra. }
    destruct (Z.even m); reflexivity. }
  rewrite Z, bpow_plus. cbn. ring.
Qed.

(** One step of the iteration *)
Definition step (x c : R) : R := rnd (/ 2 * rnd (c + rnd (x / c))).

Lemma step_F : forall x c, F (step x c). Proof. intros; apply rnd_F. Qed.

Lemma F_double : forall y, F y -> F (2 * y).
Proof.
  intros y Fy. replace (2 * y) with (y * bpow radix2 1) by (cbn; ring).
  apply (mult_bpow_pos_exact_FLT radix2 emin prec); [exact Fy|lia].
Qed.
Lemma F_Sterbenz : forall y z, F y -> F z -> z / 2 <= y <= 2 * z -> F (y - z).
Proof. intros y z Fy Fz H. apply (@sterbenz radix2 fexp _ (fexp_monotone prec emax)); assumption. Qed.

(** From above the root the iteration does not fall below a number of the format below the root. *)
Lemma step_lower : forall x a c, F a -> F c -> 0 < a -> a * a <= x -> a <= c -> a <= step x c.
Proof.
  intros x a c Fa Fc A X C. apply rnd_ge; [exact Fa|].
  enough (2 * a <= rnd (c + rnd (x / c))) by lra.
  apply rnd_ge; [now apply F_double|].
  enough (2 * a - c <= rnd (x / c)) by lra.
  destruct (Rle_or_lt (2 * a) c) as [H|H].
  - apply Rle_trans with 0; [lra|]. apply rnd_ge; [apply generic_format_0|].
    apply Rlt_le, Rdiv_lt_0_compat; nra.
  - apply rnd_ge.
    + apply F_Sterbenz; [now apply F_double|exact Fc|lra].
    + apply Rmult_le_reg_r with c; [lra|]. replace (x / c * c) with x by (field; lra). nra.
Qed.
Lemma step_upper : forall x c, F c -> 0 < c -> x <= c * c -> step x c <= c.
Proof.
  intros x c Fc C X. apply rnd_le; [exact Fc|].
  enough (rnd (c + rnd (x / c)) <= 2 * c) by lra.
  apply rnd_le; [now apply F_double|].
  enough (rnd (x / c) <= c) by lra. apply rnd_le; [exact Fc|].
  apply Rmult_le_reg_r with c; [lra|]. replace (x / c * c) with x by (field; lra). exact X.
Qed.
(** The first step *)
Lemma step_first : forall x a, F a -> 0 < x -> 0 < a -> a * a <= x -> a <= step x x.
Proof.
  intros x a Fa X A H. apply rnd_ge; [exact Fa|]. enough (2 * a <= rnd (x + rnd (x / x))) by lra.
  apply rnd_ge; [now apply F_double|]. replace (x / x) with 1 by (field; lra).
  rewrite (rnd_id 1).
  - assert (0 <= (a - 1) * (a - 1)) by apply Rle_0_sqr; lra.
  - change 1 with (IZR 1). apply (IZR_format prec emax). assert (P := pow_8). rewrite pow_half. lia.
Qed.

(** A number close above a number of the format is rounded to it or below. *)
Lemma close : forall y k e, F (IZR k * bpow radix2 e) -> (2 ^ (prec - 1) <= k)%Z ->
  y < (IZR k + / 2) * bpow radix2 e -> rnd y <= IZR k * bpow radix2 e.
Proof.
  intros y k e Fk Hk Hy. assert (B : 0 < bpow radix2 e) by apply bpow_gt_0.
  destruct (Rle_or_lt (rnd y) (IZR k * bpow radix2 e)) as [|H]; [assumption|exfalso].
  assert (Hk' := IZR_le _ _ Hk).
  destruct (multiple (rnd y) e (rnd_F y)) as (j & Ej). { nra. }
  rewrite Ej in H. apply Rmult_lt_reg_r in H; [|exact B]. apply lt_IZR in H.
  assert (J : IZR (k + 1) <= IZR j) by (apply IZR_le; lia). rewrite plus_IZR in J.
  assert (N := nearest y _ Fk). rewrite Ej in N.
  destruct (Rle_or_lt y (IZR k * bpow radix2 e)) as [L|L].
  - assert (L' := rnd_le y _ Fk L). rewrite Ej in L'. nra.
  - rewrite Rabs_pos_eq, Rabs_left in N; nra.
Qed.

Lemma quot : forall x m u, 0 < IZR m -> 0 < u -> exists y, x / (IZR m * u) = y * u /\ x = y * IZR m * (u * u).
Proof.
  intros x m u M U. exists (x / (IZR m * u) / u). split; field; lra.
Qed.

(** Above the upper neighbour of the root the iteration decreases. *)
Lemma step_decreases : forall x n e, (2 ^ (prec - 1) < n <= 2 ^ prec)%Z -> (emin <= e)%Z -> 0 < x ->
  x <= (IZR n - 1) * bpow radix2 e * ((IZR n - 1) * bpow radix2 e) ->
  step x (IZR n * bpow radix2 e) <= (IZR n - 1) * bpow radix2 e.
Proof.
  intros x n e Hn He X H. assert (P8 := pow_8).
  assert (B : 0 < bpow radix2 e) by apply bpow_gt_0.
  assert (N : 9 <= IZR n) by (apply IZR_le; lia).
  assert (F1 : F ((IZR n - 1) * bpow radix2 e)). { rewrite <- minus_IZR. apply fmt; lia. }
  apply rnd_le; [exact F1|].
  enough (rnd (IZR n * bpow radix2 e + rnd (x / (IZR n * bpow radix2 e))) <= 2 * ((IZR n - 1) * bpow radix2 e)) by lra.
  apply rnd_le; [now apply F_double|].
  enough (rnd (x / (IZR n * bpow radix2 e)) <= (IZR n - 2) * bpow radix2 e) by lra.
  replace ((IZR n - 2) * bpow radix2 e) with (IZR (2 * (n - 2)) * bpow radix2 (e - 1)).
  2: { unfold Zminus at 2. rewrite bpow_plus, mult_IZR, minus_IZR. cbn. field. }
  apply close.
  - replace (IZR (2 * (n - 2)) * bpow radix2 (e - 1)) with (IZR (n - 2) * bpow radix2 e); [apply fmt; lia|].
    unfold Zminus at 3. rewrite bpow_plus, mult_IZR, minus_IZR. cbn. field.
  - lia.
  - unfold Zminus at 2. rewrite bpow_plus, mult_IZR, minus_IZR. change (bpow radix2 (- (1))) with (/ 2).
    set (u := bpow radix2 e) in *. destruct (quot x n u) as (y & -> & E); [lra|exact B|].
    assert (Q : y * IZR n <= (IZR n - 1) * (IZR n - 1)).
    { apply Rmult_le_reg_r with (u * u); [nra|]. rewrite <- E. lra. }
    assert (Y : y < IZR n - 2 + / 4). { apply Rmult_lt_reg_r with (IZR n); [lra|]. nra. }
    replace ((2 * (IZR n - 2) + / 2) * (u * / 2)) with ((IZR n - 2 + / 4) * u) by field. apply Rmult_lt_compat_r; assumption.
Qed.

Lemma div_mul : forall y z, 0 < z -> y / z * z = y. Proof. intros; field; lra. Qed.
Section At.
(** The root is between a and b, the next number of the format. *)
Variables (x : R) (m e : Z).
Hypothesis Fx : F x.
Hypothesis Hm : (2 ^ (prec - 1) <= m < 2 ^ prec)%Z.
Hypothesis He : (emin <= e)%Z.
Notation u := (bpow radix2 e).
Notation a := (IZR m * u).
Notation b := (IZR (m + 1) * u).
Hypothesis Ha : a * a <= x.
Hypothesis Hb : x < b * b.

Lemma u_pos : 0 < u. Proof. apply bpow_gt_0. Qed.
Lemma m_8 : 8 <= IZR m. Proof. apply IZR_le. assert (P8 := pow_8). lia. Qed.
Lemma a_F : F a. Proof. apply fmt; lia. Qed.
Lemma b_F : F b. Proof. apply fmt; lia. Qed.

(** The root in units *)
Lemma x_units : exists X, x = X * (u * u) /\ IZR m * IZR m <= X < (IZR m + 1) * (IZR m + 1).
Proof.
  assert (U := u_pos). exists (x / (u * u)). assert (E : x = x / (u * u) * (u * u)) by (field; lra). split; [exact E|].
  rewrite E in Ha, Hb. rewrite plus_IZR in Hb. split; [apply Rmult_le_reg_r with (u * u)|apply Rmult_lt_reg_r with (u * u)]; nra.
Qed.

(** The quotients *)
Lemma q_a : a <= rnd (x / a) <= (IZR m + 2) * u.
Proof.
  assert (U := u_pos). assert (M := m_8). destruct x_units as (X & E & L1 & L2). split.
  - apply rnd_ge; [apply a_F|]. apply Rmult_le_reg_r with a; [nra|]. replace (x / a * a) with x by (field; nra). exact Ha.
  - destruct (Z.eq_dec (m + 1) (2 ^ prec)) as [Q|Q].
    + assert (G : exists k, x = IZR k * bpow radix2 (prec + 2 * e)).
      { apply multiple; [exact Fx|]. rewrite bpow_plus. replace (2 * e)%Z with (e + e)%Z by lia. rewrite bpow_plus, bpowZ by lia.
        rewrite E. rewrite <- Rmult_assoc. apply Rmult_le_compat_r; [nra|]. apply Rle_trans with (2 := L1).
        rewrite <- !mult_IZR. apply IZR_le. rewrite <- Q. assert (W := pow_half). assert (P8 := pow_8). nia. }
      destruct G as (k & Gk). rewrite bpow_plus in Gk. replace (2 * e)%Z with (e + e)%Z in Gk by lia. rewrite bpow_plus, (bpowZ prec) in Gk by lia.
      assert (K : (k <= m)%Z).
      { rewrite Gk, Q in Hb. assert (W : IZR k < IZR (2 ^ prec)).
        { assert (0 < IZR (2 ^ prec)) by (apply IZR_lt; assert (P8 := pow_8); lia).
          apply Rmult_lt_reg_r with (IZR (2 ^ prec) * (u * u)); [nra|]. nra. }
        apply lt_IZR in W. lia. }
      apply Rle_trans with (IZR (m + 1) * u). 2: { rewrite plus_IZR. nra. }
      apply rnd_le; [apply b_F|]. apply Rmult_le_reg_r with a; [nra|]. replace (x / a * a) with x by (field; nra).
      rewrite Gk, Q. apply IZR_le in K. assert (0 < IZR (2 ^ prec)) by (apply IZR_lt; assert (P8 := pow_8); lia).
      replace (IZR k * (IZR (2 ^ prec) * (u * u))) with (IZR k * ((IZR (2 ^ prec) * (u * u)))) by ring.
      replace (IZR (2 ^ prec) * u * a) with (IZR m * (IZR (2 ^ prec) * (u * u))) by ring.
      apply Rmult_le_compat_r; nra.
    + rewrite <- plus_IZR. apply close; [apply fmt; lia|lia|].
      rewrite plus_IZR. apply Rmult_lt_reg_r with a; [nra|]. replace (x / a * a) with x by (field; nra).
      rewrite E. replace ((IZR m + 2 + / 2) * u * a) with ((IZR m + 2 + / 2) * IZR m * (u * u)) by ring.
      apply Rmult_lt_compat_r; nra.
Qed.
Lemma step_a : a <= step x a <= b.
Proof.
  assert (U := u_pos). assert (M := m_8). split.
  - apply step_lower; auto using a_F; nra.
  - apply rnd_le; [apply b_F|]. enough (rnd (a + rnd (x / a)) <= 2 * b) by lra.
    apply rnd_le; [apply F_double, b_F|]. assert (Q := q_a). rewrite plus_IZR. lra.
Qed.
Lemma step_b : a <= step x b <= b.
Proof.
  assert (U := u_pos). assert (M := m_8). assert (S : 0 < b) by (rewrite plus_IZR; nra). split.
  - apply step_lower; auto using a_F, b_F; try nra.
  - apply step_upper; auto using b_F. lra.
Qed.

Lemma gap : forall k q, (2 ^ (prec - 1) <= k)%Z -> F q -> IZR k * u < q -> IZR (k + 1) * u <= q.
Proof.
  intros k q K Fq Q. assert (U := u_pos). destruct (multiple q e Fq) as (j & ->).
  - apply IZR_le in K. nra.
  - apply Rmult_lt_reg_r in Q; [|exact U]. apply lt_IZR in Q. apply Rmult_le_compat_r; [lra|]. apply IZR_le. lia.
Qed.
Lemma half_le : forall s g, F g -> rnd s <= 2 * g -> rnd (/ 2 * rnd s) <= g.
Proof. intros s g Fg H. apply rnd_le; [exact Fg|lra]. Qed.
Lemma half_ge : forall s g, F g -> 2 * g <= rnd s -> g <= rnd (/ 2 * rnd s).
Proof. intros s g Fg H. apply rnd_ge; [exact Fg|lra]. Qed.
Lemma rnd_mono : forall y z, y <= z -> rnd y <= rnd z.
Proof. intros y z H. apply round_le; auto with typeclass_instances. Qed.

Lemma no_cycle_odd : Z.even m = false -> step x a = b -> step x b = a -> False.
Proof.
  intros O Sa Sb. assert (U := u_pos). assert (M := m_8). destruct x_units as (X & E & L1 & L2).
  assert (T : rnd (IZR (2 * m + 1) * u) = 2 * b). { rewrite tie by assumption. rewrite O. ring. }
  assert (M1 : (2 ^ (prec - 1) <= m - 1)%Z).
  { assert (m <> 2 ^ (prec - 1))%Z; [|lia]. intros W. rewrite W in O. rewrite Z.even_pow in O by lia. discriminate. }
  assert (B0 : a < b) by (rewrite plus_IZR; nra).
  assert (B1 : 0 < b) by nra. assert (A1 : 0 < a) by nra.
  (* the quotient by b *)
  assert (Q2 : rnd (x / b) < a).
  { apply Rnot_le_lt. intros Q. apply (Rlt_not_le _ _ B0). rewrite <- Sb. apply half_ge; [apply b_F|].
    rewrite <- T. apply rnd_mono. revert Q. rewrite !plus_IZR, mult_IZR. intros Q. lra. }
  assert (Q2' : rnd (x / b) <= (IZR m - 1) * u).
  { apply Rnot_lt_le. intros Q. rewrite <- minus_IZR in Q. apply gap in Q; [|exact M1|apply rnd_F].
    replace (m - 1 + 1)%Z with m in Q by lia. lra. }
  assert (Y2 : x / b <= (IZR m - / 2) * u).
  { apply Rnot_lt_le. intros Y. assert (W : x / b < a).
    { apply Rnot_le_lt. intros W. apply (rnd_ge _ _ a_F) in W. lra. }
    assert (N := nearest (x / b) a a_F). rewrite Rabs_left, Rabs_pos_eq in N by lra. lra. }
  (* the quotient by a *)
  assert (Q1 : a < rnd (x / a)).
  { apply Rnot_le_lt. intros Q. apply (Rlt_not_le _ _ B0). rewrite <- Sa. apply half_le; [apply a_F|].
    apply rnd_le; [apply F_double, a_F|]. lra. }
  assert (Q1' := gap m _ (proj1 Hm) (rnd_F _) Q1).
  assert (Y1 : (IZR m + / 2) * u <= x / a).
  { apply Rnot_lt_le. intros Y. assert (W : a <= x / a).
    { apply Rmult_le_reg_r with a; [lra|]. rewrite (div_mul x a A1). exact Ha. }
    assert (N := nearest (x / a) a a_F). rewrite plus_IZR in Q1'. rewrite (Rabs_left1 (a - _)), Rabs_pos_eq in N by lra. lra. }
  apply (Rmult_le_compat_r b) in Y2; [|lra]. rewrite (div_mul x b B1) in Y2.
  apply (Rmult_le_compat_r a) in Y1; [|lra]. rewrite (div_mul x a A1) in Y1.
  rewrite plus_IZR in Y2. assert (0 < u * u) by nra. nra.
Qed.

Lemma no_cycle_even : Z.even m = true -> step x a = b -> step x b = a -> False.
Proof.
  intros O Sa Sb. assert (U := u_pos). assert (M := m_8). destruct x_units as (X & E & L1 & L2).
  assert (T : rnd (IZR (2 * m + 1) * u) = 2 * a). { rewrite tie by assumption. rewrite O. ring. }
  assert (B0 : a < b) by (rewrite plus_IZR; nra).
  assert (B1 : 0 < b) by nra. assert (A1 : 0 < a) by nra.
  (* the quotient by a *)
  assert (Q1 : b < rnd (x / a)).
  { apply Rnot_le_lt. intros Q. apply (Rlt_not_le _ _ B0). rewrite <- Sa. apply half_le; [apply a_F|].
    rewrite <- T. apply rnd_mono. revert Q. rewrite !plus_IZR, mult_IZR. intros Q. lra. }
  assert (Q1' := gap (m + 1) _ ltac:(lia) (rnd_F _) Q1).
  assert (Y1 : (IZR m + 3 / 2) * u <= x / a).
  { apply Rnot_lt_le. intros Y. assert (N := nearest (x / a) b b_F).
    rewrite !plus_IZR in *. rewrite (Rabs_pos_eq (_ - _)) in N by lra.
    revert N. unfold Rabs. destruct (Rcase_abs _); intros; lra. }
  (* the quotient by b *)
  assert (Q2 : rnd (x / b) < b).
  { apply Rnot_le_lt. intros Q. apply (Rlt_not_le _ _ B0). rewrite <- Sb. apply half_ge; [apply b_F|].
    apply rnd_ge; [apply F_double, b_F|]. lra. }
  assert (Q2' : rnd (x / b) <= a).
  { apply Rnot_lt_le. intros Q. apply gap in Q; [|apply Hm|apply rnd_F]. lra. }
  assert (Y2 : x / b <= (IZR m + / 2) * u).
  { apply Rnot_lt_le. intros Y. assert (W : x / b < b).
    { apply Rmult_lt_reg_r with b; [lra|]. rewrite (div_mul x b B1). exact Hb. }
    assert (N := nearest (x / b) b b_F). rewrite plus_IZR in *. rewrite Rabs_left, Rabs_pos_eq in N by lra. lra. }
  apply (Rmult_le_compat_r b) in Y2; [|lra]. rewrite (div_mul x b B1) in Y2.
  apply (Rmult_le_compat_r a) in Y1; [|lra]. rewrite (div_mul x a A1) in Y1.
  (* x is a multiple of 2^(prec-1) units *)
  assert (G : exists k, x = IZR k * bpow radix2 (prec - 1 + (e + e))).
  { apply multiple; [exact Fx|]. rewrite !bpow_plus, E. fold (Z.sub prec 1). rewrite <- Rmult_assoc. apply Rmult_le_compat_r; [nra|].
    apply Rle_trans with (2 := L1). rewrite bpowZ by lia. assert (IZR (2 ^ (prec - 1)) <= IZR m) by (apply IZR_le; lia).
    assert (0 <= IZR (2 ^ (prec - 1))) by (apply IZR_le; lia). nra. }
  destruct G as (k & G). rewrite !bpow_plus in G. fold (Z.sub prec 1) in G. 
  rewrite bpowZ in G by lia.
  assert (Z1 : (m * (2 * m + 3) <= 2 * (k * 2 ^ (prec - 1)))%Z).
  { apply le_IZR. rewrite !mult_IZR, plus_IZR, mult_IZR. rewrite G in Y1.
    apply Rmult_le_reg_r with (u * u); [nra|]. nra. }
  assert (Z2 : (2 * (k * 2 ^ (prec - 1)) <= m * (2 * m + 3) + 1)%Z).
  { apply le_IZR. rewrite plus_IZR, !mult_IZR, plus_IZR, mult_IZR. rewrite G in Y2. rewrite plus_IZR in Y2.
    apply Rmult_le_reg_r with (u * u); [nra|]. nra. }
  assert (Z3 : (k * 2 ^ prec = m * (2 * m + 3))%Z).
  { rewrite pow_half. apply Z.even_spec in O. destruct O as (h & ->). lia. }
  assert (D : (2 ^ prec | m)%Z).
  { apply Gauss with (2 * m + 3)%Z.
    - exists k. rewrite Z.mul_comm. symmetry. exact Z3.
    - apply rel_prime_sym, rel_prime_Zpower_r; [lia|]. apply Zis_gcd_intro; [apply Z.divide_1_l|apply Z.divide_1_l|].
      intros d (s & D1) (t & D2). exists (s - t * (m + 1))%Z.
      replace ((s - t * (m + 1)) * d)%Z with (s * d - t * d * (m + 1))%Z by ring. rewrite <- D1, <- D2. ring. }
  apply Z.divide_pos_le in D; lia.
Qed.

Lemma no_cycle : step x a = b -> step x b = a -> False.
Proof. destruct (Z.even m) eqn:O; [exact (no_cycle_even O)|exact (no_cycle_odd O)]. Qed.
End At.
End F.
