(** The constexpr square root in IEEE arithmetic terminates at a neighbour of the root (C70). *)
From Coq Require Import ZArith Reals List Bool Lra Lia.
From Flocq Require Import Core BinarySingleNaN.
From Verif Require Import Ops M_scalar Inst_F P_ord P_ieee P_round P_sqrtc.
Local Open Scope R_scope.

Section F.
Variables prec emax : Z.
Context {Hprec : Prec_gt_0 prec} {Hmax : Prec_lt_emax prec emax}.
Hypothesis Hprec4 : (4 <= prec)%Z.
Hypothesis Hemax4 : (prec + 4 <= emax)%Z.
Notation fl := (binary_float prec emax).
Notation fexp := (SpecFloat.fexp prec emax).
Notation F := (generic_format radix2 fexp).
Notation rnd := (round radix2 fexp ZnearestE).
Notation emin := (3 - emax - prec)%Z.
#[local] Existing Instance fexp_correct.
Notation stp := (step prec emax).

(** The numbers next to the root *)
Lemma bracket : forall x, F x -> 0 < x -> exists m e, (2 ^ (prec - 1) <= m < 2 ^ prec)%Z /\ (emin <= e)%Z
  /\ IZR m * bpow radix2 e = round radix2 fexp Zfloor (sqrt x)
  /\ IZR m * bpow radix2 e <= sqrt x < IZR (m + 1) * bpow radix2 e.
Proof.
  intros x Fx X. set (a := round radix2 fexp Zfloor (sqrt x)).
  assert (Fa : F a) by (apply generic_format_round; auto with typeclass_instances).
  assert (Ha : a <= sqrt x). { apply (round_DN_pt radix2 fexp (sqrt x)). }
  assert (B : bpow radix2 (emin + prec - 1) <= a).
  { apply round_ge_generic; auto with typeclass_instances.
    - apply generic_format_bpow. unfold SpecFloat.fexp, SpecFloat.emin. lia.
    - apply Rsqr_incr_0_var; [|apply sqrt_pos]. rewrite Rsqr_sqrt by lra. unfold Rsqr. rewrite <- bpow_plus.
      apply Rle_trans with (bpow radix2 emin); [apply bpow_le; lia|].
      destruct (Rle_or_lt (bpow radix2 emin) x) as [|N]; [assumption|exfalso].
      assert (E : x = 0).
      { rewrite Fx. unfold scaled_mantissa. set (c := cexp radix2 fexp x).
        assert (C : (emin <= c)%Z) by (unfold c, cexp, SpecFloat.fexp, SpecFloat.emin; lia).
        replace (Ztrunc (x * bpow radix2 (- c))) with 0%Z; [apply F2R_0|]. symmetry. rewrite Ztrunc_floor by (apply Rmult_le_pos; [lra|apply bpow_ge_0]).
        apply Zfloor_imp. split; [apply Rmult_le_pos; [cbn; lra|apply bpow_ge_0]|].
        change (IZR (0 + 1)) with 1. change 1 with (bpow radix2 0). replace 0%Z with (c + - c)%Z by lia. rewrite bpow_plus.
        apply Rmult_lt_compat_r; [apply bpow_gt_0|]. apply Rlt_le_trans with (1 := N). apply bpow_le. exact C. }
      lra. }
  assert (P : 0 < a) by (eapply Rlt_le_trans; [apply bpow_gt_0|exact B]).
  set (e := (mag radix2 a - prec)%Z).
  assert (M : (emin + prec - 1 < mag radix2 a)%Z). { apply mag_gt_bpow. now rewrite Rabs_pos_eq by lra. }
  assert (C : cexp radix2 fexp a = e). { unfold cexp, SpecFloat.fexp, SpecFloat.emin, e. lia. }
  set (m := Ztrunc (scaled_mantissa radix2 fexp a)).
  assert (E : a = IZR m * bpow radix2 e). { rewrite Fa at 1. unfold F2R. cbn [Fnum Fexp]. rewrite C. reflexivity. }
  assert (G := bpow_gt_0 radix2 e).
  assert (Hm : (2 ^ (prec - 1) <= m < 2 ^ prec)%Z).
  { assert (L := bpow_mag_le radix2 a ltac:(lra)). assert (U := bpow_mag_gt radix2 a).
    rewrite Rabs_pos_eq in L, U by lra.
    replace (mag radix2 a - 1)%Z with (prec - 1 + e)%Z in L by (unfold e; lia).
    replace (mag radix2 a : Z) with (prec + e)%Z in U by (unfold e; lia).
    clearbody e m a. subst a.
    rewrite bpow_plus in L, U. apply Rmult_le_reg_r in L; [|exact G]. apply Rmult_lt_reg_r in U; [|exact G].
    rewrite bpowZ in L, U by lia. apply le_IZR in L. apply lt_IZR in U. lia. }
  exists m, e. rewrite <- E. split; [exact Hm|]. split; [unfold e; lia|]. split; [reflexivity|]. split; [exact Ha|].
  apply Rnot_le_lt. intros H. assert (H' : IZR (m + 1) * bpow radix2 e <= a).
  { apply round_ge_generic; auto with typeclass_instances. apply (fmt prec emax Hprec4); unfold e; lia. }
  rewrite plus_IZR in H'. lra.
Qed.

Definition next (x c : fl) : fl := o_mul (lit 1 2) (o_add c (o_div x c)).

Lemma emax_bound : forall c : fl, is_finite c = true -> B2R c <= bpow radix2 emax - bpow radix2 (emax - prec).
Proof. intros c Hc. assert (H := abs_B2R_le_emax_minus_prec prec emax Hprec c). assert (L := Rle_abs (B2R c)). lra. Qed.

Lemma next_step : forall x c : fl, is_finite x = true -> is_finite c = true -> 0 < B2R x -> 0 < B2R c ->
  rnd (B2R x / B2R c) < bpow radix2 emax ->
  rnd (B2R c + rnd (B2R x / B2R c)) < bpow radix2 emax ->
  is_finite (next x c) = true /\ B2R (next x c) = stp (B2R x) (B2R c).
Proof.
  intros x c Fx Fc X C Q S. unfold next.
  assert (N0 : 0 <= rnd (B2R x / B2R c)).
  { apply (rnd_ge prec emax); [apply generic_format_0|]. apply Rlt_le, Rdiv_lt_0_compat; assumption. }
  assert (D := Bdiv_correct prec emax Hprec Hmax mode_NE x c ltac:(lra)). cbv zeta in D. cbn [round_mode] in D.
  rewrite Rlt_bool_true in D by (rewrite Rabs_pos_eq; assumption). destruct D as (D1 & D2 & _). rewrite Fx in D2.
  assert (P := Bplus_correct prec emax Hprec Hmax mode_NE c (Bdiv mode_NE x c) Fc D2). cbn [round_mode] in P. rewrite D1 in P.
  assert (N1 : 0 <= rnd (B2R c + rnd (B2R x / B2R c))) by (apply (rnd_ge prec emax); [apply generic_format_0|lra]).
  rewrite Rlt_bool_true in P by (rewrite Rabs_pos_eq; assumption). destruct P as (P1 & P2 & _).
  destruct (F_half prec emax ltac:(lia)) as (H1 & H2).
  assert (M := Bmult_correct prec emax Hprec Hmax mode_NE (lit 1 2) (Bplus mode_NE c (Bdiv mode_NE x c))). cbn [round_mode] in M.
  rewrite H2, P1 in M.
  assert (N2 : 0 <= rnd (/ 2 * rnd (B2R c + rnd (B2R x / B2R c)))) by (apply (rnd_ge prec emax); [apply generic_format_0|lra]).
  rewrite Rlt_bool_true in M.
  - destruct M as (M1 & M2 & _). rewrite H1, P2 in M2. split; [exact M2|exact M1].
  - rewrite Rabs_pos_eq by assumption. apply Rle_lt_trans with (2 := S).
    apply (rnd_le prec emax); [apply (rnd_F prec emax)|lra].
Qed.

(** The sum with a small number does not overflow. *)
Lemma small_sum : forall c q, c <= bpow radix2 emax - bpow radix2 (emax - prec) -> q <= 4 -> rnd (c + q) < bpow radix2 emax.
Proof.
  intros c q C Q. set (g := bpow radix2 emax - bpow radix2 (emax - prec)).
  assert (G : g = IZR (2 ^ prec - 1) * bpow radix2 (emax - prec)).
  { unfold g. rewrite minus_IZR, <- bpowZ, Rmult_minus_distr_r, <- bpow_plus by lia. replace (prec + (emax - prec))%Z with emax by lia. ring. }
  assert (B : bpow radix2 4 <= bpow radix2 (emax - prec)) by (apply bpow_le; lia). cbn in B.
  apply Rle_lt_trans with g; [|unfold g; lra].
  rewrite G. apply (close prec emax Hprec4).
  - apply (fmt prec emax Hprec4); [|lia]. assert (W := pow_8 prec Hprec4). rewrite (pow_half prec Hprec4). lia.
  - assert (W := pow_8 prec Hprec4). rewrite (pow_half prec Hprec4). lia.
  - rewrite Rmult_plus_distr_r, <- G. unfold g. lra.
Qed.

Section X.
Variable x : fl.
Hypothesis Fx : is_finite x = true.
Hypothesis X : 0 < B2R x.
Variables m e : Z.
Hypothesis Hm : (2 ^ (prec - 1) <= m < 2 ^ prec)%Z.
Hypothesis He : (emin <= e)%Z.
Notation u := (bpow radix2 e).
Notation a := (IZR m * u).
Notation b := (IZR (m + 1) * u).
Hypothesis Ha : a <= sqrt (B2R x).
Hypothesis Hb : sqrt (B2R x) < b.

Lemma a_pos : 0 < a.
Proof. assert (W := u_pos e). assert (W' := m_8 prec Hprec4 m Hm). nra. Qed.
Lemma a2 : a * a <= B2R x.
Proof.
  assert (W := a_pos). rewrite <- (sqrt_sqrt (B2R x)) by lra. apply Rmult_le_compat; lra.
Qed.
Lemma b2 : B2R x < b * b.
Proof.
  assert (W := sqrt_pos (B2R x)). rewrite <- (sqrt_sqrt (B2R x)) at 1 by lra. apply Rmult_le_0_lt_compat; lra.
Qed.
Lemma x_F : F (B2R x). Proof. apply generic_format_B2R. Qed.

Lemma next_ok : forall c : fl, is_finite c = true -> a <= B2R c ->
  is_finite (next x c) = true /\ B2R (next x c) = stp (B2R x) (B2R c).
Proof.
  intros c Fc C. assert (A := a_pos). assert (A2 := a2). assert (B := b2).
  assert (M := m_8 prec Hprec4 m Hm). assert (U := u_pos e).
  assert (Q : rnd (B2R x / B2R c) <= 2 * a).
  { apply Rle_trans with (rnd (B2R x / a)).
    - apply (rnd_mono prec emax); try assumption. unfold Rdiv. apply Rmult_le_compat_l; [lra|]. apply Rinv_le_contravar; lra.
    - assert (W := q_a prec emax Hprec4 (B2R x) m e x_F Hm He A2 B). nra. }
  assert (XM := emax_bound x Fx).
  assert (X2 : B2R x < bpow radix2 emax) by (assert (0 < bpow radix2 (emax - prec)) by apply bpow_gt_0; lra).
  assert (K : 2 * a <= bpow radix2 (emax - 2)).
  { apply Rsqr_incr_0_var; [|apply bpow_ge_0]. unfold Rsqr. rewrite <- bpow_plus.
    apply Rle_trans with (bpow radix2 (2 + emax)); [|apply bpow_le; lia]. rewrite bpow_plus. change (bpow radix2 2) with 4. lra. }
  assert (L : bpow radix2 (emax - 2) < bpow radix2 emax) by (apply bpow_lt; lia).
  apply next_step; try assumption; try lra.
  destruct (Rle_or_lt (B2R c) (bpow radix2 (emax - 2))) as [H|H].
  - apply Rle_lt_trans with (bpow radix2 (emax - 1)); [|apply bpow_lt; lia].
    apply (rnd_le prec emax).
    + apply generic_format_bpow. unfold SpecFloat.fexp, SpecFloat.emin. lia.
    + replace (emax - 1)%Z with (1 + (emax - 2))%Z by lia. rewrite (bpow_plus _ 1). change (bpow radix2 1) with 2. lra.
  - apply small_sum; [apply emax_bound; exact Fc|].
    apply (rnd_le prec emax); [change 4 with (IZR 4); apply (IZR_format prec emax); assert (W := pow_8 prec Hprec4); rewrite (pow_half prec Hprec4); lia|].
    apply Rmult_le_reg_r with (B2R c); [lra|]. rewrite div_mul by lra.
    assert (E4 : bpow radix2 emax = 4 * bpow radix2 (emax - 2)).
    { change 4 with (bpow radix2 2). rewrite <- bpow_plus. f_equal. lia. }
    lra.
Qed.
Lemma next_first : is_finite (next x x) = true /\ B2R (next x x) = stp (B2R x) (B2R x).
Proof.
  assert (E : rnd (B2R x / B2R x) = 1).
  { replace (B2R x / B2R x) with 1 by (field; lra). apply (rnd_id prec emax). change 1 with (IZR 1). apply (IZR_format prec emax).
    assert (W := pow_8 prec Hprec4). rewrite (pow_half prec Hprec4). lia. }
  apply next_step; try assumption; rewrite E.
  - change 1 with (bpow radix2 0). apply bpow_lt. lia.
  - apply small_sum; [apply emax_bound; exact Fx|lra].
Qed.

(** Above b the iteration decreases. *)
Lemma next_above : forall c : fl, is_finite c = true -> b < B2R c -> B2R (next x c) < B2R c.
Proof.
  intros c Fc C. assert (A := a_pos). assert (U := u_pos e). 
  destruct (next_ok c Fc) as (_ & ->). { rewrite plus_IZR in C. lra. }
  assert (Gc : F (B2R c)) by apply generic_format_B2R.
  assert (R : exists n f, (2 ^ (prec - 1) < n <= 2 ^ prec)%Z /\ (emin <= f)%Z /\ B2R c = IZR n * bpow radix2 f).
  { set (M := mag radix2 (B2R c) : Z).
    assert (L := bpow_mag_le radix2 (B2R c) ltac:(rewrite plus_IZR in C; lra)). assert (V := bpow_mag_gt radix2 (B2R c)).
    rewrite Rabs_pos_eq in L, V by (rewrite plus_IZR in C; lra). fold M in L, V.
    assert (K : bpow radix2 (emin + prec - 1) < B2R c).
    { rewrite plus_IZR in C. apply Rle_lt_trans with a; [|lra].
      apply Rle_trans with (bpow radix2 (prec - 1 + e)); [apply bpow_le; lia|]. rewrite bpow_plus. apply Rmult_le_compat_r; [lra|].
      rewrite bpowZ by lia. apply IZR_le. lia. }
    destruct (Req_dec (B2R c) (bpow radix2 (M - 1))) as [E|E].
    - exists (2 ^ prec)%Z, (M - 1 - prec)%Z. rewrite E in K. apply lt_bpow in K.
      split; [|split; [lia|]].
      + assert (W := pow_8 prec Hprec4). rewrite (pow_half prec Hprec4). lia.
      + rewrite E, <- bpowZ, <- bpow_plus by lia. f_equal. lia.
    - assert (K2 := Rlt_trans _ _ _ K V). apply lt_bpow in K2.
      destruct (multiple prec emax Hprec4 (B2R c) (M - prec) Gc) as (n & En).
      { rewrite <- bpowZ, <- bpow_plus by lia. replace (prec - 1 + (M - prec))%Z with (M - 1)%Z by lia. exact L. }
      exists n, (M - prec)%Z. split; [|split; [lia|exact En]].
      assert (G := bpow_gt_0 radix2 (M - prec)). assert (L' : bpow radix2 (M - 1) < B2R c) by lra.
      rewrite En in L', V.
      replace (M - 1)%Z with (prec - 1 + (M - prec))%Z in L' by lia. replace M with (prec + (M - prec))%Z in V at 2 by lia.
      rewrite bpow_plus in L', V. apply Rmult_lt_reg_r in L'; [|exact G]. apply Rmult_lt_reg_r in V; [|exact G].
      rewrite bpowZ in L', V by lia. apply lt_IZR in L', V. lia. }
  destruct R as (n & f & Hn & Hf & E). assert (G := bpow_gt_0 radix2 f).
  assert (K : b <= (IZR n - 1) * bpow radix2 f).
  { apply Rnot_lt_le. intros K. rewrite <- minus_IZR in K. apply (gap prec emax Hprec4 f) in K; [|lia|apply (b_F prec emax Hprec4); assumption].
    replace (n - 1 + 1)%Z with n in K by lia. lra. }
  rewrite E. apply Rle_lt_trans with ((IZR n - 1) * bpow radix2 f); [|nra].
  apply (step_decreases prec emax Hprec4); try assumption. assert (B := b2). rewrite plus_IZR in *. nra.
Qed.

(** The iteration ends at a or b; at a if that is the root. *)
Definition answer (r : fl) : Prop := is_finite r = true /\ (B2R r = a \/ B2R r = b /\ a < sqrt (B2R x)).

Lemma next_F : forall c : fl, F (B2R c). Proof. intros. apply generic_format_B2R. Qed.
Lemma ab : a < b. Proof. assert (U := u_pos e). rewrite plus_IZR. nra. Qed.
Lemma between_ab : forall y, F y -> a <= y <= b -> y = a \/ y = b.
Proof.
  intros y Fy Y. destruct (Req_dec y a) as [|N]; [now left|right].
  assert (G := gap prec emax Hprec4 e m y (proj1 Hm) Fy ltac:(lra)). lra.
Qed.
Lemma exact_root : ~ a < sqrt (B2R x) -> B2R x = a * a.
Proof. intros N. replace a with (sqrt (B2R x)) by lra. symmetry. apply sqrt_sqrt. lra. Qed.
(** The step from b leads to a if a is the root. *)
Lemma next_b_exact : forall c : fl, is_finite c = true -> B2R c = b -> ~ a < sqrt (B2R x) -> B2R (next x c) = a.
Proof.
  intros c Fc C N. assert (AB := ab). destruct (next_ok c Fc) as (_ & E). { lra. }
  rewrite E, C. apply Rle_antisym.
  - replace a with ((IZR (m + 1) - 1) * u) by (rewrite plus_IZR; ring). apply (step_decreases prec emax Hprec4); try assumption; [lia|].
    rewrite (exact_root N), plus_IZR. lra.
  - apply (step_b prec emax Hprec4); auto using x_F, a2, b2.
Qed.

Lemma nr_stop : forall fuel (c p : fl), is_finite c = true -> is_finite p = true -> B2R c = B2R p -> sqrt_c_nr fuel x c p = Ret c.
Proof.
  intros fuel c p Fc Fp E. assert (Q : o_eq c p = true) by (cbn; rewrite Feq by assumption; now apply Req_bool_true).
  destruct fuel; cbn; cbn in Q; now rewrite Q.
Qed.
Lemma nr_go : forall fuel (c p : fl), is_finite c = true -> is_finite p = true -> B2R c <> B2R p ->
  sqrt_c_nr (S fuel) x c p = sqrt_c_nr fuel x (next x c) c.
Proof.
  intros fuel c p Fc Fp E. assert (Q : o_eq c p = false) by (cbn; rewrite Feq by assumption; now apply Req_bool_false).
  cbn. cbn in Q. now rewrite Q.
Qed.

(** Once at a or b *)
Lemma end_phase : forall p : fl, is_finite p = true -> B2R p = a \/ B2R p = b ->
  exists fuel r, sqrt_c_nr fuel x (next x p) p = Ret r /\ answer r.
Proof.
  assert (AB := ab). assert (A2 := a2). assert (B2 := b2).
  assert (Sa := step_a prec emax Hprec4 (B2R x) m e x_F Hm He A2 B2).
  assert (Sb := step_b prec emax Hprec4 (B2R x) m e Hm He A2 B2).
  assert (NC := no_cycle prec emax Hprec4 (B2R x) m e x_F Hm He A2 B2).
  assert (NX : forall p : fl, is_finite p = true -> B2R p = a \/ B2R p = b ->
     is_finite (next x p) = true /\ (B2R (next x p) = a \/ B2R (next x p) = b)).
  { intros p Fp P. destruct (next_ok p Fp) as (F1 & E1). { destruct P as [-> | ->]; lra. }
    split; [exact F1|]. apply between_ab; [apply next_F|]. rewrite E1. destruct P as [-> | ->]; assumption. }
  assert (AN : forall p : fl, is_finite p = true -> B2R p = a \/ B2R p = b -> B2R (next x p) = B2R p -> answer p).
  { intros p Fp [P|P] E; split; auto. right. split; [exact P|].
    destruct (Rlt_or_le a (sqrt (B2R x))) as [|N]; [assumption|exfalso]. rewrite (next_b_exact p Fp P) in E; [|lra]. lra. }
  assert (FIX : forall p : fl, is_finite p = true -> B2R p = a \/ B2R p = b -> B2R (next x p) = B2R p ->
     exists fuel r, sqrt_c_nr fuel x (next x p) p = Ret r /\ answer r).
  { intros p Fp P E. exists O, (next x p). destruct (NX p Fp P) as (F1 & P1). split; [apply nr_stop; assumption|].
    destruct (AN p Fp P E) as (_ & W). split; [exact F1|]. rewrite E. exact W. }
  intros p Fp P. destruct (NX p Fp P) as (F1 & P1). destruct (NX _ F1 P1) as (F2 & P2).
  destruct (Req_dec (B2R (next x p)) (B2R p)) as [E|E]; [now apply FIX|].
  destruct (Req_dec (B2R (next x (next x p))) (B2R (next x p))) as [E'|E'].
  - destruct (FIX _ F1 P1 E') as (fuel & r & W & Ar). exists (S fuel), r. split; [|exact Ar]. rewrite nr_go by assumption. exact W.
  - exfalso. destruct (next_ok p Fp) as (_ & S1). { destruct P as [-> | ->]; lra. }
    destruct (next_ok _ F1) as (_ & S2). { destruct P1 as [-> | ->]; lra. }
    destruct P as [P|P], P1 as [P1|P1], P2 as [P2|P2]; try congruence; rewrite ?P in S1; rewrite ?P1 in S2; apply NC; congruence.
Qed.

(** The number of numbers of the format below *)
Definition rank (c : fl) : nat := Z.to_nat (Zfloor (B2R c * bpow radix2 (- emin))).
Lemma rank_lt : forall c d : fl, 0 <= B2R c -> B2R c < B2R d -> (rank c < rank d)%nat.
Proof.
  assert (I : forall c : fl, B2R c * bpow radix2 (- emin) = IZR (Zfloor (B2R c * bpow radix2 (- emin)))).
  { intros c. assert (K : exists k, B2R c * bpow radix2 (- emin) = IZR k).
    - set (k := (cexp radix2 fexp (B2R c) + - emin)%Z). assert (K : (0 <= k)%Z) by (unfold k, cexp, SpecFloat.fexp, SpecFloat.emin; lia).
      exists (Ztrunc (scaled_mantissa radix2 fexp (B2R c)) * 2 ^ k)%Z.
      rewrite mult_IZR, <- (bpowZ k K). unfold k. rewrite bpow_plus, <- Rmult_assoc. f_equal. exact (next_F c).
    - destruct K as (k & ->). now rewrite Zfloor_IZR. }
  intros c d C D. assert (G := bpow_gt_0 radix2 (- emin)). unfold rank. apply Z2Nat.inj_lt.
  - apply Zfloor_lub. apply Rmult_le_pos; [lra|apply bpow_ge_0].
  - apply Zfloor_lub. apply Rmult_le_pos; [lra|apply bpow_ge_0].
  - apply lt_IZR. rewrite <- !I. apply Rmult_lt_compat_r; assumption.
Qed.

Lemma main_phase : forall k (p : fl), (rank p < k)%nat -> is_finite p = true -> a <= B2R p ->
  exists fuel r, sqrt_c_nr fuel x (next x p) p = Ret r /\ answer r.
Proof.
  assert (A := a_pos). assert (AB := ab).
  induction k as [|k IH]; intros p K Fp P; [lia|].
  destruct (Rle_or_lt (B2R p) b) as [B|B].
  - apply end_phase; [exact Fp|]. apply between_ab; [apply next_F|lra].
  - assert (D := next_above p Fp B). destruct (next_ok p Fp P) as (F1 & E1).
    assert (L : a <= B2R (next x p)).
    { rewrite E1. apply (step_lower prec emax); auto using next_F, a2. apply (a_F prec emax Hprec4); assumption. }
    destruct (IH (next x p)) as (fuel & r & W & Ar); try assumption.
    { assert (rank (next x p) < rank p)%nat; [|lia]. apply rank_lt; lra. }
    exists (S fuel), r. split; [|exact Ar]. rewrite nr_go by (assumption || lra). exact W.
Qed.

Lemma all_phases : exists fuel r, sqrt_c_nr fuel x x (cst 0) = Ret r /\ answer r.
Proof.
  assert (A := a_pos). destruct (F_cst0 prec emax) as (F0 & B0).
  destruct next_first as (F1 & E1).
  assert (L : a <= B2R (next x x)).
  { rewrite E1. apply (step_first prec emax Hprec4); auto using a2. apply (a_F prec emax Hprec4); assumption. }
  destruct (Rle_or_lt a (B2R x)) as [C|C].
  - destruct (main_phase (S (rank x)) x (Nat.lt_succ_diag_r _) Fx C) as (fuel & r & W & Ar).
    exists (S fuel), r. split; [|exact Ar]. rewrite nr_go by (assumption || lra). exact W.
  - destruct (main_phase (S (rank (next x x))) (next x x) (Nat.lt_succ_diag_r _) F1 L) as (fuel & r & W & Ar).
    exists (S (S fuel)), r. split; [|exact Ar]. rewrite nr_go by (assumption || lra). rewrite nr_go by (assumption || lra). exact W.
Qed.
End X.

Lemma nr_more : forall f x c p r, sqrt_c_nr f x c p = Ret r -> forall f', (f <= f')%nat -> sqrt_c_nr f' x c p = Ret (r : fl).
Proof.
  induction f as [|f IH]; intros x c p r H f' L.
  - cbn in H. destruct f'; cbn; destruct (Beqb c p); congruence.
  - destruct f'; [lia|]. cbn in *. destruct (Beqb c p); [exact H|]. apply IH; [exact H|lia].
Qed.

(** For every finite argument that is not negative the iteration ends at one of the numbers of the format next to the root. *)
Lemma sqrt_c_spec : forall x : fl, is_finite x = true -> 0 <= B2R x ->
  exists r fuel, (forall fuel', (fuel <= fuel')%nat -> sqrt_c fuel' x = Ret r) /\ is_finite r = true
  /\ (B2R r = round radix2 fexp Zfloor (sqrt (B2R x)) \/ B2R r = round radix2 fexp Zceil (sqrt (B2R x))).
Proof.
  intros x Fx X. destruct (F_cst0 prec emax) as (F0 & B0).
  assert (U : forall fuel, sqrt_c fuel x = sqrt_c_nr fuel x x (cst 0)).
  { intros fuel. unfold sqrt_c. replace (is_nan x || (x =? o_inf)%sc) with false.
    2: { symmetry. apply orb_false_intro.
         - unfold is_nan. cbn. rewrite Feq by assumption. now rewrite Req_bool_true.
         - cbn. destruct x; try discriminate; destruct s; reflexivity. }
    replace (x >=? cst 0)%sc with true; [reflexivity|]. symmetry. change (Bleb (cst 0) x = true). rewrite Fle by assumption.
    apply Rle_bool_true. lra. }
  destruct X as [X|X].
  - destruct (bracket (B2R x) (generic_format_B2R prec emax x) X) as (m & e & Hm & He & E & Ha & Hb).
    destruct (all_phases x Fx X m e Hm He Ha Hb) as (fuel & r & W & (Fr & Ar)).
    exists r, fuel. split; [intros f' L; rewrite U; now apply (nr_more fuel)|]. split; [exact Fr|].
    destruct Ar as [Ar|(Ar & N)]; [left; congruence|right]. rewrite Ar.
    assert (Fb : F (IZR (m + 1) * bpow radix2 e)) by (apply (fmt prec emax Hprec4); lia).
    apply Rle_antisym.
    + assert (C := round_UP_pt radix2 fexp (sqrt (B2R x))). destruct C as (C1 & C2 & C3).
      apply (P_sqrtc.gap prec emax Hprec4 e m); [lia|exact C1|lra].
    + apply round_le_generic; auto with typeclass_instances. lra.
  - exists x, O. split.
    + intros f' _. rewrite U. apply nr_stop; try assumption; congruence.
    + split; [exact Fx|]. left. rewrite <- X, sqrt_0, round_0; auto with typeclass_instances.
Qed.
(** The other arguments *)
Lemma sqrt_c_negative : forall fuel (x : fl), is_finite x = true -> B2R x < 0 -> sqrt_c fuel x = Ret o_nan.
Proof.
  intros fuel x Fx X. destruct (F_cst0 prec emax) as (F0 & B0). unfold sqrt_c.
  replace (is_nan x || (x =? o_inf)%sc) with false.
  2: { symmetry. apply orb_false_intro.
         - unfold is_nan. cbn. rewrite Feq by assumption. now rewrite Req_bool_true.
         - cbn. destruct x; try discriminate; destruct s; reflexivity. }
  replace (x >=? cst 0)%sc with false; [reflexivity|]. symmetry. change (Bleb (cst 0) x = false). rewrite Fle by assumption.
  apply Rle_bool_false. lra.
Qed.
Lemma sqrt_c_special : forall fuel, sqrt_c fuel (B754_nan : fl) = Ret B754_nan
  /\ sqrt_c fuel (B754_infinity false : fl) = Ret (B754_infinity false) /\ sqrt_c fuel (B754_infinity true : fl) = Ret B754_nan.
Proof.
  intros fuel. repeat split.
Qed.
End F.
