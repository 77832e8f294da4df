(** The intersection of a ray and a box in machine arithmetic, one axis at a time (C112). *)
From Coq Require Import ZArith Reals List Lia Lra Bool Psatz.
From Flocq Require Import Core BinarySingleNaN.
From Verif Require Import Ops M_scalar M_vec M_geom M_bbox M_intersect Inst_F S_vec S_rnd S_order P_ord P_ieee P_compare P_fp P_hit P_hit2 P_bbox3 P_ft.
Import ListNotations.
Local Open Scope R_scope.

Section FP.
Variables prec emax : Z.
Context {Hprec : Prec_gt_0 prec} {Hmax : Prec_lt_emax prec emax}.
Notation fl := (binary_float prec emax).
Notation u := (unit_roundoff prec).
Notation eta := (underflow_error prec emax).
Notation Om := (bpow radix2 emax).
Notation rnd := (round radix2 (SpecFloat.fexp prec emax) ZnearestE).
Notation sat := (sat emax).
Hypothesis U20 : (20 <= prec)%Z.
Hypothesis E20 : (20 <= emax)%Z.

Lemma rnd0 : rnd 0 = 0. Proof. apply round_0. typeclasses eauto. Qed.
Lemma rnd_pos : forall x, 0 <= x -> 0 <= rnd x.
Proof. intros x H. rewrite <- rnd0. apply round_le; try typeclasses eauto. exact H. Qed.
Lemma rnd_neg : forall x, x <= 0 -> rnd x <= 0.
Proof. intros x H. rewrite <- rnd0. apply round_le; try typeclasses eauto. exact H. Qed.

Lemma rnd_err : forall x, exists d e, Rabs d <= u /\ Rabs e <= eta /\ rnd x = x * (1 + d) + e.
Proof. exact (rnd_error prec emax). Qed.
Lemma rnd_err_plus : forall x y : fl, exists d, Rabs d <= u /\ rnd (B2R x + B2R y) = (B2R x + B2R y) * (1 + d).
Proof. intros x y. apply (rnd_error_plus prec emax); apply generic_format_B2R. Qed.
Lemma mult_key : forall x y : fl, is_finite x = true -> is_finite y = true -> is_nan (o_mul x y) = false /\ key (o_mul x y) = sat (rnd (B2R x * B2R y)).
Proof.
  intros x y Hx Hy. assert (C := Bmult_correct prec emax _ _ mode_NE x y). change (o_mul x y) with (Bmult mode_NE x y).
  cbn [round_mode] in C. destruct (Rlt_bool_spec (Rabs (rnd (B2R x * B2R y))) (bpow radix2 emax)) as [L|L].
  - destruct C as (C1 & C2 & _). rewrite Hx, Hy in C2. split; [ rewrite F_is_nan; now apply finite_not_nan | ].
    change (Fkey prec emax (Bmult mode_NE x y) = sat (rnd (B2R x * B2R y))). rewrite Fkey_finite by assumption. rewrite C1. now rewrite sat_small.
  - destruct (inf_key _ _ _ _ C) as [N K]. split; [ exact N | ]. rewrite K. symmetry. apply sat_inf; [ exact L | ].
    assert (S1 := sign_le _ _ x Hx). assert (S2 := sign_le _ _ y Hy). destruct (Bsign x), (Bsign y); simpl; [apply rnd_pos|apply rnd_neg|apply rnd_neg|apply rnd_pos]; nra.
Qed.
Lemma div_key : forall x y : fl, is_finite x = true -> is_finite y = true -> B2R y <> 0 -> is_nan (o_div x y) = false /\ key (o_div x y) = sat (rnd (B2R x / B2R y)).
Proof.
  intros x y Hx Hy Ny. assert (C := Bdiv_correct prec emax _ _ mode_NE x y Ny). change (o_div x y) with (Bdiv mode_NE x y).
  cbn [round_mode] in C. destruct (Rlt_bool_spec (Rabs (rnd (B2R x / B2R y))) (bpow radix2 emax)) as [L|L].
  - destruct C as (C1 & C2 & _). rewrite Hx in C2. split; [ rewrite F_is_nan; now apply finite_not_nan | ].
    change (Fkey prec emax (Bdiv mode_NE x y) = sat (rnd (B2R x / B2R y))). rewrite Fkey_finite by assumption. rewrite C1. now rewrite sat_small.
  - destruct (inf_key _ _ _ _ C) as [N K]. split; [ exact N | ]. rewrite K. symmetry. apply sat_inf; [ exact L | ].
    assert (S1 := sign_le _ _ x Hx). assert (S2 := sign_le _ _ y Hy).
    assert (I1 : 0 < B2R y -> 0 < / B2R y) by apply Rinv_0_lt_compat. assert (I2 : B2R y < 0 -> / B2R y < 0) by apply Rinv_lt_0_compat.
    unfold Rdiv. destruct (Bsign x), (Bsign y); simpl; [apply rnd_pos|apply rnd_neg|apply rnd_neg|apply rnd_pos];
      try (assert (/ B2R y < 0) by (apply I2; lra)); try (assert (0 < / B2R y) by (apply I1; lra)); nra.
Qed.
Lemma key_fin : forall x : fl, is_finite x = true -> key x = B2R x.
Proof. intros x F. exact (Fkey_finite prec emax x F). Qed.
Lemma fin_num' : forall x : fl, is_finite x = true -> is_nan x = false.
Proof. intros x F. rewrite F_is_nan. now apply finite_not_nan. Qed.
Lemma key_range : forall x : fl, - Om <= key x <= Om.
Proof.
  intros x. change (- Om <= Fkey prec emax x <= Om). assert (B := bpow_gt_0 radix2 emax). destruct (is_finite x) eqn:F; [assert (G := Fkey_bound prec emax x F); lra|].
  destruct x as [s|s| |s m e H]; try discriminate; [destruct s|]; cbn; lra.
Qed.
Lemma key_inner : forall x : fl, is_nan x = false -> - Om < key x < Om -> is_finite x = true.
Proof. intros x N K. change (- Om < Fkey prec emax x < Om) in K. rewrite F_is_nan in N. destruct x as [s|[]| |s m e H]; try reflexivity; try discriminate; cbn in K; lra. Qed.
Lemma sat_lo : forall x y, - Om < x -> x <= sat y -> x <= y.
Proof. intros x y H K. unfold P_bbox3.sat in K. destruct (Rle_dec x y); auto. exfalso. revert K. unfold Rmax, Rmin. destruct (Rle_dec Om y), (Rle_dec (- Om) _); lra. Qed.
Lemma sat_hi : forall x y, x < Om -> sat y <= x -> y <= x.
Proof. intros x y H K. unfold P_bbox3.sat in K. revert K. unfold Rmax, Rmin. destruct (Rle_dec Om y), (Rle_dec (- Om) _); lra. Qed.
Lemma lt_fin : forall x y : fl, is_finite x = true -> is_nan y = false -> o_lt x y = Rlt_bool (B2R x) (key y).
Proof. intros x y F N. rewrite lt_key; auto using fin_num'. now rewrite key_fin. Qed.
Lemma lt_fin_r : forall x y : fl, is_finite y = true -> is_nan x = false -> o_lt x y = Rlt_bool (key x) (B2R y).
Proof. intros x y F N. rewrite lt_key; auto using fin_num'. now rewrite (key_fin y). Qed.

(** One axis: the candidate plane and the distance to it *)
Section Axis.
Variables (O d mn mx : fl) (M : R).
Hypothesis (FO : is_finite O = true) (Fd : is_finite d = true) (Fn : is_finite mn = true) (Fx : is_finite mx = true).
Hypothesis (BO : Rabs (B2R O) <= M) (Bn : Rabs (B2R mn) <= M) (Bx : Rabs (B2R mx) <= M) (Bd : Rabs (B2R d) <= 2) (M16 : 16 * M <= Om) (BOX : B2R mn <= B2R mx).
Let cand := rb_candidate O d mn mx.
Let P := fst cand.
Let s := rb_distance O d P.
Let t := (B2R P - B2R O) / B2R d.
Lemma axis_outside : snd cand = false -> (B2R O < B2R mn /\ P = mn \/ B2R mx < B2R O /\ P = mx).
Proof.
  unfold P, cand, rb_candidate. rewrite !lt_fin, !key_fin by auto using fin_num'.
  destruct (Rlt_bool_spec (B2R O) (B2R mn)); [now left|]. destruct (Rlt_bool_spec (B2R mx) (B2R O)); [now right|discriminate].
Qed.
Lemma axis_inside : snd cand = true -> B2R mn <= B2R O <= B2R mx /\ (B2R d < 0 /\ P = mn \/ 0 <= B2R d /\ P = mx).
Proof.
  destruct (F_cst0 prec emax) as [F0 V0]. unfold P, cand, rb_candidate. rewrite !lt_fin, !key_fin, V0 by auto using fin_num'.
  destruct (Rlt_bool_spec (B2R O) (B2R mn)); [discriminate|]. destruct (Rlt_bool_spec (B2R mx) (B2R O)); [discriminate|]. intros _. split; [lra|]. cbn [fst].
  destruct (Rlt_bool_spec (B2R d) 0); [now left|now right].
Qed.
Lemma axis_flag : snd cand = true <-> B2R mn <= B2R O <= B2R mx.
Proof.
  destruct (snd cand) eqn:E; [apply axis_inside in E as [E _]; tauto|]. apply axis_outside in E. split; [discriminate|]. intros H. exfalso. destruct E as [[E _]|[E _]]; lra.
Qed.
Lemma axis_P : is_finite P = true /\ Rabs (B2R P) <= M.
Proof. destruct (snd cand) eqn:E; [apply axis_inside in E as [_ [[_ ->]|[_ ->]]]|apply axis_outside in E as [[_ ->]|[_ ->]]]; auto. Qed.
Lemma axis_zero : B2R d = 0 -> is_nan s = false /\ key s = -1.
Proof.
  intros Z. destruct (F_cst0 prec emax) as [F0 V0]. destruct (F_cst prec emax (-1)) as [F1 V1]. { change (Z.abs (-1)) with (2 ^ 0)%Z. apply Z.pow_le_mono_r; lia. }
  unfold s, rb_distance. rewrite eq_key, !key_fin, V0, Z, Req_bool_true by auto using fin_num'. cbn [negb]. split; [now apply fin_num'|]. rewrite key_fin by assumption. exact V1.
Qed.
(** The distance is the exact one after two roundings. *)
Lemma axis_dist : B2R d <> 0 -> is_nan s = false /\ exists y d1 d2 e, key s = sat y /\ y = t * (1 + d1) * (1 + d2) + e /\ Rabs d1 <= u /\ Rabs d2 <= u /\ Rabs e <= eta /\ (0 <= t -> 0 <= y).
Proof.
  intros Nd. destruct (F_cst0 prec emax) as [F0 V0]. destruct axis_P as [FP BP]. destruct (u_small prec ltac:(assumption)) as (U0 & U1).
  unfold s, rb_distance. rewrite eq_key, !key_fin, V0, Req_bool_false by auto using fin_num'. cbn [negb].
  apply Rabs_le_inv in BO as PO, BP as PP. assert (M0 : 0 <= M) by lra. assert (OM := bpow_gt_0 radix2 emax).
  destruct (minus_ok prec emax P O FP FO) as (Fs & d1 & H1 & V1).
  { apply Rle_lt_trans with (2 * M * (1 + u)); [apply Rmult_le_compat_r; [lra|]; apply Rabs_le; lra|]. nra. }
  destruct (div_key (o_sub P O) d Fs Fd Nd) as [N K]. split; [exact N|].
  destruct (rnd_err (B2R (o_sub P O) / B2R d)) as (d2 & e & H2 & He & V2).
  exists (rnd (B2R (o_sub P O) / B2R d)), d1, d2, e. split; [exact K|]. split; [|split; [exact H1|split; [exact H2|split; [exact He|]]]].
  - rewrite V2, V1. unfold t, Rdiv. ring.
  - intros Ht. apply rnd_pos. rewrite V1. replace ((B2R P - B2R O) * (1 + d1) / B2R d) with (t * (1 + d1)) by (unfold t, Rdiv; ring).
    apply Rabs_le_inv in H1. apply Rmult_le_pos; lra.
Qed.
End Axis.

(** The check of a coordinate *)
Section Check.
Variables (O d mn mx s : fl) (M : R).
Hypothesis (FO : is_finite O = true) (Fd : is_finite d = true) (Fn : is_finite mn = true) (Fx : is_finite mx = true).
Hypothesis (BO : Rabs (B2R O) <= M) (Bn : Rabs (B2R mn) <= M) (Bx : Rabs (B2R mx) <= M) (Bd : Rabs (B2R d) <= 2) (M16 : 16 * M <= Om) (BOX : B2R mn <= B2R mx).
Let coord := o_add O (o_mul s d).
Let miss := o_lt coord mn || o_lt mx coord.
Notation e := (10 * (u * M + eta)).
Lemma inf_out : forall x : fl, is_finite x = false -> is_nan x = false -> o_lt (o_add O x) mn || o_lt mx (o_add O x) = true.
Proof.
  intros x Hx N. assert (G : o_add O x = x). { rewrite F_is_nan in N. destruct x as [|sx| |]; try discriminate. destruct O as [|[]| |]; try discriminate; reflexivity. }
  rewrite G. rewrite F_is_nan in N. assert (OM := bpow_gt_0 radix2 emax). apply Rabs_le_inv in Bn as Pn, Bx as Px. destruct x as [|[]| |]; try discriminate; apply orb_true_intro.
  - left. rewrite lt_fin_r by (auto; now rewrite F_is_nan). change (Rlt_bool (- Om) (B2R mn) = true). apply Rlt_bool_true. lra.
  - right. rewrite lt_fin by (auto; now rewrite F_is_nan). change (Rlt_bool (B2R mx) Om = true). apply Rlt_bool_true. lra.
Qed.
Lemma inf_miss : s = B754_infinity false -> B2R d <> 0 -> miss = true.
Proof.
  intros Es Nd. unfold miss, coord. rewrite Es. apply inf_out.
  - destruct d as [| | |]; try discriminate; [cbn in Nd; lra|]. reflexivity.
  - rewrite F_is_nan. destruct d as [| | |]; try discriminate; [cbn in Nd; lra|]. reflexivity.
Qed.
(** A coordinate that passes is in the box up to the error. *)
Lemma passes : is_finite s = true -> miss = false -> B2R mn - e <= B2R O + B2R s * B2R d <= B2R mx + e /\ Rabs (B2R s * B2R d) <= 21 / 10 * M + 2 * eta.
Proof.
  intros Fs H. destruct (u_small prec ltac:(assumption)) as (U0 & U1). assert (T0 := eta_pos prec emax). apply Rabs_le_inv in Bn as Pn, Bx as Px, BO as PO. assert (OM := bpow_gt_0 radix2 emax).
  destruct (mult_key s d Fs Fd) as [N K]. destruct (is_finite (o_mul s d)) eqn:Fm.
  2:{ unfold miss, coord in H. rewrite (inf_out (o_mul s d) Fm N) in H. discriminate. }
  rewrite (key_fin _ Fm) in K. assert (R1 := abs_B2R_lt_emax prec emax (o_mul s d)). apply Rabs_lt_inv in R1.
  assert (Vm : B2R (o_mul s d) = rnd (B2R s * B2R d)). { apply Rle_antisym; [apply sat_lo; lra|apply sat_hi; lra]. }
  destruct (plus_key prec emax O (o_mul s d) FO Fm) as [N2 K2].
  unfold miss, coord in H. apply orb_false_elim in H as [H1 H2]. rewrite lt_fin_r in H1 by auto. rewrite lt_fin in H2 by auto. fold coord in K2, H1, H2.
  destruct (Rlt_bool_spec (key coord) (B2R mn)) as [|H1']; [discriminate|]. destruct (Rlt_bool_spec (B2R mx) (key coord)) as [|H2']; [discriminate|].
  rewrite K2 in H1', H2'. apply sat_lo in H1'; [|lra]. apply sat_hi in H2'; [|lra].
  destruct (rnd_err_plus O (o_mul s d)) as (d1 & D1 & V1). rewrite V1 in H1', H2'.
  destruct (rnd_err (B2R s * B2R d)) as (d2 & e2 & D2 & E2 & V2). rewrite V2 in Vm.
  set (q := B2R s * B2R d) in *. set (X := B2R (o_mul s d)) in *. clearbody q X. apply Rabs_le_inv in D1, D2, E2. clear K K2 V1 V2 H1 H2 N N2.
  assert (G1 : Rabs (B2R O + X) <= 101 / 100 * M). { apply Rabs_le. split; nra. } apply Rabs_le_inv in G1.
  assert (G2 : Rabs X <= 201 / 100 * M) by (apply Rabs_le; lra). apply Rabs_le_inv in G2.
  assert (G3 : Rabs q <= 21 / 10 * M + 2 * eta). { apply Rabs_le. split; nra. } split; [|exact G3]. apply Rabs_le_inv in G3.
  assert (W1 : - (u * (101 / 100 * M)) <= (B2R O + X) * d1 <= u * (101 / 100 * M)). { apply Rabs_le_inv. rewrite Rabs_mult, Rmult_comm. apply Rmult_le_compat; try apply Rabs_pos; apply Rabs_le; lra. }
  assert (W2 : - (u * (21 / 10 * M + 2 * eta)) <= q * d2 <= u * (21 / 10 * M + 2 * eta)). { apply Rabs_le_inv. rewrite Rabs_mult, Rmult_comm. apply Rmult_le_compat; try apply Rabs_pos; apply Rabs_le; lra. }
  assert (W3 : 0 <= u * M) by (apply Rmult_le_pos; lra). assert (W4 : u * eta <= / 1000000 * eta) by (apply Rmult_le_compat_r; lra). split; lra.
Qed.
(** A coordinate that is well between the faces passes. *)
Lemma passes_if : forall t, is_finite s = true -> Rabs (B2R s - t) <= 21 / 10 * u * t + eta -> 0 <= t -> B2R mn + e <= B2R O + t * B2R d <= B2R mx - e -> miss = false.
Proof.
  intros t Fs Ht T1 H. destruct (u_small prec ltac:(assumption)) as (U0 & U1). assert (T0 := eta_pos prec emax). destruct (eta_small prec emax ltac:(assumption)) as [_ TS]. apply Rabs_le_inv in Bn as Pn, Bx as Px, BO as PO, Bd as Pd. assert (OM := om_big emax ltac:(assumption)).
  assert (M0 : 0 <= M) by lra. assert (UM : 0 <= u * M) by (apply Rmult_le_pos; lra).
  assert (G : Rabs (t * B2R d) <= 2 * M) by (apply Rabs_le; lra).
  assert (G1 : Rabs (B2R s * B2R d - t * B2R d) <= 42 / 10 * (u * M) + 2 * eta).
  { replace (B2R s * B2R d - t * B2R d) with ((B2R s - t) * B2R d) by ring. rewrite Rabs_mult. apply Rle_trans with ((21 / 10 * u * t + eta) * Rabs (B2R d)); [apply Rmult_le_compat_r; [apply Rabs_pos|exact Ht]|].
    rewrite Rabs_mult, (Rabs_pos_eq t) in G by assumption. replace ((21 / 10 * u * t + eta) * Rabs (B2R d)) with (21 / 10 * u * (t * Rabs (B2R d)) + eta * Rabs (B2R d)) by ring.
    assert (21 / 10 * u * (t * Rabs (B2R d)) <= 21 / 10 * u * (2 * M)) by (apply Rmult_le_compat_l; lra). assert (eta * Rabs (B2R d) <= eta * 2) by (apply Rmult_le_compat_l; lra). lra. }
  apply Rabs_le_inv in G, G1. set (q := B2R s * B2R d) in *. assert (G2 : Rabs q <= 21 / 10 * M + 2 * eta) by (apply Rabs_le; split; nra).
  destruct (mult_ok prec emax s d Fs Fd) as (Fm & d2 & e2 & D2 & E2 & V2).
  { fold q. assert (Rabs q * (1 + u) <= (21 / 10 * M + 2 * eta) * (1 + u)) by (apply Rmult_le_compat_r; lra). assert (u * M <= / 1000000 * M) by (apply Rmult_le_compat_r; lra). assert (u * eta <= / 1000000 * eta) by (apply Rmult_le_compat_r; lra). lra. }
  fold q in V2. set (X := B2R (o_mul s d)) in *. apply Rabs_le_inv in G2, D2, E2.
  assert (W2 : - (u * (21 / 10 * M + 2 * eta)) <= q * d2 <= u * (21 / 10 * M + 2 * eta)). { apply Rabs_le_inv. rewrite Rabs_mult, Rmult_comm. apply Rmult_le_compat; try apply Rabs_pos; apply Rabs_le; lra. }
  assert (W4 : u * eta <= / 1000000 * eta) by (apply Rmult_le_compat_r; lra).
  assert (G5 : B2R mn + 34 / 10 * (u * M) + 6 * eta <= B2R O + X <= B2R mx - 34 / 10 * (u * M) - 6 * eta) by (split; lra).
  assert (G6 : Rabs (B2R O + X) <= M) by (apply Rabs_le; lra).
  destruct (plus_ok prec emax O (o_mul s d) FO Fm) as (Fc & d1 & D1 & V1). { fold X. assert (Rabs (B2R O + X) * (1 + u) <= M * (1 + u)) by (apply Rmult_le_compat_r; lra). assert (u * M <= / 1000000 * M) by (apply Rmult_le_compat_r; lra). lra. }
  fold X in V1. fold coord in Fc, V1. apply Rabs_le_inv in D1, G6.
  assert (W1 : - (u * M) <= (B2R O + X) * d1 <= u * M). { apply Rabs_le_inv. rewrite Rabs_mult, Rmult_comm. apply Rmult_le_compat; try apply Rabs_pos; apply Rabs_le; lra. }
  unfold miss. rewrite lt_fin_r, lt_fin, !key_fin by auto using fin_num'. rewrite !Rlt_bool_false by lra. reflexivity.
Qed.
End Check.

(** The choice of the plane *)
Lemma fold_best : forall (K : nat -> R) (p : nat -> bool) (f : nat -> nat -> bool) l b0, (forall i j, In i l -> In j (b0 :: l) -> f i j = p i && Rlt_bool (K j) (K i)) -> p b0 = true ->
  let b := fold_left (fun best i => if f i best then i else best) l b0 in In b (b0 :: l) /\ p b = true /\ forall i, In i (b0 :: l) -> p i = true -> K i <= K b.
Proof.
  intros K p f l. induction l as [|a l IH]; intros b0 H Hb.
  { cbn. split; auto. split; auto. intros i [<-|[]] _. lra. }
  cbn [fold_left]. rewrite (H a b0) by (cbn; auto). destruct (p a && Rlt_bool (K b0) (K a)) eqn:E.
  - apply andb_prop in E as [E1 E2]. destruct (Rlt_bool_spec (K b0) (K a)) as [L|]; [|discriminate].
    destruct (IH a) as (I1 & I2 & I3); auto. { intros i j Hi Hj. apply H; cbn in *; tauto. } split; [cbn in *; tauto|]. split; auto.
    intros i [<-|Hi] Pi; [|now apply I3]. specialize (I3 a (or_introl eq_refl) E1). lra.
  - destruct (IH b0) as (I1 & I2 & I3); auto. { intros i j Hi Hj. apply H; cbn in *; tauto. } split; [cbn in *; tauto|]. split; auto.
    intros i [<-|[<-|Hi]] Pi; [apply I3; cbn; auto| |apply I3; cbn; auto]. rewrite Pi in E. cbn in E. destruct (Rlt_bool_spec (K b0) (K a)); [discriminate|]. specialize (I3 b0 (or_introl eq_refl) Hb). lra.
Qed.
Lemma best_inside : forall n (ins : nat -> bool) (D : nat -> fl), (0 < n)%nat -> (forall i, (i < n)%nat -> is_nan (D i) = false) -> (forall i, (i < n)%nat -> ins i = true) ->
  let b := rb_best n ins D in (b < n)%nat /\ forall i, (i < n)%nat -> key (D b) <= key (D i).
Proof.
  intros n ins D N0 N Hi. unfold rb_best. replace (forallb ins (seq 0 n)) with true by (symmetry; apply forallb_forall; intros i Ii; apply in_seq in Ii; apply Hi; lia).
  assert (IN : forall i, In i (0%nat :: seq 1 (n - 1)) <-> (i < n)%nat). { intros i. cbn [In]. rewrite in_seq. lia. }
  destruct (fold_best (fun i => - key (D i)) (fun _ => true) (fun i j => o_lt (D i) (D j)) (seq 1 (n - 1)) 0%nat) as (H1 & _ & H2); auto.
  { intros i j Ii Ij. apply IN in Ij. assert (Ii' : (i < n)%nat) by (apply IN; now right). rewrite lt_key by auto. cbn [andb]. unfold Rlt_bool. rewrite !Rcompare_opp. reflexivity. }
  split; [now apply IN|]. intros i Ii. specialize (H2 i (proj2 (IN i) Ii) eq_refl). lra.
Qed.
Lemma best_outside : forall n (ins : nat -> bool) (D : nat -> fl), (forall i, (i < n)%nat -> is_nan (D i) = false) -> (exists i, (i < n)%nat /\ ins i = false) ->
  let b := rb_best n ins D in (b < n)%nat /\ ins b = false /\ forall i, (i < n)%nat -> ins i = false -> key (D i) <= key (D b).
Proof.
  intros n ins D N (k & Lk & Hk). unfold rb_best. replace (forallb ins (seq 0 n)) with false.
  2:{ symmetry. apply not_true_is_false. intros E. rewrite forallb_forall in E. rewrite E in Hk; [discriminate|]. apply in_seq. lia. }
  destruct (find (fun i => negb (ins i)) (seq 0 n)) as [f|] eqn:E.
  2:{ exfalso. assert (G := find_none _ _ E k). rewrite in_seq in G. rewrite Hk in G. specialize (G ltac:(lia)). discriminate. }
  assert (Hf := find_some _ _ E). destruct Hf as [Lf Pf]. apply in_seq in Lf.
  assert (MIN : forall i, (i < f)%nat -> ins i = true).
  { clear - E Lf. intros i Hi. revert E. assert (In i (seq 0 n)) by (apply in_seq; lia). revert H. assert (G : forall m k, find (fun i => negb (ins i)) (seq k m) = Some f -> (k <= i)%nat -> In i (seq k m) -> ins i = true).
    { clear - Hi. induction m as [|m IH]; intros k E Lk H; [destruct H|]. cbn in E. destruct (ins k) eqn:I; cbn in E.
      - destruct (Nat.eq_dec k i) as [<-|]; auto. apply (IH (S k)); auto; [lia|]. apply in_seq in H. apply in_seq. lia.
      - injection E as ->. lia. }
    intros H E. apply (G n 0%nat); auto; lia. }
  assert (IN : forall i, In i (f :: seq (f + 1) (n - (f + 1))) <-> (f <= i < n)%nat). { intros i. cbn [In]. rewrite in_seq. lia. }
  destruct (fold_best (fun i => key (D i)) (fun i => negb (ins i)) (fun i j => negb (ins i) && o_lt (D j) (D i)) (seq (f + 1) (n - (f + 1))) f) as (H1 & H2 & H3); auto.
  { intros i j Ii Ij. apply IN in Ij. assert (Ii' : (f <= i < n)%nat) by (apply IN; now right). rewrite lt_key by (apply N; lia). reflexivity. }
  apply IN in H1. cbv zeta. split; [lia|]. split; [now apply negb_true_iff|]. intros i Li Ii. apply H3; [|now rewrite Ii]. apply IN. split; [|lia]. destruct (Nat.le_gt_cases f i); auto. rewrite MIN in Ii by assumption. discriminate.
Qed.
End FP.
