(** The quartic solver in exact arithmetic. *)
From Coq Require Import ZArith Reals List Bool Lra Lia Psatz Permutation.
From Flocq Require Import Core.
From Verif Require Import Ops M_scalar Inst_XR P_xr S_scalar P_solve.
Import ListNotations.
Local Open Scope R_scope.

Lemma Rdiv_1 : forall x, x / 1 = x.
Proof. intros. field. Qed.
Lemma gap_le : forall eps x, gap eps x -> Rabs x <= eps -> x = 0.
Proof. intros eps x [H|H] L; [ exact H | lra ]. Qed.
Lemma gap_0 : forall x, gap 0 x.
Proof. intros x. destruct (Req_dec x 0); [ now left | right; now apply Rabs_pos_lt ]. Qed.
Lemma cubic_gap_0 : forall b c d, cubic_gap 0 b c d.
Proof.
  intros b c d. unfold cubic_gap. cbv zeta. match goal with |- (?D = 0 /\ _) \/ _ => destruct (gap_0 D) as [H|H] end.
  - left. split; [ exact H | apply gap_0 ].
  - now right.
Qed.
Lemma quartic_gap_0 : forall p q r, quartic_gap 0 p q r.
Proof.
  intros p q r. split; [ apply gap_0 | ]. split; [ intros _; apply cubic_gap_0 | ]. intros _. split; [ apply cubic_gap_0 | ].
  intros z _. repeat split; apply gap_0.
Qed.

Section Tolerance.
Variable eps : R.
Hypothesis EP : 0 <= eps.
Lemma quad0 : forall b c, gap eps (b * b / 4 - c) -> exists n x1 x2,
  solve_quadratic (Some 1) (Some b) (Some c) (Some eps) = (n, (x1, x2))
  /\ solves (quadratic 1 b c) n [x1; x2]
  /\ n = (if Rlt_bool (b * b / 4 - c) 0 then 0 else if Req_bool (b * b / 4 - c) 0 then 1 else 2)%nat.
Proof.
  intros b c G.
  assert (E0 : b / (2 * 1) * (b / (2 * 1)) - c / 1 = b * b / 4 - c) by field.
  destruct (X_quadratic_spec 1 b c eps) as (n & x1 & x2 & E & S); try lra.
  { rewrite E0. exact G. }
  exists n, x1, x2. split; [ exact E | ]. split; [ exact S | ].
  rewrite X_quadratic_eq in E by lra. rewrite E0 in E.
  set (D := b * b / 4 - c) in *.
  destruct (Req_bool_spec D 0) as [Z|N].
  - rewrite Z in *. rewrite Rabs_R0, Rle_bool_true in E by lra. rewrite Rlt_bool_false by lra. congruence.
  - destruct G as [G|G]; [ contradiction | ]. rewrite Rle_bool_false in E by exact G.
    destruct (Rlt_bool D 0); congruence.
Qed.

Lemma cubic0 : forall b c d, cubic_gap eps b c d -> exists n x1 x2 x3,
  solve_cubic (Some 1) (Some b) (Some c) (Some d) (Some eps) = (n, (x1, x2, x3))
  /\ solves (cubic 1 b c d) n [x1; x2; x3] /\ (0 < n)%nat.
Proof.
  intros b c d G. unfold cubic_gap, gap in G. cbv zeta in G.
  destruct (X_cubic_spec 1 b c d eps) as (n & x1 & x2 & x3 & E & S); try lra.
  { rewrite !Rdiv_1. exact G. }
  exists n, x1, x2, x3. split; [ exact E | ]. split; [ exact S | ].
  rewrite X_cubic_eq in E by lra. cbv zeta in E.
  destruct (Rle_bool _ _); [ destruct (Rle_bool _ _) | destruct (Rlt_bool _ _) ]; injection E; intros; lia.
Qed.
End Tolerance.

(** A double zero of a cubic makes its discriminant vanish. *)
Lemma dep_multiple : forall p q t, t * t * t + 3 * p * t + 2 * q = 0 -> 3 * t * t + 3 * p = 0 ->
  q * q + p * p * p = 0.
Proof.
  intros p q t H1 H2. assert (Hp : p = - (t * t)) by lra. subst p.
  assert (Hq : q = t * t * t) by lra. subst q. ring.
Qed.

Section Depressed.
Variables p q r : R.
Definition dq (y : R) : R := y * y * y * y + p * y * y + q * y + r.
Definition dq' (y : R) : R := 4 * y * y * y + 2 * p * y + q.
Definition res (z : R) : R := z * z * z - 1 / 2 * p * z * z - r * z + (1 / 2 * r * p - 1 / 8 * q * q).

Lemma res_uv : forall z, (z * z - r) * (2 * z - p) = 2 * res z + q * q / 4.
Proof. intros. unfold res. field. Qed.
Lemma dq_form : forall z y, dq y = (y * y + z) * (y * y + z) - ((2 * z - p) * y * y - q * y + (z * z - r)).
Proof. intros. unfold dq. ring. Qed.

Lemma no_root_v_neg : forall z, res z = 0 -> 2 * z - p < 0 -> 3 * z * z - p * z - r <> 0 ->
  forall y, dq y <> 0.
Proof.
  intros z Hz Hv Hd y Hy. apply Hd.
  assert (U := res_uv z). rewrite Hz in U.
  set (v := 2 * z - p) in *.
  rewrite (dq_form z) in Hy. fold v in Hy.
  assert (E : v * ((y * y + z) * (y * y + z)) = (v * y - q / 2) * (v * y - q / 2)).
  { replace ((v * y - q / 2) * (v * y - q / 2)) with (v * (v * y * y - q * y) + q * q / 4) by field.
    replace (q * q / 4) with (v * (z * z - r)) by lra.
    rewrite <- Rmult_plus_distr_l. f_equal. lra. }
  assert (0 <= (v * y - q / 2) * (v * y - q / 2)) by apply Rle_0_sqr.
  assert (0 <= (y * y + z) * (y * y + z)) by apply Rle_0_sqr.
  assert (K1 : (y * y + z) * (y * y + z) = 0) by nra.
  assert (K2 : (v * y - q / 2) * (v * y - q / 2) = 0) by nra.
  assert (Z1 : z = - (y * y)) by (apply Rmult_integral in K1; destruct K1; lra).
  assert (Z2 : q = 2 * v * y) by (apply Rmult_integral in K2; destruct K2; lra).
  (* u v = q^2/4 = v^2 y^2, so u = v y^2 = - v z *)
  assert (Z3 : z * z - r = v * (y * y)).
  { apply Rmult_eq_reg_r with v; [ | lra ]. rewrite U, Z2. field. }
  replace (y * y) with (- z) in Z3 by lra. unfold v in Z3. lra.
Qed.

Lemma no_root_u_neg : forall z, res z = 0 -> z * z - r < 0 -> 2 * z - p = 0 -> forall y, dq y <> 0.
Proof.
  intros z Hz Hu Hv y Hy.
  assert (U := res_uv z). rewrite Hz, Hv in U. assert (Q : q * q = 0) by lra.
  assert (Q' : q = 0) by (apply Rmult_integral in Q; tauto).
  rewrite (dq_form z), Hv, Q' in Hy.
  assert (0 <= (y * y + z) * (y * y + z)) by apply Rle_0_sqr. lra.
Qed.

Definition qs : R := if Rlt_bool q 0 then -1 else 1.
Lemma dq_factor : forall z, res z = 0 -> 0 <= z * z - r -> 0 <= 2 * z - p ->
  forall y, dq y = (y * y + qs * sqrt (2 * z - p) * y + (z - sqrt (z * z - r)))
                 * (y * y - qs * sqrt (2 * z - p) * y + (z + sqrt (z * z - r))).
Proof.
  intros z Hz Hu Hv y. assert (U := res_uv z). rewrite Hz in U.
  rewrite (dq_form z).
  set (w := sqrt (2 * z - p)). set (s := sqrt (z * z - r)).
  assert (W : w * w = 2 * z - p) by (now apply sqrt_sqrt).
  assert (S : s * s = z * z - r) by (now apply sqrt_sqrt).
  assert (W0 : 0 <= w) by apply sqrt_pos. assert (S0 : 0 <= s) by apply sqrt_pos.
  assert (Q : q = 2 * qs * w * s).
  { assert (E : q * q = (2 * w * s) * (2 * w * s)).
    { replace ((2 * w * s) * (2 * w * s)) with (4 * ((s * s) * (w * w))) by ring. rewrite W, S. lra. }
    assert (0 <= 2 * w * s) by nra.
    unfold qs. destruct (Rlt_bool_spec q 0); nra. }
  rewrite <- W, <- S, Q.
  assert (K : qs * qs = 1) by (unfold qs; destruct (Rlt_bool q 0); ring).
  replace (y * y + qs * w * y + (z - s)) with ((y * y + z) + (qs * w * y - s)) by ring.
  replace (y * y - qs * w * y + (z + s)) with ((y * y + z) - (qs * w * y - s)) by ring.
  replace (((y * y + z) + (qs * w * y - s)) * ((y * y + z) - (qs * w * y - s)))
    with ((y * y + z) * (y * y + z) - ((qs * qs) * (w * w) * y * y - 2 * qs * w * s * y + s * s)) by ring.
  rewrite K. ring.
Qed.

(** The root of the resolvent found first is good enough. *)
Lemma resolvent_root : forall eps, 0 <= eps -> cubic_gap eps (- (1 / 2) * p) (- r) (1 / 2 * r * p - 1 / 8 * q * q) -> exists n z x2 x3,
  solve_cubic (Some 1) (Some (- (1 / 2) * p)) (Some (- r)) (Some (1 / 2 * r * p - 1 / 8 * q * q)) (Some eps)
    = (n, (Some z, x2, x3))
  /\ (0 < n)%nat /\ res z = 0 /\ (2 * z - p < 0 -> 3 * z * z - p * z - r <> 0).
Proof.
  intros eps EP G.
  destruct (cubic0 eps EP (- (1 / 2) * p) (- r) (1 / 2 * r * p - 1 / 8 * q * q)) as (n & x1 & x2 & x3 & E & S & Hn); [ exact G | ].
  destruct S as (rs & E1 & L & _ & S).
  destruct rs as [|z rs]; [ simpl in L; lia | ].
  simpl in E1. injection E1 as -> E1.
  assert (Hres : forall x, cubic 1 (- (1 / 2) * p) (- r) (1 / 2 * r * p - 1 / 8 * q * q) x = res x).
  { intros x. unfold cubic, res. field. }
  assert (Hz : res z = 0). { rewrite <- Hres. apply S. now left. }
  exists n, z, x2, x3. split; [ exact E | ]. split; [ exact Hn | ]. split; [ exact Hz | ].
  intros Hv Hd.
  rewrite X_cubic_eq in E by lra. cbv zeta in E.
  set (A := - (1 / 2) * p / 1) in E. set (B := - r / 1) in E.
  set (C := (1 / 2 * r * p - 1 / 8 * q * q) / 1) in E.
  set (P := 1 / 3 * (- (1 / 3) * A * A + B)) in E.
  set (Q := 1 / 2 * (2 / 27 * A * A * A - 1 / 3 * A * B + C)) in E.
  assert (DP : P = 1 / 3 * (- (1 / 12) * p * p - r)) by (unfold P, A, B; field).
  assert (Hf : forall x, res x = (x - p / 6) * (x - p / 6) * (x - p / 6) + 3 * P * (x - p / 6) + 2 * Q).
  { intros x. unfold res, P, Q, A, B, C. field. }
  assert (HD : Q * Q + P * P * P = 0).
  { apply (dep_multiple P Q (z - p / 6)).
    - now rewrite <- Hf.
    - rewrite DP. lra. }
  rewrite HD, Rabs_R0, Rle_bool_true in E by lra.
  destruct (Rle_bool_spec (Rabs Q) eps) as [LQ|GQ].
  - assert (Q0 : Q = 0).
    { unfold cubic_gap in G. cbv zeta in G. unfold P, Q, A, B, C in HD, LQ |- *. rewrite !Rdiv_1 in *.
      destruct G as [[_ G]|G]; [ now apply (gap_le eps) | ]. rewrite HD, Rabs_R0 in G. lra. }
    assert (P0 : P = 0). { rewrite Q0 in HD. apply cube_inj. lra. }
    assert (Z6 : z = p / 6).
    { rewrite Hf, Q0, P0 in Hz. assert ((z - p / 6) * (z - p / 6) * (z - p / 6) = 0 * 0 * 0) by lra.
      apply cube_inj in H. lra. }
    assert (V := res_uv (p / 2)). replace (2 * (p / 2) - p) with 0 in V by field.
    assert (0 <= q * q) by apply Rle_0_sqr.
    assert (res (p / 2) <= 0) by lra.
    rewrite Hf, Q0, P0 in H0. 
    assert (0 < (p / 2 - p / 6)) by lra.
    assert (0 < (p / 2 - p / 6) * (p / 2 - p / 6)) by nra. nra.
  - injection E as _ E _ _.
    set (u := Rcbrt (- Q)) in *. assert (Hu : u * u * u = - Q) by apply Rcbrt_cube.
    assert (HP := dep_double P Q HD u Hu).
    assert (Zt : z - p / 6 = 2 * u) by (rewrite <- E; unfold A; field).
    assert (K : 3 * (z - p / 6) * (z - p / 6) + 3 * P = 0) by (rewrite DP; lra).
    rewrite Zt, HP in K. assert (u * u = 0) by lra. assert (u = 0) by (apply Rmult_integral in H; tauto).
    rewrite H0 in Hu. assert (Q = 0) by lra. rewrite H1, Rabs_R0 in GQ. lra.
Qed.
End Depressed.

Lemma upd_first_solved : forall (rs : list R) k s,
  upd_first (length rs) (fun x => o_sub x (Some s)) (map Some rs ++ repeat None k)
  = map Some (map (fun x => x - s) rs) ++ repeat None k.
Proof. induction rs; intros; simpl; [ reflexivity | ]. f_equal. apply IHrs. Qed.

Section Quartic.
Variables a b c d e : R.
Hypothesis Ha : a <> 0.
Let A := b / a.
Let B := c / a.
Let C := d / a.
Let D := e / a.
Let p := - (3 / 8) * A * A + B.
Let q := 1 / 8 * A * A * A - 1 / 2 * A * B + C.
Let r := - (3 / 256) * A * A * A * A + 1 / 16 * A * A * B - 1 / 4 * A * C + D.

Lemma quartic_shift : forall x, quartic a b c d e x = a * dq p q r (x + 1 / 4 * A).
Proof. intros. unfold quartic, dq, p, q, r, A, B, C, D. field. auto. Qed.
Lemma quartic_shift' : forall x, quartic' a b c d x = a * dq' p q (x + 1 / 4 * A).
Proof. intros. unfold quartic', dq', p, q, A, B, C. field. auto. Qed.

Lemma quartic_root : forall x, quartic a b c d e x = 0 <-> dq p q r (x + 1 / 4 * A) = 0.
Proof.
  intros x. rewrite quartic_shift. split; intros E.
  - apply Rmult_integral in E. tauto.
  - rewrite E. ring.
Qed.

(** What the solver does up to the final shift. *)
Lemma X_quartic_depressed : forall eps, 0 <= eps -> quartic_gap eps p q r -> exists n slots rs,
  solve_quartic (Some a) (Some b) (Some c) (Some d) (Some e) (Some eps)
    = Ret (n, upd_first n (fun s => o_sub s (Some (1 / 4 * A))) slots)
  /\ slots = map Some rs ++ repeat None (4 - n) /\ length rs = n /\ (n <= 4)%nat
  /\ (forall y, dq p q r y = 0 <-> In y rs)
  /\ ((forall y, dq p q r y = 0 -> dq' p q y <> 0) -> NoDup rs).
Proof.
  intros eps EP (G0 & G1 & G2).
  unfold solve_quartic.
  change (cst 2) with (Some 2). change (cst 0) with (Some 0). change (cst 1) with (Some 1).
  rewrite !X_div by lra. rewrite !X_lit by lia. fold A B C D.
  change (o_add (o_mul (o_mul (o_neg (Some (3 / 8))) (Some A)) (Some A)) (Some B)) with (Some p).
  change (o_add (o_sub (o_mul (o_mul (o_mul (Some (1 / 8)) (Some A)) (Some A)) (Some A))
            (o_mul (o_mul (Some (1 / 2)) (Some A)) (Some B))) (Some C)) with (Some q).
  change (o_add (o_sub (o_add (o_mul (o_mul (o_mul (o_mul (o_neg (Some (3 / 256))) (Some A)) (Some A)) (Some A)) (Some A))
            (o_mul (o_mul (o_mul (Some (1 / 16)) (Some A)) (Some A)) (Some B)))
            (o_mul (o_mul (Some (1 / 4)) (Some A)) (Some C))) (Some D)) with (Some r).
  cbv zeta.
  clearbody p q r. 
  change (o_mul (Some (1 / 4)) (Some A)) with (Some (1 / 4 * A)). clearbody A. clear B C D.
  rewrite X_is_zero by lra.
  destruct (Rle_bool_spec (Rabs r) eps) as [L|G].
  - assert (r = 0) by (now apply (gap_le eps)).
    destruct (cubic0 eps EP 0 p q (G1 H)) as (n & x1 & x2 & x3 & E & S & Hn). rewrite E.
    destruct S as (rs & E1 & LR & ND & S). cbn [length] in E1.
    assert (N3 : (n <= 3)%nat).
    { assert (length [x1; x2; x3] = length (map Some rs ++ repeat None (3 - n))) by now rewrite E1.
      rewrite app_length, map_length, repeat_length in H0. simpl in H0. lia. }
    exists (Datatypes.S n), (map Some (rs ++ [0]) ++ repeat None (4 - Datatypes.S n)), (rs ++ [0]).
    repeat split; auto.
    + do 3 f_equal. rewrite Nat.sub_succ, Nat.sub_0_r.
      change [x1; x2; x3; o_nan] with ([x1; x2; x3] ++ [o_nan]). rewrite E1.
      clear - LR N3. destruct rs as [|y1 [|y2 [|y3 [|]]]]; simpl in LR; subst n; simpl; auto. simpl in N3; lia.
    + rewrite app_length, LR. simpl. lia.
    + lia.
    + intros Hy. apply in_or_app.
      assert (K : y * (y * y * y + p * y + q) = 0) by (unfold dq in Hy; lra).
      apply Rmult_integral in K. destruct K as [K|K]; [ right; now left | left ].
      apply S. unfold cubic. lra.
    + intros Hy. apply in_app_or in Hy. destruct Hy as [Hy|[<-|[]]].
      * apply S in Hy. unfold cubic in Hy. unfold dq. rewrite H.
        replace (y * y * y * y + p * y * y + q * y + 0)
          with (y * (1 * y * y * y + 0 * y * y + p * y + q)) by ring. rewrite Hy. ring.
      * unfold dq. lra.
    + intros HM. apply (Permutation_NoDup (l := 0 :: rs)); [ apply Permutation_cons_append | ].
      constructor; auto. intros I0. apply S in I0. unfold cubic in I0.
      apply (HM 0); [ unfold dq; lra | unfold dq'; lra ].
  - assert (r <> 0). { intros E. rewrite E, Rabs_R0 in G. lra. }
    change (o_mul (o_neg (Some (1 / 2))) (Some p)) with (Some (- (1 / 2) * p)).
    change (o_neg (Some r)) with (Some (- r)).
    change (o_sub (o_mul (o_mul (Some (1 / 2)) (Some r)) (Some p)) (o_mul (o_mul (Some (1 / 8)) (Some q)) (Some q)))
      with (Some (1 / 2 * r * p - 1 / 8 * q * q)).
    destruct (G2 H) as [G3 G4]. destruct (resolvent_root p q r eps EP G3) as (n & z & x2 & x3 & E & Hn & Hz & Hd). rewrite E.
    destruct (G4 z) as (GU & GV & GD). { rewrite <- Hz. unfold cubic, res. field. } clear G0 G1 G2 G3 G4.
    replace (0 <? n)%nat with true by (symmetry; now apply Nat.ltb_lt).
    cbn [require].
    change (o_sub (o_mul (Some z) (Some z)) (Some r)) with (Some (z * z - r)).
    change (o_sub (o_mul (Some 2) (Some z)) (Some p)) with (Some (2 * z - p)).
    rewrite !X_is_zero by lra.
    change (o_lt (Some 0) (Some (z * z - r))) with (Rlt_bool 0 (z * z - r)).
    change (o_lt (Some 0) (Some (2 * z - p))) with (Rlt_bool 0 (2 * z - p)).
    assert (UV := res_uv p q r z). rewrite Hz in UV.
    assert (Qs : 0 <= q * q) by apply Rle_0_sqr.
    assert (None_ok : (forall y, dq p q r y <> 0) -> exists n slots rs,
       @Ret (nat * list (option R)) (0%nat, [o_nan; o_nan; o_nan; o_nan])
       = Ret (n, upd_first n (fun s => o_sub s (Some (1 / 4 * A))) slots)
       /\ slots = map Some rs ++ repeat None (4 - n) /\ length rs = n /\ (n <= 4)%nat
       /\ (forall y, dq p q r y = 0 <-> In y rs)
       /\ ((forall y, dq p q r y = 0 -> dq' p q y <> 0) -> NoDup rs)).
    { intros HN. exists 0%nat, [None; None; None; None], [].
      split; [ reflexivity | ]. split; [ reflexivity | ]. split; [ reflexivity | ]. split; [ lia | ].
      split; [ | intros; constructor ].
      intros y. split; [ intros K; now apply HN in K | intros [] ]. }
    assert (Hu : 0 <= z * z - r \/ z * z - r < 0) by lra.
    destruct Hu as [Hu|Hu].
    2: { destruct GU as [GU|GU]; [ lra | ]. rewrite Rle_bool_false by exact GU. rewrite Rlt_bool_false by lra.
         apply None_ok. destruct (Req_dec (2 * z - p) 0) as [V|V].
         - now apply (no_root_u_neg p q r z).
         - apply (no_root_v_neg p q r z); auto.
           + assert (2 * z - p <= 0); [ | lra ]. destruct (Rle_or_lt (2 * z - p) 0); auto. nra.
           + apply Hd. assert (2 * z - p <= 0); [ | lra ]. destruct (Rle_or_lt (2 * z - p) 0); auto. nra. }
    replace (if Rle_bool (Rabs (z * z - r)) eps then Some (Some 0)
             else if Rlt_bool 0 (z * z - r) then Some (o_sqrt (Some (z * z - r))) else None)
      with (Some (Some (sqrt (z * z - r)))).
    2: { destruct (Req_dec (z * z - r) 0) as [Z|N].
         - rewrite Z, Rabs_R0, Rle_bool_true, sqrt_0 by lra. reflexivity.
         - destruct GU as [GU|GU]; [ lra | ]. rewrite Rle_bool_false by exact GU. rewrite Rlt_bool_true by lra.
           now rewrite X_sqrt. }
    assert (Hv : 0 <= 2 * z - p \/ 2 * z - p < 0) by lra.
    destruct Hv as [Hv|Hv].
    2: { destruct GV as [GV|GV]; [ lra | ]. rewrite Rle_bool_false by exact GV. rewrite Rlt_bool_false by lra.
         apply None_ok. apply (no_root_v_neg p q r z); auto. }
    replace (if Rle_bool (Rabs (2 * z - p)) eps then Some (Some 0)
             else if Rlt_bool 0 (2 * z - p) then Some (o_sqrt (Some (2 * z - p))) else None)
      with (Some (Some (sqrt (2 * z - p)))).
    2: { destruct (Req_dec (2 * z - p) 0) as [Z|N].
         - rewrite Z, Rabs_R0, Rle_bool_true, sqrt_0 by lra. reflexivity.
         - destruct GV as [GV|GV]; [ lra | ]. rewrite Rle_bool_false by exact GV. rewrite Rlt_bool_true by lra.
           now rewrite X_sqrt. }
    assert (F := dq_factor p q r z Hz Hu Hv).
    set (w := sqrt (2 * z - p)) in *. set (s := sqrt (z * z - r)) in *.
    change (o_lt (Some q) (Some 0)) with (Rlt_bool q 0).
    replace (if Rlt_bool q 0 then o_neg (Some w) else Some w) with (Some (qs q * w)).
    2: { unfold qs. destruct (Rlt_bool q 0); simpl; f_equal; ring. }
    replace (if Rlt_bool q 0 then Some w else o_neg (Some w)) with (Some (- (qs q * w))).
    2: { unfold qs. destruct (Rlt_bool q 0); simpl; f_equal; ring. }
    change (o_sub (Some z) (Some s)) with (Some (z - s)).
    change (o_add (Some z) (Some s)) with (Some (z + s)).
    set (t := qs q * w) in *. specialize (GD Hu Hv). destruct GD as [GD1 GD2].
    assert (TT : t * t = 2 * z - p).
    { unfold t. replace (qs q * w * (qs q * w)) with ((qs q * qs q) * (w * w)) by ring.
      replace (qs q * qs q) with 1 by (unfold qs; destruct (Rlt_bool q 0); ring). unfold w. rewrite sqrt_sqrt by exact Hv. ring. }
    destruct (quad0 eps EP t (z - s)) as (n1 & a1 & a2 & E1 & S1 & N1). { now rewrite TT. }
    destruct (quad0 eps EP (- t) (z + s)) as (n2 & b1 & b2 & E2 & S2 & N2). { now replace (- t * - t) with (t * t) by ring; rewrite TT. }
    rewrite E1, E2.
    assert (S0 : 0 <= s) by apply sqrt_pos.
    assert (N12 : (n2 <= n1 <= 2)%nat).
    { subst n1 n2. replace (- t * - t) with (t * t) by ring.
      destruct (Rlt_bool_spec (t * t / 4 - (z - s)) 0), (Rlt_bool_spec (t * t / 4 - (z + s)) 0);
      destruct (Req_bool_spec (t * t / 4 - (z - s)) 0), (Req_bool_spec (t * t / 4 - (z + s)) 0); try lia; lra. }
    clear N1 N2.
    destruct S1 as (r1 & I1 & L1 & D1 & S1). destruct S2 as (r2 & I2 & L2 & D2 & S2).
    assert (FF : forall y, dq p q r y = quadratic 1 t (z - s) y * quadratic 1 (- t) (z + s) y).
    { intros y. rewrite F. unfold quadratic. ring. }
    exists (n1 + n2)%nat, (map Some (r1 ++ r2) ++ repeat None (4 - (n1 + n2))), (r1 ++ r2).
    repeat split; auto.
    + do 3 f_equal. cbn [length] in I1, I2. clear - I1 I2 L1 L2 N12.
      destruct r1 as [|u1 [|u2 [|]]]; simpl in L1; subst n1; simpl in N12; try lia;
      (destruct r2 as [|v1 [|v2 [|]]]; simpl in L2; subst n2; simpl in N12; try lia);
      simpl in I1, I2; injection I1 as -> ->; injection I2 as -> ->; reflexivity.
    + rewrite app_length. lia.
    + lia.
    + rewrite FF. intros K. apply in_or_app. apply Rmult_integral in K.
      destruct K as [K|K]; [ left; now apply S1 | right; now apply S2 ].
    + rewrite FF. intros K. apply in_app_or in K. destruct K as [K|K].
      * apply S1 in K. rewrite K. ring.
      * apply S2 in K. rewrite K. ring.
    + intros HM.
      assert (Dis : forall x, In x r1 -> In x r2 -> False).
      { intros x K1 K2. apply S1 in K1. apply S2 in K2.
        apply (HM x); [ rewrite FF, K1; ring | ].
        assert (K : dq' p q x = (2 * x + t) * quadratic 1 (- t) (z + s) x + quadratic 1 t (z - s) x * (2 * x - t)).
        { (* compare coefficients through the factorisation *)
          assert (G0 : forall y, dq p q r y = quadratic 1 t (z - s) y * quadratic 1 (- t) (z + s) y) by auto.
          assert (C1 := G0 1). assert (C2 := G0 (-1)). assert (C0 := G0 0). assert (C3 := G0 2).
          unfold dq, quadratic in C0, C1, C2, C3.
          assert (Ep : p = - t * t + 2 * z) by lra.
          assert (Eq : q = 2 * t * s) by lra.
          unfold dq', quadratic. rewrite Ep, Eq. ring. }
        rewrite K, K1, K2. ring. }
      clear - D1 D2 Dis. induction r1 as [|x r1 IH]; auto.
      inversion_clear D1. simpl. constructor.
      * intros K. apply in_app_or in K. destruct K; auto. apply (Dis x); auto. now left.
      * apply IH; auto. intros y K1 K2. apply (Dis y); auto. now right.
Qed.

Lemma X_quartic_reports_eps : forall eps, 0 <= eps -> quartic_gap eps p q r -> exists n slots,
  solve_quartic (Some a) (Some b) (Some c) (Some d) (Some e) (Some eps) = Ret (n, slots)
  /\ length slots = 4%nat /\ reports (quartic a b c d e) n slots
  /\ ((forall y, quartic a b c d e y = 0 -> quartic' a b c d y <> 0) ->
      solves (quartic a b c d e) n slots).
Proof.
  intros eps EP G. destruct (X_quartic_depressed eps EP G) as (n & slots & rs & E & Es & L & N4 & S & ND).
  exists n, (upd_first n (fun s => o_sub s (Some (1 / 4 * A))) slots).
  split; [ exact E | ]. rewrite Es, <- L, upd_first_solved.
  assert (LL : length (map Some (map (fun x => x - 1 / 4 * A) rs) ++ repeat None (4 - length rs)) = 4%nat).
  { rewrite app_length, !map_length, repeat_length. lia. }
  split; [ exact LL | ].
  assert (RR : forall y, quartic a b c d e y = 0 <-> In y (map (fun x => x - 1 / 4 * A) rs)).
  { intros y. rewrite quartic_root, S, in_map_iff. split.
    - intros K. exists (y + 1 / 4 * A). split; [ ring | auto ].
    - intros (x & <- & K). replace (x - 1 / 4 * A + 1 / 4 * A) with x by ring. auto. }
  split.
  - exists (map (fun x => x - 1 / 4 * A) rs). rewrite LL, map_length. auto.
  - intros HM. exists (map (fun x => x - 1 / 4 * A) rs). rewrite LL, map_length.
    repeat split; auto; try apply RR.
    apply FinFun.Injective_map_NoDup.
    + intros x y K. lra.
    + apply ND. intros y Hy K. apply (HM (y - 1 / 4 * A)).
      * apply quartic_root. replace (y - 1 / 4 * A + 1 / 4 * A) with y by ring. auto.
      * rewrite quartic_shift'. replace (y - 1 / 4 * A + 1 / 4 * A) with y by ring. rewrite K. ring.
Qed.
Lemma X_quartic_reports : exists n slots,
  solve_quartic (Some a) (Some b) (Some c) (Some d) (Some e) (Some 0) = Ret (n, slots)
  /\ length slots = 4%nat /\ reports (quartic a b c d e) n slots
  /\ ((forall y, quartic a b c d e y = 0 -> quartic' a b c d y <> 0) ->
      solves (quartic a b c d e) n slots).
Proof. apply X_quartic_reports_eps; [ lra | apply quartic_gap_0 ]. Qed.
Lemma X_quartic_dep : depressed a b c d e p q r.
Proof. intros x. rewrite quartic_shift. unfold dq, quartic, A. replace (1 / 4 * (b / a)) with (b / (4 * a)) by (field; exact Ha). ring. Qed.
End Quartic.

Lemma depressed_unique : forall a b c d e p q r, a <> 0 -> depressed a b c d e p q r ->
  p = - (3 / 8) * (b / a) * (b / a) + c / a
  /\ q = 1 / 8 * (b / a) * (b / a) * (b / a) - 1 / 2 * (b / a) * (c / a) + d / a
  /\ r = - (3 / 256) * (b / a) * (b / a) * (b / a) * (b / a) + 1 / 16 * (b / a) * (b / a) * (c / a) - 1 / 4 * (b / a) * (d / a) + e / a.
Proof.
  intros a b c d e p q r A H.
  assert (G := X_quartic_dep a b c d e A).
  set (p' := - (3 / 8) * (b / a) * (b / a) + c / a) in *.
  set (q' := 1 / 8 * (b / a) * (b / a) * (b / a) - 1 / 2 * (b / a) * (c / a) + d / a) in *.
  set (r' := - (3 / 256) * _ * _ * _ * _ + _ - _ + _) in *. clearbody p' q' r'.
  assert (K : forall y, quartic 1 0 p q r y = quartic 1 0 p' q' r' y).
  { intros y. specialize (H (y - b / (4 * a))). specialize (G (y - b / (4 * a))). rewrite H in G. apply Rmult_eq_reg_l in G; [ | exact A ].
    replace (y - b / (4 * a) + b / (4 * a)) with y in G by ring. exact G. }
  assert (K0 := K 0). assert (K1 := K 1). assert (K2 := K (-1)). unfold quartic in *. repeat split; lra.
Qed.
Lemma X_quartic_tolerance : forall a b c d e eps p q r, a <> 0 -> 0 <= eps -> depressed a b c d e p q r -> quartic_gap eps p q r ->
  exists n slots, solve_quartic (Some a) (Some b) (Some c) (Some d) (Some e) (Some eps) = Ret (n, slots)
  /\ length slots = 4%nat /\ reports (quartic a b c d e) n slots
  /\ ((forall y, quartic a b c d e y = 0 -> quartic' a b c d y <> 0) ->
      solves (quartic a b c d e) n slots).
Proof.
  intros a b c d e eps p q r A E H G. destruct (depressed_unique _ _ _ _ _ _ _ _ A H) as (-> & -> & ->). now apply X_quartic_reports_eps.
Qed.
