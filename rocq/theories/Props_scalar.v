(** Final theorems: scalar functions (C03, C06 to C16). *)
From Coq Require Import ZArith Reals List Bool Lia Lra.
From Flocq Require Import Core BinarySingleNaN.
From Verif Require Import Ops M_scalar M_vec Inst_F Inst_XR S_scalar.
From Verif Require Import P_xr P_ieee P_round P_scalar_xr P_solve P_quartic P_misc P_correct P_witness_scalar.
Import ListNotations.
Local Open Scope R_scope.

(** Upper end of the range of [int64_t]. *)
Notation i64 := (IZR (2 ^ 63)).

Section IEEE.
Variables prec emax : Z.
Context {Hprec : Prec_gt_0 prec} {Hmax : Prec_lt_emax prec emax}.
Notation fl := (binary_float prec emax).

(** C03 *)
Theorem C03_is_equal_symmetric : forall a b eps : fl, sc_is_equal a b eps = sc_is_equal b a eps.
Proof. exact (F_is_equal_sym prec emax). Qed.
Theorem C03_is_equal_reflexive : forall a eps : fl, is_finite a = true -> Bleb (cst 0) eps = true ->
  sc_is_equal a a eps = true.
Proof. exact (F_is_equal_refl prec emax). Qed.

(** C06 *)
Theorem C06_trunc_floor_ceil_exact : forall x : fl, is_finite x = true ->
  - i64 - 1 < B2R x < i64 ->
  exists t f c : fl,
    (sc_trunc x = Ret t /\ is_finite t = true /\ B2R t = IZR (Ztrunc (B2R x)))
    /\ (sc_floor x = Ret f /\ is_finite f = true
        /\ exists z, B2R f = IZR z /\ IZR z <= B2R x < IZR z + 1)
    /\ (sc_ceil x = Ret c /\ is_finite c = true
        /\ exists z, B2R c = IZR z /\ IZR z - 1 < B2R x <= IZR z).
Proof.
  intros x Fx Hx. rewrite <- bpow63 in Hx.
  destruct (F_trunc prec emax x Fx Hx) as (t & T). destruct (F_floor prec emax x Fx Hx) as (f & F1 & F2 & F3).
  destruct (F_ceil prec emax x Fx Hx) as (c & C1 & C2 & C3).
  exists t, f, c. split; [ exact T | ]. split.
  - split; [ exact F1 | split; [ exact F2 | exists (Zfloor (B2R x)) ] ].
    split; [ exact F3 | ]. split; [ apply Zfloor_lb | apply Zfloor_ub ].
  - split; [ exact C1 | split; [ exact C2 | exists (Zceil (B2R x)) ] ].
    split; [ exact C3 | ]. assert (G := Zceil_ub (B2R x)). split; [ | exact G ].
    assert (L := Zceil_lb (B2R x)). lra.
Qed.
Theorem C06_undefined_otherwise : forall x : fl,
  ~ (is_finite x = true /\ - i64 - 1 < B2R x < i64) ->
  sc_trunc x = UB /\ sc_floor x = UB /\ sc_ceil x = UB.
Proof.
  intros x H. rewrite <- bpow63 in H. apply (proj2 (F_trunc_UB prec emax x)) in H.
  exact (conj H (conj (proj2 (proj1 (F_floor_ceil_UB prec emax x)) H)
                      (proj2 (proj2 (F_floor_ceil_UB prec emax x)) H))).
Qed.

(** C07. Missing from the full claim: the number just below one half, and magnitudes from
    2^(prec-1) on; both are refuted below. *)
Theorem C07_round_nearest_partial : (3 <= prec <= 63)%Z -> forall x : fl, is_finite x = true ->
  Rabs (B2R x) < bpow radix2 (prec - 1) ->
  Rabs (B2R x) <> / 2 - bpow radix2 (-1 - prec) ->
  exists (r : fl) (z : Z), sc_round x = Ret r /\ is_finite r = true /\ B2R r = IZR z
    /\ Rabs (B2R x - IZR z) <= / 2
    /\ (forall z' : Z, Rabs (B2R x - IZR z) <= Rabs (B2R x - IZR z'))
    /\ (forall z' : Z, Rabs (B2R x - IZR z) = Rabs (B2R x - IZR z') -> Rabs (IZR z') <= Rabs (IZR z)).
Proof.
  intros [P1 P2] x Fx H1 H2. destruct (F_round prec emax P1 x Fx P2 H1 H2) as (r & E & Fr & B).
  destruct (Zround_away_spec (B2R x)) as (z & Ez & S). exists r, z. rewrite Ez in B. auto.
Qed.
End IEEE.

Theorem C03_is_equal_exact : forall a b eps : R,
  (sc_is_equal (Some a) (Some b) (Some eps) = true <-> Rabs (a - b) <= eps).
Proof. intros a b eps. rewrite X_is_equal. exact (Rle_true _ _). Qed.
Theorem C03_vec_is_equal_exact : forall (a b : list R) eps, length a = length b -> 0 <= eps ->
  (v_is_equal (map Some a) (map Some b) (Some eps) = true
   <-> Forall2 (fun x y => Rabs (x - y) <= eps) a b).
Proof. exact X_v_is_equal. Qed.
Theorem C03_vec_is_equal_symmetric_refuted : exists a b eps : double,
  v_is_equal [a] [b] eps <> v_is_equal [b] [a] eps.
Proof. destruct vec_is_equal_asym as [e H]. exists asym_a, asym_b, e. exact H. Qed.
Example C03_case : v_is_equal [Some 1; Some 2] [Some (1 + / 4); Some (2 - / 2)] (Some (/ 2)) = true
  /\ v_is_equal [Some 1; Some 2] [Some (1 + / 4); Some (2 - / 2)] (Some (/ 3)) = false.
Proof.
  change (v_is_equal (map Some [1; 2]) (map Some [1 + / 4; 2 - / 2]) (Some (/ 2)) = true
    /\ v_is_equal (map Some [1; 2]) (map Some [1 + / 4; 2 - / 2]) (Some (/ 3)) = false).
  split.
  - apply C03_vec_is_equal_exact; [ reflexivity | lra | ]. constructor; [ | constructor; [ | constructor ] ]; apply Rabs_le; lra.
  - apply not_true_is_false. intros H. apply C03_vec_is_equal_exact in H; [ | reflexivity | lra ].
    inversion H; subst. inversion H5; subst. replace (2 - (2 - / 2)) with (/ 2) in * by ring.
    rewrite Rabs_pos_eq in *; lra.
Qed.

Example C06_case :
  (exists r, sc_floor (D (-11) (-2)) = Ret r /\ Beqb r (D (-3) 0) = true)
  /\ (exists r, sc_ceil (D (-11) (-2)) = Ret r /\ Beqb r (D (-2) 0) = true)
  /\ (exists r, sc_trunc (D (2 ^ 53 - 1) 10) = Ret r /\ Beqb r (D (2 ^ 53 - 1) 10) = true)
  /\ sc_trunc (D 1 63) = UB /\ sc_floor (B754_nan : double) = UB.
Proof.
  split; [ | split; [ | split; [ | split ] ] ].
  - apply (outcome_test _ _ (fun r => Beqb r (D (-3) 0))). vm_compute. reflexivity.
  - apply (outcome_test _ _ (fun r => Beqb r (D (-2) 0))). vm_compute. reflexivity.
  - apply (outcome_test _ _ (fun r => Beqb r (D (2 ^ 53 - 1) 10))). vm_compute. reflexivity.
  - vm_compute. reflexivity.
  - vm_compute. reflexivity.
Qed.

Theorem C07_round_below_half_refuted : exists x r : double,
  Bltb (cst 0) x = true /\ Bltb x (D 1 (-1)) = true /\ sc_round x = Ret r /\ Beqb r (cst 1) = true.
Proof.
  destruct round_below_half as (r & E & H). exists below_half, r.
  split; [ vm_compute; reflexivity | ]. split; [ vm_compute; reflexivity | ]. split; [ exact E | exact H ].
Qed.
Theorem C07_round_integer_refuted : exists (z : Z) (r : double),
  sc_round (D z 0) = Ret r /\ Beqb r (D (z + 1) 0) = true /\ Beqb (D z 0) (D (z + 1) 0) = false.
Proof.
  destruct round_big_odd as (r & E & H). exists (2 ^ 52 + 1)%Z, r.
  split; [ exact E | ]. split; [ exact H | vm_compute; reflexivity ].
Qed.
Theorem C07_round_exact_arithmetic : forall x, Rabs x < i64 - 1 ->
  exists z, sc_round (Some x) = Ret (Some (IZR z)) /\ Rabs (x - IZR z) <= / 2
  /\ (forall z' : Z, Rabs (x - IZR z) <= Rabs (x - IZR z'))
  /\ (forall z' : Z, Rabs (x - IZR z) = Rabs (x - IZR z') -> Rabs (IZR z') <= Rabs (IZR z)).
Proof. exact X_round_spec. Qed.
Theorem C07_round_up_down_exact_arithmetic : forall x, Rabs x < i64 - 1 ->
  (exists z, sc_round_up (Some x) = Ret (Some (IZR z)) /\ 0 <= x * IZR z
    /\ Rabs x <= Rabs (IZR z) < Rabs x + 1)
  /\ (exists z, sc_round_down (Some x) = Ret (Some (IZR z)) /\ 0 <= x * IZR z
    /\ Rabs (IZR z) <= Rabs x < Rabs (IZR z) + 1).
Proof. intros x H. exact (conj (X_round_up_spec x H) (X_round_down_spec x H)). Qed.
Example C07_case : exists r, sc_round (D (-5) (-1)) = Ret r /\ Beqb r (cst (-3)) = true.
Proof. apply (outcome_test _ _ (fun r => Beqb r (cst (-3)))). vm_compute. reflexivity. Qed.

(** C08 *)
Theorem C08_snap_nearest_multiple : forall v g, g <> 0 -> Rabs (v / g) < i64 - 1 ->
  exists k : Z, sc_snap (Some v) (Some g) = Ret (Some (g * IZR k))
    /\ Rabs (v - g * IZR k) <= Rabs g / 2
    /\ forall k' : Z, Rabs (v - g * IZR k) <= Rabs (v - g * IZR k').
Proof. exact X_snap_spec. Qed.
Theorem C08_snap_up_down_multiple : forall v g, 0 < g -> Rabs (v / g) < i64 - 1 ->
  (exists k : Z, sc_snap_up (Some v) (Some g) = Ret (Some (g * IZR k))
    /\ 0 <= v * (g * IZR k) /\ Rabs v <= Rabs (g * IZR k) < Rabs v + g)
  /\ (exists k : Z, sc_snap_down (Some v) (Some g) = Ret (Some (g * IZR k))
    /\ 0 <= v * (g * IZR k) /\ Rabs (g * IZR k) <= Rabs v < Rabs (g * IZR k) + g).
Proof. intros v g Hg H. exact (conj (X_snap_up_spec v g Hg H) (X_snap_down_spec v g Hg H)). Qed.
Theorem C08_snap_idempotent : forall v g s, Rabs (v / g) < i64 - 2 ->
  (sc_snap (Some v) (Some g) = Ret s -> sc_snap s (Some g) = Ret s)
  /\ (sc_snap_up (Some v) (Some g) = Ret s -> sc_snap_up s (Some g) = Ret s)
  /\ (sc_snap_down (Some v) (Some g) = Ret s -> sc_snap_down s (Some g) = Ret s).
Proof.
  intros v g s H. exact (conj (X_snap_idem v g s H) (conj (X_snap_up_idem v g s H) (X_snap_down_idem v g s H))).
Qed.
Theorem C08_snap_up_idempotent_double_refuted : exists v s t : double,
  sc_snap_up v (lit 1 10) = Ret s /\ sc_snap_up s (lit 1 10) = Ret t /\ Bltb s t = true.
Proof. destruct snap_up_twice as (s & t & H). exists snap_v, s, t. exact H. Qed.
Example C08_case : exists k : Z, sc_snap (Some (7 / 2)) (Some 2) = Ret (Some (2 * IZR k)) /\ k = 2%Z.
Proof.
  destruct (C08_snap_nearest_multiple (7 / 2) 2) as (k & E & A & _).
  - lra.
  - apply Rabs_lt. split; [ | ]; simpl; lra.
  - exists k. split; [ exact E | ]. rewrite (Rabs_pos_eq 2) in A by lra. apply Rabs_le_inv in A.
    assert (1 < IZR k) by lra. assert (IZR k < 3) by lra. apply lt_IZR in H. apply lt_IZR in H0. lia.
Qed.

(** C09 *)
Theorem C09_mod_spec : forall x y, y <> 0 -> Rabs (x / y) < i64 ->
  exists (r : R) (k : Z), sc_mod (Some x) (Some y) = Ret (Some r)
    /\ x = IZR k * y + r /\ Rabs r < Rabs y /\ 0 <= r * x.
Proof. exact X_mod_spec. Qed.
Theorem C09_fract_spec : forall v, Rabs v < i64 ->
  exists (r : R) (z : Z), sc_fract (Some v) = Ret (Some r)
    /\ v = IZR z + r /\ Rabs r < 1 /\ 0 <= r * v.
Proof. exact X_fract_spec. Qed.
Theorem C09_normalize_degrees_partial : forall a, a < 360 * i64 ->
  exists (r : R) (k : Z) (n : nat), 0 <= r < 360 /\ a = IZR k * 360 + r
    /\ forall fuel, (n <= fuel)%nat -> sc_normalize_degrees fuel (Some a) = Ret (Some r).
Proof. intros a H. exact (X_normalize 360 a ltac:(lra) H). Qed.
Theorem C09_normalize_radians_partial : forall a, a < 2 * PI * i64 ->
  exists (r : R) (k : Z) (n : nat), 0 <= r < 2 * PI /\ a = IZR k * (2 * PI) + r
    /\ forall fuel, (n <= fuel)%nat -> sc_normalize_radians fuel (Some a) = Ret (Some r).
Proof. intros a H. exact (X_normalize (2 * PI) a ltac:(generalize PI_RGT_0; lra) H). Qed.
Theorem C09_normalize_degrees_terminates_refuted : exists a : double, is_finite a = true
  /\ forall fuel, sc_normalize_degrees fuel a = Fuel.
Proof. exists big_neg. split; [ vm_compute; reflexivity | exact normalize_degrees_diverges ]. Qed.
(** For every implementation of the math library, with the double closest to pi. *)
Theorem C09_normalize_radians_nonnegative_refuted : forall lm : libm double,
  k_pi = D 0x1921fb54442d18 (-51) ->
  exists a r : double, Bltb (cst 0) a = true
    /\ sc_normalize_radians 0 a = Ret r /\ Bltb r (cst 0) = true.
Proof.
  intros lm H. destruct (normalize_radians_negative lm H) as (r & E). exists rad_x, r.
  split; [ vm_compute; reflexivity | exact E ].
Qed.
Example C09_case : exists n, sc_normalize_degrees n (Some (- 400)) = Ret (Some 320).
Proof.
  destruct (C09_normalize_degrees_partial (- 400)) as (r & k & n & B & E & F).
  - simpl. lra.
  - exists n. rewrite (F n (le_n _)). do 2 f_equal.
    assert (IZR k < -1) by lra. assert (-3 < IZR k) by lra.
    apply lt_IZR in H. apply lt_IZR in H0. assert (k = -2)%Z by lia. subst. lra.
Qed.

(** C10. Missing: one or more decimals, refuted below. What happens instead (for the tolerances in use): only values that round to zero are changed. *)
Theorem C10_correct_zero_decimals_partial : forall v eps, Rabs v < i64 - 1 ->
  exists r, sc_correct (Some v) 0 (Some eps) = Ret (Some r)
    /\ (r = v \/ Rabs (v - r) < eps /\ exists z, r = IZR z)
    /\ (forall z, Rabs (v - IZR z) < eps -> (exists z', r = IZR z') /\ Rabs (v - r) <= Rabs (v - IZR z)).
Proof. exact X_correct0. Qed.
Theorem C10_correct_more_decimals_partial : forall v decimals eps, (1 <= decimals < 32)%Z -> eps <= / 4 -> Rabs (v * IZR (2 ^ decimals)) < i64 - 1 ->
  (Rabs v < eps -> Rabs (v * IZR (2 ^ decimals)) < / 2 -> sc_correct (Some v) decimals (Some eps) = Ret (Some 0))
  /\ (eps <= Rabs v \/ / 2 <= Rabs (v * IZR (2 ^ decimals)) -> sc_correct (Some v) decimals (Some eps) = Ret (Some v)).
Proof. exact X_correct_more. Qed.
Theorem C10_correct_one_decimal_refuted : exists v w eps : R,
  Rabs (v - w) < eps /\ (exists z : Z, w * 10 = IZR z)
  /\ sc_correct (Some v) 1 (Some eps) = Ret (Some v) /\ ~ (exists z : Z, v * 10 = IZR z).
Proof. exact correct_misses. Qed.
Example C10_more_case : sc_correct (Some (/ 2000)) 4 (Some (/ 1000)) = Ret (Some 0) /\ sc_correct (Some (5 + / 2000)) 4 (Some (/ 1000)) = Ret (Some (5 + / 2000)).
Proof. split; apply C10_correct_more_decimals_partial; simpl; try lia; try lra; try (apply Rabs_lt; lra). left. rewrite Rabs_pos_eq; lra. Qed.
Example C10_case : sc_correct (Some (3 + / 2000)) 0 (Some (/ 1000)) = Ret (Some 3).
Proof.
  destruct (C10_correct_zero_decimals_partial (3 + / 2000) (/ 1000)) as (r & E & _ & H).
  - apply Rabs_lt. simpl. lra.
  - rewrite E. destruct (H 3%Z) as [[z ->] B]. { apply Rabs_lt; lra. }
    do 3 f_equal. rewrite (Rabs_pos_eq (3 + / 2000 - 3)) in B by lra. apply Rabs_le_inv in B.
    assert (2 < IZR z) by lra. assert (IZR z < 4) by lra. apply lt_IZR in H0. apply lt_IZR in H1. lia.
Qed.

(** C11: an unsigned integer type of w bits *)
Theorem C11_succ_adds_modulo : forall w i n s : Z, (0 <= i < n)%Z -> (0 <= s)%Z -> (i + s < 2 ^ w)%Z ->
  u_succ w i n s = Ret ((i + s) mod n)%Z /\ (0 <= (i + s) mod n < n)%Z.
Proof. exact u_succ_spec. Qed.
Theorem C11_pred_subtracts_modulo : forall w i n s : Z, (0 <= i < n)%Z -> (0 <= s)%Z -> (i + n < 2 ^ w)%Z ->
  u_pred w i n s = Ret ((i - s) mod n)%Z /\ (0 <= (i - s) mod n < n)%Z.
Proof. exact u_pred_spec. Qed.
Theorem C11_succ_pred_inverse : forall w i n s : Z, (0 <= i < n)%Z -> (0 <= s)%Z ->
  (n + n < 2 ^ w)%Z -> (n + s < 2 ^ w)%Z ->
  (do j <- u_succ w i n s; u_pred w j n s) = Ret i /\ (do j <- u_pred w i n s; u_succ w j n s) = Ret i.
Proof. exact u_succ_pred. Qed.
Example C11_case : u_succ 64 4 5 3 = Ret 2%Z /\ u_pred 64 2 5 3 = Ret 4%Z /\ u_pred 64 2 5 13 = Ret 4%Z.
Proof. repeat split; reflexivity. Qed.

(** C12 *)
Theorem C12_sign_threefold : forall v, sc_sign (Some v) =
  Some (if Rlt_bool v 0 then -1 else if Rlt_bool 0 v then 1 else 0).
Proof. exact X_sign_spec. Qed.
Theorem C12_step_threshold : forall e v, sc_step (Some e) (Some v) = Some (if Rlt_bool v e then 0 else 1).
Proof. intros. unfold sc_step. cbn. destruct (Rlt_bool v e); reflexivity. Qed.
Theorem C12_mix_interpolates : forall x y, exists f, (forall a, sc_mix (Some x) (Some y) (Some a) = Some (f a))
  /\ f 0 = x /\ f 1 = y /\ (forall a b, f ((a + b) / 2) = (f a + f b) / 2)
  /\ (forall a, x <= y -> 0 <= a <= 1 -> x <= f a <= y).
Proof.
  intros x y. exists (fun a => (1 - a) * x + a * y). split; [ apply X_mix | ].
  split; [ ring | ]. split; [ ring | ]. split; [ intros; field | ]. intros a H1 H2. split; nra.
Qed.
Theorem C12_smoothstep_spec : forall e0 e1, e0 < e1 ->
  exists f, (forall v, sc_smoothstep (Some e0) (Some e1) (Some v) = Some (f v))
    /\ (forall v, v <= e0 -> f v = 0) /\ (forall v, e1 <= v -> f v = 1)
    /\ (forall v, 0 <= f v <= 1) /\ (forall v w, v <= w -> f v <= f w)
    /\ f ((e0 + e1) / 2) = / 2.
Proof. exact X_smoothstep_spec. Qed.
Example C12_case : sc_smoothstep (Some 1) (Some 3) (Some 2) = Some (/ 2).
Proof.
  destruct (C12_smoothstep_spec 1 3) as (f & E & _ & _ & _ & _ & H); [ lra | ].
  rewrite E. f_equal. rewrite <- H. f_equal. field.
Qed.

(** C13. The full claim fails for signed scalars of different sign. *)
Theorem C13_abs_difference_same_sign_partial : forall a b, 0 <= a * b ->
  sc_abs_difference (Some a) (Some b) = Some (Rabs (a - b)).
Proof. exact X_abs_difference_same_sign. Qed.
Theorem C13_abs_difference_unsigned : forall a b,
  sc_abs_difference_unsigned (Some a) (Some b) = Some (Rabs (a - b)).
Proof. exact X_abs_difference_unsigned. Qed.
Theorem C13_abs_difference_refuted : exists a b : double,
  Beqb (sc_abs_difference a b) (cst 0) = true /\ Beqb (sc_abs (o_sub a b)) (cst 2) = true.
Proof. exact abs_difference_wrong. Qed.
Example C13_case : sc_abs_difference (Some (-3)) (Some (-5)) = Some 2.
Proof.
  rewrite C13_abs_difference_same_sign_partial by lra. f_equal. rewrite Rabs_pos_eq; lra.
Qed.

(** C14 *)
Theorem C14_quadratic_sound_complete : forall a b c eps, a <> 0 -> 0 <= eps ->
  let D := b / (2 * a) * (b / (2 * a)) - c / a in
  D = 0 \/ eps < Rabs D ->
  exists n x1 x2, solve_quadratic (Some a) (Some b) (Some c) (Some eps) = (n, (x1, x2))
    /\ solves (quadratic a b c) n [x1; x2].
Proof. exact X_quadratic_spec. Qed.
Theorem C14_quadratic_near_zero_discriminant : forall a b c eps, a <> 0 -> 0 <= eps ->
  Rabs (b / (2 * a) * (b / (2 * a)) - c / a) <= eps ->
  exists x, solve_quadratic (Some a) (Some b) (Some c) (Some eps) = (1%nat, (Some x, None))
    /\ Rabs (quadratic a b c x) <= Rabs a * eps.
Proof. exact X_quadratic_band. Qed.
Example C14_case : exists n x1 x2, solve_quadratic (Some 1) (Some (-3)) (Some 2) (Some (1 / 1000)) = (n, (x1, x2))
  /\ solves (quadratic 1 (-3) 2) n [x1; x2].
Proof.
  apply C14_quadratic_sound_complete; [ lra | lra | ]. right.
  replace (_ - _) with (1 / 4) by field. rewrite Rabs_pos_eq; lra.
Qed.

(** C15: A, B, C are the normalised coefficients, q and p those of the depressed cubic
    t^3 + 3 p t + 2 q. *)
Theorem C15_cubic_sound_complete : forall a b c d eps, a <> 0 -> 0 <= eps ->
  let A := b / a in let B := c / a in let C := d / a in
  let p := 1 / 3 * (- (1 / 3) * A * A + B) in
  let q := 1 / 2 * (2 / 27 * A * A * A - 1 / 3 * A * B + C) in
  let D := q * q + p * p * p in
  (D = 0 /\ (q = 0 \/ eps < Rabs q)) \/ eps < Rabs D ->
  exists n x1 x2 x3, solve_cubic (Some a) (Some b) (Some c) (Some d) (Some eps) = (n, (x1, x2, x3))
    /\ solves (cubic a b c d) n [x1; x2; x3].
Proof. exact X_cubic_spec. Qed.
Example C15_case : exists n x1 x2 x3,
  solve_cubic (Some 1) (Some 0) (Some (-3)) (Some 1) (Some (1 / 1000)) = (n, (x1, x2, x3))
  /\ solves (cubic 1 0 (-3) 1) n [x1; x2; x3].
Proof.
  apply C15_cubic_sound_complete; [ lra | lra | ]. right.
  replace (_ + _) with (- (3 / 4)) by field. rewrite Rabs_left; lra.
Qed.

(** C16. Missing: roots are reported only once (refuted for multiple roots), and the default
    tolerance (refuted). *)
Theorem C16_quartic_sound_complete_partial : forall a b c d e, a <> 0 ->
  exists n slots, solve_quartic (Some a) (Some b) (Some c) (Some d) (Some e) (Some 0) = Ret (n, slots)
    /\ length slots = 4%nat /\ reports (quartic a b c d e) n slots
    /\ ((forall y, quartic a b c d e y = 0 -> quartic' a b c d y <> 0) ->
        solves (quartic a b c d e) n slots).
Proof. exact X_quartic_reports. Qed.
(** With a positive tolerance, as long as no number that is compared with it is small but not zero. *)
Theorem C16_quartic_tolerance_partial : forall a b c d e eps p q r, a <> 0 -> 0 <= eps -> depressed a b c d e p q r -> quartic_gap eps p q r ->
  exists n slots, solve_quartic (Some a) (Some b) (Some c) (Some d) (Some e) (Some eps) = Ret (n, slots)
  /\ length slots = 4%nat /\ reports (quartic a b c d e) n slots
  /\ ((forall y, quartic a b c d e y = 0 -> quartic' a b c d y <> 0) ->
      solves (quartic a b c d e) n slots).
Proof. exact X_quartic_tolerance. Qed.
Theorem C16_quartic_distinct_refuted : exists n slots,
  solve_quartic (Some 1) (Some 0) (Some 0) (Some 0) (Some 0) (Some 0) = Ret (n, slots)
  /\ ~ solves (quartic 1 0 0 0 0) n slots.
Proof.
  do 2 eexists. split; [ exact quartic_twice | ]. intros (rs & E & L & N & _).
  destruct rs as [|x [|y [|]]]; try discriminate. injection E as <- <-.
  inversion N; subst. apply H1. left. reflexivity.
Qed.
Theorem C16_quartic_default_epsilon_refuted : exists a b c d e : R, exists n slots,
  solve_quartic (Some a) (Some b) (Some c) (Some d) (Some e) almost_zero = Ret (n, slots)
  /\ n = 2%nat /\ (exists x, In (Some x) slots /\ quartic a b c d e x <> 0)
  /\ (exists x, quartic a b c d e x = 0 /\ ~ In (Some x) slots).
Proof.
  exists 1, 0, 0, 0, (- (1 / 10000)). do 2 eexists. split; [ exact quartic_default_eps | ].
  split; [ reflexivity | ]. split.
  - exists 0. split; [ simpl; auto | unfold quartic; lra ].
  - exists (1 / 10). split; [ unfold quartic; field | ]. simpl. intros [H|[H|[H|[H|[]]]]]; try discriminate;
    injection H; lra.
Qed.
Example C16_case : exists n slots,
  solve_quartic (Some 1) (Some 0) (Some (-5)) (Some 0) (Some 4) (Some 0) = Ret (n, slots)
  /\ solves (quartic 1 0 (-5) 0 4) n slots.
Proof.
  destruct (C16_quartic_sound_complete_partial 1 0 (-5) 0 4) as (n & s & E & _ & _ & H); [ lra | ].
  exists n, s. split; [ exact E | apply H ]. unfold quartic, quartic'. intros y Hy Hd.
  assert (y * (2 * (y * y) - 5) = 0) by lra. apply Rmult_integral in H0. destruct H0; [ subst; lra | ].
  assert (Hq : y * y = 5 / 2) by lra.
  replace (1 * y * y * y * y) with (y * y * (y * y)) in Hy by ring. 
  replace (-5 * y * y) with (-5 * (y * y)) in Hy by ring. rewrite Hq in Hy. lra.
Qed.

Example C16_tolerance_case : depressed 2 8 (-8) (-32) 0 (-10) 0 9 /\ quartic_gap (1 / 1000) (-10) 0 9.
Proof.
  split. { intros x. unfold quartic. field. }
  split; [ right; rewrite Rabs_pos_eq; lra | ]. split; [ intros; lra | ]. intros _. split.
  - right. cbv zeta. rewrite Rabs_left; lra.
  - intros z Hz. assert (F : (z + 5) * ((z - 3) * (z + 3)) = 0) by (rewrite <- Hz; unfold cubic; field).
    assert (G : forall x, 1 <= x -> gap (1 / 1000) x) by (intros x X; right; rewrite Rabs_pos_eq; lra).
    apply Rmult_integral in F as [F|F]; [ | apply Rmult_integral in F as [F|F] ].
    + assert (z = -5) by lra. subst z. replace (-5 * -5 - 9) with (4 * 4) by ring. rewrite sqrt_square by lra.
      split; [ apply G; lra | ]. split; [ left; lra | ]. intros _ _. split; apply G; lra.
    + assert (z = 3) by lra. subst z. replace (3 * 3 - 9) with 0 by ring. rewrite sqrt_0.
      split; [ left; lra | ]. split; [ apply G; lra | ]. intros _ _. split; apply G; lra.
    + assert (z = -3) by lra. subst z. replace (-3 * -3 - 9) with 0 by ring. rewrite sqrt_0.
      split; [ left; lra | ]. split; [ apply G; lra | ]. intros _ _. split; apply G; lra.
Qed.

Print Assumptions C03_is_equal_symmetric.
Print Assumptions C03_is_equal_reflexive.
Print Assumptions C06_trunc_floor_ceil_exact.
Print Assumptions C06_undefined_otherwise.
Print Assumptions C07_round_nearest_partial.
Print Assumptions C03_is_equal_exact.
Print Assumptions C03_vec_is_equal_exact.
Print Assumptions C03_vec_is_equal_symmetric_refuted.
Print Assumptions C07_round_below_half_refuted.
Print Assumptions C07_round_integer_refuted.
Print Assumptions C07_round_exact_arithmetic.
Print Assumptions C07_round_up_down_exact_arithmetic.
Print Assumptions C08_snap_nearest_multiple.
Print Assumptions C08_snap_up_down_multiple.
Print Assumptions C08_snap_idempotent.
Print Assumptions C08_snap_up_idempotent_double_refuted.
Print Assumptions C09_mod_spec.
Print Assumptions C09_fract_spec.
Print Assumptions C09_normalize_degrees_partial.
Print Assumptions C09_normalize_radians_partial.
Print Assumptions C09_normalize_degrees_terminates_refuted.
Print Assumptions C09_normalize_radians_nonnegative_refuted.
Print Assumptions C10_correct_zero_decimals_partial.
Print Assumptions C10_correct_more_decimals_partial.
Print Assumptions C10_correct_one_decimal_refuted.
Print Assumptions C11_succ_adds_modulo.
Print Assumptions C11_pred_subtracts_modulo.
Print Assumptions C11_succ_pred_inverse.
Print Assumptions C12_sign_threefold.
Print Assumptions C12_step_threshold.
Print Assumptions C12_mix_interpolates.
Print Assumptions C12_smoothstep_spec.
Print Assumptions C13_abs_difference_same_sign_partial.
Print Assumptions C13_abs_difference_unsigned.
Print Assumptions C13_abs_difference_refuted.
Print Assumptions C14_quadratic_sound_complete.
Print Assumptions C14_quadratic_near_zero_discriminant.
Print Assumptions C15_cubic_sound_complete.
Print Assumptions C16_quartic_sound_complete_partial.
Print Assumptions C16_quartic_tolerance_partial.
Print Assumptions C16_quartic_distinct_refuted.
Print Assumptions C16_quartic_default_epsilon_refuted.
