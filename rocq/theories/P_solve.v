(** The quadratic and cubic solvers in exact arithmetic. *)
From Coq Require Import ZArith Reals List Bool Lra Lia Psatz.
From Flocq Require Import Core.
From Verif Require Import Ops M_scalar Inst_XR P_xr S_scalar.
Import ListNotations.
Local Open Scope R_scope.

Lemma solves0 : forall f k, (forall y, f y <> 0) -> solves f 0 (repeat None k).
Proof.
  intros f k H. exists []. rewrite repeat_length, Nat.sub_0_r. repeat split; auto; try constructor.
  - intros E. now apply H in E.
  - intros [].
Qed.

Lemma sq_zero : forall x y, x * x + 3 / 4 * (y * y) = 0 -> y = 0.
Proof.
  intros x y H. generalize (Rle_0_sqr x) (Rle_0_sqr y). unfold Rsqr. intros.
  assert (y * y = 0) by lra. apply Rmult_integral in H2. tauto.
Qed.


Section Quadratic.
Variables a b c eps : R.
Hypotheses (Ha : a <> 0) (He : 0 <= eps).
Let p := b / (2 * a).
Let q := c / a.
Let D := p * p - q.

Lemma quad_complete : forall x, quadratic a b c x = a * ((x + p) * (x + p) - D).
Proof. intros x. unfold quadratic, D, p, q. field. auto. Qed.

Lemma X_quadratic_eq : solve_quadratic (Some a) (Some b) (Some c) (Some eps) =
  if Rle_bool (Rabs D) eps then (1%nat, (Some (- p), None))
  else if Rlt_bool D 0 then (0%nat, (None, None))
  else (2%nat, (Some (sqrt D - p), Some (- sqrt D - p))).
Proof.
  unfold solve_quadratic. change (cst 2) with (Some 2). change (cst 0) with (Some 0).
  change (o_mul (Some 2) (Some a)) with (Some (2 * a)).
  rewrite !X_div by lra. fold p q.
  change (o_sub (o_mul (Some p) (Some p)) (Some q)) with (Some D).
  rewrite X_is_zero by auto.
  destruct (Rle_bool (Rabs D) eps); [ reflexivity | ].
  change (o_lt (Some D) (Some 0)) with (Rlt_bool D 0).
  destruct (Rlt_bool_spec D 0); [ reflexivity | ].
  rewrite X_sqrt by auto. reflexivity.
Qed.

Lemma X_quadratic_spec : D = 0 \/ eps < Rabs D ->
  exists n x1 x2, solve_quadratic (Some a) (Some b) (Some c) (Some eps) = (n, (x1, x2))
    /\ solves (quadratic a b c) n [x1; x2].
Proof.
  intros H. rewrite X_quadratic_eq.
  destruct (Rle_bool_spec (Rabs D) eps) as [L|G].
  - destruct H as [Z|H]; [ | lra ].
    do 3 eexists; split; [ reflexivity | ].
    exists [- p]. simpl. repeat split; auto.
    + constructor; auto. constructor.
    + intros E. left. rewrite quad_complete, Z in E.
      assert ((y + p) * (y + p) = 0) by (apply Rmult_integral in E; destruct E; lra). nra.
    + intros [<-|[]]. rewrite quad_complete, Z. ring.
  - destruct (Rlt_bool_spec D 0) as [N|P].
    + do 3 eexists; split; [ reflexivity | ].
      apply (solves0 _ 2). intros y. rewrite quad_complete. intros E.
      apply Rmult_integral in E. destruct E as [E|E]; [ auto | ].
      generalize (Rle_0_sqr (y + p)). unfold Rsqr. lra.
    + assert (P' : 0 < D) by (rewrite Rabs_pos_eq in G; lra).
      assert (S := sqrt_lt_R0 D P'). assert (S2 := sqrt_sqrt D P).
      do 3 eexists; split; [ reflexivity | ].
      exists [sqrt D - p; - sqrt D - p]. simpl. repeat split; auto.
      * constructor; [ | constructor; auto; constructor ]. intros [E|[]]. lra.
      * intros E. rewrite quad_complete in E. apply Rmult_integral in E. destruct E as [E|E]; [ contradiction | ].
        assert (K : (y + p - sqrt D) * (y + p + sqrt D) = 0) by lra.
        apply Rmult_integral in K. destruct K; [ left | right; left ]; lra.
      * intros [<-|[<-|[]]]; rewrite quad_complete.
        -- replace (_ - D) with (sqrt D * sqrt D - D) by ring. rewrite S2. ring.
        -- replace (_ - D) with (sqrt D * sqrt D - D) by ring. rewrite S2. ring.
Qed.

(** In the band around a double root the single reported value almost solves the equation. *)
Lemma X_quadratic_band : Rabs D <= eps ->
  exists x, solve_quadratic (Some a) (Some b) (Some c) (Some eps) = (1%nat, (Some x, None))
    /\ Rabs (quadratic a b c x) <= Rabs a * eps.
Proof.
  intros H. rewrite X_quadratic_eq, Rle_bool_true by auto. eexists; split; [ reflexivity | ].
  rewrite quad_complete. replace (- p + p) with 0 by ring. rewrite Rmult_0_l, Rminus_0_l.
  rewrite Rabs_mult, Rabs_Ropp. apply Rmult_le_compat_l; auto. apply Rabs_pos.
Qed.
End Quadratic.

(** ** Cube root *)
Lemma Rpower_cube : forall x, 0 < x -> Rpower x (/ 3) * Rpower x (/ 3) * Rpower x (/ 3) = x.
Proof.
  intros x H. rewrite <- !Rpower_plus. replace (/ 3 + / 3 + / 3) with 1 by field. now apply Rpower_1.
Qed.
Lemma Rcbrt_cube : forall x, Rcbrt x * Rcbrt x * Rcbrt x = x.
Proof.
  intros x. unfold Rcbrt. destruct (Req_bool_spec x 0) as [->|N]; [ ring | ].
  destruct (Rlt_bool_spec 0 x) as [P|Q].
  - now apply Rpower_cube.
  - replace (- Rpower (- x) (/ 3) * - Rpower (- x) (/ 3) * - Rpower (- x) (/ 3))
      with (- (Rpower (- x) (/ 3) * Rpower (- x) (/ 3) * Rpower (- x) (/ 3))) by ring.
    rewrite Rpower_cube by lra. ring.
Qed.
Lemma cube_inj : forall x y, x * x * x = y * y * y -> x = y.
Proof.
  intros x y H. assert (E : (x - y) * (x * x + x * y + y * y) = 0) by lra.
  apply Rmult_integral in E. destruct E as [E|E]; [ lra | ].
  assert (K : (x + y / 2) * (x + y / 2) + 3 / 4 * (y * y) = 0) by lra.
  assert (y * y = 0) by nra. assert (y = 0) by nra. subst. nra.
Qed.


(** ** Cubic *)
Section Depressed.
(** t^3 + 3 p t + 2 q *)
Variables p q : R.
Let f t := t * t * t + 3 * p * t + 2 * q.
Let D := q * q + p * p * p.

Lemma dep_double : D = 0 -> forall u, u * u * u = - q -> p = - (u * u).
Proof.
  intros H u Hu. apply cube_inj.
  replace (- (u * u) * - (u * u) * - (u * u)) with (- ((u * u * u) * (u * u * u))) by ring.
  rewrite Hu. unfold D in H. lra.
Qed.
Lemma dep_double_roots : D = 0 -> forall u, u * u * u = - q -> forall t,
  f t = 0 <-> t = u * 2 \/ t = - u.
Proof.
  intros H u Hu t. assert (Hp := dep_double H u Hu).
  assert (E : f t = (t - u * 2) * ((t + u) * (t + u))).
  { unfold f. rewrite Hp. replace q with (- (u * u * u)) by lra. ring. }
  rewrite E. split.
  - intros K. apply Rmult_integral in K. destruct K as [K|K]; [ left; lra | right; nra ].
  - intros [-> | ->]; ring.
Qed.
Lemma dep_single_roots : 0 < D -> forall u v, u * u * u = sqrt D - q -> v * v * v = - (sqrt D + q) ->
  forall t, f t = 0 <-> t = u + v.
Proof.
  intros H u v Hu Hv t.
  assert (S := sqrt_lt_R0 D H). assert (S2 : sqrt D * sqrt D = D) by (apply sqrt_sqrt; lra).
  assert (Huv : u * v = - p).
  { apply cube_inj. 
    replace (u * v * (u * v) * (u * v)) with ((u * u * u) * (v * v * v)) by ring.
    rewrite Hu, Hv. unfold D in S2 |- *. fold D in S2 |- *. 
    replace ((sqrt D - q) * - (sqrt D + q)) with (- (sqrt D * sqrt D) + q * q) by ring. rewrite S2. unfold D. ring. }
  assert (E : f t = (t - (u + v)) * (t * t + (u + v) * t + (u * u - u * v + v * v))).
  { unfold f. replace (3 * p) with (- (3 * (u * v))) by lra.
    replace (2 * q) with (- (u * u * u + v * v * v)) by lra. ring. }
  rewrite E. split; [ | intros ->; ring ].
  intros K. apply Rmult_integral in K. destruct K as [K|K]; [ lra | ]. exfalso.
  assert (N : (t + (u + v) / 2) * (t + (u + v) / 2) + 3 / 4 * ((u - v) * (u - v)) = 0) by lra.
  apply sq_zero in N. assert (u = v) by lra. subst v. lra.
Qed.
Lemma three_roots : forall r1 r2 r3, r1 <> r2 -> r1 <> r3 -> r2 <> r3 ->
  f r1 = 0 -> f r2 = 0 -> f r3 = 0 -> forall t, f t = 0 <-> t = r1 \/ t = r2 \/ t = r3.
Proof.
  intros r1 r2 r3 N12 N13 N23 H1 H2 H3 t.
  assert (A : r1 * r1 + r1 * r2 + r2 * r2 = - (3 * p)).
  { apply Rmult_eq_reg_l with (r1 - r2); [ | lra ]. unfold f in *. lra. }
  assert (B : r1 * r1 + r1 * r3 + r3 * r3 = - (3 * p)).
  { apply Rmult_eq_reg_l with (r1 - r3); [ | lra ]. unfold f in *. lra. }
  assert (C : r1 + r2 + r3 = 0).
  { apply Rmult_eq_reg_l with (r2 - r3); [ | lra ]. lra. }
  assert (R3 : r3 = - r1 - r2) by lra. subst r3.
  assert (E : f t = (t - r1) * (t - r2) * (t - (- r1 - r2))).
  { unfold f in *. replace (3 * p) with (- (r1 * r1 + r1 * r2 + r2 * r2)) in * by lra.
    replace (2 * q) with (- (r1 * r1 * r1 + - (r1 * r1 + r1 * r2 + r2 * r2) * r1)) by lra. ring. }
  rewrite E. split.
  - intros K. apply Rmult_integral in K. destruct K as [K|K]; [ | right; right; lra ].
    apply Rmult_integral in K. destruct K; [ left; lra | right; left; lra ].
  - intros [->|[-> | ->]]; ring.
Qed.

Lemma cos3 : forall x, cos (3 * x) = 4 * cos x * cos x * cos x - 3 * cos x.
Proof.
  intros x. replace (3 * x) with (2 * x + x) by ring. rewrite cos_plus, cos_2a_cos, sin_2a.
  assert (S := sin2_cos2 x). unfold Rsqr in S.
  replace (2 * sin x * cos x * sin x) with (2 * cos x * (sin x * sin x)) by ring.
  replace (sin x * sin x) with (1 - cos x * cos x) by lra. ring.
Qed.

Lemma dep_trig_root : p < 0 -> forall phi, - q = sqrt (- (p * p * p)) * cos (3 * phi) ->
  f (2 * sqrt (- p) * cos phi) = 0.
Proof.
  intros Hp phi H. unfold f.
  assert (S2 : sqrt (- p) * sqrt (- p) = - p) by (apply sqrt_sqrt; lra).
  assert (E : sqrt (- (p * p * p)) = (- p) * sqrt (- p)).
  { replace (- (p * p * p)) with ((- p) * (- p) * (- p)) by ring.
    rewrite sqrt_mult by nra. rewrite sqrt_square by lra. reflexivity. }
  rewrite E, cos3 in H. set (s := sqrt (- p)) in *. set (x := cos phi) in *.
  replace (2 * q) with (- (2 * (- p * s * (4 * x * x * x - 3 * x)))) by lra.
  replace (3 * p) with (- (3 * (s * s))) by lra.
  replace (- p) with (s * s) by lra. ring.
Qed.
End Depressed.

Section Cubic.
Variables a b c d eps : R.
Hypotheses (Ha : a <> 0) (He : 0 <= eps).
Let A := b / a.
Let B := c / a.
Let C := d / a.
Let p := 1 / 3 * (- (1 / 3) * A * A + B).
Let q := 1 / 2 * (2 / 27 * A * A * A - 1 / 3 * A * B + C).
Let D := q * q + p * p * p.

Lemma cubic_depress : forall x, cubic a b c d x =
  a * ((x + 1 / 3 * A) * (x + 1 / 3 * A) * (x + 1 / 3 * A) + 3 * p * (x + 1 / 3 * A) + 2 * q).
Proof. intros x. unfold cubic, p, q, A, B, C. field. auto. Qed.

Lemma cubic_shift : forall (P : R -> Prop),
  (forall t, t * t * t + 3 * p * t + 2 * q = 0 <-> P t) ->
  forall y, cubic a b c d y = 0 <-> P (y + 1 / 3 * A).
Proof.
  intros P H y. rewrite <- H, cubic_depress. split; intros E.
  - apply Rmult_integral in E. destruct E; [ contradiction | auto ].
  - rewrite E. ring.
Qed.

Lemma X_cubic_eq : solve_cubic (Some a) (Some b) (Some c) (Some d) (Some eps) =
  let sub := 1 / 3 * A in
  if Rle_bool (Rabs D) eps then
    if Rle_bool (Rabs q) eps then (1%nat, (Some (0 - sub), None, None))
    else (2%nat, (Some (Rcbrt (- q) * 2 - sub), Some (- Rcbrt (- q) - sub), None))
  else if Rlt_bool D 0 then
    let phi := 1 / 3 * acos (- q / sqrt (- (p * p * p))) in
    let t := 2 * sqrt (- p) in
    (3%nat, (Some (t * cos phi - sub), Some (- t * cos (phi + PI / 3) - sub),
             Some (- t * cos (phi - PI / 3) - sub)))
  else (1%nat, (Some (Rcbrt (sqrt D - q) + - Rcbrt (sqrt D + q) - sub), None, None)).
Proof.
  unfold solve_cubic.
  change (cst 2) with (Some 2). change (cst 0) with (Some 0). change (cst 3) with (Some 3).
  rewrite !X_div by lra. rewrite !X_lit by lia. fold A B C.
  change (o_mul (Some (1 / 3)) (o_add (o_mul (o_mul (o_neg (Some (1 / 3))) (Some A)) (Some A)) (Some B)))
    with (Some p).
  change (o_mul (Some (1 / 2)) (o_add (o_sub (o_mul (o_mul (o_mul (Some (2 / 27)) (Some A)) (Some A)) (Some A))
            (o_mul (o_mul (Some (1 / 3)) (Some A)) (Some B))) (Some C))) with (Some q).
  cbv zeta.
  change (o_mul (o_mul (Some p) (Some p)) (Some p)) with (Some (p * p * p)).
  change (o_add (o_mul (Some q) (Some q)) (Some (p * p * p))) with (Some D).
  rewrite !X_is_zero by auto.
  destruct (Rle_bool_spec (Rabs D) eps) as [L|G].
  - destruct (Rle_bool (Rabs q) eps); reflexivity.
  - change (o_lt (Some D) (Some 0)) with (Rlt_bool D 0).
    destruct (Rlt_bool_spec D 0) as [N|P].
    + assert (Hp3 : p * p * p < 0) by (unfold D in N; nra).
      assert (Hp : p < 0) by (destruct (Rlt_or_le p 0); auto; exfalso; assert (0 <= p * p) by nra; nra).
      change (o_neg (Some (p * p * p))) with (Some (- (p * p * p))).
      change (o_neg (Some p)) with (Some (- p)). change (o_neg (Some q)) with (Some (- q)).
      rewrite !X_sqrt by lra.
      assert (S : 0 < sqrt (- (p * p * p))) by (apply sqrt_lt_R0; lra).
      change k_pi with (Some PI).
      rewrite !X_div by lra.
      assert (Bd : Rabs (- q / sqrt (- (p * p * p))) < 1).
      { unfold Rdiv. rewrite Rabs_mult, Rabs_Ropp, Rabs_inv, (Rabs_pos_eq (sqrt _)) by lra.
        apply Rmult_lt_reg_r with (sqrt (- (p * p * p))); auto.
        rewrite Rmult_assoc, Rinv_l, Rmult_1_r, Rmult_1_l by lra.
        apply Rsqr_incrst_0; [ | apply Rabs_pos | lra ].
        rewrite Rsqr_sqrt by lra. rewrite <- Rsqr_abs. unfold Rsqr, D in *. lra. }
      cbn [f_acos XRlibm Xunit]. rewrite Rlt_bool_false by lra. reflexivity.
    + rewrite X_sqrt by auto. reflexivity.
Qed.

Lemma NoDup1 : forall x : R, NoDup [x].
Proof. intros. constructor; auto. constructor. Qed.

Lemma X_cubic_spec : (D = 0 /\ (q = 0 \/ eps < Rabs q)) \/ eps < Rabs D ->
  exists n x1 x2 x3, solve_cubic (Some a) (Some b) (Some c) (Some d) (Some eps) = (n, (x1, x2, x3))
    /\ solves (cubic a b c d) n [x1; x2; x3].
Proof.
  intros H. rewrite X_cubic_eq. cbv zeta.
  destruct (Rle_bool_spec (Rabs D) eps) as [L|G].
  - destruct H as [[Z H]|H]; [ | lra ].
    destruct (Rle_bool_spec (Rabs q) eps) as [Lq|Gq].
    + destruct H as [Zq|H]; [ | lra ].
      do 4 eexists; split; [ reflexivity | ].
      exists [0 - 1 / 3 * A]. split; [ reflexivity | ]. split; [ reflexivity | ]. split; [ apply NoDup1 | ].
      intros y. rewrite (cubic_shift (fun t => t = 0 * 2 \/ t = - 0)).
      * simpl. split; [ intros [E|E]; left; lra | intros [E|[]]; left; lra ].
      * apply (dep_double_roots p q); auto. rewrite Zq. ring.
    + do 4 eexists; split; [ reflexivity | ].
      set (u := Rcbrt (- q)). assert (Hu : u * u * u = - q) by apply Rcbrt_cube.
      assert (u <> 0). { intros E. rewrite E in Hu. assert (q = 0) by lra. rewrite H0, Rabs_R0 in Gq. lra. }
      exists [u * 2 - 1 / 3 * A; - u - 1 / 3 * A]. split; [ reflexivity | ]. split; [ reflexivity | ].
      split.
      { constructor; [ | apply NoDup1 ]. intros [E|[]]. lra. }
      intros y. rewrite (cubic_shift (fun t => t = u * 2 \/ t = - u)).
      * simpl. split; [ intros [E|E]; [ left | right; left ]; lra | intros [E|[E|[]]]; [ left | right ]; lra ].
      * now apply (dep_double_roots p q).
  - destruct (Rlt_bool_spec D 0) as [N|P].
    + assert (Hp3 : p * p * p < 0) by (unfold D in N; nra).
      assert (Hp : p < 0) by (destruct (Rlt_or_le p 0); auto; exfalso; assert (0 <= p * p) by nra; nra).
      assert (S : 0 < sqrt (- (p * p * p))) by (apply sqrt_lt_R0; lra).
      assert (Sp : 0 < sqrt (- p)) by (apply sqrt_lt_R0; lra).
      assert (Bd : -1 < - q / sqrt (- (p * p * p)) < 1).
      { apply Rabs_lt_inv.
        unfold Rdiv. rewrite Rabs_mult, Rabs_Ropp, Rabs_inv, (Rabs_pos_eq (sqrt _)) by lra.
        apply Rmult_lt_reg_r with (sqrt (- (p * p * p))); auto.
        rewrite Rmult_assoc, Rinv_l, Rmult_1_r, Rmult_1_l by lra.
        apply Rsqr_incrst_0; [ | apply Rabs_pos | lra ].
        rewrite Rsqr_sqrt by lra. rewrite <- Rsqr_abs. unfold Rsqr, D in *. lra. }
      set (w := - q / sqrt (- (p * p * p))) in *.
      assert (PP := PI_RGT_0).
      assert (Ca : cos (acos w) = w) by (apply cos_acos; lra).
      assert (Ba := acos_bound w).
      assert (A0 : 0 < acos w).
      { destruct (Rle_lt_or_eq_dec 0 (acos w)) as [|E]; [ lra | auto | ].
        rewrite <- E, cos_0 in Ca. lra. }
      assert (A1 : acos w < PI).
      { destruct (Rle_lt_or_eq_dec (acos w) PI) as [|E]; [ lra | auto | ].
        rewrite E, cos_PI in Ca. lra. }
      set (phi := 1 / 3 * acos w) in *.
      assert (Ep : acos w = 3 * phi) by (unfold phi; field).
      assert (Q : - q = sqrt (- (p * p * p)) * cos (3 * phi)).
      { rewrite <- Ep, Ca. unfold w. field. lra. }
      do 4 eexists; split; [ reflexivity | ].
      set (t := 2 * sqrt (- p)) in *.
      assert (C1 : - t * cos (phi + PI / 3) = t * cos (phi + PI / 3 + PI)) by (rewrite neg_cos; ring).
      assert (C2 : - t * cos (phi - PI / 3) = t * cos (phi - PI / 3 + PI)) by (rewrite neg_cos; ring).
      assert (I1 : / 2 < cos phi).
      { rewrite <- (Rmult_1_l (/ 2)). fold (1 / 2). rewrite <- cos_PI3. apply cos_decreasing_1; lra. }
      assert (I2 : - / 2 < cos (phi + PI / 3) < / 2).
      { split.
        - replace (- / 2) with (cos (2 * (PI / 3))).
          + apply cos_decreasing_1; lra.
          + replace (2 * (PI / 3)) with (- (PI / 3) + PI) by field. rewrite neg_cos, cos_neg, cos_PI3. lra.
        - rewrite <- (Rmult_1_l (/ 2)). fold (1 / 2). rewrite <- cos_PI3. apply cos_decreasing_1; lra. }
      assert (I3 : / 2 < cos (phi - PI / 3)).
      { rewrite <- (Rmult_1_l (/ 2)). fold (1 / 2). rewrite <- cos_PI3.
        rewrite <- (cos_neg (phi - PI / 3)). apply cos_decreasing_1; lra. }
      assert (T : 0 < t) by (unfold t; lra).
      set (r1 := t * cos phi). set (r2 := - t * cos (phi + PI / 3)). set (r3 := - t * cos (phi - PI / 3)).
      assert (N12 : r1 <> r2) by (unfold r1, r2; nra).
      assert (N13 : r1 <> r3) by (unfold r1, r3; nra).
      assert (N23 : r2 <> r3) by (unfold r2, r3; nra).
      exists [r1 - 1 / 3 * A; r2 - 1 / 3 * A; r3 - 1 / 3 * A].
      split; [ reflexivity | ]. split; [ reflexivity | ]. split.
      { constructor; [ | constructor; [ | apply NoDup1 ] ].
        - intros [E|[E|[]]]; [ apply N12 | apply N13 ]; lra.
        - intros [E|[]]. apply N23. lra. }
      intros y. rewrite (cubic_shift (fun t => t = r1 \/ t = r2 \/ t = r3)).
      * simpl. intuition lra.
      * apply three_roots; auto.
        -- unfold r1, t. now apply dep_trig_root.
        -- unfold r2. rewrite C1. unfold t. apply dep_trig_root; auto.
           replace (3 * (phi + PI / 3 + PI)) with (3 * phi + 2 * INR 2 * PI) by (simpl; field).
           rewrite cos_period. exact Q.
        -- unfold r3. rewrite C2. unfold t. apply dep_trig_root; auto.
           replace (3 * (phi - PI / 3 + PI)) with (3 * phi + 2 * INR 1 * PI) by (simpl; field).
           rewrite cos_period. exact Q.
    + assert (P' : 0 < D) by (rewrite Rabs_pos_eq in G; lra).
      do 4 eexists; split; [ reflexivity | ].
      set (u := Rcbrt (sqrt D - q)). set (v := - Rcbrt (sqrt D + q)).
      assert (Hu : u * u * u = sqrt D - q) by apply Rcbrt_cube.
      assert (Hv : v * v * v = - (sqrt D + q)).
      { unfold v. assert (K := Rcbrt_cube (sqrt D + q)). lra. }
      exists [u + v - 1 / 3 * A]. split; [ reflexivity | ]. split; [ reflexivity | ]. split; [ apply NoDup1 | ].
      intros y. rewrite (cubic_shift (fun t => t = u + v)).
      * simpl. split; [ intros E; left; lra | intros [E|[]]; lra ].
      * now apply (dep_single_roots p q).
Qed.
End Cubic.
