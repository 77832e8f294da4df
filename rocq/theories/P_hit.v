(** Errors of compositions of machine operations. *)
From Coq Require Import ZArith Reals List Lia Lra Bool Psatz.
From Flocq Require Import Core BinarySingleNaN.
From Verif Require Import Ops M_scalar M_vec M_mat M_geom Inst_F S_vec S_rnd S_hit P_ieee P_fp.
Import ListNotations.
Local Open Scope R_scope.

Section FP.
Variables prec emax : Z.
Context {Hprec : Prec_gt_0 prec} {Hmax : Prec_lt_emax prec emax}.
Notation fl := (binary_float prec emax).
Notation u := (unit_roundoff prec).
Notation eta := (underflow_error prec emax).
Notation Om := (bpow radix2 emax).

Lemma near_le : forall (x : fl) a e e', near x a e -> e <= e' -> near x a e'.
Proof. intros x a e e' (F & H) L. split; [exact F|lra]. Qed.
Lemma near_exact : forall x : fl, is_finite x = true -> near x (B2R x) 0.
Proof. intros x F. split; [exact F|]. rewrite Rminus_diag_eq by reflexivity. rewrite Rabs_R0. lra. Qed.
Lemma near_val : forall (x : fl) a e A, near x a e -> Rabs a <= A -> Rabs (B2R x) <= A + e.
Proof. intros x a e A (_ & H) L. replace (B2R x) with (a + (B2R x - a)) by ring. eapply Rle_trans; [apply Rabs_triang|]. lra. Qed.
Lemma near_add : forall (x y : fl) a b e1 e2 A, near x a e1 -> near y b e2 -> Rabs (a + b) <= A -> (A + e1 + e2) * (1 + u) < Om ->
  near (o_add x y) (a + b) (e1 + e2 + u * (A + e1 + e2)).
Proof.
  intros x y a b e1 e2 A (Fx & Hx) (Fy & Hy) HA HO. assert (U := u_pos prec).
  assert (S : Rabs (B2R x + B2R y) <= A + e1 + e2).
  { replace (B2R x + B2R y) with (a + b + (B2R x - a) + (B2R y - b)) by ring. eapply Rle_trans; [apply Rabs_triang|]. apply Rplus_le_compat; [|exact Hy].
    eapply Rle_trans; [apply Rabs_triang|]. now apply Rplus_le_compat. }
  destruct (plus_ok prec emax x y Fx Fy) as (F & d & D & E). { eapply Rle_lt_trans; [|exact HO]. apply Rmult_le_compat_r; [lra|exact S]. }
  split; [exact F|]. rewrite E. replace ((B2R x + B2R y) * (1 + d) - (a + b)) with ((B2R x - a) + (B2R y - b) + d * (B2R x + B2R y)) by ring.
  eapply Rle_trans; [apply Rabs_triang|]. apply Rplus_le_compat.
  - eapply Rle_trans; [apply Rabs_triang|]. lra.
  - rewrite Rabs_mult. apply Rmult_le_compat; auto using Rabs_pos.
Qed.
Lemma near_sub : forall (x y : fl) a b e1 e2 A, near x a e1 -> near y b e2 -> Rabs (a - b) <= A -> (A + e1 + e2) * (1 + u) < Om ->
  near (o_sub x y) (a - b) (e1 + e2 + u * (A + e1 + e2)).
Proof.
  intros x y a b e1 e2 A (Fx & Hx) (Fy & Hy) HA HO. assert (U := u_pos prec).
  assert (Hy' : Rabs (b - B2R y) <= e2) by (rewrite Rabs_minus_sym; exact Hy).
  assert (S : Rabs (B2R x - B2R y) <= A + e1 + e2).
  { replace (B2R x - B2R y) with (a - b + (B2R x - a) + (b - B2R y)) by ring. eapply Rle_trans; [apply Rabs_triang|]. apply Rplus_le_compat; [|exact Hy'].
    eapply Rle_trans; [apply Rabs_triang|]. now apply Rplus_le_compat. }
  destruct (minus_ok prec emax x y Fx Fy) as (F & d & D & E). { eapply Rle_lt_trans; [|exact HO]. apply Rmult_le_compat_r; [lra|exact S]. }
  split; [exact F|]. rewrite E. replace ((B2R x - B2R y) * (1 + d) - (a - b)) with ((B2R x - a) + (b - B2R y) + d * (B2R x - B2R y)) by ring.
  eapply Rle_trans; [apply Rabs_triang|]. apply Rplus_le_compat.
  - eapply Rle_trans; [apply Rabs_triang|]. lra.
  - rewrite Rabs_mult. apply Rmult_le_compat; auto using Rabs_pos.
Qed.
Lemma prod_error : forall x y a b e1 e2 A B, Rabs (x - a) <= e1 -> Rabs (y - b) <= e2 -> Rabs a <= A -> Rabs b <= B ->
  Rabs (x * y - a * b) <= A * e2 + B * e1 + e1 * e2.
Proof.
  intros x y a b e1 e2 A B Hx Hy HA HB. replace (x * y - a * b) with (a * (y - b) + b * (x - a) + (x - a) * (y - b)) by ring.
  assert (P1 := Rabs_pos a). assert (P2 := Rabs_pos b). assert (P3 := Rabs_pos (x - a)). assert (P4 := Rabs_pos (y - b)).
  eapply Rle_trans; [apply Rabs_triang|]. apply Rplus_le_compat; [eapply Rle_trans; [apply Rabs_triang|]; apply Rplus_le_compat|]; rewrite Rabs_mult; apply Rmult_le_compat; auto.
Qed.
Lemma near_mul : forall (x y : fl) a b e1 e2 A B, near x a e1 -> near y b e2 -> Rabs a <= A -> Rabs b <= B -> (A + e1) * (B + e2) * (1 + u) + eta < Om ->
  near (o_mul x y) (a * b) (A * e2 + B * e1 + e1 * e2 + u * ((A + e1) * (B + e2)) + eta).
Proof.
  intros x y a b e1 e2 A B Nx Ny HA HB HO. assert (U := u_pos prec). assert (Vx := near_val _ _ _ _ Nx HA). assert (Vy := near_val _ _ _ _ Ny HB).
  destruct Nx as (Fx & Hx), Ny as (Fy & Hy).
  assert (S : Rabs (B2R x * B2R y) <= (A + e1) * (B + e2)) by (rewrite Rabs_mult; apply Rmult_le_compat; auto using Rabs_pos).
  destruct (mult_ok prec emax x y Fx Fy) as (F & d & e & D & De & E).
  { eapply Rle_lt_trans; [|exact HO]. apply Rplus_le_compat_r. apply Rmult_le_compat_r; [lra|exact S]. }
  split; [exact F|]. rewrite E. replace (B2R x * B2R y * (1 + d) + e - a * b) with ((B2R x * B2R y - a * b) + d * (B2R x * B2R y) + e) by ring.
  eapply Rle_trans; [apply Rabs_triang|]. apply Rplus_le_compat; [|exact De]. eapply Rle_trans; [apply Rabs_triang|]. apply Rplus_le_compat.
  - now apply prod_error.
  - rewrite Rabs_mult. apply Rmult_le_compat; auto using Rabs_pos.
Qed.
(** Inner products of vectors of space whose components are known up to an error *)
Lemma dot3_near : forall (v w : list fl) a b e1 e2 A B, Forall2 (fun x y => near x y e1) v a -> Forall2 (fun x y => near x y e2) w b -> length v = 3%nat -> length w = 3%nat ->
  Forall (fun x => Rabs x <= A) a -> Forall (fun x => Rabs x <= B) b -> 0 <= e1 -> 0 <= e2 -> 0 <= A -> 0 <= B -> u <= / 1000 ->
  4 * ((A + e1) * (B + e2)) + 4 * eta < Om ->
  near (v_dot v w) (rdot a b) (3 * (A * e2 + B * e1 + e1 * e2) + 10 * u * ((A + e1) * (B + e2)) + 4 * eta).
Proof.
  intros v w a b e1 e2 A B F1 F2 Lv Lw FA FB E1 E2 A0 B0 U3 HO. assert (U := u_pos prec). assert (ET := eta_pos prec emax).
  destruct v as [|x0 [|x1 [|x2 [|]]]]; try discriminate. destruct w as [|y0 [|y1 [|y2 [|]]]]; try discriminate.
  inversion F1 as [|? a0 ? a' X0 F1']; subst. inversion F1' as [|? a1 ? a'' X1 F1'']; subst. inversion F1'' as [|? a2 ? a''' X2 F1''']; subst. inversion F1'''; subst.
  inversion F2 as [|? b0 ? b' Y0 F2']; subst. inversion F2' as [|? b1 ? b'' Y1 F2'']; subst. inversion F2'' as [|? b2 ? b''' Y2 F2''']; subst. inversion F2'''; subst.
  inversion FA as [|? ? A0' FA']; subst. inversion FA' as [|? ? A1' FA'']; subst. inversion FA'' as [|? ? A2' _]; subst.
  inversion FB as [|? ? B0' FB']; subst. inversion FB' as [|? ? B1' FB'']; subst. inversion FB'' as [|? ? B2' _]; subst.
  set (G := (A + e1) * (B + e2)) in *. assert (G0 : 0 <= G) by (apply Rmult_le_pos; lra).
  assert (SZ : size_dot (values [x0; x1; x2]) (values [y0; y1; y2]) <= 3 * G).
  { unfold size_dot, values. cbn. assert (K : forall (x y : fl) a b, near x a e1 -> near y b e2 -> Rabs a <= A -> Rabs b <= B -> Rabs (B2R x) * Rabs (B2R y) <= G).
    { intros x y a b Nx Ny Ha Hb. apply Rmult_le_compat; auto using Rabs_pos; eapply near_val; eauto. }
    assert (K0 := K _ _ _ _ X0 Y0 A0' B0'). assert (K1 := K _ _ _ _ X1 Y1 A1' B1'). assert (K2 := K _ _ _ _ X2 Y2 A2' B2'). lra. }
  assert (SP := size_dot_pos (values [x0; x1; x2]) (values [y0; y1; y2])).
  assert (P3 : (1 + u) ^ 3 <= 1 + 333 / 100 * u) by (cbn; nra).
  assert (P3' : 1 <= (1 + u) ^ 3) by apply pow1.
  destruct (dot_ok prec emax [x0; x1; x2] [y0; y1; y2]) as (F & H); auto.
  { repeat constructor; [apply X0|apply X1|apply X2]. } { repeat constructor; [apply Y0|apply Y1|apply Y2]. }
  { unfold no_overflow. change (length [x0; x1; x2]) with 3%nat. replace (INR 3) with 3 by (cbn; ring). eapply Rle_lt_trans; [|exact HO].
    apply Rle_trans with ((1 + 333 / 100 * u) * (3 * G + 3 * eta)); [apply Rmult_le_compat; lra|]. nra. }
  split; [exact F|].
  replace (B2R (v_dot [x0; x1; x2] [y0; y1; y2]) - rdot [a0; a1; a2] [b0; b1; b2]) with
    ((B2R (v_dot [x0; x1; x2] [y0; y1; y2]) - rdot (values [x0; x1; x2]) (values [y0; y1; y2])) + (rdot (values [x0; x1; x2]) (values [y0; y1; y2]) - rdot [a0; a1; a2] [b0; b1; b2])) by ring.
  eapply Rle_trans; [apply Rabs_triang|].
  assert (H1 : Rabs (B2R (v_dot [x0; x1; x2] [y0; y1; y2]) - rdot (values [x0; x1; x2]) (values [y0; y1; y2])) <= 10 * u * G + 4 * eta).
  { eapply Rle_trans; [exact H|]. unfold rounding_error. change (length [x0; x1; x2]) with 3%nat. replace (INR 3) with 3 by (cbn; ring).
    set (sz := size_dot _ _) in *. clearbody sz. assert (((1 + u) ^ 3 - 1) * sz <= 333 / 100 * u * (3 * G)) by (apply Rmult_le_compat; lra).
    assert (3 * (1 + u) ^ 3 * eta <= 4 * eta) by (apply Rmult_le_compat_r; nra). nra. }
  assert (H2 : Rabs (rdot (values [x0; x1; x2]) (values [y0; y1; y2]) - rdot [a0; a1; a2] [b0; b1; b2]) <= 3 * (A * e2 + B * e1 + e1 * e2)).
  { assert (D0 := prod_error _ _ _ _ _ _ _ _ (proj2 X0) (proj2 Y0) A0' B0'). assert (D1 := prod_error _ _ _ _ _ _ _ _ (proj2 X1) (proj2 Y1) A1' B1'). assert (D2 := prod_error _ _ _ _ _ _ _ _ (proj2 X2) (proj2 Y2) A2' B2').
    unfold values. cbn. apply Rabs_le. apply Rabs_le_inv in D0, D1, D2. lra. }
  lra.
Qed.
End FP.
