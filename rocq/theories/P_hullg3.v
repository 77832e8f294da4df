(** Convex hulls of clusters of grid points: the statements with few hypotheses. *)
From Coq Require Import ZArith Reals List Lia Lra Bool Psatz.
From Flocq Require Import Core BinarySingleNaN.
From Verif Require Import Ops M_scalar M_vec M_mat M_hull Inst_F Inst_XR S_vec S_mat S_polygon S_hull S_rnd S_grid S_hullg.
From Verif Require Import P_ord P_ieee P_xr P_vec P_vec2 P_fp P_grid P_grid2 P_hull5 P_hullg P_hullg2.
Import ListNotations.
Local Open Scope R_scope.

Section Grid.
Variables prec emax : Z.
Context {Hprec : Prec_gt_0 prec} {Hmax : Prec_lt_emax prec emax}.
Notation fl := (binary_float prec emax).
Notation fits := (representable prec emax).

Theorem hull_cluster : forall e K D sort (p0 p1 : list fl) ps, sorts sort -> grid_cluster e K D (p0 :: p1 :: ps) ->
  (0 <= D)%Z -> fits e (K + K) -> fits (4 * e) (18 * D ^ 4) ->
  is_finite (colinear_epsilon : fl) = true -> 0 <= B2R (colinear_epsilon : fl) < bpow radix2 (4 * e) -> / 100000 < bpow radix2 (4 * e) ->
  (Exists (fun p => ~ collinear (values p0) (values p1) (values p)) ps ->
   exists hull, convex_hull sort (p0 :: p1 :: ps) = Ret hull /\ incl hull (p0 :: p1 :: ps)
     /\ (forall n, coplanar n (map values (p0 :: p1 :: ps)) -> hull_polygon n (map values (p0 :: p1 :: ps)) (map values hull))
     /\ exists axis, (axis < 3)%nat /\ seen_hull axis (map values (p0 :: p1 :: ps)) (map values hull))
  /\ (Forall (fun p => collinear (values p0) (values p1) (values p)) ps -> convex_hull sort (p0 :: p1 :: ps) = Ret []).
Proof.
  intros e K D sort p0 p1 ps HS C HD F1 F4 E1 E2 E3.
  assert (EE : (e + e + (e + e) = 4 * e)%Z) by lia.
  assert (M : (2 * (3 * (D * D) * (3 * (D * D))) = 18 * D ^ 4)%Z) by ring.
  assert (B : (3 * (D * D) <= 18 * D ^ 4)%Z).
  { replace (D ^ 4)%Z with (D * D * (D * D))%Z by ring. assert (0 <= D * D)%Z by nia. destruct (Z.eq_dec (D * D) 0); nia. }
  assert (F5 : fits (e + e) (3 * (D * D))).
  { unfold representable in *. destruct F1 as [L1 _], F4 as [L4 U4]. lia. }
  assert (F2 : fits (e + e) (2 * (D * D))) by (apply (fits_le prec emax _ _ _ F5); nia).
  apply (hull_grid prec emax e K D HD F1 F2); rewrite ?EE, ?M; auto.
Qed.
End Grid.
Lemma eps_double : is_finite (colinear_epsilon : double) = true /\ 0 <= B2R (colinear_epsilon : double) < bpow radix2 (-16).
Proof.
  assert (F : is_finite (colinear_epsilon : double) = true) by (vm_compute; reflexivity).
  assert (G : is_finite (D 1 (-16)) = true) by (vm_compute; reflexivity).
  assert (Z0 : is_finite (D 0 0) = true) by (vm_compute; reflexivity).
  split; [exact F|]. split.
  - assert (L : Bleb (D 0 0) (colinear_epsilon : double) = true) by (vm_compute; reflexivity).
    rewrite (Bleb_correct _ _ _ _ Z0 F) in L. apply Rle_bool_true_iff in L || (revert L; case Rle_bool_spec; [|discriminate]; intros L _).
    replace (B2R (D 0 0)) with 0 in L; [exact L|]. assert (E : D 0 0 = B754_zero false) by (vm_compute; reflexivity). rewrite E. reflexivity.
  - assert (L : Bltb (colinear_epsilon : double) (D 1 (-16)) = true) by (vm_compute; reflexivity).
    rewrite (Bltb_correct _ _ _ _ F G) in L. revert L. case Rlt_bool_spec; [|discriminate]. intros L _.
    eapply Rlt_le_trans; [exact L|]. right.
    assert (E : B2SF (D 1 (-16)) = SpecFloat.S754_finite false 4503599627370496 (-68)) by (vm_compute; reflexivity).
    rewrite <- SF2R_B2SF, E. cbn [SF2R]. unfold F2R. cbn [Fnum Fexp cond_Zopp]. change (bpow radix2 (-16)) with (bpow radix2 (52 + -68)). rewrite bpow_plus. f_equal.
Qed.
Theorem hull_double : forall e K D sort (p0 p1 : list double) ps, sorts sort -> grid_cluster e K D (p0 :: p1 :: ps) ->
  (-4 <= e <= 242)%Z -> (K < 2 ^ 52)%Z -> (0 <= D <= 4729)%Z ->
  (Exists (fun p => ~ collinear (values p0) (values p1) (values p)) ps ->
   exists hull, convex_hull sort (p0 :: p1 :: ps) = Ret hull /\ incl hull (p0 :: p1 :: ps)
     /\ (forall n, coplanar n (map values (p0 :: p1 :: ps)) -> hull_polygon n (map values (p0 :: p1 :: ps)) (map values hull))
     /\ exists axis, (axis < 3)%nat /\ seen_hull axis (map values (p0 :: p1 :: ps)) (map values hull))
  /\ (Forall (fun p => collinear (values p0) (values p1) (values p)) ps -> convex_hull sort (p0 :: p1 :: ps) = Ret []).
Proof.
  intros e K D0 sort p0 p1 ps HS C He HK HD. destruct eps_double as (F & L & U).
  assert (B : bpow radix2 (-16) <= bpow radix2 (4 * e)) by (apply bpow_le; lia).
  apply (hull_cluster 53 1024 e K D0); auto; try lia.
  - unfold representable. lia.
  - unfold representable. split; [lia|]. replace (18 * D0 ^ 4)%Z with (18 * ((D0 * D0) * (D0 * D0)))%Z by ring. assert (D0 * D0 <= 4729 * 4729)%Z by nia. assert (0 <= D0 * D0)%Z by nia.
    assert (D0 * D0 * (D0 * D0) <= (4729 * 4729) * (4729 * 4729))%Z by nia. lia.
  - split; [exact L|]. now apply Rlt_le_trans with (2 := B).
  - eapply Rlt_le_trans; [|exact B]. cbn. lra.
Qed.
