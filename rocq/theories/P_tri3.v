(** The plane through three machine points: double precision, single precision and a case (C107). *)
From Coq Require Import ZArith Reals List Lia Lra Bool Psatz.
From Flocq Require Import Core BinarySingleNaN.
From Verif Require Import Ops M_scalar M_vec M_geom Inst_F S_vec S_rnd S_hit S_tri P_ord P_ieee P_vec P_fp P_fp2 P_fp3 P_fp4 P_fp5 P_hit P_hit2 P_hit3 P_hit4 P_hit5 P_ft P_ft2 P_tri P_tri2.
Import ListNotations.
Local Open Scope R_scope.

Lemma from_points_double : forall (p1 p2 p3 : list double) M, within M p1 -> within M p2 -> within M p3 -> 1 <= M -> bpow radix2 80 * (M * M * (M * M)) <= bpow radix2 1024 ->
  / M <= rnorm (rsub (values p3) (values p1)) -> / M <= rnorm (rsub (values p2) (values p1)) -> fst (pl_from_points p1 p2 p3) = true ->
  forall q, In q [p1; p2; p3] -> Rabs (plane_distance (snd (pl_from_points p1 p2 p3)) q) <= 3 / 1000000 * M.
Proof.
  intros p1 p2 p3 M W1 W2 W3 M1 HM H1 H2 V q Hq. destruct (from_points_F 53 1024 ltac:(lia) ltac:(lia) p1 p2 p3 M W1 W2 W3 M1 HM H1 H2) as (LO & _ & PL). specialize (LO V). specialize (PL V).
  destruct (ae_near 53 1024 ltac:(lia) ltac:(lia)) as (_ & VA). apply Rabs_le_inv in VA. set (S := corner_sine (values p1) (values p2) (values p3)) in *. set (a := B2R angle_epsilon) in *. clearbody a.
  assert (UV : unit_roundoff 53 = / 9007199254740992) by reflexivity. assert (E1 : underflow_error 53 1024 <= / 1000000000000000). { apply Rle_trans with (bpow radix2 (-60)); [apply bpow_le; lia|]. cbn. lra. }
  rewrite UV in *. change (/ bpow radix2 40) with (/ 1099511627776) in LO. change (/ bpow radix2 30) with (/ 1073741824) in PL.
  assert (SB : 9998 / 1000000000000 <= S) by lra. destruct PL as (_ & _ & _ & PD & _); [lra|lra|]. eapply Rle_trans; [exact (PD q Hq)|].
  assert (S0 : 0 < S) by lra. apply Rmult_le_reg_r with S; [exact S0|]. replace (250 * (/ 9007199254740992 * M / S) * S) with (250 / 9007199254740992 * M) by (field; lra).
  apply Rle_trans with (3 / 1000000 * M * (9998 / 1000000000000)); [lra|apply Rmult_le_compat_l; lra].
Qed.

(** Points in double precision with coordinates below 16384 whose plane does not contain the second of them *)
Definition far1 : list double := [cst (-9970); cst (-9667); lit 157656 10].
Definition far2 : list double := [lit 116791 10; cst 14831; lit (-86395) 10].
Definition far3 : list double := [lit 951419 100; lit 123812 10; lit (-61989895) 10000].
Definition is_above (s : plane_status) : bool := match s with Above => true | _ => false end.
Lemma is_above_eq : forall s, is_above s = true -> s = Above. Proof. intros []; cbn; intros; try discriminate; reflexivity. Qed.
Lemma within_bool : forall prec emax (Hp : Prec_gt_0 prec) (Hm : Prec_lt_emax prec emax) (k : binary_float prec emax) M v, length v = 3%nat -> is_finite k = true /\ B2R k = M -> forallb (fun x => is_finite x && Bleb (Babs x) k) v = true -> within M v.
Proof.
  intros prec emax Hp Hm k M v L (Fk & Vk) H. split; [exact L|]. assert (X : forall x, In x v -> is_finite x = true /\ Rabs (B2R x) <= M).
  { intros x Hx. assert (Y := proj1 (forallb_forall _ _) H x Hx). apply andb_true_iff in Y as (Fx & Y). split; [exact Fx|]. rewrite Bleb_correct in Y; [|now rewrite is_finite_Babs|exact Fk]. rewrite B2R_Babs, Vk in Y. revert Y. case Rle_bool_spec; [auto|discriminate]. }
  split; [apply Forall_forall; intros x Hx; now apply X|]. unfold values. apply Forall_forall. intros y Hy. apply in_map_iff in Hy as (x & <- & Hx). now apply X.
Qed.
Lemma far_bool : forallb (forallb (fun x => is_finite x && Bleb (Babs x) (cst 16384 : double))) [far1; far2; far3] = true.
Proof. vm_cast_no_check (eq_refl true). Qed.
Lemma far_valid : fst (pl_from_points far1 far2 far3) = true.
Proof. vm_cast_no_check (eq_refl true). Qed.
Lemma far_status : is_above (pl_point_status (snd (pl_from_points far1 far2 far3)) far2 point_status_epsilon) = true.
Proof. vm_cast_no_check (eq_refl true). Qed.
Lemma far_plane : exists p1 p2 p3 : list double, within 16384 p1 /\ within 16384 p2 /\ within 16384 p3 /\ fst (pl_from_points p1 p2 p3) = true
  /\ pl_point_status (snd (pl_from_points p1 p2 p3)) p2 point_status_epsilon = Above.
Proof.
  assert (B := proj1 (forallb_forall _ _) far_bool). assert (K : is_finite (cst 16384 : double) = true /\ B2R (cst 16384 : double) = 16384) by (apply cst_double; cbn; lia).
  exists far1, far2, far3. split; [exact (within_bool 53 1024 _ _ _ _ far1 eq_refl K (B far1 (or_introl eq_refl)))|]. split; [exact (within_bool 53 1024 _ _ _ _ far2 eq_refl K (B far2 (or_intror (or_introl eq_refl))))|]. split; [exact (within_bool 53 1024 _ _ _ _ far3 eq_refl K (B far3 (or_intror (or_intror (or_introl eq_refl)))))|].
  split; [exact far_valid|]. exact (is_above_eq _ far_status).
Qed.

(** Points in single precision with coordinates below 7 whose plane is at distance 12 and more from the second of them *)
Definition near1 : list single := [lit (-2) 10; lit (-61) 10; lit (-47) 10].
Definition near2 : list single := [cst (-5); lit 64 10; lit 13 10].
Definition near3 : list single := [lit (-308) 100; lit 14 10; lit (-11) 10].
Lemma near_bool : forallb (forallb (fun x => is_finite x && Bleb (Babs x) (cst 7 : single))) [near1; near2; near3] = true.
Proof. vm_cast_no_check (eq_refl true). Qed.
Lemma near_valid : fst (pl_from_points near1 near2 near3) = true.
Proof. vm_cast_no_check (eq_refl true). Qed.
Lemma near_dist : o_lt (pl_point_distance (snd (pl_from_points near1 near2 near3)) near2) (cst (-12)) = true.
Proof. vm_cast_no_check (eq_refl true). Qed.
Lemma near_plane : exists p1 p2 p3 : list single, within 7 p1 /\ within 7 p2 /\ within 7 p3 /\ fst (pl_from_points p1 p2 p3) = true
  /\ o_lt (pl_point_distance (snd (pl_from_points p1 p2 p3)) p2) (cst (-12)) = true.
Proof.
  assert (B := proj1 (forallb_forall _ _) near_bool). assert (K : is_finite (cst 7 : single) = true /\ B2R (cst 7 : single) = 7) by (apply (F_cst 24 128); cbn; lia).
  exists near1, near2, near3. split; [exact (within_bool 24 128 _ _ _ _ near1 eq_refl K (B near1 (or_introl eq_refl)))|]. split; [exact (within_bool 24 128 _ _ _ _ near2 eq_refl K (B near2 (or_intror (or_introl eq_refl))))|]. split; [exact (within_bool 24 128 _ _ _ _ near3 eq_refl K (B near3 (or_intror (or_intror (or_introl eq_refl)))))|].
  split; [exact near_valid|]. exact near_dist.
Qed.

(** A case: a right angle *)
Definition tri1 : list double := [cst 1; cst 1; cst 1].
Definition tri2 : list double := [cst 1; cst 5; cst 1].
Definition tri3 : list double := [cst 4; cst 1; cst 1].
Lemma tri_bool : forallb (forallb (fun x => is_finite x && Bleb (Babs x) (cst 8 : double))) [tri1; tri2; tri3] = true.
Proof. vm_cast_no_check (eq_refl true). Qed.
Lemma tri_valid : fst (pl_from_points tri1 tri2 tri3) = true.
Proof. vm_cast_no_check (eq_refl true). Qed.
Lemma tri_case : (within 8 tri1 /\ within 8 tri2 /\ within 8 tri3) /\ bpow radix2 80 * (8 * 8 * (8 * 8)) <= bpow radix2 1024
  /\ / 8 <= rnorm (rsub (values tri3) (values tri1)) /\ / 8 <= rnorm (rsub (values tri2) (values tri1)) /\ fst (pl_from_points tri1 tri2 tri3) = true
  /\ corner_sine (values tri1) (values tri2) (values tri3) = 1 /\ bpow radix2 23 * (unit_roundoff 53 * 8) <= 1.
Proof.
  assert (B := proj1 (forallb_forall _ _) tri_bool). assert (K : is_finite (cst 8 : double) = true /\ B2R (cst 8 : double) = 8) by (apply cst_double; cbn; lia).
  split; [split; [exact (within_bool 53 1024 _ _ _ _ tri1 eq_refl K (B tri1 (or_introl eq_refl)))|]; split; [exact (within_bool 53 1024 _ _ _ _ tri2 eq_refl K (B tri2 (or_intror (or_introl eq_refl))))|exact (within_bool 53 1024 _ _ _ _ tri3 eq_refl K (B tri3 (or_intror (or_intror (or_introl eq_refl)))))]|].
  split. { replace (bpow radix2 80 * (8 * 8 * (8 * 8))) with (bpow radix2 92); [apply bpow_le; lia|]. change 92%Z with (80 + 12)%Z. rewrite bpow_plus. change (bpow radix2 12) with 4096. ring. }
  destruct (cst_double 1 ltac:(cbn; lia)) as (_ & V1). destruct (cst_double 5 ltac:(cbn; lia)) as (_ & V5). destruct (cst_double 4 ltac:(cbn; lia)) as (_ & V4).
  assert (T1 : values tri1 = [1; 1; 1]) by (unfold values, tri1; cbn [map]; now rewrite V1). assert (T2 : values tri2 = [1; 5; 1]) by (unfold values, tri2; cbn [map]; now rewrite V1, V5). assert (T3 : values tri3 = [4; 1; 1]) by (unfold values, tri3; cbn [map]; now rewrite V1, V4).
  rewrite T1, T2, T3. assert (N1 : rnorm (rsub [4; 1; 1] [1; 1; 1]) = 3) by (unfold rnorm, rsub; cbn; replace (_ + _) with (3 * 3) by ring; apply sqrt_square; lra). assert (N2 : rnorm (rsub [1; 5; 1] [1; 1; 1]) = 4) by (unfold rnorm, rsub; cbn; replace (_ + _) with (4 * 4) by ring; apply sqrt_square; lra).
  rewrite N1, N2. split; [lra|]. split; [lra|]. split; [exact tri_valid|]. split.
  - unfold corner_sine, corner. rewrite N1, N2. assert (N3 : rnorm (rcross (rsub [4; 1; 1] [1; 1; 1]) (rsub [1; 5; 1] [1; 1; 1])) = 12) by (unfold rnorm, rsub; cbn; replace (_ + _) with (12 * 12) by ring; apply sqrt_square; lra). rewrite N3. field.
  - change (unit_roundoff 53) with (/ 9007199254740992). change (bpow radix2 23) with 8388608. lra.
Qed.
