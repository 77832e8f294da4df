(** Transforming rays, lines and planes by machine matrices (C125). *)
From Coq Require Import ZArith Reals List Lia Lra Bool Psatz.
From Flocq Require Import Core BinarySingleNaN.
From Verif Require Import Ops M_scalar M_vec M_mat M_matext M_geom Inst_F S_vec S_mat S_affine S_rigid S_grid S_rnd S_hit S_lu S_tbox
  P_ord P_ieee P_vec P_fp P_fp3 P_fp4 P_fp5 P_fp7 P_fp8 P_hit P_hit2 P_ft P_tbox P_tbox2 P_tbox3 P_bbox3 P_affine P_plane P_tri P_tri2 P_tbox6 M_quat.
Import ListNotations.
Local Open Scope R_scope.

Section FP.
Variables prec emax : Z.
Context {Hprec : Prec_gt_0 prec} {Hmax : Prec_lt_emax prec emax}.
Notation fl := (binary_float prec emax).
Notation u := (unit_roundoff prec).
Notation eta := (underflow_error prec emax).
Notation Om := (bpow radix2 emax).
Hypothesis U20 : (20 <= prec)%Z.
Hypothesis E20 : (20 <= emax)%Z.

Lemma mat4 : forall m : list (list fl), is_mat 4 4 (mvalues m) -> exists a b c d e f g h i j k l n o p q, m = [[a; b; c; d]; [e; f; g; h]; [i; j; k; l]; [n; o; p; q]].
Proof.
  intros m (L & F). unfold mvalues in L, F. rewrite map_length in L. destruct m as [|c0 [|c1 [|c2 [|c3 [|]]]]]; try discriminate. cbn [map] in F.
  assert (L0 := Forall_inv F). assert (F1 := Forall_inv_tail F). assert (L1 := Forall_inv F1). assert (F2 := Forall_inv_tail F1). assert (L2 := Forall_inv F2). assert (L3 := Forall_inv (Forall_inv_tail F2)). clear F F1 F2.
  unfold values in *. rewrite map_length in *. destruct c0 as [|a [|b [|c [|d [|]]]]]; try discriminate. destruct c1 as [|e [|f [|g [|h [|]]]]]; try discriminate. destruct c2 as [|i [|j [|k [|l [|]]]]]; try discriminate. destruct c3 as [|n [|o [|p [|q [|]]]]]; try discriminate.
  repeat eexists.
Qed.
Lemma strip_ok : forall (m : list (list fl)) K T, affine_up_to K T m -> affine_up_to K 0 (strip_translation 4 m) /\ forall d, length d = 3%nat -> raffine 3 (mvalues (strip_translation 4 m)) d = moved 3 (mvalues m) d.
Proof.
  intros m K T (Fm & Am & Bm). destruct (F_cst0 prec emax) as (F0 & V0). destruct (mat4 m (proj1 Am)) as (a & b & c & d & e & f & g & h & i & j & k & l & n & o & p & q & ->).
  change (strip_translation 4 _) with [[a; b; c; d]; [e; f; g; h]; [i; j; k; l]; [cst 0; cst 0; cst 0; q]]. 
  assert (Q := proj2 Am). split; [split; [|split]|].
  - assert (X0 := Forall_inv Fm). assert (G1 := Forall_inv_tail Fm). assert (X1 := Forall_inv G1). assert (G2 := Forall_inv_tail G1). assert (X2 := Forall_inv G2). assert (X3 := Forall_inv (Forall_inv_tail G2)).
    apply Forall_cons; [exact X0|]. apply Forall_cons; [exact X1|]. apply Forall_cons; [exact X2|]. apply Forall_cons; [|constructor]. assert (XQ := Forall_inv (Forall_inv_tail (Forall_inv_tail (Forall_inv_tail X3)))). repeat (apply Forall_cons; [assumption|]). constructor.
  - split; [split; [reflexivity|repeat constructor]|]. intros r Hr. specialize (Q r Hr). destruct r as [|[|[|[|]]]]; [| | | |lia]; exact Q.
  - intros r Hr. split; [|destruct r as [|[|[|]]]; [| | |lia]; unfold ent, mvalues, values; cbn [map nth]; rewrite V0, Rabs_R0; lra].
    destruct (Bm r Hr) as (B1 & _). destruct r as [|[|[|]]]; [| | |lia]; exact B1.
  - intros v Lv. destruct v as [|x [|y [|z [|]]]]; try discriminate. unfold moved, rzero. cbn [repeat]. rewrite !raffine3. unfold ent, mvalues, values, rsub. cbn [map nth zip]. rewrite V0. (apply f_equal2; [ring|]). (apply f_equal2; [ring|]). (apply f_equal2; [ring|reflexivity]).
Qed.

(** Directions *)
Lemma direction_ok : forall (m : list (list fl)) (d : list fl) D K T, within D d -> affine_up_to K T m -> 2 * (K * D + 1) <= Om ->
  let W := moved 3 (mvalues m) (values d) in let N := rnorm W in let E := image_error prec emax K D 0 in
  8 * E <= N -> bpow radix2 (5 - emax / 2) <= N <= bpow radix2 (emax / 2 - 2) -> let n := v_normalize (m_mul_p 4 (strip_translation 4 m) d) in
  nearly_unit n /\ Forall2 (fun x y => Rabs (B2R x - y / N) <= 9 * u + 4 * E / N) n W.
Proof.
  intros m d D K T Wd Am HO W N E HE HN n. destruct (u_small prec ltac:(assumption)) as (U0 & U1). assert (EU := eta_le_u prec emax ltac:(lia)) || assert (EU := eta_le_u prec emax).
  destruct (strip_ok m K T Am) as (As & Es). assert (Ld : length (values d) = 3%nat) by (unfold values; rewrite map_length; apply Wd).
  assert (C := point_transform prec emax ltac:(assumption) ltac:(assumption) _ d D K 0 Wd As ltac:(lra)). rewrite Es in C by exact Ld. fold W in C. fold E in C. subst n.
  assert (Lc := mul_p_len prec emax (strip_translation 4 m) d). set (c := m_mul_p 4 (strip_translation 4 m) d) in *. 
  assert (Fc : all_finite c) by (clear - C; induction C as [|? ? ? ? X _ IH]; constructor; [apply X|exact IH]).
  assert (N0 : 0 < N) by (assert (B := bpow_gt_0 radix2 (5 - emax / 2)); lra).
  assert (LW : length W = 3%nat) by exact (rlin_length 3 _ _).
  assert (E0 : 0 <= E). { destruct C as [|x y ? ? X _]; [discriminate|]. destruct X as (_ & X). assert (P := Rabs_pos (B2R x - y)). lra. }
  assert (NC : Rabs (rnorm (values c) - N) <= 3 * E).
  { apply Rle_trans with (0 * rnorm W + INR (length W) * E); [|rewrite LW; cbn [INR]; lra]. apply norm_close; [lra|lra|]. clear - C. unfold values. induction C as [|x y ? ? X _ IH]; [apply Forall2_nil|]. apply Forall2_cons; [destruct X as (_ & X); lra|exact IH]. }
  apply Rabs_le_inv in NC.
  assert (MO : moderate emax (values c)).
  { unfold moderate. replace (5 - emax / 2)%Z with (1 + (4 - emax / 2))%Z in HN by ring. replace (emax / 2 - 1)%Z with (1 + (emax / 2 - 2))%Z by ring. rewrite bpow_plus in *. change (bpow radix2 1) with 2 in *. lra. }
  destruct (unit_of prec emax U20 c Lc Fc MO) as (NU & NV). split; [exact NU|].
  assert (CL : forall z, In z c -> Rabs (B2R z) <= rnorm (values c)) by (intros z Hz; apply component_le_norm; unfold values; now apply in_map).
  set (r := rnorm (values c)) in *. assert (R0 : 0 < r) by lra. clear NU MO Fc Lc LW Es. clearbody N r E. generalize dependent (v_normalize c). intros n NV. revert n NV.
  induction C as [|x y cl Cl NX _ IH]; intros n HV; [inversion HV; apply Forall2_nil|]. inversion HV as [|? k ? nl HX HR]; subst. apply Forall2_cons; [|apply IH; [intros z Hz; apply CL; now right|exact HR]].
  assert (XR := CL x (or_introl eq_refl)). destruct NX as (_ & NX). clear IH HV HR CL. set (xv := B2R x) in *.
  assert (XQ2 : Rabs xv / r <= 1). { unfold Rdiv. apply Rmult_le_reg_r with r; [exact R0|]. rewrite Rmult_assoc, Rinv_l by lra. lra. }
  assert (XQ : Rabs (xv / r) <= 1). { unfold Rdiv. rewrite Rabs_mult, (Rabs_pos_eq (/ r)) by (apply Rlt_le, Rinv_0_lt_compat; exact R0). exact XQ2. }
  assert (H1 : Rabs (B2R k - xv / r) <= 9 * u). { apply Rle_trans with (1 := HX). assert (P : 0 <= Rabs xv / r) by (apply Rmult_le_pos; [apply Rabs_pos|apply Rlt_le, Rinv_0_lt_compat; exact R0]). assert (8 * u * (Rabs xv / r) <= 8 * u * 1) by (apply Rmult_le_compat_l; lra). lra. }
  assert (H2 : Rabs (xv / r - y / N) <= 4 * E / N).
  { replace (xv / r - y / N) with ((xv - y) / N + xv / r * ((N - r) / N)) by (field; lra). assert (Q : forall a b, Rabs a <= b -> Rabs (a / N) <= b / N). { intros a b Ha. unfold Rdiv. rewrite Rabs_mult, (Rabs_pos_eq (/ N)) by (apply Rlt_le, Rinv_0_lt_compat; exact N0). apply Rmult_le_compat_r; [apply Rlt_le, Rinv_0_lt_compat; exact N0|exact Ha]. }
    assert (K1 := Q _ _ NX). assert (K2 : Rabs ((N - r) / N) <= 3 * E / N) by (apply Q; apply Rabs_le; lra). assert (K3 : Rabs (xv / r * ((N - r) / N)) <= 1 * (3 * E / N)) by (rewrite Rabs_mult; apply Rmult_le_compat; auto using Rabs_pos).
    eapply Rle_trans; [apply Rabs_triang|]. replace (4 * E / N) with (E / N + 1 * (3 * E / N)) by (field; lra). lra. }
  replace (B2R k - y / N) with ((B2R k - xv / r) + (xv / r - y / N)) by ring. eapply Rle_trans; [apply Rabs_triang|]. lra.
Qed.
(** The points of lines *)
Lemma points_ok : forall (o n : list fl) P W N e G t, Forall2 (fun x y => near x y e) o P -> Forall2 (fun x y => Rabs (B2R x - y / N) <= G) n W -> length P = 3%nat -> length W = 3%nat -> 0 < N ->
  Forall2 (fun x y => Rabs (x - y) <= e + Rabs t * N * G) (rpoint (values o) (values n) (t * N)) (rpoint P W t).
Proof.
  intros o n P W N e G t HP HW LP LW N0. destruct P as [|P0 [|P1 [|P2 [|]]]]; try discriminate. destruct W as [|W0 [|W1 [|W2 [|]]]]; try discriminate.
  inversion HP as [|o0 ? ? ? O0 HP1]; subst. inversion HP1 as [|o1 ? ? ? O1 HP2]; subst. inversion HP2 as [|o2 ? ? ? O2 HP3]; subst. inversion HP3; subst.
  inversion HW as [|n0 ? ? ? X0 HW1]; subst. inversion HW1 as [|n1 ? ? ? X1 HW2]; subst. inversion HW2 as [|n2 ? ? ? X2 HW3]; subst. inversion HW3; subst. clear HP HP1 HP2 HP3 HW HW1 HW2 HW3.
  assert (Q : forall (a b : fl) p w, near a p e -> Rabs (B2R b - w / N) <= G -> Rabs (B2R a + t * N * B2R b - (p + t * w)) <= e + Rabs t * N * G).
  { intros a b p w (_ & A) B. replace (B2R a + t * N * B2R b - (p + t * w)) with ((B2R a - p) + t * N * (B2R b - w / N)) by (field; lra). eapply Rle_trans; [apply Rabs_triang|]. apply Rplus_le_compat; [exact A|].
    rewrite !Rabs_mult, (Rabs_pos_eq N) by lra. apply Rmult_le_compat_l; [|exact B]. apply Rmult_le_pos; [apply Rabs_pos|lra]. }
  unfold rpoint, values. cbn [map rscale radd zip]. repeat (apply Forall2_cons; [apply Q; assumption|]). constructor.
Qed.
Lemma pointed_ok : forall (m : list (list fl)) (o d : list fl) M D K T, within M o -> within D d -> affine_up_to K T m -> 2 * (K * M + T + 1) <= Om -> 2 * (K * D + 1) <= Om ->
  let A := mvalues m in let W := moved 3 A (values d) in let N := rnorm W in let E := image_error prec emax K D 0 in
  8 * E <= N -> bpow radix2 (5 - emax / 2) <= N <= bpow radix2 (emax / 2 - 2) -> let o' := m_mul_p 4 m o in let n := v_normalize (m_mul_p 4 (strip_translation 4 m) d) in
  Forall2 (fun x y => near x y (image_error prec emax K M T)) o' (raffine 3 A (values o))
  /\ nearly_unit n /\ Forall2 (fun x y => Rabs (B2R x - y / N) <= 9 * u + 4 * E / N) n W
  /\ forall t, Forall2 (fun x y => Rabs (x - y) <= image_error prec emax K M T + Rabs t * N * (9 * u + 4 * E / N)) (rpoint (values o') (values n) (t * N)) (raffine 3 A (rpoint (values o) (values d) t)).
Proof.
  intros m o d M D K T Wo Wd Am HO HD A W N E HE HN o' n. assert (PT := point_transform prec emax ltac:(assumption) ltac:(assumption) m o M K T Wo Am HO). fold A o' in PT.
  destruct (direction_ok m d D K T Wd Am HD HE HN) as (NU & ND). fold n in NU, ND. fold A W N E in ND. split; [exact PT|]. split; [exact NU|]. split; [exact ND|]. intros t.
  assert (N0 : 0 < N) by (assert (B := bpow_gt_0 radix2 (5 - emax / 2)); lra).
  rewrite raffine_point by (unfold values; rewrite map_length; [apply Wo|apply Wd] || (unfold values; rewrite map_length; first [apply Wo|apply Wd])). change (rlin 3 A (values d)) with W.
  apply points_ok; auto.
Qed.
Lemma ray_ok : forall (r : ray fl) m M D K T, within M (ray_origin r) -> within D (ray_dir r) -> affine_up_to K T m ->
  2 * (K * M + T + 1) <= Om -> 2 * (K * D + 1) <= Om ->
  let A := mvalues m in let W := moved 3 A (values (ray_dir r)) in let N := rnorm W in let E := image_error prec emax K D 0 in let e := image_error prec emax K M T in
  8 * E <= N -> bpow radix2 (5 - emax / 2) <= N <= bpow radix2 (emax / 2 - 2) -> let s := ray_transform 4 r m in
  Forall2 (fun x y => near x y e) (ray_origin s) (raffine 3 A (values (ray_origin r)))
  /\ nearly_unit (ray_dir s) /\ Forall2 (fun x y => Rabs (B2R x - y / N) <= 9 * u + 4 * E / N) (ray_dir s) W
  /\ forall t, Forall2 (fun x y => Rabs (x - y) <= e + Rabs t * N * (9 * u + 4 * E / N))
       (rpoint (values (ray_origin s)) (values (ray_dir s)) (t * N)) (raffine 3 A (rpoint (values (ray_origin r)) (values (ray_dir r)) t)).
Proof. intros x m M D K T Wo Wd Am H1 H2. exact (pointed_ok m _ _ M D K T Wo Wd Am H1 H2). Qed.
Lemma line_ok : forall (l : M_geom.line fl) m M D K T, within M (ln_point l) -> within D (ln_dir l) -> affine_up_to K T m ->
  2 * (K * M + T + 1) <= Om -> 2 * (K * D + 1) <= Om ->
  let A := mvalues m in let W := moved 3 A (values (ln_dir l)) in let N := rnorm W in let E := image_error prec emax K D 0 in let e := image_error prec emax K M T in
  8 * E <= N -> bpow radix2 (5 - emax / 2) <= N <= bpow radix2 (emax / 2 - 2) -> let s := ln_transform 4 l m in
  Forall2 (fun x y => near x y e) (ln_point s) (raffine 3 A (values (ln_point l)))
  /\ nearly_unit (ln_dir s) /\ Forall2 (fun x y => Rabs (B2R x - y / N) <= 9 * u + 4 * E / N) (ln_dir s) W
  /\ forall t, Forall2 (fun x y => Rabs (x - y) <= e + Rabs t * N * (9 * u + 4 * E / N))
       (rpoint (values (ln_point s)) (values (ln_dir s)) (t * N)) (raffine 3 A (rpoint (values (ln_point l)) (values (ln_dir l)) t)).
Proof. intros x m M D K T Wo Wd Am H1 H2. exact (pointed_ok m _ _ M D K T Wo Wd Am H1 H2). Qed.
(** Planes *)
Lemma anchor_ok : forall (p : plane fl) M, nearly_unit (pl_normal p) -> is_finite (pl_dist p) = true -> Rabs (B2R (pl_dist p)) <= M -> 1 <= M -> 4 * M <= Om ->
  Forall2 (fun x y => near x y (11 / 10 * (u * M)) /\ Rabs y <= 1001 / 1000 * M) (pl_anchor p) (rscale (B2R (pl_dist p)) (values (pl_normal p))).
Proof.
  intros p M NU FD BD M1 HO. destruct (u_small prec ltac:(assumption)) as (U0 & U1). destruct (eta_small prec emax ltac:(lia)) as (E0 & E1).
  destruct (unit_facts prec emax ltac:(assumption) _ NU) as (NB & _). destruct NU as (_ & Fn & _). unfold pl_anchor, v_scale, rscale, values in *. set (d := pl_dist p) in *. clearbody d. generalize dependent (pl_normal p). intros l NB Fl. assert (UM : u <= u * M) by nra.
  induction l as [|x l IH]; cbn [map]; [constructor|]. cbn [map] in NB. assert (X1 := Forall_inv NB). assert (FX := Forall_inv Fl). apply Forall2_cons; [|apply IH; [exact (Forall_inv_tail NB)|exact (Forall_inv_tail Fl)]].
  assert (XD : Rabs (B2R x * B2R d) <= 1001 / 1000 * M) by (rewrite Rabs_mult; apply Rmult_le_compat; auto using Rabs_pos). rewrite (Rmult_comm (B2R d)). split; [|exact XD].
  eapply near_le; [apply (near_mul prec emax x d (B2R x) (B2R d) 0 0 (1001 / 1000) M)|]; try assumption; try (apply near_exact; assumption).
  - rewrite !Rplus_0_r. assert (OB := om_big emax ltac:(lia)). nra.
  - lra.
Qed.
Lemma affine_apart : forall (m : list (list fl)) K T (a b : list R) e X, affine_up_to K T m -> Forall2 (fun x y => Rabs (x - y) <= e /\ Rabs y <= X) a b -> length a = 3%nat ->
  Forall2 (fun x y => Rabs (x - y) <= K * e /\ Rabs y <= K * X + T) (raffine 3 (mvalues m) a) (raffine 3 (mvalues m) b).
Proof.
  intros m K T a b e X (_ & _ & Bm) HF La. destruct a as [|a0 [|a1 [|a2 [|]]]]; try discriminate. inversion HF as [|? b0 ? ? Q0 HF1]; subst. inversion HF1 as [|? b1 ? ? Q1 HF2]; subst. inversion HF2 as [|? b2 ? ? Q2 HF3]; subst. inversion HF3; subst. clear HF HF1 HF2 HF3.
  rewrite !raffine3. set (A := mvalues m) in *.
  assert (S3 : forall p q r x y z s, Rabs p + Rabs q + Rabs r <= K -> Rabs x <= s -> Rabs y <= s -> Rabs z <= s -> Rabs (p * x + q * y + r * z) <= K * s).
  { intros p q r x y z s H X0 X1 X2. assert (P0 := Rabs_pos p). assert (P1 := Rabs_pos q). assert (P2 := Rabs_pos r). assert (PS := Rabs_pos x). eapply Rle_trans; [apply Rabs_triang|]. apply Rle_trans with (Rabs p * s + Rabs q * s + Rabs r * s).
    - apply Rplus_le_compat; [eapply Rle_trans; [apply Rabs_triang|]; apply Rplus_le_compat|]; rewrite Rabs_mult; apply Rmult_le_compat_l; auto using Rabs_pos.
    - rewrite <- !Rmult_plus_distr_r. apply Rmult_le_compat_r; lra. }
  assert (Q : forall r, (r < 3)%nat -> Rabs (ent A r 0 * a0 + ent A r 1 * a1 + ent A r 2 * a2 + ent A r 3 - (ent A r 0 * b0 + ent A r 1 * b1 + ent A r 2 * b2 + ent A r 3)) <= K * e /\ Rabs (ent A r 0 * b0 + ent A r 1 * b1 + ent A r 2 * b2 + ent A r 3) <= K * X + T).
  { intros r Hr. destruct (Bm r Hr) as (B1 & B2). split.
    - replace (_ - _) with (ent A r 0 * (a0 - b0) + ent A r 1 * (a1 - b1) + ent A r 2 * (a2 - b2)) by ring. apply S3; tauto.
    - eapply Rle_trans; [apply Rabs_triang|]. apply Rplus_le_compat; [apply S3; tauto|exact B2]. }
  apply Forall2_cons; [apply (Q 0%nat); lia|]. apply Forall2_cons; [apply (Q 1%nat); lia|]. apply Forall2_cons; [apply (Q 2%nat); lia|constructor].
Qed.
Lemma plane_ok_F : forall (m : list (list fl)) (p : plane fl) M K T, nearly_unit (pl_normal p) -> is_finite (pl_dist p) = true -> Rabs (B2R (pl_dist p)) <= M -> 1 <= M -> 4 * M <= Om -> affine_up_to K T m ->
  let B := K * M + T in 8 * (B + 1) <= Om -> 3 * (K + 1) <= Om ->
  let A := mvalues m in let W := moved 3 A (values (pl_normal p)) in let N := rnorm W in let E := image_error prec emax K (1001 / 1000) 0 in let G := 9 * u + 4 * E / N in
  8 * E <= N -> bpow radix2 (5 - emax / 2) <= N <= bpow radix2 (emax / 2 - 2) -> let p' := pl_transform 4 p m in
  nearly_unit (pl_normal p') /\ Forall2 (fun x y => Rabs (B2R x - y / N) <= G) (pl_normal p') W
  /\ near (pl_dist p') (rdot (raffine 3 A (rscale (B2R (pl_dist p)) (values (pl_normal p)))) (rscale (/ N) W)) (4 * B * G + 90 * (u * B + eta)).
Proof.
  intros m p M K T NU FD BD M1 HM Am B HB HK A W N E G HE HN p'. destruct (u_small prec ltac:(assumption)) as (U0 & U1). destruct (eta_small prec emax ltac:(lia)) as (E0 & E1).
  assert (K0 : 0 <= K /\ 0 <= T). { destruct Am as (_ & _ & Bm). destruct (Bm 0%nat ltac:(lia)) as (B1 & B2). assert (P0 := Rabs_pos (ent (mvalues m) 0 0)). assert (P1 := Rabs_pos (ent (mvalues m) 0 1)). assert (P2 := Rabs_pos (ent (mvalues m) 0 2)). assert (P3 := Rabs_pos (ent (mvalues m) 0 3)). lra. }
  destruct K0 as (K0 & T0). assert (KM : 0 <= K * M) by (apply Rmult_le_pos; lra).
  assert (Wn : within (1001 / 1000) (pl_normal p)). { destruct (unit_facts prec emax ltac:(assumption) _ NU) as (NB & _). destruct NU as (L & F & _). repeat split; assumption. }
  destruct (direction_ok m (pl_normal p) (1001 / 1000) K T Wn Am ltac:(lra) HE HN) as (NU' & ND). fold A in ND. fold W in ND. fold N in ND. fold E in ND. fold G in ND.
  split; [exact NU'|]. split; [exact ND|].
  assert (AN := anchor_ok p M NU FD BD M1 HM). assert (La : length (pl_anchor p) = 3%nat) by (unfold pl_anchor, v_scale; rewrite map_length; apply NU).
  assert (UM : u * M <= / 1000000 * M) by (apply Rmult_le_compat_r; lra).
  assert (Wa : within (11 / 10 * M) (pl_anchor p)).
  { split; [exact La|]. clear - AN UM M1. unfold values. induction AN as [|x y ? ? X _ IH]; [split; constructor|]. destruct X as ((F & X) & Y). destruct IH as (I1 & I2). split; constructor; auto.
    apply Rabs_le_inv in X, Y. apply Rabs_le. lra. }
  assert (PT := point_transform prec emax ltac:(assumption) ltac:(assumption) m _ _ K T Wa Am ltac:(unfold B in *; lra)). fold A in PT.
  assert (AA := affine_apart m K T (values (pl_anchor p)) (rscale (B2R (pl_dist p)) (values (pl_normal p))) (11 / 10 * (u * M)) (1001 / 1000 * M) Am). fold A in AA. 
  assert (AA' := AA ltac:(clear - AN; unfold values at 1; induction AN as [|x y ? ? X _ IH]; [constructor|]; apply Forall2_cons; [destruct X as ((_ & X) & Y); split; assumption|exact IH]) ltac:(unfold values; rewrite map_length; exact La)). clear AA.
  set (P := raffine 3 A (rscale (B2R (pl_dist p)) (values (pl_normal p)))) in *.
  assert (UB : 0 <= u * B) by (apply Rmult_le_pos; unfold B; lra). assert (UKM : 0 <= u * (K * M) <= u * B) by (split; [apply Rmult_le_pos; lra|apply Rmult_le_compat_l; unfold B; lra]).
  assert (NP : Forall2 (fun x y => near x y (13 * (u * B + eta))) (m_mul_p 4 m (pl_anchor p)) P /\ Forall (fun y => Rabs y <= 1001 / 1000 * B) P).
  { assert (Ee : image_error prec emax K (11 / 10 * M) T + K * (11 / 10 * (u * M)) <= 13 * (u * B + eta)). { unfold image_error. assert (u * (K * (11 / 10 * M) + T) <= 11 / 10 * (u * B)) by (unfold B; assert (0 <= u * T) by (apply Rmult_le_pos; lra); lra). lra. }
    assert (Eb : K * (1001 / 1000 * M) + T <= 1001 / 1000 * B) by (unfold B; lra). clear - PT AA' Ee Eb. revert PT. generalize (m_mul_p 4 m (pl_anchor p)). induction AA' as [|x y ? ? X _ IH]; intros zs PT; inversion PT as [|z ? ? ? Z PT']; subst; [split; constructor|].
    destruct (IH _ PT') as (I1 & I2). split; constructor; auto; [|lra]. destruct Z as (F & Z). split; [exact F|]. replace (B2R z - y) with ((B2R z - x) + (x - y)) by ring. eapply Rle_trans; [apply Rabs_triang|]. lra. }
  destruct NP as (NP & BP). set (n := v_normalize (m_mul_p 4 (strip_translation 4 m) (pl_normal p))) in *. assert (Ln : length n = 3%nat) by apply NU'.
  assert (N0 : 0 < N) by (assert (Bp := bpow_gt_0 radix2 (5 - emax / 2)); lra).
  assert (NN : Forall2 (fun x y => near x y G) n (rscale (/ N) W)).
  { assert (Fn : all_finite n) by apply NU'. clear - ND Fn. clearbody G. clearbody N. clearbody W n. unfold rscale. induction ND as [|x y ? ? X _ IH]; [constructor|]. cbn [map]. apply Forall2_cons; [split; [exact (Forall_inv Fn)|]; rewrite Rmult_comm; exact X|apply IH; exact (Forall_inv_tail Fn)]. }
  assert (BN : Forall (fun y => Rabs y <= 1) (rscale (/ N) W)).
  { apply Forall_forall. intros y Hy. unfold rscale in Hy. apply in_map_iff in Hy as (w & <- & Hw). assert (C := component_le_norm W w Hw). fold N in C. rewrite Rabs_mult, Rabs_pos_eq by (apply Rlt_le, Rinv_0_lt_compat; exact N0). apply Rmult_le_reg_l with N; [exact N0|]. rewrite <- Rmult_assoc, Rinv_r by lra. lra. }
  assert (EP : 0 <= E). { unfold E, image_error. assert (0 <= u * (K * (1001 / 1000) + 0)) by (apply Rmult_le_pos; lra). lra. }
  assert (G1 : 0 <= G <= 6 / 10). { unfold G. assert (QE : 0 <= 4 * E / N <= / 2). { split; [apply Rmult_le_pos; [lra|apply Rlt_le, Rinv_0_lt_compat; exact N0]|]. apply Rmult_le_reg_r with N; [exact N0|]. unfold Rdiv. rewrite Rmult_assoc, Rinv_l by lra. lra. } lra. }
  assert (B0 : 0 <= B) by (unfold B; lra). assert (UBB : u * B <= / 1000000 * B) by (apply Rmult_le_compat_r; lra). clearbody G.
  set (e1 := 13 * (u * B + eta)) in *. assert (e1P : 0 <= e1 <= 13 / 1000000 * B + 13 / 100000) by (unfold e1; lra).
  eapply near_le; [apply (dot3_near prec emax (m_mul_p 4 m (pl_anchor p)) n P (rscale (/ N) W) e1 G (1001 / 1000 * B) 1)|]; auto; try apply mul_p_len; try lra.
  - assert ((1001 / 1000 * B + e1) * (1 + G) <= (1001 / 1000 * B + e1) * (16 / 10)) by (apply Rmult_le_compat_l; lra). lra.
  - assert (Q1 : e1 * G <= e1 * (6 / 10)) by (apply Rmult_le_compat_l; lra). assert (BG : 0 <= B * G) by (apply Rmult_le_pos; lra).
    assert (Q2 : 10 * u * ((1001 / 1000 * B + e1) * (1 + G)) <= 10 * u * ((1001 / 1000 * B + e1) * (16 / 10))) by (apply Rmult_le_compat_l; [lra|]; apply Rmult_le_compat_l; lra).
    assert (Q3 : u * e1 <= / 1000000 * e1) by (apply Rmult_le_compat_r; lra). unfold e1 in *. nra.
Qed.
End FP.

Definition trf_ray : ray double := Ray v345 pos_x3.
Definition trf_plane : plane double := Pl (cst 2) pos_x3.
Lemma case_trf : within 12 (ray_origin trf_ray) /\ within 1 (ray_dir trf_ray) /\ affine_up_to 4 7 m345 /\ 2 * (4 * 12 + 7 + 1) <= bpow radix2 1024 /\ 2 * (4 * 1 + 1) <= bpow radix2 1024
  /\ moved 3 (mvalues m345) (values (ray_dir trf_ray)) = [2; 0; 1] /\ 8 * image_error 53 1024 4 (1001 / 1000) 0 <= rnorm [2; 0; 1]
  /\ bpow radix2 (5 - 1024 / 2) <= rnorm [2; 0; 1] <= bpow radix2 (1024 / 2 - 2)
  /\ nearly_unit (pl_normal trf_plane) /\ is_finite (pl_dist trf_plane) = true /\ Rabs (B2R (pl_dist trf_plane)) <= 2 /\ 8 * (4 * 2 + 7 + 1) <= bpow radix2 1024.
Proof.
  assert (B := bpow_1024). destruct case_tbox as (_ & _ & W & A & _). destruct case_axis7 as (NU & F2 & _). assert (C : forall n, (Z.abs n <= 2 ^ 53)%Z -> is_finite (cst n : double) = true /\ B2R (cst n : double) = IZR n) by exact cst_double.
  destruct (C 0%Z ltac:(lia)) as [F0 V0]. destruct (C 1%Z ltac:(lia)) as [F1 V1]. destruct (C 2%Z ltac:(lia)) as [_ V2].
  assert (EM : mvalues m345 = [[2; 0; 1; 0]; [0; 3; -1; 0]; [1; 1; 1; 0]; [5; 6; 7; 1]]).
  { unfold mvalues, m345, values. cbn [map]. rewrite !(fun n H => proj2 (C n H)) by lia. reflexivity. }
  assert (EX : values (pos_x3 : list double) = [1; 0; 0]). { unfold pos_x3, values. transitivity [B2R (cst 1 : double); B2R (cst 0 : double); B2R (cst 0 : double)]; [reflexivity|]. rewrite V0, V1. reflexivity. }
  assert (NR : 2 <= rnorm [2; 0; 1] <= 3). { unfold rnorm. replace (rdot [2; 0; 1] [2; 0; 1]) with 5 by (cbn; ring). split; [rewrite <- (sqrt_square 2) by lra|rewrite <- (sqrt_square 3) by lra]; apply sqrt_le_1; lra. }
  split; [exact W|]. split. { split; [reflexivity|]. split; [apply NU|]. unfold trf_ray. cbn [ray_dir]. rewrite EX. repeat (apply Forall_cons; [apply Rabs_le; lra|]). constructor. }
  split; [exact A|]. split; [lra|]. split; [lra|]. split.
  { unfold trf_ray. cbn [ray_dir]. rewrite EX, EM. unfold moved, rzero. cbn [repeat]. rewrite !raffine3. unfold ent, rsub. cbn [nth zip]. (apply f_equal2; [ring|]). (apply f_equal2; [ring|]). (apply f_equal2; [ring|reflexivity]). }
  split. { unfold image_error. destruct (u_small 53 ltac:(lia)) as (U0 & U1). assert (H := eta_le_u 53 1024). lra. }
  split. { split; [apply Rle_trans with (bpow radix2 0); [apply bpow_le; now vm_compute|cbn; lra]|apply Rle_trans with (bpow radix2 2); [cbn; lra|apply bpow_le; now vm_compute]]. }
  split; [exact NU|]. split; [exact F2|]. split; [|lra]. refine (eq_ind_r (fun x => Rabs x <= 2) _ V2). rewrite Rabs_pos_eq; lra.
Qed.
