(** Rotating by a product against rotating step by step, and rotations about an axis (C109). *)
From Coq Require Import ZArith Reals List Lia Lra Bool Psatz.
From Flocq Require Import Core BinarySingleNaN.
From Verif Require Import Ops M_scalar M_vec M_quat Inst_F S_vec S_rnd S_hit S_rot S_quat S_ft S_chain P_ord P_ieee P_vec P_fp P_fp2 P_fp3 P_fp4 P_fp5 P_hit P_hit2 P_hit3 P_quat P_ft P_ft2 P_ft3 P_ft4 P_ft5 P_chain P_chain2.
Import ListNotations.
Local Open Scope R_scope.

(** Exact quaternions: the product turns like its factors, the last one first. *)
Lemma turn_product : forall l q v, is_quat q -> Forall is_quat l -> length v = 3%nat -> rq_rotate (rq_product q l) v = rq_turn v (rev (q :: l)).
Proof.
  intros l. induction l as [|p l IH] using rev_ind; intros q v Hq Hl Hv; [reflexivity|]. apply Forall_app in Hl. destruct Hl as (Hl & Hp). inversion Hp; subst.
  replace (rev (q :: l ++ [p])) with (p :: rev (q :: l)) by (cbn [rev]; rewrite rev_app_distr; reflexivity).
  unfold rq_product, rq_turn. rewrite fold_left_app. cbn [fold_left]. fold (rq_product q l). fold (rq_turn (rq_rotate p v) (rev (q :: l))). rewrite <- IH by (auto; now apply rotate_length).
  apply rotate_mul; auto using product_quat.
Qed.

Lemma bernoulli_up : forall n d, 0 <= d -> INR n * d <= / 2 -> (1 + d) ^ n <= 1 + 2 * (INR n * d).
Proof.
  induction n as [|n IH]; intros d D0 H; [simpl; lra|]. rewrite S_INR in *. specialize (IH d D0 ltac:(lra)). cbn [pow]. assert (I0 := pos_INR n). 
  assert (X : (1 + d) * (1 + d) ^ n <= (1 + d) * (1 + 2 * (INR n * d))) by (apply Rmult_le_compat_l; lra). assert (0 <= INR n * d) by (apply Rmult_le_pos; lra). nra.
Qed.
Lemma bernoulli_down : forall n d, 0 <= d <= 1 -> 1 - INR n * d <= (1 - d) ^ n.
Proof.
  induction n as [|n IH]; intros d D; [simpl; lra|]. rewrite S_INR. specialize (IH d D). cbn [pow]. assert (I0 := pos_INR n).
  assert (X : (1 - d) * (1 - INR n * d) <= (1 - d) * (1 - d) ^ n) by (apply Rmult_le_compat_l; lra). assert (0 <= INR n * d * d) by (apply Rmult_le_pos; [apply Rmult_le_pos|]; lra). lra.
Qed.
Lemma product_length : forall l d q, is_quat q -> Forall is_quat l -> 0 <= d <= 1 -> Forall (fun p => Rabs (rq_length p - 1) <= d) (q :: l) ->
  (1 - d) ^ length (q :: l) <= rq_length (rq_product q l) <= (1 + d) ^ length (q :: l).
Proof.
  intros l. induction l as [|p l IH] using rev_ind; intros d q Hq Hl D H.
  - inversion H; subst. unfold rq_product. cbn [fold_left length]. rewrite !pow_1. apply Rabs_le_inv in H2. lra.
  - apply Forall_app in Hl. destruct Hl as (Hl & Hp). inversion Hp; subst. change (q :: l ++ [p]) with ((q :: l) ++ [p]) in *. apply Forall_app in H. destruct H as (H & HP). inversion HP; subst.
    unfold rq_product. rewrite fold_left_app. cbn [fold_left]. fold (rq_product q l). rewrite length_mul by (auto using product_quat). specialize (IH d q Hq Hl D H). rewrite app_length. rewrite !pow_add. cbn [length] in *. rewrite !pow_1.
    assert (P : 0 <= (1 - d) ^ S (length l)) by (apply pow_le; lra). apply Rabs_le_inv in H4. split; apply Rmult_le_compat; lra.
Qed.

Section FP.
Variables prec emax : Z.
Context {Hprec : Prec_gt_0 prec} {Hmax : Prec_lt_emax prec emax}.
Notation fl := (binary_float prec emax).
Notation u := (unit_roundoff prec).
Notation eta := (underflow_error prec emax).
Notation Om := (bpow radix2 emax).
Hypothesis U20 : (20 <= prec)%Z.
Hypothesis E20 : (20 <= emax)%Z.

(** The product of a sequence of machine quaternions, and the drift of its length *)
Lemma product_drift : forall d (l : list (quat fl)) (q : quat fl), 0 <= d -> Forall (unit_quat d) (q :: l) -> INR (length (q :: l)) * (2 * d + d * d + 25 * u) <= / 100 ->
  quat_finite (fold_left q_mul l q) /\ rq_dist (quat_values (fold_left q_mul l q)) (rq_product (quat_values q) (map quat_values l)) <= 13 * INR (length l) * u
  /\ rq_length (rq_product (quat_values q) (map quat_values l)) <= 100 / 99
  /\ Rabs (rq_length (quat_values (fold_left q_mul l q)) - 1) <= INR (length (q :: l)) * (2 * d + 13 * u).
Proof.
  intros d l q D0 HL HN. destruct (u_small prec ltac:(assumption)) as (U0 & U1). destruct (product_error prec emax U20 E20 d l q D0 HL HN) as (F1 & D1 & L1). split; [exact F1|]. split; [exact D1|]. split; [exact L1|].
  assert (I1 : 1 <= INR (length (q :: l))) by (change 1 with (INR 1); apply le_INR; cbn [length]; lia). 
  assert (ID : 0 <= INR (length (q :: l)) * d) by (apply Rmult_le_pos; lra). assert (IDD : 0 <= INR (length (q :: l)) * (d * d)) by (apply Rmult_le_pos; nra). assert (IU : 0 <= INR (length (q :: l)) * u) by (apply Rmult_le_pos; lra).
  assert (NB : INR (length (q :: l)) * d <= / 200) by nra. assert (DS : d <= / 200) by nra.
  assert (QL : Forall is_quat (map quat_values (q :: l))) by (clear - HL; induction HL as [|x k (F & _) _ IH]; [apply Forall_nil|]; apply Forall_cons; [now apply fin_quat|exact IH]).
  assert (HD : Forall (fun p => Rabs (rq_length p - 1) <= d) (map quat_values (q :: l))) by (clear - HL; induction HL as [|x k (_ & H) _ IH]; [apply Forall_nil|]; apply Forall_cons; [exact H|exact IH]).
  cbn [map] in *. inversion QL as [|? ? Qq Ql]; subst. assert (PL := product_length _ d _ Qq Ql ltac:(lra) HD). assert (Qx := product_quat _ _ Qq Ql).
  replace (length (quat_values q :: map quat_values l)) with (length (q :: l)) in PL by (cbn [length]; now rewrite map_length).
  assert (BU := bernoulli_up (length (q :: l)) d D0 ltac:(lra)). assert (BD := bernoulli_down (length (q :: l)) d ltac:(lra)).
  assert (Qm := fin_quat prec emax _ F1). assert (LD := length_dist _ _ Qm Qx). assert (LD' := length_dist _ _ Qx Qm). rewrite dist_sym in LD'.
  change (length (q :: l)) with (S (length l)) in *. rewrite S_INR in *. apply Rabs_le. lra.
Qed.
Lemma product_chain_error : forall d (l : list (quat fl)) (q : quat fl), 0 <= d -> Forall (unit_quat d) (q :: l) -> INR (length (q :: l)) * (2 * d + d * d + 25 * u) <= / 100 ->
  let p := fold_left q_mul l q in quat_finite p /\ rq_dist (quat_values p) (rq_product (quat_values q) (map quat_values l)) <= 13 * INR (length l) * u
  /\ Rabs (rq_length (quat_values p) - 1) <= INR (length (q :: l)) * (2 * d + 13 * u).
Proof. intros d l q D0 HL HN p. destruct (product_drift d l q D0 HL HN) as (H1 & H2 & _ & H3). auto. Qed.
Lemma chain_error : forall d (l : list (quat fl)) (v : list fl), 0 <= d -> Forall (unit_quat d) l -> length v = 3%nat -> all_finite v -> rnorm (values v) <= Om / 10 ->
  INR (length l) * (2 * d + d * d + 25 * u) <= / 100 ->
  let w := fold_left (fun v q => q_rotate q v) l v in length w = 3%nat /\ all_finite w
  /\ rdist (values w) (rq_turn (values v) (map quat_values l)) <= 26 * INR (length l) * (u * rnorm (values v) + eta).
Proof. intros d l v D0 HL Lv Fv HO HN w. destruct (turn_error prec emax U20 E20 d l v D0 HL Lv Fv HO HN) as (H1 & H2 & H3 & _). auto. Qed.
Lemma agree_error : forall d (l : list (quat fl)) (q : quat fl) (v : list fl), 0 <= d -> Forall (unit_quat d) (q :: l) -> INR (length (q :: l)) * (2 * d + d * d + 25 * u) <= / 100 ->
  length v = 3%nat -> all_finite v -> rnorm (values v) <= Om / 10 ->
  rdist (values (q_rotate (fold_left q_mul l q) v)) (values (fold_left (fun w p => q_rotate p w) (rev (q :: l)) v)) <= 53 * INR (length (q :: l)) * (u * rnorm (values v) + eta).
Proof.
  intros d l q v D0 HL HN Lv Fv HO. destruct (u_small prec ltac:(assumption)) as (U0 & U1). destruct (eta_small prec emax ltac:(assumption)) as (E0 & E1). assert (OB := om_big emax ltac:(assumption)).
  destruct (product_drift d l q D0 HL HN) as (F1 & D1 & L1 & UM).
  assert (HR : Forall (unit_quat d) (rev (q :: l))) by (apply Forall_rev; exact HL).
  destruct (turn_error prec emax U20 E20 d (rev (q :: l)) v D0 HR Lv Fv HO) as (L2 & F2 & D2 & _ & L2'); [rewrite rev_length; exact HN|]. rewrite rev_length in D2. fold (turns prec emax (rev (q :: l)) v).
  set (t := turns prec emax (rev (q :: l)) v) in *. set (m := fold_left q_mul l q) in *. rewrite map_rev in *.
  assert (QL : Forall is_quat (map quat_values (q :: l))) by (clear - HL; induction HL as [|x k (F & _) _ IH]; [apply Forall_nil|]; apply Forall_cons; [now apply fin_quat|exact IH]).
  cbn [map] in *. inversion QL as [|? ? Qq Ql]; subst. assert (LV : length (values v) = 3%nat) by now rewrite val_length.
  rewrite <- (turn_product _ _ _ Qq Ql LV) in D2, L2'. assert (Qx := product_quat _ _ Qq Ql). set (x := rq_product (quat_values q) (map quat_values l)) in *.
  assert (Qm := fin_quat prec emax m F1). assert (LD := length_dist (quat_values m) x Qm Qx). assert (LD' := length_dist x (quat_values m) Qx Qm). rewrite dist_sym in LD'.
  set (V := rnorm (values v)) in *. assert (V0 : 0 <= V) by apply rnorm_nonneg. assert (I0 := pos_INR (length l)). change (length (q :: l)) with (S (length l)) in *. rewrite S_INR in *. set (i := INR (length l)) in *.
  assert (IU : 0 <= i * u) by (apply Rmult_le_pos; lra). assert (DD : 0 <= (i + 1) * (2 * d + d * d)) by (apply Rmult_le_pos; nra). assert (IU' : i * u + u <= / 2500) by nra.
  assert (ID : 0 <= i * d) by (apply Rmult_le_pos; lra). assert (ID2 : 0 <= i * (d * d)) by (apply Rmult_le_pos; nra). assert (ND : 2 * (i * d + d) + 25 * (i * u + u) <= / 100) by nra.
  assert (UM' : unit_quat (/ 50) m). { split; [exact F1|]. eapply Rle_trans; [exact UM|]. lra. }
  destruct (rotate_error prec emax U20 E20 m v UM' Lv Fv) as (L3 & F3 & D3); [fold V; lra|]. fold V in D3.
  assert (RA := rotate_apart (quat_values m) x (values v) Qm Qx LV). fold V in RA. apply Rabs_le_inv in UM. set (D := rq_dist (quat_values m) x) in *. assert (DP : 0 <= D) by apply rnorm_nonneg.
  assert (B : (rq_length (quat_values m) + rq_length x) * D * V <= 204 / 100 * (13 * i * u) * V).
  { apply Rmult_le_compat_r; [exact V0|]. assert (Y := length_pos (quat_values m)). assert (Z := length_pos x). apply Rmult_le_compat; lra. }
  assert (LX : length (rq_rotate x (values v)) = 3%nat) by (apply rotate_length; assumption). assert (LM : length (rq_rotate (quat_values m) (values v)) = 3%nat) by (apply rotate_length; assumption).
  assert (LA : length (values (q_rotate m v)) = 3%nat) by now rewrite val_length. assert (LT : length (values t) = 3%nat) by now rewrite val_length.
  eapply Rle_trans; [apply (rdist_triangle _ (rq_rotate (quat_values m) (values v))); congruence|].
  assert (T1 := rdist_triangle (rq_rotate (quat_values m) (values v)) (rq_rotate x (values v)) (values t) ltac:(congruence) ltac:(congruence)). rewrite (rdist_sym (rq_rotate x (values v)) (values t)) in T1.
  assert (W : 0 <= i * u * V) by (apply Rmult_le_pos; lra). assert (W1 : 0 <= u * V) by (apply Rmult_le_pos; lra). assert (W2 : 0 <= i * eta) by (apply Rmult_le_pos; lra). lra.
Qed.

Context {lm : libm fl}.
Hypothesis ACC : accurate lm.
(** The quaternion for an axis and an angle *)
Lemma axis_angle_near : forall (axis : list fl) (angle : fl), nearly_unit axis -> is_finite angle = true -> Rabs (B2R angle) <= 13 ->
  exists q, q_axis_angle axis angle = Ret q /\ unit_quat (50 * u) q /\ rq_dist (quat_values q) (Q (cos (B2R angle / 2)) (rscale (sin (B2R angle / 2)) (values axis))) <= 34 * u.
Proof.
  intros axis angle HA Fa Ba. destruct (u_small prec ltac:(assumption)) as (U0 & U1). destruct (eta_small prec emax ltac:(assumption)) as (E0 & E1). assert (OB := om_big emax ltac:(assumption)).
  exists (Q (f_cos (o_div angle (cst 2))) (v_scale axis (f_sin (o_div angle (cst 2))))). split; [apply (axis_returns prec emax U20 E20); exact HA|].
  assert (P20 : (2 ^ 20 <= 2 ^ prec)%Z) by (apply Z.pow_le_mono_r; lia). destruct (F_cst prec emax 2 ltac:(lia)) as (F2 & V2).
  assert (BA2 : Rabs (B2R angle / 2) <= 13 / 2) by (apply Rabs_le_inv in Ba; apply Rabs_le; lra).
  destruct (div_ok prec emax angle (@cst _ (Fops prec emax _ _) 2) Fa) as (FD & d & e & Hd & He & ED).
  { rewrite V2. lra. } { rewrite V2. nra. }
  rewrite V2 in ED. match type of ED with B2R ?x = _ => set (h := x) in * end. change (o_div angle (cst 2)) with h.
  assert (HH : Rabs (B2R h - B2R angle / 2) <= 66 / 10 * u).
  { rewrite ED. assert (X : Rabs (B2R angle / 2 * d) <= 13 / 2 * u) by (rewrite Rabs_mult; apply Rmult_le_compat; auto using Rabs_pos). apply Rabs_le_inv in X, He. apply Rabs_le. lra. }
  assert (H7 : Rabs (B2R h) <= 7) by (apply Rabs_le_inv in HH, BA2; apply Rabs_le; lra). change (is_finite h = true) in FD.
  destruct (acc_cos lm ACC h FD H7) as (FC & HC). destruct (acc_sin lm ACC h FD H7) as (FS & HS). set (th := B2R angle / 2) in *. assert (LC := cos_lip (B2R h) th). assert (LS := sin_lip (B2R h) th).
  assert (NC : near (f_cos h) (cos th) (15 * u)). { split; [exact FC|]. replace (B2R (f_cos h) - cos th) with ((B2R (f_cos h) - cos (B2R h)) + (cos (B2R h) - cos th)) by ring. eapply Rle_trans; [apply Rabs_triang|]. lra. }
  assert (NS : near (f_sin h) (sin th) (15 * u)). { split; [exact FS|]. replace (B2R (f_sin h) - sin th) with ((B2R (f_sin h) - sin (B2R h)) + (sin (B2R h) - sin th)) by ring. eapply Rle_trans; [apply Rabs_triang|]. lra. }
  assert (CS : cos th * cos th + sin th * sin th = 1) by (assert (T := sin2_cos2 th); unfold Rsqr in T; lra). assert (S1 : Rabs (sin th) <= 1) by (apply Rabs_le; apply SIN_bound).
  set (c := cos th) in *. set (s := sin th) in *. set (cf := f_cos h) in *. set (sf := f_sin h) in *. clearbody c s cf sf h th.
  destruct (unit_facts prec emax ltac:(assumption) axis HA) as (Bx & _). destruct HA as (LA & FA & NA).
  assert (VI : forall x : fl, is_finite x = true -> Rabs (B2R x) <= 1001 / 1000 -> near (o_mul x sf) (s * B2R x) (17 * u)).
  { intros x Fx Hx. destruct (near_mul prec emax x sf (B2R x) s 0 (15 * u) (1001 / 1000) 1 (near_exact prec emax x Fx) NS Hx S1 ltac:(nra)) as (Fp & Hp). split; [exact Fp|]. rewrite (Rmult_comm s). eapply Rle_trans; [exact Hp|]. nra. }
  assert (NORM : Rabs (rq_length (Q c (rscale s (values axis))) - 1) <= 16 * u).
  { unfold rq_length, rq_four. cbn [q_r q_v]. apply Rabs_le_inv in NA. assert (SQ := rnorm_sq (values axis)). set (A := rnorm (values axis)) in *. assert (A0 : 0 <= A) by apply rnorm_nonneg.
    assert (EN : rnorm (c :: rscale s (values axis)) = sqrt (c * c + s * s * (A * A))). { unfold rnorm. cbn [rdot]. rewrite rdot_scale_l, rdot_scale_r, <- SQ. f_equal. ring. }
    rewrite EN. assert (S0 : 0 <= s * s) by apply Rle_0_sqr. assert (SS : s * s <= 1) by (assert (0 <= c * c) by apply Rle_0_sqr; lra). apply Rabs_le. split.
    - assert (1 - 16 * u <= sqrt (c * c + s * s * (A * A))); [|lra]. rewrite <- (sqrt_square (1 - 16 * u)) by lra. apply sqrt_le_1_alt. assert (K : (1 - 16 * u) * (1 - 16 * u) <= A * A) by (apply Rmult_le_compat; lra). assert (K1 : (1 - 16 * u) * (1 - 16 * u) <= 1 * 1) by (apply Rmult_le_compat; lra). assert (K2 := Rmult_le_compat_l _ _ _ S0 K). assert (K3 := Rmult_le_compat_l (c * c) _ _ (Rle_0_sqr c) K1). set (k := (1 - 16 * u) * (1 - 16 * u)) in *. replace k with (c * c * k + s * s * k) by (rewrite <- Rmult_plus_distr_r, CS; ring). lra.
    - assert (sqrt (c * c + s * s * (A * A)) <= 1 + 16 * u); [|lra]. rewrite <- (sqrt_square (1 + 16 * u)) by lra. apply sqrt_le_1_alt. assert (K : A * A <= (1 + 16 * u) * (1 + 16 * u)) by (apply Rmult_le_compat; lra). assert (K1 : 1 * 1 <= (1 + 16 * u) * (1 + 16 * u)) by (apply Rmult_le_compat; lra). assert (K2 := Rmult_le_compat_l _ _ _ S0 K). assert (K3 := Rmult_le_compat_l (c * c) _ _ (Rle_0_sqr c) K1). set (k := (1 + 16 * u) * (1 + 16 * u)) in *. replace k with (c * c * k + s * s * k) by (rewrite <- Rmult_plus_distr_r, CS; ring). lra. }
  destruct axis as [|a0 [|a1 [|a2 [|]]]]; try discriminate. inversion FA as [|? ? F0 Fa1]; subst. inversion Fa1 as [|? ? F1 Fa2]; subst. inversion Fa2 as [|? ? F3 _]; subst.
  unfold values in Bx. cbn [map] in Bx. inversion Bx as [|? ? B0 BW1]; subst. inversion BW1 as [|? ? B1 BW2]; subst. inversion BW2 as [|? ? B2 _]; subst.
  destruct (VI _ F0 B0) as (G0 & W0). destruct (VI _ F1 B1) as (G1 & W1). destruct (VI _ F3 B2) as (G2 & W2). 
  change (v_scale [a0; a1; a2] sf) with [o_mul a0 sf; o_mul a1 sf; o_mul a2 sf]. set (v0 := o_mul a0 sf) in *. set (v1 := o_mul a1 sf) in *. set (v2 := o_mul a2 sf) in *. clearbody v0 v1 v2.
  assert (QF : quat_finite (Q cf [v0; v1; v2])). { split; [apply NC|]. split; [reflexivity|]. cbn [q_v]. repeat (apply Forall_cons; [assumption|]). apply Forall_nil. }
  assert (DQ : rq_dist (quat_values (Q cf [v0; v1; v2])) (Q c (rscale s (values [a0; a1; a2]))) <= 34 * u).
  { destruct NC as (_ & NC). replace (34 * u) with (2 * (17 * u)) by ring. unfold rq_dist, rdist, rq_four, quat_values, values, rscale. cbn [q_r q_v map rsub zip]. apply norm4_le; assumption || lra. }
  split; [|exact DQ]. split; [exact QF|]. set (x := Q c (rscale s (values [a0; a1; a2]))) in *. assert (Qx : is_quat x) by reflexivity. assert (Qm : is_quat (quat_values (Q cf [v0; v1; v2]))) by reflexivity.
  assert (LD := length_dist _ _ Qm Qx). assert (LD' := length_dist _ _ Qx Qm). rewrite dist_sym in LD'. apply Rabs_le_inv in NORM. apply Rabs_le. lra.
Qed.
Lemma axis_angle_turns : forall (axis : list fl) (angle : fl) (v : list fl), nearly_unit axis -> is_finite angle = true -> Rabs (B2R angle) <= 13 -> length v = 3%nat -> all_finite v -> rnorm (values v) <= Om / 5 ->
  exists q, q_axis_angle axis angle = Ret q /\ unit_quat (50 * u) q
  /\ rdist (values (q_rotate q v)) (rrot (rscale (/ rnorm (values axis)) (values axis)) (B2R angle) (values v)) <= 130 * (u * rnorm (values v) + eta).
Proof.
  intros axis angle v HA Fa Ba Lv Fv HO. destruct (u_small prec ltac:(assumption)) as (U0 & U1). destruct (eta_small prec emax ltac:(assumption)) as (E0 & E1). assert (OB := om_big emax ltac:(assumption)).
  destruct (axis_angle_near axis angle HA Fa Ba) as (q & Eq & Uq & Dq). exists q. split; [exact Eq|]. split; [exact Uq|]. clear Eq.
  assert (Uq' : unit_quat (/ 50) q) by (eapply unit_quat_le; [|exact Uq]; lra). destruct (rotate_error prec emax U20 E20 q v Uq' Lv Fv HO) as (L3 & F3 & D3).
  destruct HA as (LA & FA & NA). assert (LAV : length (values axis) = 3%nat) by now rewrite val_length. assert (LV : length (values v) = 3%nat) by now rewrite val_length.
  apply Rabs_le_inv in NA. set (A := rnorm (values axis)) in *. set (n := rscale (/ A) (values axis)). assert (Ln : length n = 3%nat) by (unfold n; now rewrite rscale_length). assert (A0 : A <> 0) by lra.
  assert (NN : rdot n n = 1). { unfold n. rewrite rdot_scale_l, rdot_scale_r. rewrite <- rnorm_sq. fold A. field. exact A0. }
  set (th := B2R angle) in *. set (x := Q (cos (th / 2)) (rscale (sin (th / 2)) n)). set (y := Q (cos (th / 2)) (rscale (sin (th / 2)) (values axis))) in *.
  assert (Qx : is_quat x) by (unfold is_quat, x; cbn [q_v]; now rewrite rscale_length). assert (Qy : is_quat y) by (unfold is_quat, y; cbn [q_v]; now rewrite rscale_length). assert (Qq := fin_quat prec emax q (proj1 Uq)).
  assert (S1 : Rabs (sin (th / 2)) <= 1) by (apply Rabs_le; apply SIN_bound).
  assert (DYX : rq_dist y x <= 17 * u).
  { assert (E : rq_dist y x = rnorm (rscale (sin (th / 2) * (1 - / A)) (values axis))).
    { unfold rq_dist, rdist, rq_four, x, y, n. cbn [q_r q_v]. unfold rnorm. cbn [rsub zip rdot]. f_equal. unfold rscale. rewrite !map_map. destruct (values axis) as [|a0 [|a1 [|a2 [|]]]]; try discriminate. cbn [map zip rdot]. ring. }
    rewrite E, rnorm_scale. fold A. rewrite Rabs_mult, Rmult_assoc. rewrite <- (Rabs_pos_eq A) at 2 by lra. rewrite <- Rabs_mult. replace ((1 - / A) * A) with (A - 1) by (field; exact A0).
    assert (Rabs (A - 1) <= 16 * u) by (apply Rabs_le; lra). assert (P := Rabs_pos (sin (th / 2))). assert (P' := Rabs_pos (A - 1)). nra. }
  assert (LX : rq_length x = 1). { rewrite length2. unfold rq_norm2, x. cbn [q_r q_v]. rewrite rdot_scale_l, rdot_scale_r, NN. replace (cos (th / 2) * cos (th / 2) + sin (th / 2) * (sin (th / 2) * 1)) with 1; [apply sqrt_1|]. assert (T := sin2_cos2 (th / 2)). unfold Rsqr in T. lra. }
  assert (DX := dist_triangle _ _ _ Qq Qy Qx). assert (RX : rq_rotate x (values v) = rrot n th (values v)) by (rewrite rotate_act by assumption; apply axis_angle_act; assumption).
  rewrite <- RX. assert (RA := rotate_apart _ _ _ Qq Qx LV). rewrite LX in RA. destruct Uq as (_ & Uq). apply Rabs_le_inv in Uq. set (V := rnorm (values v)) in *. assert (V0 : 0 <= V) by apply rnorm_nonneg.
  assert (B : (rq_length (quat_values q) + 1) * rq_dist (quat_values q) x * V <= 2001 / 1000 * (51 * u) * V).
  { apply Rmult_le_compat_r; [exact V0|]. assert (Y := length_pos (quat_values q)). assert (Z : 0 <= rq_dist (quat_values q) x) by apply rnorm_nonneg. apply Rmult_le_compat; lra. }
  assert (Lx := rotate_length x _ Qx LV). assert (Lq := rotate_length _ _ Qq LV). assert (Lm : length (values (q_rotate q v)) = 3%nat) by now rewrite val_length.
  eapply Rle_trans; [apply (rdist_triangle _ (rq_rotate (quat_values q) (values v))); congruence|]. assert (0 <= u * V) by (apply Rmult_le_pos; lra). lra.
Qed.
End FP.

(** ** A case: quaternions with components 0, 1 and 1/2 in double precision *)
Definition dhalf : double := @B754_finite 53 1024 false 4503599627370496 (-53) eq_refl.
Lemma dhalf_value : B2R dhalf = / 2.
Proof. unfold dhalf. cbn [B2R]. unfold F2R. cbn. lra. Qed.
Definition case_quats : list (quat double) := [Q dhalf [dhalf; dhalf; dhalf]; Q (cst 0) [cst 0; cst 1; cst 0]; Q dhalf [dhalf; dhalf; dhalf]].
Definition case_turned : list double := [cst 1; cst 2; cst 3].
Lemma case_chain : Forall (unit_quat 0) case_quats /\ INR (length case_quats) * (2 * 0 + 0 * 0 + 25 * unit_roundoff 53) <= / 100
  /\ length case_turned = 3%nat /\ all_finite case_turned /\ rnorm (values case_turned) <= bpow radix2 1024 / 10.
Proof.
  destruct (F_cst0 53 1024) as (F0 & V0). destruct (F_cst1 53 1024) as (F1 & V1). destruct (F_cst 53 1024 2 ltac:(lia)) as (F2 & V2). destruct (F_cst 53 1024 3 ltac:(lia)) as (F3 & V3).
  assert (H : unit_quat 0 (Q dhalf [dhalf; dhalf; dhalf])).
  { split; [split; [reflexivity|]; split; [reflexivity|]; repeat (apply Forall_cons; [reflexivity|]); apply Forall_nil|].
    unfold rq_length, rq_four, quat_values, values. cbn [q_r q_v map]. rewrite dhalf_value. unfold rnorm. cbn [rdot]. replace (/ 2 * / 2 + (/ 2 * / 2 + (/ 2 * / 2 + (/ 2 * / 2 + 0)))) with 1 by lra. rewrite sqrt_1, Rminus_diag_eq, Rabs_R0 by reflexivity. lra. }
  split; [|split; [|split; [reflexivity|]; split]].
  - apply Forall_cons; [exact H|]. apply Forall_cons; [|apply Forall_cons; [exact H|apply Forall_nil]].
    split; [split; [exact F0|]; split; [reflexivity|]; cbn [q_v]; repeat (apply Forall_cons; [assumption|]); apply Forall_nil|].
    assert (E : quat_values (Q (cst 0 : double) [cst 0; cst 1; cst 0]) = Q 0 [0; 1; 0]) by (refine (Q_eq _ _ _ _ _ V0 _); exact (f_equal2 cons V0 (f_equal2 cons V1 (f_equal2 cons V0 eq_refl)))).
    rewrite E. unfold rq_length, rq_four. cbn [q_r q_v]. unfold rnorm. cbn [rdot]. replace (0 * 0 + (0 * 0 + (1 * 1 + (0 * 0 + 0)))) with 1 by lra. rewrite sqrt_1, Rminus_diag_eq, Rabs_R0 by reflexivity. lra.
  - destruct (u_small 53 ltac:(lia)) as (U0 & U1). change (length case_quats) with 3%nat. replace (INR 3) with 3 by (simpl; lra). lra.
  - repeat (apply Forall_cons; [assumption|]). apply Forall_nil.
  - assert (E : values case_turned = [1; 2; 3]) by exact (f_equal2 cons V1 (f_equal2 cons V2 (f_equal2 cons V3 eq_refl))). rewrite E. assert (OB := om_big 1024 ltac:(lia)). apply Rle_trans with 10; [|lra]. unfold rnorm. cbn [rdot]. rewrite <- (sqrt_square 10) by lra. apply sqrt_le_1_alt. lra.
Qed.
Lemma case_axis_turn : nearly_unit (pos_x3 : list double) /\ is_finite (cst 2 : double) = true /\ Rabs (B2R (cst 2 : double)) <= 13 /\ accurate (@exact_libm 53 1024 _ _).
Proof.
  destruct (F_cst 53 1024 2 ltac:(lia)) as (F2 & V2). split; [apply pos_x_unit; lia|]. split; [exact F2|]. split; [refine (eq_ind_r (fun x => Rabs x <= 13) _ V2); rewrite Rabs_pos_eq; lra|]. apply exact_accurate; lia.
Qed.
