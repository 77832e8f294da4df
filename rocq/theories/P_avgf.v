(** Averages in machine arithmetic (C121). *)
From Coq Require Import ZArith Reals List Lia Lra Bool Psatz.
From Flocq Require Import Core BinarySingleNaN.
From Verif Require Import Ops M_scalar M_vec Inst_F S_vec S_rnd S_hit S_grid P_ieee P_vec P_line P_fp P_fp4 P_fp5 P_hit P_hit2 P_ft P_grid P_polyf3.
Import ListNotations.
Local Open Scope R_scope.

Section FP.
Variables prec emax : Z.
Context {Hprec : Prec_gt_0 prec} {Hmax : Prec_lt_emax prec emax}.
Notation fl := (binary_float prec emax).
Notation u := (unit_roundoff prec).
Notation eta := (underflow_error prec emax).
Notation Om := (bpow radix2 emax).
Hypothesis U20 : (20 <= prec)%Z.
Hypothesis E20 : (20 <= emax)%Z.

(** Counting is exact. *)
Lemma count_step : forall (c : fl) k, is_finite c = true -> B2R c = IZR k -> (0 <= k)%Z -> (k + 1 < 2 ^ prec)%Z -> is_finite (o_add c (cst 1)) = true /\ B2R (o_add c (cst 1)) = IZR (k + 1).
Proof.
  intros c k F V K H. assert (EP : (0 < emax - prec)%Z) by (generalize Hmax; unfold Prec_lt_emax; lia). destruct (F_cst1 prec emax) as [F1 V1]. set (one := cst 1 : fl) in *. clearbody one. assert (PP : (0 < prec)%Z) by exact Hprec.
  assert (G1 : rel prec emax 0 k c (Some (B2R c))) by (split; [split; [exact F|exists k; split; [rewrite V; cbn [bpow]; ring|lia]]|reflexivity]).
  assert (G2 : rel prec emax 0 1 one (Some (B2R one))) by (split; [split; [exact F1|exists 1%Z; split; [rewrite V1; cbn [bpow]; ring|lia]]|reflexivity]).
  destruct (rel_add prec emax 0 k 1 _ _ _ _ G1 G2) as ((FA & _) & E); [unfold representable; lia|]. split; [exact FA|]. assert (E2 : B2R c + B2R one = B2R (o_add c one)) by (injection E; auto). rewrite <- E2, V, V1, plus_IZR. reflexivity.
Qed.

Section Avg.
Variables (M : R) (n : nat).
Hypothesis (M0 : 0 <= M) (NU : 100 * (INR n * u) <= 1) (NM : 2 * (INR n * M) <= Om).
Definition good (v : list fl) : Prop := all_finite v /\ Forall (fun x => Rabs x <= M) (values v).
(** After j vectors *)
Definition sum_near (j : nat) (r : list fl) (Y : list R) : Prop := Forall2 (fun x y => near x y (INR (j - 1) * (102 / 100 * (u * (INR n * M)))) /\ Rabs y <= INR j * M) r Y.
Lemma error_small : forall j, (j <= n)%nat -> 0 <= INR (j - 1) * (102 / 100 * (u * (INR n * M))) <= 2 / 100 * (INR n * M).
Proof.
  intros j J. destruct (u_small prec U20) as [U0 U1]. assert (N0 := pos_INR n). assert (NM0 : 0 <= INR n * M) by (apply Rmult_le_pos; lra). split; [apply Rmult_le_pos; [apply pos_INR|]; apply Rmult_le_pos; [lra|]; apply Rmult_le_pos; lra|].
  apply Rle_trans with (INR n * (102 / 100 * (u * (INR n * M)))); [apply Rmult_le_compat_r; [apply Rmult_le_pos; [lra|]; apply Rmult_le_pos; lra|apply le_INR; lia]|].
  replace (INR n * (102 / 100 * (u * (INR n * M)))) with (102 / 100 * (INR n * u) * (INR n * M)) by ring. apply Rmult_le_compat_r; lra.
Qed.
Lemma sum_step : forall j r Y v, (1 <= j)%nat -> (j < n)%nat -> sum_near j r Y -> good v -> length v = length r -> sum_near (S j) (v_add r v) (radd Y (values v)).
Proof.
  intros j r Y v J1 J H. revert v. destruct (u_small prec U20) as [U0 U1]. assert (OB := om_big emax E20). assert (ES := error_small j ltac:(lia)). assert (EJ : INR (S j - 1) = INR (j - 1) + 1) by (replace (S j - 1)%nat with (S (j - 1)) by lia; apply S_INR).
  assert (SJ : INR (S j) <= INR n) by (apply le_INR; lia). assert (NM0 : INR (S j) * M <= INR n * M) by (apply Rmult_le_compat_r; lra). unfold sum_near in *. rewrite EJ. rewrite S_INR in *. set (e := INR (j - 1) * (102 / 100 * (u * (INR n * M)))) in *.
  assert (P0 : 0 <= (INR j + 1) * M) by (apply Rmult_le_pos; [generalize (pos_INR j); lra|lra]).
  induction H as [|x y r Y (N & B) _ IH]; intros v (F & G) L; destruct v as [|w v]; try discriminate; [constructor|]. inversion F as [|? ? F1 F2]; subst. cbn [values map] in G. inversion G as [|? ? G1 G2]; subst. cbn [v_add map2 values map radd zip]. constructor.
  - assert (SB : Rabs (y + B2R w) <= (INR j + 1) * M) by (eapply Rle_trans; [apply Rabs_triang|lra]). split; [|exact SB]. eapply near_le; [apply (near_add prec emax _ _ _ _ _ _ _ N (near_exact prec emax _ F1) SB)|].
    + apply Rle_lt_trans with (102 / 100 * (INR n * M) * (1001 / 1000)); [apply Rmult_le_compat; lra|lra].
    + assert (u * ((INR j + 1) * M + e + 0) <= u * (102 / 100 * (INR n * M))) by (apply Rmult_le_compat_l; lra). unfold e in *. lra.
  - apply IH; [split; assumption|]. injection L as L. exact L.
Qed.
Lemma sum_length : forall j r Y, sum_near j r Y -> length r = length Y.
Proof. intros j r Y H. induction H; cbn; auto. Qed.
Lemma sum_fold : forall d rest j r Y (c : fl), (1 <= j)%nat -> (j + length rest <= n)%nat -> sum_near j r Y -> length r = d -> Forall (fun v => good v /\ length v = d) rest -> is_finite c = true -> B2R c = IZR (Z.of_nat j) -> (Z.of_nat n < 2 ^ prec)%Z ->
  let rc := fold_left (fun rc v => (v_add (fst rc) v, o_add (snd rc) (cst 1))) rest (r, c) in
  sum_near (j + length rest) (fst rc) (fold_left radd (map values rest) Y) /\ is_finite (snd rc) = true /\ B2R (snd rc) = IZR (Z.of_nat (j + length rest)).
Proof.
  intros d rest. induction rest as [|v rest IH]; intros j r Y c J1 J H L F FC VC NP; cbn [fold_left length map] in *; [rewrite Nat.add_0_r; auto|].
  inversion F as [|? ? (Gv & Lv) F2]; subst. cbn [fst snd]. destruct (count_step c _ FC VC ltac:(lia) ltac:(lia)) as (FC2 & VC2). assert (S1 := sum_step j r Y v J1 ltac:(lia) H Gv Lv).
  replace (j + S (length rest))%nat with (S j + length rest)%nat by lia. apply IH; auto; try lia.
  - assert (LY := sum_length _ _ _ H). assert (LL : length (radd Y (values v)) = length Y) by (apply radd_length; unfold values; rewrite map_length; congruence). rewrite (sum_length _ _ _ S1), LL. congruence.
  - rewrite VC2. f_equal. lia.
Qed.
End Avg.
Lemma fold_nth : forall d i l Y, length Y = d -> Forall (fun v => length v = d) l -> nth i (fold_left radd l Y) 0 = nth i Y 0 + fold_right Rplus 0 (map (fun v => nth i v 0) l) /\ length (fold_left radd l Y) = d.
Proof.
  intros d i l. induction l as [|v l IH]; intros Y L F; cbn [fold_left map fold_right]; [split; [ring|exact L]|]. inversion F; subst. destruct (IH (radd Y v)) as (A & B); [now rewrite radd_length|assumption|]. split; [|exact B]. rewrite A, nth_radd by auto. ring.
Qed.
Lemma average_near : forall d (l : list (list fl)) M, l <> [] -> Forall (fun v => length v = d /\ all_finite v /\ Forall (fun x => Rabs x <= M) (values v)) l -> 0 <= M ->
  let n := INR (length l) in 100 * (n * u) <= 1 -> 2 * (n * M) <= Om ->
  exists q, v_average l = Ret q /\ length q = d /\ all_finite q /\ forall i, (i < d)%nat -> Rabs (nth i (values q) 0 - fold_right Rplus 0 (map (fun v => nth i (values v) 0) l) / n) <= 103 / 100 * (n * (u * M)) + eta.
Proof.
  intros d l M NE F M0 n NU NM. destruct (u_small prec U20) as [U0 U1]. assert (OB := om_big emax E20). destruct (eta_small prec emax E20) as [E0 E1]. destruct l as [|v rest]; [contradiction|]. set (m := length (v :: rest)) in *. assert (N1 : 1 <= n) by (unfold n, m; cbn [length]; rewrite S_INR; generalize (pos_INR (length rest)); lra).
  assert (MB : M <= n * M) by (assert (1 * M <= n * M) by (apply Rmult_le_compat_r; lra); lra).
  inversion F as [|? ? (Lv & Gv1 & Gv2) F2]; subst. assert (NP : (Z.of_nat m < 2 ^ prec)%Z).
  { apply lt_IZR. rewrite <- INR_IZR_INZ. fold n. replace (IZR (2 ^ prec)) with (/ u). - assert (0 < / u) by (apply Rinv_0_lt_compat; lra). apply Rmult_lt_reg_r with u; [lra|]. rewrite Rinv_l by lra. lra.
    - unfold unit_roundoff. rewrite <- bpow_opp, Z.opp_involutive. symmetry. apply (IZR_Zpower radix2). lia. }
  assert (ST : sum_near M m 1 v (values v)).
  { unfold sum_near. cbn [Nat.sub INR]. clear - Gv1 Gv2. induction v as [|x v IH]; [constructor|]. inversion Gv1; subst. cbn [values map] in Gv2. inversion Gv2; subst. cbn [values map]. constructor; [|apply IH; assumption]. split; [|lra]. eapply near_le; [apply near_exact; assumption|]. lra. }
  destruct (F_cst1 prec emax) as [F1 V1].
  assert (FR : Forall (fun w => good M w /\ length w = length v) rest) by (eapply Forall_impl; [|exact F2]; intros w (Q1 & Q2 & Q3); split; [split; assumption|exact Q1]).
  destruct (sum_fold M m M0 NU NM (length v) rest 1 v (values v) (cst 1) ltac:(lia) ltac:(unfold m; cbn; lia) ST eq_refl FR F1 V1 NP) as (SN & FC & VC).
  unfold v_average. set (rc := fold_left _ rest (v, cst 1)) in *. rewrite (surjective_pairing rc). eexists. split; [reflexivity|]. change (1 + length rest)%nat with m in SN, VC. rewrite <- INR_IZR_INZ in VC. fold n in VC.
  destruct (fold_nth (length v) 0 (map values rest) (values v)) as (_ & LY); [unfold values; apply map_length|apply Forall_map; eapply Forall_impl; [|exact F2]; intros w (Q & _); unfold values; rewrite map_length; exact Q|].
  assert (ES := error_small M m M0 NU m (le_n m)). assert (EF : INR (m - 1) * (102 / 100 * (u * (INR m * M))) = (n - 1) * (102 / 100 * (u * (n * M)))) by (unfold n, m; cbn [length]; rewrite S_INR, Nat.sub_succ, Nat.sub_0_r; ring). rewrite EF in ES. fold n in ES.
  set (s := fst rc) in *. set (c := snd rc) in *. set (Y := fold_left radd (map values rest) (values v)) in *. assert (UM : 0 <= u * M) by (apply Rmult_le_pos; lra).
  assert (D : forall x y, near x y (INR (m - 1) * (102 / 100 * (u * (INR m * M)))) /\ Rabs y <= INR m * M -> is_finite (o_div x c) = true /\ Rabs (B2R (o_div x c) - y / n) <= 103 / 100 * (n * (u * M)) + eta).
  { intros x y ((Fx & Hx) & By). rewrite EF in Hx. fold n in By. assert (BX : Rabs (B2R x) <= 102 / 100 * (n * M)). { apply Rabs_le_inv in Hx, By. apply Rabs_le. lra. }
    assert (IN : 0 < / n) by (apply Rinv_0_lt_compat; lra). assert (QX : Rabs (B2R x / n) <= 102 / 100 * M). { unfold Rdiv. rewrite Rabs_mult, (Rabs_pos_eq (/ n)) by lra. apply Rle_trans with (102 / 100 * (n * M) * / n); [apply Rmult_le_compat_r; lra|right; field; lra]. }
    destruct (div_ok prec emax x c Fx ltac:(rewrite VC; lra)) as (FD & dd & ee & Hd & He & ED). { rewrite VC. apply Rle_lt_trans with (102 / 100 * M * (1001 / 1000) + eta); [apply Rplus_le_compat_r, Rmult_le_compat; auto using Rabs_pos; lra|lra]. }
    split; [exact FD|]. rewrite ED, VC. replace (B2R x / n * (1 + dd) + ee - y / n) with ((B2R x - y) / n + B2R x / n * dd + ee) by (field; lra).
    assert (P1 : Rabs ((B2R x - y) / n) <= (n - 1) * (102 / 100 * (u * M))). { unfold Rdiv. rewrite Rabs_mult, (Rabs_pos_eq (/ n)) by lra. apply Rle_trans with ((n - 1) * (102 / 100 * (u * (n * M))) * / n); [apply Rmult_le_compat_r; lra|right; field; lra]. }
    assert (P2 : Rabs (B2R x / n * dd) <= 102 / 100 * M * u) by (rewrite Rabs_mult; apply Rmult_le_compat; auto using Rabs_pos). assert (1 * (u * M) <= n * (u * M)) by (apply Rmult_le_compat_r; lra). apply Rabs_le_inv in P1, P2, He. apply Rabs_le. lra. }
  assert (G : all_finite (v_div_s s c) /\ forall i, (i < length v)%nat -> Rabs (nth i (values (v_div_s s c)) 0 - nth i Y 0 / n) <= 103 / 100 * (n * (u * M)) + eta).
  { rewrite <- LY. clear - SN D. clearbody s c Y. induction SN as [|x y s Y H _ (IH1 & IH2)]; [split; [constructor|cbn; lia]|]. destruct (D x y H) as (D1 & D2). split; [constructor; assumption|]. intros [|i] L; [exact D2|]. apply IH2. cbn [length] in L. lia. }
  split; [unfold v_div_s; rewrite map_length, (sum_length _ _ _ _ _ SN); exact LY|]. split; [apply G|]. intros i I. cbn [map fold_right].
  destruct (fold_nth (length v) i (map values rest) (values v)) as (EY & _); [unfold values; apply map_length|apply Forall_map; eapply Forall_impl; [|exact F2]; intros w (Q & _); unfold values; rewrite map_length; exact Q|]. fold Y in EY. rewrite map_map in EY. rewrite <- EY. apply G. exact I.
Qed.
End FP.
