(** Bezier surfaces in machine arithmetic (C122). *)
From Coq Require Import ZArith Reals List Lia Lra Bool Psatz.
From Flocq Require Import Core BinarySingleNaN.
From Verif Require Import Ops M_scalar M_vec M_approx Inst_F S_vec S_rnd S_hit S_bezier P_ieee P_vec P_fp P_fp4 P_fp5 P_hit P_hit2 P_ft P_comp P_bezier.
Import ListNotations.
Local Open Scope R_scope.

Lemma bern_parts : forall X, 0 <= X <= 1 -> 0 <= bern 0 X <= 1 /\ 0 <= bern 1 X <= / 2 /\ 0 <= bern 2 X <= 1 /\ bern 0 X + bern 1 X + bern 2 X = 1 /\ 0 <= X - X * X <= / 4.
Proof.
  intros X H. assert (P0 := bern_nonneg 0 X H). assert (P1 := bern_nonneg 1 X H). assert (P2 := bern_nonneg 2 X H). assert (S := bern_partition X). cbn [bern] in *. assert (Q : 0 <= (X - / 2) * (X - / 2)) by apply Rle_0_sqr. cbn [pow] in *. lra.
Qed.

Section FP.
Variables prec emax : Z.
Context {Hprec : Prec_gt_0 prec} {Hmax : Prec_lt_emax prec emax}.
Notation fl := (binary_float prec emax).
Notation u := (unit_roundoff prec).
Notation eta := (underflow_error prec emax).
Notation Om := (bpow radix2 emax).
Hypothesis U20 : (20 <= prec)%Z.
Hypothesis E20 : (20 <= emax)%Z.

Lemma weights : forall x : fl, is_finite x = true -> 0 <= B2R x <= 1 ->
  near (bernstein_0 x) (bern 0 (B2R x)) (51 / 10 * u) /\ near (bernstein_1 x) (bern 1 (B2R x)) (31 / 10 * u) /\ near (bernstein_2 x) (bern 2 (B2R x)) (101 / 100 * u).
Proof.
  intros x F H. destruct (u_small prec U20) as [U0 U1]. destruct (eta_small prec emax E20) as [E0 E1]. assert (OB := om_big emax E20). set (X := B2R x) in *. destruct (bern_parts X H) as (B0 & B1 & B2 & _ & BD). assert (UU : u * u <= / 1000000 * u) by (apply Rmult_le_compat_r; lra).
  assert (P4 : (4 <= 2 ^ prec)%Z) by (change 4%Z with (2 ^ 2)%Z; apply Z.pow_le_mono_r; lia). destruct (F_cst prec emax 1 ltac:(lia)) as [F1 V1]. destruct (F_cst prec emax 2 ltac:(lia)) as [F2 V2].
  assert (NX := near_exact prec emax _ F). fold X in NX. assert (N1 := near_exact prec emax _ F1). rewrite V1 in N1. assert (N2 := near_exact prec emax _ F2). rewrite V2 in N2.
  assert (AX : Rabs X <= 1) by (apply Rabs_le; lra). assert (A2 : Rabs 2 <= 2) by (apply Rabs_le; lra).
  assert (XX : near (o_mul x x) (X * X) (1001 / 1000 * u)) by (eapply near_le; [apply (near_mul prec emax _ _ _ _ _ _ 1 1 NX NX AX AX)|]; lra).
  assert (X2 : near (o_mul (cst 2) x) (2 * X) (2001 / 1000 * u)) by (eapply near_le; [apply (near_mul prec emax _ _ _ _ _ _ 2 1 N2 NX A2 AX)|]; lra).
  assert (D1 : near (o_sub (cst 1) (o_mul (cst 2) x)) (1 - 2 * X) (301 / 100 * u)) by (eapply near_le; [apply (near_sub prec emax _ _ _ _ _ _ 1 N1 X2); [apply Rabs_le; lra|lra]|lra]).
  assert (D2 : near (o_sub x (o_mul x x)) (X - X * X) (126 / 100 * u)) by (eapply near_le; [apply (near_sub prec emax _ _ _ _ _ _ (/ 4) NX XX); [apply Rabs_le; lra|lra]|lra]).
  split; [|split].
  - replace (bern 0 X) with (1 - 2 * X + X * X) in * by (cbn; ring). unfold bernstein_0. eapply near_le; [apply (near_add prec emax _ _ _ _ _ _ 1 D1 XX); [apply Rabs_le; lra|lra]|lra].
  - replace (bern 1 X) with (2 * (X - X * X)) in * by (cbn; ring). unfold bernstein_1. eapply near_le; [apply (near_mul prec emax _ _ _ _ _ _ 2 (/ 4) N2 D2 A2); [apply Rabs_le; lra|lra]|lra].
  - replace (bern 2 X) with (X * X) by (cbn; ring). unfold bernstein_2. eapply near_le; [exact XX|lra].
Qed.
Section Interp.
Variables (x : fl) (M : R).
Hypothesis (Fx : is_finite x = true) (Hx : 0 <= B2R x <= 1) (M1 : 1 <= M) (MO : 4 * M <= Om).
Let X := B2R x.
Lemma term : forall (w p : fl) b y k e, near w b (k * u) -> 0 <= b <= 1 -> 0 <= k <= 51 / 10 -> near p y e -> Rabs y <= M -> 0 <= e <= 20 * (u * M) ->
  near (o_mul p w) (b * y) (b * e + (k + / 500) * (u * M) + b * (1001 / 1000 * (u * M))).
Proof.
  intros w p b y k e Nw B K Np Y E. destruct (u_small prec U20) as [U0 U1]. destruct (eta_small prec emax E20) as [E0 E1]. assert (OB := om_big emax E20). assert (UM0 : 0 < u * M) by (apply Rmult_lt_0_compat; lra). assert (UM : u * M <= / 1000000 * M) by (apply Rmult_le_compat_r; lra). assert (UE : eta <= / 1000 * (u * M)). { assert (u * 1 <= u * M) by (apply Rmult_le_compat_l; lra). lra. }
  assert (KU : 0 <= k * u <= / 100000) by (split; [apply Rmult_le_pos; lra|apply Rle_trans with (51 / 10 * / 1000000); [apply Rmult_le_compat; lra|lra]]). assert (BA : Rabs b <= b) by (rewrite Rabs_pos_eq; lra).
  replace (b * y) with (y * b) by ring. eapply near_le; [apply (near_mul prec emax _ _ _ _ _ _ M b Np Nw Y BA)|].
  - assert ((M + e) * (b + k * u) <= 10001 / 10000 * M * (10001 / 10000)) by (apply Rmult_le_compat; lra). apply Rle_lt_trans with (10001 / 10000 * M * (10001 / 10000) * (1001 / 1000) + eta); [apply Rplus_le_compat_r, Rmult_le_compat; try lra; apply Rmult_le_pos; lra|lra].
  - assert (H1 : e * (k * u) <= 20 * (u * M) * / 100000) by (apply Rmult_le_compat; lra). assert (H2 : (M + e) * (b + k * u) <= 10001 / 10000 * M * (b + / 100000)) by (apply Rmult_le_compat; lra).
    assert (H3 : u * ((M + e) * (b + k * u)) <= u * (10001 / 10000 * M * (b + / 100000))) by (apply Rmult_le_compat_l; lra). replace (u * (10001 / 10000 * M * (b + / 100000))) with (b * (10001 / 10000 * (u * M)) + 10001 / 1000000000 * (u * M)) in H3 by field.
    assert (0 <= b * (u * M)) by (apply Rmult_le_pos; lra). replace (M * (k * u)) with (k * (u * M)) by ring. lra.
Qed.
Lemma combine : forall (p0 p1 p2 : fl) y0 y1 y2 e, near p0 y0 e -> near p1 y1 e -> near p2 y2 e -> Rabs y0 <= M -> Rabs y1 <= M -> Rabs y2 <= M -> 0 <= e <= 20 * (u * M) ->
  let y := bern 0 X * y0 + bern 1 X * y1 + bern 2 X * y2 in
  near (o_add (o_add (o_add (cst 0) (o_mul p0 (bernstein_0 x))) (o_mul p1 (bernstein_1 x))) (o_mul p2 (bernstein_2 x))) y (e + 133 / 10 * (u * M)) /\ Rabs y <= M.
Proof.
  intros p0 p1 p2 y0 y1 y2 e N0 N1 N2 Y0 Y1 Y2 E y. destruct (u_small prec U20) as [U0 U1]. assert (OB := om_big emax E20). assert (UM0 : 0 < u * M) by (apply Rmult_lt_0_compat; lra). assert (UM : u * M <= / 1000000 * M) by (apply Rmult_le_compat_r; lra).
  destruct (weights x Fx Hx) as (W0 & W1 & W2). fold X in W0, W1, W2, Hx. destruct (bern_parts X Hx) as (B0 & B1 & B2 & BS & _). unfold y. clear y. set (b0 := bern 0 X) in *. set (b1 := bern 1 X) in *. set (b2 := bern 2 X) in *. clearbody b0 b1 b2.
  assert (T0 := term _ _ _ _ _ _ W0 B0 ltac:(lra) N0 Y0 E). assert (T1 := term _ _ _ _ _ _ W1 ltac:(lra) ltac:(lra) N1 Y1 E). assert (T2 := term _ _ _ _ _ _ W2 B2 ltac:(lra) N2 Y2 E).
  assert (Z : forall b z, 0 <= b -> Rabs z <= M -> Rabs (b * z) <= b * M) by (intros b z Hb Hz; rewrite Rabs_mult, (Rabs_pos_eq b) by exact Hb; apply Rmult_le_compat_l; assumption).
  assert (Z0 := Rabs_le_inv _ _ (Z b0 y0 ltac:(lra) Y0)). assert (Z1 := Rabs_le_inv _ _ (Z b1 y1 ltac:(lra) Y1)). assert (Z2 := Rabs_le_inv _ _ (Z b2 y2 ltac:(lra) Y2)).
  assert (G : forall b z, 0 <= b -> 0 <= z -> 0 <= b * z) by (intros; apply Rmult_le_pos; assumption). assert (G0 := G b0 M ltac:(lra) ltac:(lra)). assert (G1 := G b1 M ltac:(lra) ltac:(lra)). assert (G2 := G b2 M ltac:(lra) ltac:(lra)).
  assert (BM : b0 * M + b1 * M + b2 * M = M) by (rewrite <- !Rmult_plus_distr_r, BS; ring). assert (BE : b0 * e + b1 * e + b2 * e = e) by (rewrite <- !Rmult_plus_distr_r, BS; ring). assert (BU : b0 * (u * M) + b1 * (u * M) + b2 * (u * M) = u * M) by (rewrite <- !Rmult_plus_distr_r, BS; ring).
  assert (H0 := G b0 e ltac:(lra) ltac:(lra)). assert (H1 := G b1 e ltac:(lra) ltac:(lra)). assert (H2 := G b2 e ltac:(lra) ltac:(lra)). assert (I0 := G b0 (u * M) ltac:(lra) ltac:(lra)). assert (I1 := G b1 (u * M) ltac:(lra) ltac:(lra)). assert (I2 := G b2 (u * M) ltac:(lra) ltac:(lra)).
  assert (UB : forall z, z <= 1001 / 1000 * M -> u * z <= 1001 / 1000 * (u * M)) by (intros z Hz; replace (1001 / 1000 * (u * M)) with (u * (1001 / 1000 * M)) by ring; apply Rmult_le_compat_l; lra).
  assert (OV : forall z, 0 <= z <= 1001 / 1000 * M -> z * (1 + u) < Om) by (intros z Hz; apply Rle_lt_trans with (1001 / 1000 * M * (1001 / 1000)); [apply Rmult_le_compat; lra|lra]).
  destruct (F_cst0 prec emax) as [F0 V0]. assert (NZ := near_exact prec emax _ F0). rewrite V0 in NZ.
  set (e0 := b0 * e + (51 / 10 + / 500) * (u * M) + b0 * (1001 / 1000 * (u * M))) in *. set (e1 := b1 * e + (31 / 10 + / 500) * (u * M) + b1 * (1001 / 1000 * (u * M))) in *. set (e2 := b2 * e + (101 / 100 + / 500) * (u * M) + b2 * (1001 / 1000 * (u * M))) in *.
  assert (EB : 0 <= e0 <= 40 * (u * M) /\ 0 <= e1 <= 40 * (u * M) /\ 0 <= e2 <= 40 * (u * M) /\ e0 + e1 + e2 <= e + 10219 / 1000 * (u * M)) by (unfold e0, e1, e2; lra).
  clearbody e0 e1 e2.
  assert (S0 : near (o_add (cst 0) (o_mul p0 (bernstein_0 x))) (0 + b0 * y0) (e0 + 1001 / 1000 * (u * M))).
  { eapply near_le; [apply (near_add prec emax _ _ _ _ _ _ M NZ T0); [apply Rabs_le; lra|apply OV; lra]|]. assert (K := UB (M + 0 + e0) ltac:(lra)). lra. }
  assert (S1 : near (o_add (o_add (cst 0) (o_mul p0 (bernstein_0 x))) (o_mul p1 (bernstein_1 x))) (0 + b0 * y0 + b1 * y1) (e0 + e1 + 2002 / 1000 * (u * M))).
  { eapply near_le; [apply (near_add prec emax _ _ _ _ _ _ M S0 T1); [apply Rabs_le; lra|apply OV; lra]|]. assert (K := UB (M + (e0 + 1001 / 1000 * (u * M)) + e1) ltac:(lra)). lra. }
  split; [|apply Rabs_le; lra]. replace (b0 * y0 + b1 * y1 + b2 * y2) with (0 + b0 * y0 + b1 * y1 + b2 * y2) by ring.
  eapply near_le; [apply (near_add prec emax _ _ _ _ _ _ M S1 T2); [apply Rabs_le; lra|apply OV; lra]|]. assert (K := UB (M + (e0 + e1 + 2002 / 1000 * (u * M)) + e2) ltac:(lra)). lra.
Qed.
End Interp.
Notation z0 := (cst 0 : fl).
Lemma nth_map2 : forall (f : fl -> fl -> fl) a b i, length a = length b -> (i < length a)%nat -> nth i (map2 f a b) z0 = f (nth i a z0) (nth i b z0).
Proof. intros f a. induction a as [|x a IH]; intros [|y b] i L I; try discriminate; cbn [length] in I; [lia|]. destruct i; [reflexivity|]. cbn [map2 nth]. apply IH; [now injection L|lia]. Qed.
Lemma interp_nth : forall n (x : fl) (a b c : list fl) i, length a = n -> length b = n -> length c = n -> (i < n)%nat ->
  nth i (bezier_interpolate n x [a; b; c]) z0 = o_add (o_add (o_add (cst 0) (o_mul (nth i a z0) (bernstein_0 x))) (o_mul (nth i b z0) (bernstein_1 x))) (o_mul (nth i c z0) (bernstein_2 x)) /\ length (bezier_interpolate n x [a; b; c]) = n.
Proof.
  intros n x a b c i La Lb Lc I. unfold bezier_interpolate. cbn [nth]. unfold v_add, v_scale_l, v_scale, v_zero, v_fill.
  assert (S : forall (w : fl) v, (i < length v)%nat -> nth i (map (fun t => o_mul t w) v) z0 = o_mul (nth i v z0) w). { intros w v H. rewrite (nth_indep _ z0 (o_mul z0 w)) by (now rewrite map_length). apply (map_nth (fun t => o_mul t w)). }
  assert (R : nth i (repeat z0 n) z0 = z0) by apply nth_repeat.
  assert (L0 : length (map2 o_add (repeat z0 n) (map (fun t => o_mul t (bernstein_0 x)) a)) = n) by (rewrite map2_length; rewrite repeat_length; [reflexivity|now rewrite map_length]).
  assert (L1 : length (map2 o_add (map2 o_add (repeat z0 n) (map (fun t => o_mul t (bernstein_0 x)) a)) (map (fun t => o_mul t (bernstein_1 x)) b)) = n) by (rewrite map2_length; rewrite L0; [reflexivity|now rewrite map_length]).
  split; [|rewrite map2_length; rewrite L1; [reflexivity|now rewrite map_length]].
  rewrite nth_map2 by (rewrite ?L1, ?map_length; lia). rewrite nth_map2 by (rewrite ?L0, ?map_length; lia). rewrite nth_map2 by (rewrite ?repeat_length, ?map_length; lia). rewrite !S by lia. rewrite R. reflexivity.
Qed.
Lemma nth_values : forall (v : list fl) i, nth i (values v) 0 = B2R (nth i v z0).
Proof. intros v i. rewrite <- (proj2 (F_cst0 prec emax)) at 1. unfold values. apply map_nth. Qed.
Definition ctrl (cp : list (list (list fl))) j k : list fl := nth k (nth j cp []) [].
Lemma surface_near : forall n (cp : list (list (list fl))) (a b : fl) M, is_grid n (map (map values) cp) -> Forall (Forall (fun v => all_finite v /\ Forall (fun x => Rabs x <= M) (values v))) cp ->
  is_finite a = true -> is_finite b = true -> 0 <= B2R a <= 1 -> 0 <= B2R b <= 1 -> 1 <= M -> 4 * M <= Om ->
  let q := bezier_surface n cp a b in length q = n /\ all_finite q /\ forall i, (i < n)%nat -> Rabs (nth i (values q) 0 - bezier_value (map (map values) cp) (B2R a) (B2R b) i) <= 27 * (u * M).
Proof.
  intros n cp a b M (L3 & FL) FG Fa Fb Ha Hb M1 MO q. destruct (u_small prec U20) as [U0 U1]. assert (UM0 : 0 < u * M) by (apply Rmult_lt_0_compat; lra).
  rewrite map_length in L3. destruct cp as [|r0 [|r1 [|r2 [|]]]]; try discriminate. clear L3. cbn [map] in FL.
  inversion FL as [|? ? (K0 & FL0) FL']; subst. inversion FL' as [|? ? (K1 & FL1) FL'']; subst. inversion FL'' as [|? ? (K2 & FL2) _]; subst. clear FL FL' FL''. inversion FG as [|? ? FG0 FG']; subst. inversion FG' as [|? ? FG1 FG'']; subst. inversion FG'' as [|? ? FG2 _]; subst. clear FG FG' FG''.
  assert (D : forall r : list (list fl), length (map values r) = 3%nat -> Forall (fun p => length p = n) (map values r) -> Forall (fun v => all_finite v /\ Forall (fun x => Rabs x <= M) (values v)) r ->
    exists c0 c1 c2, r = [c0; c1; c2] /\ (length c0 = n /\ length c1 = n /\ length c2 = n) /\ forall i, (i < n)%nat -> near (nth i (bezier_interpolate n a r) z0) (bern 0 (B2R a) * nth i (values c0) 0 + bern 1 (B2R a) * nth i (values c1) 0 + bern 2 (B2R a) * nth i (values c2) 0) (0 + 133 / 10 * (u * M))
      /\ Rabs (bern 0 (B2R a) * nth i (values c0) 0 + bern 1 (B2R a) * nth i (values c1) 0 + bern 2 (B2R a) * nth i (values c2) 0) <= M).
  { intros r LR FR GR. destruct r as [|c0 [|c1 [|c2 [|]]]]; try discriminate. exists c0, c1, c2. split; [reflexivity|]. cbn [map] in FR. assert (A0 := Forall_inv FR). assert (A1 := Forall_inv (Forall_inv_tail FR)). assert (A2 := Forall_inv (Forall_inv_tail (Forall_inv_tail FR))). cbn beta in A0, A1, A2. unfold values in A0, A1, A2. rewrite map_length in A0, A1, A2. split; [auto|].
    destruct (Forall_inv GR) as (C0 & E0). destruct (Forall_inv (Forall_inv_tail GR)) as (C1 & E1). destruct (Forall_inv (Forall_inv_tail (Forall_inv_tail GR))) as (C2 & E2). intros i I. destruct (interp_nth n a c0 c1 c2 i A0 A1 A2 I) as (-> & _).
    assert (NN : forall v : list fl, all_finite v -> Forall (fun x => Rabs x <= M) (values v) -> (i < length v)%nat -> near (nth i v z0) (nth i (values v) 0) 0 /\ Rabs (nth i (values v) 0) <= M).
    { intros v F G Lv. split; [rewrite nth_values; apply near_exact|]; [unfold all_finite in F; rewrite Forall_forall in F; apply F, nth_In, Lv|]. rewrite Forall_forall in G. apply G, nth_In. unfold values. now rewrite map_length. }
    destruct (NN c0 C0 E0 ltac:(lia)) as (N0 & B0). destruct (NN c1 C1 E1 ltac:(lia)) as (N1 & B1). destruct (NN c2 C2 E2 ltac:(lia)) as (N2 & B2). exact (combine a M Fa Ha M1 MO _ _ _ _ _ _ 0 N0 N1 N2 B0 B1 B2 ltac:(lra)). }
  destruct (D r0 K0 FL0 FG0) as (a0 & a1 & a2 & -> & (La0 & La1 & La2) & DA). destruct (D r1 K1 FL1 FG1) as (b0 & b1 & b2 & -> & (Lb0 & Lb1 & Lb2) & DB). destruct (D r2 K2 FL2 FG2) as (c0 & c1 & c2 & -> & (Lc0 & Lc1 & Lc2) & DC).
  assert (EQ : q = bezier_interpolate n b [bezier_interpolate n a [a0; a1; a2]; bezier_interpolate n a [b0; b1; b2]; bezier_interpolate n a [c0; c1; c2]]) by reflexivity.
  assert (LI : forall v0 v1 v2 : list fl, length v0 = n -> length v1 = n -> length v2 = n -> forall w, length (bezier_interpolate n w [v0; v1; v2]) = n).
  { intros v0 v1 v2 H0 H1 H2 w. destruct n as [|m]; [destruct v0; [reflexivity|discriminate]|]. apply (interp_nth (S m) w v0 v1 v2 0 H0 H1 H2). lia. }
  assert (LQ : length q = n) by (rewrite EQ; apply LI; apply LI; assumption).
  assert (G : forall i, (i < n)%nat -> near (nth i q z0) (bezier_value (map (map values) [[a0; a1; a2]; [b0; b1; b2]; [c0; c1; c2]]) (B2R a) (B2R b) i) (27 * (u * M))).
  { intros i I. rewrite EQ. destruct (interp_nth n b _ _ _ i (LI _ _ _ La0 La1 La2 a) (LI _ _ _ Lb0 Lb1 Lb2 a) (LI _ _ _ Lc0 Lc1 Lc2 a) I) as (-> & _). destruct (DA i I) as (A1 & A2). destruct (DB i I) as (B1 & B2). destruct (DC i I) as (C1 & C2).
    destruct (combine b M Fb Hb M1 MO _ _ _ _ _ _ _ A1 B1 C1 A2 B2 C2 ltac:(lra)) as (H & _). eapply near_le; [|instantiate (1 := 0 + 133 / 10 * (u * M) + 133 / 10 * (u * M)); lra].
    replace (bezier_value _ (B2R a) (B2R b) i) with (bern 0 (B2R b) * (bern 0 (B2R a) * nth i (values a0) 0 + bern 1 (B2R a) * nth i (values a1) 0 + bern 2 (B2R a) * nth i (values a2) 0) + bern 1 (B2R b) * (bern 0 (B2R a) * nth i (values b0) 0 + bern 1 (B2R a) * nth i (values b1) 0 + bern 2 (B2R a) * nth i (values b2) 0) + bern 2 (B2R b) * (bern 0 (B2R a) * nth i (values c0) 0 + bern 1 (B2R a) * nth i (values c1) 0 + bern 2 (B2R a) * nth i (values c2) 0)); [exact H|]. unfold bezier_value, sum3, control. cbn [map nth]. ring. }
  split; [exact LQ|]. split.
  - unfold all_finite. apply Forall_forall. intros x Hx. apply (In_nth _ _ z0) in Hx. destruct Hx as (i & I & <-). rewrite LQ in I. apply (G i I).
  - intros i I. rewrite nth_values. apply (G i I).
Qed.
End FP.
