(** Proofs about points in polygons of any shape (C59). *)
From Coq Require Import ZArith Reals List Bool Lia Lra Psatz Arith.
From Flocq Require Import Core.
From Verif Require Import Ops M_scalar M_vec M_mat M_bbox M_geom M_intersect Inst_XR S_vec S_geom S_intersect S_polygon S_winding.
From Verif Require Import P_xr P_vec P_vec2 P_line P_plane P_intersect P_poly2d P_polygon P_wind2d.
Import ListNotations.
Local Open Scope R_scope.

Lemma loop_odd : forall n e, (forall i, (i < n)%nat -> e i <> (-1)%Z) -> loop_result n e = Z.odd (zsum (map e (seq 0 n))).
Proof.
  intros n e H. unfold loop_result.
  assert (E : existsb (fun i => (e i =? -1)%Z) (seq 0 n) = false).
  { apply not_true_is_false. intros X. apply existsb_exists in X as (i & I & X). apply in_seq in I. apply Z.eqb_eq in X. apply (H i); [ lia | exact X ]. }
  rewrite E. set (z := zsum _). rewrite Zodd_mod. assert (M := Z.rem_mod z 2 ltac:(lia)).
  destruct (Z.eqb_spec (Z.rem z 2) 0) as [Q|Q]; cbn [negb].
  - apply Z.rem_divide in Q; [ | lia ]. apply Z.mod_divide in Q; [ | lia ]. rewrite Q. reflexivity.
  - assert (B := Z.mod_pos_bound z 2 ltac:(lia)). destruct (Z.eq_dec (z mod 2) 0) as [W|W].
    + exfalso. apply Q. apply Z.rem_divide; [ lia | ]. apply Z.mod_divide; [ lia | exact W ].
    + assert (z mod 2 = 1)%Z as -> by lia. reflexivity.
Qed.
Lemma odd_sums : forall (e f : nat -> Z) l, (forall i, In i l -> Z.odd (e i) = Z.odd (f i)) -> Z.odd (zsum (map e l)) = Z.odd (zsum (map f l)).
Proof. induction l as [|i l IH]; intros H; cbn [map zsum]; [ reflexivity | ]. rewrite !Z.odd_add, (H i), IH; [ reflexivity | | now left ]. intros j J. apply H. now right. Qed.

(** Coordinates in the plane of the polygon. *)
Section Frame.
Variables (axis : nat) (n : list R).
Hypothesis AX : (axis < 3)%nat.
Hypothesis Ln : length n = 3%nat.
Hypothesis NZ : nth axis n 0 <> 0.
Let k := nth axis n 0.
Let lam := k * k + across axis n * across axis n.
Definition fx (a : list R) : R := (nth axis n 0 * nth axis n 0 + across axis n * across axis n) * across axis a + across axis n * height axis n * height axis a.
Definition fy (a : list R) : R := rnorm n * nth axis n 0 * height axis a.
Lemma frame_pos : 0 < k * k /\ 0 < lam /\ 0 < rnorm n /\ rnorm n * rnorm n = rdot n n.
Proof.
  assert (KK : 0 < k * k) by (unfold k; nra). assert (0 <= across axis n * across axis n) by apply Rle_0_sqr.
  assert (NN : 0 < rdot n n).
  { unfold k in KK. clear - KK Ln AX. destruct n as [|n0 [|n1 [|n2 [|]]]]; try discriminate.
    assert (0 <= n0 * n0) by apply Rle_0_sqr. assert (0 <= n1 * n1) by apply Rle_0_sqr. assert (0 <= n2 * n2) by apply Rle_0_sqr.
    destruct axis as [|[|[|]]]; try lia; cbn in *; lra. }
  split; [ exact KK | ]. split; [ unfold lam; lra | ]. unfold rnorm. split; [ now apply sqrt_lt_R0 | ]. apply sqrt_sqrt. lra.
Qed.
Lemma frame_dot : forall a b, length a = 3%nat -> length b = 3%nat -> rdot a n = 0 -> rdot b n = 0 ->
  fx a * fx b + fy a * fy b = k * k * lam * rdot a b.
Proof.
  intros a b La Lb PA PB. destruct frame_pos as (_ & _ & _ & N2). unfold fx, fy.
  replace (rnorm n * nth axis n 0 * height axis a * (rnorm n * nth axis n 0 * height axis b)) with (rnorm n * rnorm n * (nth axis n 0 * nth axis n 0) * height axis a * height axis b) by ring.
  rewrite N2. unfold lam, k. clear N2 NZ lam k.
  destruct n as [|n0 [|n1 [|n2 [|]]]]; try discriminate. destruct a as [|a0 [|a1 [|a2 [|]]]]; try discriminate. destruct b as [|b0 [|b1 [|b2 [|]]]]; try discriminate.
  assert (G : forall x y e1 e2 k1 k2, e1 = 0 -> e2 = 0 -> x = y + k1 * e1 + k2 * e2 -> x = y) by (intros x y e1 e2 k1 k2 -> -> ->; ring).
  unfold across, height. cbn in PA, PB. destruct axis as [|[|[|]]]; try lia; cbn.
  - set (l := n0 * n0 + n1 * n1). apply (G _ _ _ _ (- l * n0 * b0) (l * (n1 * a1 + n2 * a2)) PA PB). unfold l. ring.
  - set (l := n1 * n1 + n2 * n2). apply (G _ _ _ _ (- l * n1 * b1) (l * (n0 * a0 + n2 * a2)) PA PB). unfold l. ring.
  - set (l := n2 * n2 + n0 * n0). apply (G _ _ _ _ (- l * n2 * b2) (l * (n1 * a1 + n0 * a0)) PA PB). unfold l. ring.
Qed.
Lemma frame_cross : forall a b, length a = 3%nat -> length b = 3%nat -> rdot a n = 0 -> rdot b n = 0 ->
  (fx a * fy b - fy a * fx b) * rnorm n = k * k * lam * rdot (rcross a b) n.
Proof.
  intros a b La Lb PA PB. destruct frame_pos as (_ & _ & _ & N2). unfold fx, fy.
  transitivity (rnorm n * rnorm n * nth axis n 0 * (nth axis n 0 * nth axis n 0 + across axis n * across axis n) * (across axis a * height axis b - height axis a * across axis b)); [ ring | ].
  rewrite N2. unfold lam, k. clear N2 NZ lam k.
  destruct n as [|n0 [|n1 [|n2 [|]]]]; try discriminate. destruct a as [|a0 [|a1 [|a2 [|]]]]; try discriminate. destruct b as [|b0 [|b1 [|b2 [|]]]]; try discriminate.
  assert (G : forall x y e1 e2 k1 k2, e1 = 0 -> e2 = 0 -> x = y + k1 * e1 + k2 * e2 -> x = y) by (intros x y e1 e2 k1 k2 -> -> ->; ring).
  unfold across, height. cbn in PA, PB. destruct axis as [|[|[|]]]; try lia; cbn.
  - set (l := n0 * n0 + n1 * n1). apply (G _ _ _ _ (- (l * n0) * (b1 * n2 - b2 * n1)) (- (l * n0) * (a2 * n1 - a1 * n2)) PA PB). unfold l. ring.
  - set (l := n1 * n1 + n2 * n2). apply (G _ _ _ _ (- (l * n1) * (b2 * n0 - b0 * n2)) (- (l * n1) * (a0 * n2 - a2 * n0)) PA PB). unfold l. ring.
  - set (l := n2 * n2 + n0 * n0). apply (G _ _ _ _ (- (l * n2) * (b0 * n1 - b1 * n0)) (- (l * n2) * (a1 * n0 - a0 * n1)) PA PB). unfold l. ring.
Qed.
Lemma frame_len : forall a, length a = 3%nat -> rdot a n = 0 -> len2 (fx a) (fy a) = sqrt (k * k * lam) * rnorm a.
Proof.
  intros a La PA. unfold len2, rnorm. destruct frame_pos as (P1 & P2 & _). rewrite <- sqrt_mult by (apply rdot_nonneg || (apply Rmult_le_pos; lra)). f_equal. now apply frame_dot.
Qed.
Lemma frame_swept : forall a b th, length a = 3%nat -> length b = 3%nat -> rdot a n = 0 -> rdot b n = 0 ->
  (swept n a b th <-> - PI < th < PI
    /\ len2 (fx a) (fy a) * len2 (fx b) (fy b) * cos th = fx a * fx b + fy a * fy b
    /\ len2 (fx a) (fy a) * len2 (fx b) (fy b) * sin th = fx a * fy b - fy a * fx b).
Proof.
  intros a b th La Lb PA PB. unfold swept. rewrite !frame_len by assumption. destruct frame_pos as (P1 & P2 & P3 & _).
  assert (Q : 0 < k * k * lam) by (now apply Rmult_lt_0_compat). assert (SQ : sqrt (k * k * lam) * sqrt (k * k * lam) = k * k * lam) by (apply sqrt_sqrt; lra).
  rewrite frame_dot by assumption. assert (CR := frame_cross a b La Lb PA PB).
  set (q := sqrt (k * k * lam)) in *. replace (q * rnorm a * (q * rnorm b)) with (k * k * lam * (rnorm a * rnorm b)) by (rewrite <- SQ; ring).
  split; intros (T & C & S1); (split; [ exact T | ]); split.
  - rewrite Rmult_assoc, C. reflexivity.
  - apply Rmult_eq_reg_r with (rnorm n); [ | lra ]. rewrite CR, <- S1. ring.
  - apply Rmult_eq_reg_l with (k * k * lam); [ | lra ]. rewrite <- C. ring.
  - apply Rmult_eq_reg_l with (k * k * lam); [ | lra ]. rewrite <- CR, <- S1. ring.
Qed.
End Frame.

Lemma winding_ok : forall n vs p axis, length n = 3%nat -> plane_polygon n vs -> length p = 3%nat -> rdot p n = rdot (vertex vs 0) n ->
  (axis < 3)%nat -> nth axis n 0 <> 0 -> clear_height axis vs p -> clear_boundary axis vs p ->
  exists w, winding_number n vs p w /\ (forall w', winding_number n vs p w' -> w' = w)
    /\ polygon_contains_point (vS p) axis (map vS vs) = Ret (Z.odd w).
Proof.
  intros n vs p axis Ln (N1 & F & CO) Lp CP AX NZ CH CB.
  destruct (frame_pos axis n AX Ln NZ) as (KK & LAM & NP & _). set (k := nth axis n 0) in *. set (lam := k * k + across axis n * across axis n) in *.
  set (N := length vs) in *. assert (N0 : (0 < length vs)%nat) by (fold N; lia).
  set (A i := across axis (vertex vs i) - across axis p). set (H i := height axis (vertex vs i) - height axis p).
  assert (VL : forall i, length (vertex vs i) = 3%nat) by (intros i; now apply vertex_length).
  set (a i := rsub (vertex vs i) p).
  assert (LA : forall i, length (a i) = 3%nat) by (intros i; unfold a; assert (V := VL i); len).
  assert (PA : forall i, rdot (a i) n = 0). { intros i. unfold a. assert (V := VL i). rewrite rdot_sub_l by len. rewrite CP, (CO i O). ring. }
  assert (EA : forall i, across axis (a i) = A i /\ height axis (a i) = H i).
  { intros i. unfold a, A, H. assert (V := VL i). clear - V Lp AX. destruct (vertex vs i) as [|v0 [|v1 [|v2 [|]]]]; try discriminate. destruct p as [|p0 [|p1 [|p2 [|]]]]; try discriminate.
    unfold across, height. destruct axis as [|[|[|]]]; try lia; cbn; auto. }
  set (x i := fx axis n (a i)). set (y i := fy axis n (a i)).
  assert (EY : forall i, y i = rnorm n * k * H i) by (intros i; unfold y, fy; destruct (EA i) as [_ ->]; reflexivity).
  assert (K0 : rnorm n * k <> 0) by (apply Rmult_integral_contrapositive_currified; [ lra | exact NZ ]).
  assert (KK2 : 0 < (rnorm n * k) * (rnorm n * k)) by nra.
  assert (H0 : forall i, H i <> 0) by (intros i; apply CH).
  assert (Y0 : forall i, y i <> 0) by (intros i; rewrite EY; now apply Rmult_integral_contrapositive_currified).
  assert (YY : forall i, y i * y (S i) = (rnorm n * k) * (rnorm n * k) * (H i * H (S i))) by (intros i; rewrite !EY; ring).
  set (c i := A i - H i * (A (S i) - A i) / (H (S i) - H i)).
  assert (DH : forall i, H i * H (S i) < 0 -> H (S i) - H i <> 0). { intros i L E. assert (E' : H (S i) = H i) by lra. rewrite E' in L. assert (0 <= H i * H i) by apply Rle_0_sqr. lra. }
  assert (XC : forall i, H i * H (S i) < 0 -> x i * y (S i) - y i * x (S i) = lam * c i * (y (S i) - y i)).
  { intros i L. assert (D := DH i L). unfold x, fx. destruct (EA i) as [-> ->]. destruct (EA (S i)) as [-> ->]. fold k. fold lam. rewrite !EY. unfold c. field. exact D. }
  set (W i := vS (relative axis p (vertex vs i))); set (e i := polygon_edge (W i) (W (S i))).
  assert (ES := fun i => edge_spec (A i) (H i) (nth axis (vertex vs i) 0 - nth axis p 0) (A (S i)) (H (S i)) (nth axis (vertex vs (S i)) 0 - nth axis p 0) (H0 i) (H0 (S i)) (proj2 (CH i))).
  assert (NB : forall i, ~ (Rabs (A i) <= / 1000 /\ Rabs (H i) <= / 1000)).
  { intros i [A1 A2]. destruct (CB (vertex vs i)) as [B|B].
    { exists i, 0. split; [ lra | ]. assert (L := VL i). assert (L' := VL (S i)). unfold rlerp. vext. ring. }
    unfold A, H in *. lra. unfold A, H in *. lra. }
  assert (NC : forall i, H i * H (S i) < 0 -> / 1000 < Rabs (c i)).
  { intros i C. assert (DY := DH i C). set (t := - H i / (H (S i) - H i)).
    assert (T : 0 <= t <= 1).
    { assert (W2 : 0 < (H (S i) - H i) * (H (S i) - H i)) by nra. assert (E : t * ((H (S i) - H i) * (H (S i) - H i)) = - H i * (H (S i) - H i)) by (unfold t; field; exact DY).
      assert (0 <= H i * H i) by apply Rle_0_sqr. assert (0 <= H (S i) * H (S i)) by apply Rle_0_sqr. split; nra. }
    destruct (across_lerp axis (vertex vs i) (vertex vs (S i)) t AX (VL i) (VL (S i))) as [Q1 Q2].
    destruct (CB (rlerp (vertex vs i) (vertex vs (S i)) t)) as [B|B].
    { exists i, t. split; [ exact T | reflexivity ]. }
    { rewrite Q1 in B. replace (c i) with (across axis (vertex vs i) + t * (across axis (vertex vs (S i)) - across axis (vertex vs i)) - across axis p); [ exact B | ].
      unfold c, t. replace (A (S i) - A i) with (across axis (vertex vs (S i)) - across axis (vertex vs i)) by (unfold A; ring). unfold A. field. exact DY. }
    { exfalso. rewrite Q2 in B. replace (height axis (vertex vs i) + t * (height axis (vertex vs (S i)) - height axis (vertex vs i)) - height axis p) with 0 in B. { rewrite Rabs_R0 in B. lra. }
      replace (height axis (vertex vs (S i)) - height axis (vertex vs i)) with (H (S i) - H i) by (unfold H; ring). replace (height axis (vertex vs i) + t * (H (S i) - H i) - height axis p) with (H i + t * (H (S i) - H i)) by (unfold H; ring). unfold t. field. exact DY. } }
  assert (LR : polygon_contains_point (vS p) axis (map vS vs) = Ret (loop_result N e)).
  { unfold N in *. clear - AX Lp F N0. destruct vs as [|v vs']; [ cbn in N0; lia | ]. rewrite contains_loop by assumption. apply f_equal.
    rewrite loop_cycle. cbv zeta. set (L := vS (relative axis p v) :: _).
    assert (EL : L = map (fun v => vS (relative axis p v)) (v :: vs')) by reflexivity. rewrite EL, map_length. clearbody L. clear EL.
    assert (EW : forall i, nth (i mod length (v :: vs')) (map (fun v => vS (relative axis p v)) (v :: vs')) [] = vS (relative axis p (vertex (v :: vs') i))).
    { intros i. unfold vertex. rewrite nth_indep with (d' := vS (relative axis p [])) by (rewrite map_length; apply Nat.mod_upper_bound; cbn; lia).
      now rewrite map_nth with (f := fun v => vS (relative axis p v)). }
    apply loop_result_ext. intros i. rewrite !EW. reflexivity. }
  assert (EN : forall i, (i < N)%nat -> e i <> (-1)%Z).
  { intros i _ E1. destruct (ES i) as [E2 E3]. fold (e i) in E2, E3. change (polygon_edge _ _) with (e i) in E2, E3.
    destruct (Rlt_dec (H i * H (S i)) 0) as [L|L].
    - destruct (E2 L) as [[Q _]|[[Q _]|[_ [Q|Q]]]]; try (rewrite Q in E1; discriminate). now apply (NB i). assert (B := NC i L). unfold c in B. lra.
    - destruct (E3 L) as [Q|[_ Q]]; [ rewrite Q in E1; discriminate | now apply (NB i) ]. }
  assert (EO : forall i, In i (seq 0 N) -> Z.odd (e i) = Z.odd (xing x y i)).
  { intros i I. apply in_seq in I. destruct (ES i) as [E2 E3]. change (polygon_edge _ _) with (e i) in E2, E3. assert (EI := EN i ltac:(lia)).
    unfold xing, crossing. assert (Y1 := Y0 i). assert (Y2 := Y0 (S i)).
    destruct (Rlt_dec (H i * H (S i)) 0) as [L|L].
    - assert (YL : y i * y (S i) < 0) by (rewrite YY; nra). assert (X1 := XC i L). 
      assert (CE : (e i = 1%Z /\ 0 < c i) \/ (e i = 0%Z /\ c i < 0)). { destruct (E2 L) as [Q|[Q|[Q _]]]; [ now left | now right | contradiction ]. } clear E2 E3.
      destruct (Rlt_dec (y i) 0) as [B1|B1], (Rlt_dec 0 (y (S i))) as [B2|B2]; try (exfalso; nra).
      + assert (D : 0 < lam * (y (S i) - y i)) by (apply Rmult_lt_0_compat; lra).
        destruct (Rlt_dec 0 (x i * y (S i) - y i * x (S i))) as [B3|B3]; destruct CE as [[-> CE]|[-> CE]]; try reflexivity; exfalso; rewrite X1 in B3; nra.
      + destruct (Rlt_dec (y (S i)) 0); [ | lra ]. assert (D : lam * (y (S i) - y i) < 0) by nra.
        destruct (Rlt_dec (x i * y (S i) - y i * x (S i)) 0) as [B3|B3]; destruct CE as [[-> CE]|[-> CE]]; try reflexivity; exfalso; rewrite X1 in B3; nra.
    - destruct (E3 L) as [->|[Q _]]; [ | contradiction ].
      assert (YL : 0 <= y i * y (S i)) by (rewrite YY; apply Rmult_le_pos; lra).
      destruct (Rlt_dec (y i) 0), (Rlt_dec 0 (y (S i))), (Rlt_dec (y (S i)) 0); try reflexivity; exfalso; nra. }
  assert (PER : a N = a O). { unfold a, vertex. fold N. rewrite Nat.mod_same, Nat.mod_0_l by lia. reflexivity. }
  assert (HX : forall i, (i < N)%nat -> y i * y (S i) < 0 -> x i * y (S i) - y i * x (S i) <> 0).
  { intros i _ L. assert (L' : H i * H (S i) < 0) by (rewrite YY in L; nra). rewrite (XC i L'). assert (B := NC i L').
    assert (c i <> 0) by (intros Z; rewrite Z, Rabs_R0 in B; lra). apply Rmult_integral_contrapositive_currified; [ apply Rmult_integral_contrapositive_currified; lra | nra ]. }
  assert (TT : forall th, (forall i, (i < N)%nat -> swept n (a i) (a (S i)) (th i)) -> total th N = 2 * PI * IZR (zsum (map (xing x y) (seq 0 N)))).
  { intros th HT. apply total_turn; auto.
    - unfold x. now rewrite PER.
    - unfold y. now rewrite PER.
    - intros i I. apply (frame_swept axis n AX Ln NZ (a i) (a (S i)) (th i)); auto. }
  assert (EX : exists th : nat -> R, forall i, (i < N)%nat -> swept n (a i) (a (S i)) (th i)).
  { assert (P : forall m, (m <= N)%nat -> exists th : nat -> R, forall i, (i < m)%nat -> swept n (a i) (a (S i)) (th i)).
    { induction m as [|m IH]; intros M; [ exists (fun _ => 0); lia | ]. destruct (IH ltac:(lia)) as [th T].
      destruct (edge_turn_exists (x m) (y m) (x (S m)) (y (S m)) (Y0 m) (Y0 (S m)) (HX m ltac:(lia))) as (t & Q).
      exists (fun i => if Nat.eqb i m then t else th i). intros i I. destruct (Nat.eqb_spec i m) as [->|D]; [ | apply T; lia ].
      apply (frame_swept axis n AX Ln NZ (a m) (a (S m)) t); auto. }
    now apply P. }
  exists (zsum (map (xing x y) (seq 0 N))). split; [ | split ].
  - destruct EX as [th T]. exists th. split; [ exact T | now apply TT ].
  - intros w' (th & T & E). fold N in T, E. rewrite (TT th T) in E. apply Rmult_eq_reg_l in E; [ | assert (P := PI_RGT_0); lra ]. symmetry. now apply eq_IZR.
  - rewrite LR, (loop_odd N e EN). f_equal. now apply odd_sums.
Qed.
Lemma winding_normal : forall n vs p, length n = 3%nat -> rdot n n <> 0 -> plane_polygon n vs -> length p = 3%nat -> rdot p n = rdot (vertex vs 0) n ->
  exists axis, (axis < 3)%nat /\ (forall j, Rabs (nth j n 0) <= Rabs (nth axis n 0))
    /\ (clear_height axis vs p -> clear_boundary axis vs p -> exists w, winding_number n vs p w /\ (forall w', winding_number n vs p w' -> w' = w)
         /\ polygon_contains_point_n (vS p) (vS n) (map vS vs) = Ret (Z.odd w)).
Proof.
  intros n vs p Ln NN CV Lp CP. destruct (abs_max_axis n Ln NN) as (axis & E & A & NZ & M). exists axis. split; [ exact A | ]. split; [ exact M | ].
  intros CH CB. unfold polygon_contains_point_n. rewrite E. cbn [bind]. now apply winding_ok.
Qed.
Lemma winding_three : forall v0 v1 v2 l p, let vs := v0 :: v1 :: v2 :: l in let n := cross_of v0 v1 v2 in
  plane_polygon n vs -> length p = 3%nat -> rdot p n = rdot v0 n ->
  rnorm (rsub v2 v0) * rnorm (rsub v1 v0) <> 0 -> / 100000000 * (rnorm (rsub v2 v0) * rnorm (rsub v1 v0)) <= rnorm n ->
  exists axis, (axis < 3)%nat /\ (forall j, Rabs (nth j n 0) <= Rabs (nth axis n 0))
    /\ (clear_height axis vs p -> clear_boundary axis vs p -> exists w, winding_number n vs p w /\ (forall w', winding_number n vs p w' -> w' = w)
         /\ polygon_contains (vS p) (map vS vs) = Ret (Z.odd w)).
Proof.
  intros v0 v1 v2 l p vs n PP Lp CP S0 H. assert (PP' := PP). destruct PP' as (N1 & F & CO).
  assert (L0 : length v0 = 3%nat) by (rewrite Forall_forall in F; apply F; cbn; auto). assert (L1 : length v1 = 3%nat) by (rewrite Forall_forall in F; apply F; cbn; auto). assert (L2 : length v2 = 3%nat) by (rewrite Forall_forall in F; apply F; cbn; auto).
  assert (V0 : vertex vs 0 = v0) by (unfold vertex; rewrite Nat.mod_small by (cbn; lia); reflexivity).
  assert (Ln : length n = 3%nat) by (unfold n, cross_of; clear - L0 L1 L2; destruct v0 as [|a0 [|a1 [|a2 [|]]]]; try discriminate; destruct v1 as [|b0 [|b1 [|b2 [|]]]]; try discriminate; destruct v2 as [|c0 [|c1 [|c2 [|]]]]; try discriminate; reflexivity).
  destruct (from_points_ok v0 v1 v2 L0 L1 L2) as [FP _]. destruct (FP (conj S0 H)) as (pl & E & [LM UM] & _ & _ & _ & k & K & EK). clear FP. fold n in EK.
  unfold pl_from_points in E. destruct (plane_normal (vS v0) (vS v1) (vS v2) angle_epsilon) as [valid m] eqn:EP. destruct valid; [ | discriminate ]. cbn [negb] in E.
  assert (EM : m = vS (pl_normal pl)). { exact (f_equal (fun z => pl_normal (snd z)) E). }
  destruct (abs_max_axis (pl_normal pl) LM) as (axis & EA & A & NZ & MX). { rewrite UM. lra. }
  exists axis. split; [ exact A | ]. split.
  { intros j. rewrite EK, !nth_rscale, !Rabs_mult. apply Rmult_le_compat_l; [ apply Rabs_pos | apply MX ]. }
  intros CH CB. assert (EV : map vS vs = vS v0 :: vS v1 :: vS v2 :: map vS l) by reflexivity.
  unfold polygon_contains. rewrite EV. rewrite EP, EM. unfold require. rewrite EA. cbn [bind]. rewrite <- EV.
  apply winding_ok; auto. { now rewrite V0. } rewrite EK, nth_rscale. apply Rmult_integral_contrapositive_currified; [ lra | exact NZ ].
Qed.
(** ** Rays and polygons *)
Lemma ray_winding_ok : forall r pl vs, length (ray_origin r) = 3%nat -> length (ray_dir r) = 3%nat -> is_plane 3 pl ->
  plane_polygon (pl_normal pl) vs -> on_plane 3 pl (vertex vs 0) ->
  / 1000 < Rabs (rdot (ray_dir r) (pl_normal pl)) -> (forall t, - / 1000 <= t < 0 -> ~ on_plane 3 pl (ray_at r t)) ->
  exists axis, (axis < 3)%nat /\ (forall j, Rabs (nth j (pl_normal pl) 0) <= Rabs (nth axis (pl_normal pl) 0))
    /\ ((forall t, on_plane 3 pl (ray_at r t) -> clear_height axis vs (ray_at r t) /\ clear_boundary axis vs (ray_at r t)) ->
        exists x, intersect_ray_polygon_plane (ray_lift r) (plane_lift pl) (map vS vs) = Ret x
          /\ intersects (fun q => on_plane 3 pl q /\ exists w, winding_number (pl_normal pl) vs q w /\ Z.odd w = true) r x).
Proof.
  intros r pl vs L1 L2 HP PP OP C T. assert (HP' := HP). destruct HP' as [LN UN].
  destruct (abs_max_axis (pl_normal pl) LN) as (axis & E & A & N & M). { rewrite UN. lra. }
  exists axis. split; [ exact A | ]. split; [ exact M | ]. intros CL.
  destruct (ray_plane_ok 3 r pl L1 L2 HP) as [_ H]. destruct (H C) as (t & P & TN & TS). clear H.
  unfold intersect_ray_polygon_plane. destruct (Rlt_le_dec t (- / 1000)) as [H|H].
  - rewrite TN by exact H. cbn. exists None. split; [ reflexivity | ]. intros (t' & T' & I & _). apply P in I. lra.
  - rewrite TS by exact H. assert (T0 : 0 <= t). { destruct (Rlt_le_dec t 0) as [TT|TT]; [ | exact TT ]. exfalso. apply (T t); [ lra | now apply P ]. }
    rewrite X_nan.
    assert (EQ : al_point_at_distance (ray_origin (ray_lift r)) (ray_dir (ray_lift r)) (Some t) = vS (ray_at r t)).
    { unfold al_point_at_distance, ray_lift, ray_at, rpoint. cbn [ray_origin ray_dir]. now rewrite X_scale, X_add. }
    cbv zeta. rewrite EQ. unfold polygon_contains_point_n. change (pl_normal (plane_lift pl)) with (vS (pl_normal pl)). rewrite E. cbn [bind].
    assert (OT : on_plane 3 pl (ray_at r t)) by (now apply P). destruct (CL t OT) as [C1 C2].
    destruct (winding_ok (pl_normal pl) vs (ray_at r t) axis LN PP) as (w & W1 & W2 & EB); auto.
    { apply OT. } { destruct OT as [_ ->]. destruct OP as [_ ->]. reflexivity. }
    rewrite EB. cbn [bind]. destruct (Z.odd w) eqn:OW.
    + exists (Some t). split; [ reflexivity | ]. split; [ exact T0 | ]. split.
      * split; [ exact OT | ]. exists w. split; [ exact W1 | exact OW ].
      * intros t' T' [I _]. apply P in I. lra.
    + exists None. split; [ reflexivity | ]. intros (t' & T' & I & w' & W' & O'). apply P in I. subst t'. apply W2 in W'. subst w'. rewrite OW in O'. discriminate.
Qed.
