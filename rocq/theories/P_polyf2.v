(** Points in polygons in machine arithmetic: the loop (C116). *)
From Coq Require Import ZArith Reals List Lia Lra Bool Psatz Arith.
From Flocq Require Import Core BinarySingleNaN.
From Verif Require Import P_poly2d Ops M_scalar M_vec M_geom M_intersect Inst_F Inst_XR S_vec S_rnd S_hit S_polygon S_winding S_polyf P_ord P_ieee P_xr P_vec P_vec2 P_line P_polygon P_winding P_safe P_fp P_fp4 P_hit P_hit2 P_polyf.
Import ListNotations.
Local Open Scope R_scope.

(** The loop over the real coordinates *)
Lemma real_loop : forall axis p vs, (axis < 3)%nat -> length p = 3%nat -> (0 < length vs)%nat -> Forall (fun v => length v = 3%nat) vs ->
  polygon_contains_point (vS p) axis (map vS vs) = Ret (loop_result (length vs) (fun i => polygon_edge (vS (relative axis p (vertex vs i))) (vS (relative axis p (vertex vs (S i)))))).
Proof.
  intros axis p vs AX Lp N0 F. destruct vs as [|v vs']; [cbn in N0; lia|]. rewrite contains_loop by assumption. apply f_equal.
  rewrite loop_cycle. cbv zeta. set (L := vS (relative axis p v) :: _).
  assert (EL : L = map (fun v => vS (relative axis p v)) (v :: vs')) by reflexivity. rewrite EL, map_length. clearbody L. clear EL.
  assert (EW : forall i, nth (i mod length (v :: vs')) (map (fun v => vS (relative axis p v)) (v :: vs')) [] = vS (relative axis p (vertex (v :: vs') i))).
  { intros i. unfold vertex. rewrite nth_indep with (d' := vS (relative axis p [])) by (rewrite map_length; apply Nat.mod_upper_bound; cbn; lia).
    now rewrite map_nth with (f := fun v => vS (relative axis p v)). }
  apply loop_result_ext. intros i. rewrite !EW. reflexivity.
Qed.
(** What is seen along an axis *)
Lemma seen_coords : forall axis v, (axis < 3)%nat -> length v = 3%nat -> length (seen axis v) = 3%nat /\ across axis (seen axis v) = across axis v /\ height axis (seen axis v) = height axis v /\ rdot (seen axis v) (axis_dir axis) = 0.
Proof.
  intros axis v A L. destruct v as [|a [|b [|c [|]]]]; try discriminate. destruct axis as [|[|[|]]]; try lia; cbn; repeat split; ring.
Qed.
Lemma axis_dir_ok : forall axis, (axis < 3)%nat -> length (axis_dir axis) = 3%nat /\ nth axis (axis_dir axis) 0 <> 0.
Proof. intros axis A. destruct axis as [|[|[|]]]; try lia; cbn; split; auto; lra. Qed.

Section FP.
Variables prec emax : Z.
Context {Hprec : Prec_gt_0 prec} {Hmax : Prec_lt_emax prec emax}.
Notation fl := (binary_float prec emax).
Notation u := (unit_roundoff prec).
Notation eta := (underflow_error prec emax).
Notation Om := (bpow radix2 emax).
Hypothesis U20 : (20 <= prec)%Z.
Hypothesis E20 : (20 <= emax)%Z.

(** Coordinates relative to the point *)
Definition rel (axis : nat) (p v : list fl) : list fl := match v_swizzle v axis, v_swizzle p axis with Ret a, Ret b => v_sub a b | _, _ => [] end.
Lemma rel_near : forall axis M (p v : list fl), (axis < 3)%nat -> 1 <= M -> 32 * (M * M) <= Om -> within M p -> within M v ->
  exists X Y Z, rel axis p v = [X; Y; Z]
  /\ (let x := across axis (values v) - across axis (values p) in near X x (u * Rabs x) /\ Rabs x <= 2 * M)
  /\ (let y := height axis (values v) - height axis (values p) in near Y y (u * Rabs y) /\ Rabs y <= 2 * M).
Proof.
  intros axis M p v A M1 MO (Lp & Fp & Bp) (Lv & Fv & Bv).
  assert (D : forall a b : fl, is_finite a = true -> is_finite b = true -> Rabs (B2R a) <= M -> Rabs (B2R b) <= M -> near (o_sub a b) (B2R a - B2R b) (u * Rabs (B2R a - B2R b)) /\ Rabs (B2R a - B2R b) <= 2 * M).
  { intros a b Fa Fb Ba Bb. assert (B : Rabs (B2R a - B2R b) <= 2 * M) by (apply Rabs_le_inv in Ba, Bb; apply Rabs_le; lra). split; [|exact B]. destruct (eta_small prec emax E20) as [T0 TS].
    eapply near_le; [apply (near_sub prec emax a b _ _ 0 0 _ (near_exact prec emax a Fa) (near_exact prec emax b Fb) (Rle_refl _))|lra].
    assert (R := room prec emax U20 E20 M M1 MO (Rabs (B2R a - B2R b) + 0 + 0)). assert (P := Rabs_pos (B2R a - B2R b)). assert (M * 1 <= M * M) by (apply Rmult_le_compat_l; lra). lra. }
  destruct p as [|p0 [|p1 [|p2 [|]]]]; try discriminate. destruct v as [|v0 [|v1 [|v2 [|]]]]; try discriminate. cbn [values map] in Bp, Bv.
  inversion Fp as [|? ? Fp0 Fp']; subst. inversion Fp' as [|? ? Fp1 Fp'']; subst. inversion Fp'' as [|? ? Fp2 _]; subst. inversion Fv as [|? ? Fv0 Fv']; subst. inversion Fv' as [|? ? Fv1 Fv'']; subst. inversion Fv'' as [|? ? Fv2 _]; subst.
  inversion Bp as [|? ? Bp0 Bp']; subst. inversion Bp' as [|? ? Bp1 Bp'']; subst. inversion Bp'' as [|? ? Bp2 _]; subst. inversion Bv as [|? ? Bv0 Bv']; subst. inversion Bv' as [|? ? Bv1 Bv'']; subst. inversion Bv'' as [|? ? Bv2 _]; subst.
  destruct axis as [|[|[|]]]; try lia.
  - exists (o_sub v1 p1), (o_sub v2 p2), (o_sub v0 p0). split; [reflexivity|]. split; [apply (D v1 p1)|apply (D v2 p2)]; assumption.
  - exists (o_sub v2 p2), (o_sub v0 p0), (o_sub v1 p1). split; [reflexivity|]. split; [apply (D v2 p2)|apply (D v0 p0)]; assumption.
  - exists (o_sub v0 p0), (o_sub v1 p1), (o_sub v2 p2). split; [reflexivity|]. split; [apply (D v0 p0)|apply (D v1 p1)]; assumption.
Qed.
Lemma float_loop : forall axis (p : list fl) vs, (axis < 3)%nat -> (0 < length vs)%nat ->
  polygon_contains_point p axis vs = Ret (loop_result (length vs) (fun i => polygon_edge (rel axis p (nth (i mod length vs) vs [])) (rel axis p (nth (S i mod length vs) vs [])))).
Proof.
  intros axis p vs AX N0. unfold polygon_contains_point.
  assert (SW : forall v : list fl, exists s, v_swizzle v axis = Ret s) by (intros v; destruct axis as [|[|[|]]]; try lia; eexists; reflexivity).
  destruct (SW p) as (o' & EP). rewrite EP. cbn [bind].
  assert (MM : forall l, mapM (fun v => do v' <- v_swizzle v axis; Ret (v_sub v' o')) l = Ret (map (rel axis p) l)).
  { induction l as [|v l IH]; [reflexivity|]. cbn [mapM map]. destruct (SW v) as (v' & EV). rewrite EV. cbn [bind]. rewrite IH. cbn [bind]. unfold rel at 2. rewrite EV, EP. reflexivity. }
  rewrite MM. cbn [bind]. destruct vs as [|v vs]; [cbn in N0; lia|]. cbn [map]. apply f_equal. rewrite loop_cycle. cbv zeta. change (rel axis p v :: map (rel axis p) vs) with (map (rel axis p) (v :: vs)). rewrite map_length.
  apply loop_result_ext. intros i.
  assert (EW : forall i, nth (i mod length (v :: vs)) (map (rel axis p) (v :: vs)) [] = rel axis p (nth (i mod length (v :: vs)) (v :: vs) [])).
  { intros k. rewrite nth_indep with (d' := rel axis p []) by (rewrite map_length; apply Nat.mod_upper_bound; cbn; lia). apply map_nth. }
  now rewrite !EW.
Qed.

Theorem polygon_ok : forall (p : list fl) (vs : list (list fl)) axis M m, (axis < 3)%nat -> vs <> [] -> within M p -> Forall (within M) vs -> 1 <= M -> 32 * (M * M) <= Om -> / 900 + 100 * (u * M) <= m ->
  let vs' := map (fun v => seen axis (values v)) vs in let p' := seen axis (values p) in
  clear_height_by m axis vs' p' -> clear_boundary_by m axis vs' p' ->
  exists w, winding_number (axis_dir axis) vs' p' w /\ (forall w', winding_number (axis_dir axis) vs' p' w' -> w' = w) /\ polygon_contains_point p axis vs = Ret (Z.odd w).
Proof.
  intros p vs axis M m AX NE Wp Wv M1 MO Hm vs' p' CH CB. destruct (u_small prec U20) as [U0 U1]. assert (UM : 0 <= u * M) by (apply Rmult_le_pos; lra). assert (M9 : / 1000 < m) by lra.
  assert (N0 : (0 < length vs)%nat) by (destruct vs; [contradiction|cbn; lia]). assert (LN : length vs' = length vs) by apply map_length.
  assert (Lp : length (values p) = 3%nat) by (unfold values; rewrite map_length; apply Wp). destruct (seen_coords axis (values p) AX Lp) as (Lp' & AP & HP & PP). destruct (axis_dir_ok axis AX) as (LA & NA).
  assert (FV : Forall (fun v => length v = 3%nat /\ rdot v (axis_dir axis) = 0) vs').
  { unfold vs'. apply Forall_map. eapply Forall_impl; [|exact Wv]. intros v (Lv & _). assert (Lv' : length (values v) = 3%nat) by (unfold values; now rewrite map_length). destruct (seen_coords axis (values v) AX Lv') as (Q1 & _ & _ & Q2). auto. }
  assert (F3 : Forall (fun v => length v = 3%nat) vs') by (eapply Forall_impl; [|exact FV]; intros v [Q _]; exact Q).
  assert (VI : forall i, In (vertex vs' i) vs') by (intros i; unfold vertex; apply nth_In, Nat.mod_upper_bound; lia).
  assert (PL : plane_polygon (axis_dir axis) vs').
  { split; [lia|]. split; [exact F3|]. rewrite Forall_forall in FV. intros i j. rewrite (proj2 (FV _ (VI i))), (proj2 (FV _ (VI j))). reflexivity. }
  assert (CP : rdot p' (axis_dir axis) = rdot (vertex vs' 0) (axis_dir axis)) by (rewrite Forall_forall in FV; rewrite (proj2 (FV _ (VI 0%nat))); exact PP).
  assert (CH' : clear_height axis vs' p'). { intros i. destruct (CH i) as (Q1 & Q2). split; [exact Q1|]. destruct Q2 as [Q2|[Q2|Q2]]; [left; exact Q2|right; left; lra|right; right; lra]. }
  assert (CB' : clear_boundary axis vs' p') by (intros q Q; destruct (CB q Q) as [B|B]; [left|right]; lra).
  destruct (winding_ok (axis_dir axis) vs' p' axis LA PL Lp' CP AX NA CH' CB') as (w & W1 & W2 & W3). exists w. split; [exact W1|]. split; [exact W2|].
  rewrite real_loop in W3 by (try assumption; lia). rewrite LN in W3. rewrite <- W3. rewrite float_loop by assumption. apply f_equal, loop_result_ext. intros i.
  set (A i := across axis (vertex vs' i) - across axis p'). set (H i := height axis (vertex vs' i) - height axis p').
  assert (VW : forall i, within M (nth (i mod length vs) vs []) /\ vertex vs' i = seen axis (values (nth (i mod length vs) vs []))).
  { intros k. assert (I : (k mod length vs < length vs)%nat) by (apply Nat.mod_upper_bound; lia). split; [rewrite Forall_forall in Wv; apply Wv, nth_In, I|].
    unfold vertex. rewrite LN. unfold vs'. rewrite nth_indep with (d' := seen axis (values ([] : list fl))) by (rewrite map_length; exact I). now rewrite map_nth with (f := fun v : list fl => seen axis (values v)). }
  assert (RN : forall i, exists X Y Z, rel axis p (nth (i mod length vs) vs []) = [X; Y; Z] /\ near X (A i) (u * Rabs (A i)) /\ Rabs (A i) <= 2 * M /\ near Y (H i) (u * Rabs (H i)) /\ Rabs (H i) <= 2 * M).
  { intros k. destruct (VW k) as (Wk & Ek). destruct (rel_near axis M p _ AX M1 MO Wp Wk) as (X & Y & Z & ER & (N1 & B1) & N2 & B2). exists X, Y, Z. split; [exact ER|].
    assert (Lk : length (values (nth (k mod length vs) vs [])) = 3%nat) by (unfold values; rewrite map_length; apply Wk). destruct (seen_coords axis _ AX Lk) as (_ & Q1 & Q2 & _).
    assert (EA : A k = across axis (values (nth (k mod length vs) vs [])) - across axis (values p)) by (unfold A, p'; rewrite Ek, Q1, AP; reflexivity). assert (EH : H k = height axis (values (nth (k mod length vs) vs [])) - height axis (values p)) by (unfold H, p'; rewrite Ek, Q2, HP; reflexivity).
    rewrite EA, EH. auto. }
  destruct (RN i) as (X0 & Y0 & Z0 & -> & NX0 & BX0 & NY0 & BY0). destruct (RN (S i)) as (X1 & Y1 & Z1 & -> & NX1 & BX1 & NY1 & BY1).
  assert (H0 : forall i, H i <> 0) by (intros k; apply CH). assert (SI := proj2 (CH i)). fold (H i) (H (S i)) in SI.
  assert (VL : forall i, length (vertex vs' i) = 3%nat) by (intros k; rewrite Forall_forall in F3; apply F3, VI).
  assert (NB : m < Rabs (A i) \/ m < Rabs (H i)).
  { apply CB. exists i, 0. split; [lra|]. assert (L := VL i). assert (L' := VL (S i)). unfold rlerp. vext. ring. }
  set (c := A i - H i * (A (S i) - A i) / (H (S i) - H i)).
  assert (NC : H i * H (S i) < 0 -> m < Rabs c).
  { intros C. destruct (opposite (H i) (H (S i)) 0 0 0) as (DY & _ & _ & _ & T & _); [lra|rewrite Rabs_R0; lra..|exact C|]. set (t := - H i / (H (S i) - H i)) in *.
    destruct (across_lerp axis (vertex vs' i) (vertex vs' (S i)) t AX (VL i) (VL (S i))) as [Q1 Q2].
    destruct (CB (rlerp (vertex vs' i) (vertex vs' (S i)) t)) as [B|B].
    { exists i, t. split; [exact T|reflexivity]. }
    { rewrite Q1 in B. replace c with (across axis (vertex vs' i) + t * (across axis (vertex vs' (S i)) - across axis (vertex vs' i)) - across axis p'); [exact B|].
      unfold c, t. replace (A (S i) - A i) with (across axis (vertex vs' (S i)) - across axis (vertex vs' i)) by (unfold A; ring). unfold A. field. exact DY. }
    { exfalso. rewrite Q2 in B. replace (height axis (vertex vs' i) + t * (height axis (vertex vs' (S i)) - height axis (vertex vs' i)) - height axis p') with 0 in B. { rewrite Rabs_R0 in B. lra. }
      replace (height axis (vertex vs' (S i)) - height axis (vertex vs' i)) with (H (S i) - H i) by (unfold H; ring). replace (height axis (vertex vs' i) + t * (H (S i) - H i) - height axis p') with (H i + t * (H (S i) - H i)) by (unfold H; ring). unfold t. field. exact DY. } }
  destruct (edge_F prec emax U20 E20 (A i) (H i) (A (S i)) (H (S i)) M m X0 Y0 Z0 X1 Y1 Z1 NX0 NY0 NX1 NY1 BX0 BY0 BX1 BY1 M1 MO Hm (H0 i) (H0 (S i)) SI NB NC) as [E1 E2]. fold c in E1.
  destruct (edge_spec (A i) (H i) (nth axis (vertex vs' i) 0 - nth axis p' 0) (A (S i)) (H (S i)) (nth axis (vertex vs' (S i)) 0 - nth axis p' 0) (H0 i) (H0 (S i)) (proj2 (CH' i))) as [E3 E4]. fold c in E3.
  assert (NV : ~ (Rabs (A i) <= / 1000 /\ Rabs (H i) <= / 1000)) by (intros [? ?]; destruct NB; lra).
  change (vS (relative axis p' (vertex vs' i))) with (vS [A i; H i; nth axis (vertex vs' i) 0 - nth axis p' 0]). change (vS (relative axis p' (vertex vs' (S i)))) with (vS [A (S i); H (S i); nth axis (vertex vs' (S i)) 0 - nth axis p' 0]).
  destruct (Rlt_dec (H i * H (S i)) 0) as [L|L].
  - assert (CC := NC L). destruct (E1 L) as [[Q C1]|[Q C1]]; rewrite Q; destruct (E3 L) as [[Q' C2]|[[Q' C2]|[_ [C2|C2]]]]; try (symmetry; exact Q'); try (exfalso; lra); contradiction.
  - rewrite (E2 L). destruct (E4 L) as [Q|[_ Q]]; [symmetry; exact Q|contradiction].
Qed.
(** With a normal instead of the axis *)
Theorem polygon_normal_ok : forall (p n : list fl) (vs : list (list fl)) M m, length n = 3%nat -> vs <> [] -> within M p -> Forall (within M) vs -> 1 <= M -> 32 * (M * M) <= Om -> / 900 + 100 * (u * M) <= m ->
  exists axis, find_abs_max_component n 0 = Ret axis /\ (axis < 3)%nat /\
  let vs' := map (fun v => seen axis (values v)) vs in let p' := seen axis (values p) in
  (clear_height_by m axis vs' p' -> clear_boundary_by m axis vs' p' ->
  exists w, winding_number (axis_dir axis) vs' p' w /\ (forall w', winding_number (axis_dir axis) vs' p' w' -> w' = w) /\ polygon_contains_point_n p n vs = Ret (Z.odd w)).
Proof.
  intros p n vs M m Ln NE Wp Wv M1 MO Hm. destruct (find_abs_max_ret n 0 ltac:(lia)) as (axis & E & L). exists axis. rewrite Ln in L. split; [exact E|]. split; [exact L|]. intros vs' p' CH CB. unfold polygon_contains_point_n. rewrite E. cbn [bind]. now apply (polygon_ok p vs axis M m).
Qed.
End FP.
