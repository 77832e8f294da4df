(** Transforming points and boxes by machine matrices (C111). *)
From Coq Require Import ZArith Reals List Lia Lra Bool Psatz.
From Flocq Require Import Core BinarySingleNaN.
From Verif Require Import Ops M_scalar M_vec M_mat M_matext M_bbox Inst_XR Inst_F S_vec S_mat S_affine S_order S_boxset S_bbox S_grid S_rnd S_hit S_lu S_tbox
  P_ord P_ieee P_vec P_fp P_fp3 P_fp4 P_fp7 P_hit P_hit2 P_ft P_bbox P_bbox2 P_bbox3.
Import ListNotations.
Local Open Scope R_scope.

Section FP.
Variables prec emax : Z.
Context {Hprec : Prec_gt_0 prec} {Hmax : Prec_lt_emax prec emax}.
Notation fl := (binary_float prec emax).
Notation u := (unit_roundoff prec).
Notation eta := (underflow_error prec emax).
Notation Om := (bpow radix2 emax).
Hypothesis U20 : (20 <= prec)%Z.
Hypothesis E20 : (20 <= emax)%Z.

Lemma shape44 : forall m : list (list fl), affine 3 (mvalues m) ->
  exists a00 a10 a20 a30 a01 a11 a21 a31 a02 a12 a22 a32 a03 a13 a23 a33,
    m = [[a00; a10; a20; a30]; [a01; a11; a21; a31]; [a02; a12; a22; a32]; [a03; a13; a23; a33]]
    /\ B2R a30 = 0 /\ B2R a31 = 0 /\ B2R a32 = 0 /\ B2R a33 = 1.
Proof.
  intros m ((L & F) & H). unfold mvalues in L. rewrite map_length in L.
  destruct m as [|c0 [|c1 [|c2 [|c3 [|]]]]]; try discriminate L. unfold mvalues in F. cbn [map] in F.
  repeat match goal with K : Forall _ (_ :: _) |- _ => inversion K; clear K; subst end. unfold values in *. rewrite !map_length in *.
  destruct c0 as [|a00 [|a10 [|a20 [|a30 [|]]]]]; try discriminate. destruct c1 as [|a01 [|a11 [|a21 [|a31 [|]]]]]; try discriminate.
  destruct c2 as [|a02 [|a12 [|a22 [|a32 [|]]]]]; try discriminate. destruct c3 as [|a03 [|a13 [|a23 [|a33 [|]]]]]; try discriminate.
  repeat eexists; [exact (H 0%nat ltac:(lia))|exact (H 1%nat ltac:(lia))|exact (H 2%nat ltac:(lia))|exact (H 3%nat ltac:(lia))].
Qed.
Lemma abs_prod_le : forall a x X, Rabs x <= X -> Rabs a * Rabs x <= Rabs a * X.
Proof. intros. apply Rmult_le_compat_l; [apply Rabs_pos|assumption]. Qed.

(** The computed image of a point that is known up to an error *)
Lemma image_near : forall (m : list (list fl)) p q K T M r, affine_up_to K T m -> 0 <= M -> length p = 3%nat -> length q = 3%nat ->
  Forall2 (fun x y => near x y (4 * u * M)) p q -> Forall (fun y => Rabs y <= M) q -> 2 * (K * M + T + 1) <= Om -> (r < 3)%nat ->
  near (vget (m_mul_p 4 m p) r) (nth r (raffine 3 (mvalues m) q) 0) (image_error prec emax K M T).
Proof.
  intros m p q K T M r (Fm & Am & Hm) M0 Lp Lq N B HO Hr. destruct (u_small prec ltac:(assumption)) as [U0 U1]. destruct (eta_small prec emax ltac:(assumption)) as [T0 T1].
  assert (OM := om_big emax ltac:(assumption)).
  destruct (Hm r Hr) as [HK HT]. destruct (shape44 m Am) as (a00 & a10 & a20 & a30 & a01 & a11 & a21 & a31 & a02 & a12 & a22 & a32 & a03 & a13 & a23 & a33 & E & Z0 & Z1 & Z2 & Z3).
  destruct p as [|x [|y [|z [|]]]]; try discriminate. destruct q as [|x' [|y' [|z' [|]]]]; try discriminate.
  inversion N as [|? ? ? ? Nx N']; subst. inversion N' as [|? ? ? ? Ny N'']; subst. inversion N'' as [|? ? ? ? Nz _]; subst. clear N N' N''.
  inversion B as [|? ? Bx B']; subst. inversion B' as [|? ? By B'']; subst. inversion B'' as [|? ? Bz _]; subst. clear B B' B''.
  set (m := [[a00; a10; a20; a30]; [a01; a11; a21; a31]; [a02; a12; a22; a32]; [a03; a13; a23; a33]]) in *.
  assert (Vx := near_val prec emax _ _ _ _ Nx Bx). assert (Vy := near_val prec emax _ _ _ _ Ny By). assert (Vz := near_val prec emax _ _ _ _ Nz Bz).
  assert (exists c0 c1 c2 c3, row m r = [c0; c1; c2; c3] /\ Rabs (B2R c0) + Rabs (B2R c1) + Rabs (B2R c2) <= K /\ Rabs (B2R c3) <= T
    /\ nth r (raffine 3 (mvalues m) [x'; y'; z']) 0 = B2R c0 * x' + B2R c1 * y' + B2R c2 * z' + B2R c3) as (c0 & c1 & c2 & c3 & ER & CK & CT & EA).
  { rewrite raffine3. destruct r as [|[|[|]]]; [| | |lia]; repeat eexists; auto. }
  assert (K0 : 0 <= K) by (assert (G0 := Rabs_pos (B2R c0)); assert (G1 := Rabs_pos (B2R c1)); assert (G2 := Rabs_pos (B2R c2)); lra).
  assert (T0' : 0 <= T) by (assert (G0 := Rabs_pos (B2R c3)); lra).
  assert (KM : 0 <= K * M) by (apply Rmult_le_pos; assumption).
  assert (UKM : 0 <= u * (K * M)) by (apply Rmult_le_pos; lra). assert (UT : 0 <= u * T) by (apply Rmult_le_pos; lra).
  assert (UUKM : u * (u * (K * M)) <= / 1000000 * (u * (K * M))) by (apply Rmult_le_compat_r; lra).
  assert (UET : u * eta <= / 1000000 * eta) by (apply Rmult_le_compat_r; lra). assert (UET0 : 0 <= u * eta) by (apply Rmult_le_pos; lra).
  set (sz := size_dot (values (row m r)) (values [x; y; z] ++ [1])).
  assert (SZ : sz <= K * M * (1 + 4 * u) + T).
  { unfold sz, size_dot, values. rewrite ER. cbn. rewrite Rabs_R1.
    assert (P0 := abs_prod_le (B2R c0) _ _ Vx). assert (P1 := abs_prod_le (B2R c1) _ _ Vy). assert (P2 := abs_prod_le (B2R c2) _ _ Vz).
    assert (P3 : (Rabs (B2R c0) + Rabs (B2R c1) + Rabs (B2R c2)) * (M + 4 * u * M) <= K * (M + 4 * u * M)) by (apply Rmult_le_compat_r; [assert (0 <= u * M) by (apply Rmult_le_pos; lra); lra|exact CK]). lra. }
  assert (SP : 0 <= sz) by apply size_dot_pos.
  assert (P4 : 1 <= (1 + u) ^ 4 <= 1 + 401 / 100 * u) by (split; [apply pow1|cbn; nra]).
  destruct (affine_ok prec emax 3 m [x; y; z] r) as (F & H); auto.
  { repeat constructor; [apply Nx|apply Ny|apply Nz]. } { unfold values, row, m. cbn. now rewrite Z0, Z1, Z2, Z3. }
  { unfold no_overflow. fold sz. replace (INR 4) with 4 by (cbn; ring). eapply Rle_lt_trans with ((1 + 401 / 100 * u) * (K * M * (1 + 4 * u) + T + 4 * eta)); [apply Rmult_le_compat; lra|].
    clear - OM HO U0 U1 T0 T1 KM T0' UKM UT UUKM UET UET0. nra. }
  split; [exact F|]. fold sz in H. rewrite EA. unfold image_error.
  replace (B2R (vget (m_mul_p 4 m [x; y; z]) r) - (B2R c0 * x' + B2R c1 * y' + B2R c2 * z' + B2R c3)) with
    ((B2R (vget (m_mul_p 4 m [x; y; z]) r) - rdot (values (row m r)) (values [x; y; z] ++ [1])) + (B2R c0 * (B2R x - x') + B2R c1 * (B2R y - y') + B2R c2 * (B2R z - z')))
    by (rewrite ER; unfold values; cbn; ring).
  eapply Rle_trans; [apply Rabs_triang|].
  assert (H2 : Rabs (B2R c0 * (B2R x - x') + B2R c1 * (B2R y - y') + B2R c2 * (B2R z - z')) <= K * (4 * u * M)).
  { assert (P0 := abs_prod_le (B2R c0) _ _ (proj2 Nx)). assert (P1 := abs_prod_le (B2R c1) _ _ (proj2 Ny)). assert (P2 := abs_prod_le (B2R c2) _ _ (proj2 Nz)). rewrite <- !Rabs_mult in *.
    assert (P3 : (Rabs (B2R c0) + Rabs (B2R c1) + Rabs (B2R c2)) * (4 * u * M) <= K * (4 * u * M)) by (apply Rmult_le_compat_r; [assert (0 <= u * M) by (apply Rmult_le_pos; lra); lra|exact CK]).
    eapply Rle_trans; [apply Rabs_triang|]. assert (P4' := Rabs_triang (B2R c0 * (B2R x - x')) (B2R c1 * (B2R y - y'))). lra. }
  assert (H1 : rounding_error prec emax 4 sz <= 401 / 100 * u * (K * M * (1 + 4 * u) + T) + 4 * ((1 + 401 / 100 * u) * eta)).
  { unfold rounding_error. replace (INR 4) with 4 by (cbn; ring). apply Rplus_le_compat; [apply Rmult_le_compat; lra|]. rewrite Rmult_assoc. apply Rmult_le_compat_l; [lra|]. apply Rmult_le_compat_r; lra. }
  clear - H H1 H2 U0 U1 T0 T1 KM T0' UKM UT UUKM UET UET0. lra.
Qed.

(** The order *)
Lemma fin_num : forall x : fl, is_finite x = true -> ~ NaN x.
Proof. intros x F N. unfold NaN in N. change (o_eq x x) with (Beqb x x) in N. rewrite (Feq prec emax x x F F) in N. rewrite Req_bool_true in N by reflexivity. discriminate. Qed.
Lemma squeezed : forall f x g : fl, is_finite f = true -> is_finite g = true -> o_le f x = true -> o_le x g = true ->
  is_finite x = true /\ B2R f <= B2R x <= B2R g.
Proof.
  intros f x g Ff Fg L1 L2. assert (F : is_finite x = true).
  { change (Bleb f x = true) in L1. change (Bleb x g = true) in L2. destruct x as [s|s| |s m e H]; [reflexivity| |destruct f; discriminate|reflexivity].
    destruct s; [destruct f; try discriminate Ff; cbn in L1; discriminate|destruct g; try discriminate Fg; cbn in L2; discriminate]. }
  split; [exact F|]. split; [now apply (proj1 (le_fin prec emax f x Ff F))|now apply (proj1 (le_fin prec emax x g F Fg))].
Qed.
Lemma least : forall {A} (g : A -> fl) (l : list A), l <> [] -> (forall a, In a l -> is_finite (g a) = true) ->
  exists a, In a l /\ forall b, In b l -> o_le (g a) (g b) = true.
Proof.
  intros A g l. induction l as [|a l IH]; [easy|]. intros _ F. destruct l as [|b l].
  - exists a. split; [now left|]. intros c [<-|[]]. apply le_fin; auto using in_eq. lra.
  - destruct IH as (c & C1 & C2); [discriminate|intros; apply F; now right|].
    assert (Fa := F a (or_introl eq_refl)). assert (Fc := F c (or_intror C1)).
    destruct (Rle_dec (B2R (g a)) (B2R (g c))) as [L|L].
    + exists a. split; [now left|]. intros d [<-|D]; [apply le_fin; auto; lra|]. assert (Q := C2 d D). apply le_fin in Q; auto; [|apply F; now right]. apply le_fin; auto; [apply F; now right|lra].
    + exists c. split; [now right|]. intros d [<-|D]; [apply le_fin; auto; lra|exact (C2 d D)].
Qed.
Lemma greatest : forall {A} (g : A -> fl) (l : list A), l <> [] -> (forall a, In a l -> is_finite (g a) = true) ->
  exists a, In a l /\ forall b, In b l -> o_le (g b) (g a) = true.
Proof.
  intros A g l. induction l as [|a l IH]; [easy|]. intros _ F. destruct l as [|b l].
  - exists a. split; [now left|]. intros c [<-|[]]. apply le_fin; auto using in_eq. lra.
  - destruct IH as (c & C1 & C2); [discriminate|intros; apply F; now right|].
    assert (Fa := F a (or_introl eq_refl)). assert (Fc := F c (or_intror C1)).
    destruct (Rle_dec (B2R (g c)) (B2R (g a))) as [L|L].
    + exists a. split; [now left|]. intros d [<-|D]; [apply le_fin; auto; lra|]. assert (Q := C2 d D). apply le_fin in Q; auto; [|apply F; now right]. apply le_fin; auto; [apply F; now right|lra].
    + exists c. split; [now right|]. intros d [<-|D]; [apply le_fin; auto; lra|exact (C2 d D)].
Qed.

(** The vertices *)
Lemma within3 : forall M (v : list fl), within M v -> exists x y z, v = [x; y; z] /\ (is_finite x = true /\ is_finite y = true /\ is_finite z = true)
  /\ Rabs (B2R x) <= M /\ Rabs (B2R y) <= M /\ Rabs (B2R z) <= M.
Proof.
  intros M v (L & F & B). destruct v as [|x [|y [|z [|]]]]; try discriminate. exists x, y, z. unfold values in B. cbn in B.
  repeat match goal with K : Forall _ (_ :: _) |- _ => inversion K; clear K; subst end. unfold all_finite in F.
  repeat match goal with K : Forall _ (_ :: _) |- _ => inversion K; clear K; subst end. auto.
Qed.
Section Vertex.
Variable M : R.
Hypothesis M0 : 0 <= M.
Hypothesis HM : 4 * M <= Om.
Notation e4 := (4 * u * M).
Lemma v_self : forall x : fl, is_finite x = true -> near x (B2R x) e4.
Proof. intros x F. apply near_le with 0; [now apply near_exact|]. destruct (u_small prec ltac:(assumption)). assert (0 <= u * M) by (apply Rmult_le_pos; lra). lra. Qed.
Lemma cst0_near : near (cst 0 : fl) 0 0.
Proof. destruct (F_cst0 prec emax) as [F V]. split; [exact F|]. rewrite V. rewrite Rminus_diag_eq, Rabs_R0 by reflexivity. lra. Qed.
Lemma v_sub0 : forall x : fl, is_finite x = true -> Rabs (B2R x) <= M -> near (o_sub x (cst 0)) (B2R x) e4.
Proof.
  intros x F B. destruct (u_small prec ltac:(assumption)) as [U0 U1]. assert (OM := om_big emax ltac:(assumption)). assert (0 <= u * M) by (apply Rmult_le_pos; lra). assert (u * M <= / 1000000 * M) by (apply Rmult_le_compat_r; lra).
  assert (N := near_sub prec emax x (cst 0) _ _ _ _ M (near_exact prec emax x F) cst0_near). rewrite Rminus_0_r in N. eapply near_le; [apply N; auto; lra|lra].
Qed.
Lemma v_add0 : forall x : fl, is_finite x = true -> Rabs (B2R x) <= M -> near (o_add x (cst 0)) (B2R x) e4.
Proof.
  intros x F B. destruct (u_small prec ltac:(assumption)) as [U0 U1]. assert (OM := om_big emax ltac:(assumption)). assert (0 <= u * M) by (apply Rmult_le_pos; lra). assert (u * M <= / 1000000 * M) by (apply Rmult_le_compat_r; lra).
  assert (N := near_add prec emax x (cst 0) _ _ _ _ M (near_exact prec emax x F) cst0_near). rewrite Rplus_0_r in N. eapply near_le; [apply N; auto; lra|lra].
Qed.
Lemma side_near : forall x y : fl, is_finite x = true -> is_finite y = true -> Rabs (B2R x) <= M -> Rabs (B2R y) <= M -> near (o_sub y x) (B2R y - B2R x) (2 * u * M).
Proof.
  intros x y Fx Fy Bx By. destruct (u_small prec ltac:(assumption)) as [U0 U1]. assert (OM := om_big emax ltac:(assumption)). assert (0 <= u * M) by (apply Rmult_le_pos; lra). assert (u * M <= / 1000000 * M) by (apply Rmult_le_compat_r; lra).
  apply Rabs_le_inv in Bx, By. eapply near_le; [apply near_sub with (A := 2 * M); [now apply near_exact|now apply near_exact|apply Rabs_le; lra|lra]|lra].
Qed.
Lemma v_subs : forall x y : fl, is_finite x = true -> is_finite y = true -> Rabs (B2R x) <= M -> Rabs (B2R y) <= M -> near (o_sub y (o_sub y x)) (B2R x) e4.
Proof.
  intros x y Fx Fy Bx By. destruct (u_small prec ltac:(assumption)) as [U0 U1]. assert (OM := om_big emax ltac:(assumption)). assert (0 <= u * M) by (apply Rmult_le_pos; lra). assert (u * M <= / 1000000 * M) by (apply Rmult_le_compat_r; lra).
  assert (u * (u * M) <= / 1000000 * (u * M)) by (apply Rmult_le_compat_r; lra).
  assert (N := near_sub prec emax y (o_sub y x) _ _ _ _ M (near_exact prec emax y Fy) (side_near x y Fx Fy Bx By)). replace (B2R y - (B2R y - B2R x)) with (B2R x) in N by ring.
  eapply near_le; [apply N; auto; nra|nra].
Qed.
Lemma v_adds : forall x y : fl, is_finite x = true -> is_finite y = true -> Rabs (B2R x) <= M -> Rabs (B2R y) <= M -> near (o_add x (o_sub y x)) (B2R y) e4.
Proof.
  intros x y Fx Fy Bx By. destruct (u_small prec ltac:(assumption)) as [U0 U1]. assert (OM := om_big emax ltac:(assumption)). assert (0 <= u * M) by (apply Rmult_le_pos; lra). assert (u * M <= / 1000000 * M) by (apply Rmult_le_compat_r; lra).
  assert (u * (u * M) <= / 1000000 * (u * M)) by (apply Rmult_le_compat_r; lra).
  assert (N := near_add prec emax x (o_sub y x) _ _ _ _ M (near_exact prec emax x Fx) (side_near x y Fx Fy Bx By)). replace (B2R x + (B2R y - B2R x)) with (B2R y) in N by ring.
  eapply near_le; [apply N; auto; nra|nra].
Qed.
Lemma vertices_near : forall b : bbox fl, box_of 3 b -> within M (bb_min b) -> within M (bb_max b) ->
  exists vs, bb_vertices b = Ret vs /\ Forall2 (fun v s => length v = 3%nat /\ Forall2 (fun x y => near x y e4) v (rcorner (box_values b) s)) vs corner_bits.
Proof.
  intros b B W1 W2. assert (V := box_valid 3 b B). destruct b as [mn mx]. cbn [bb_min bb_max] in *.
  destruct (within3 M mn W1) as (x0 & x1 & x2 & -> & (F0 & F1 & F2) & B0 & B1 & B2). destruct (within3 M mx W2) as (y0 & y1 & y2 & -> & (G0 & G1 & G2) & C0 & C1 & C2).
  unfold bb_vertices, bb_sides, bb_size. rewrite V. cbn [require bind bb_min bb_max]. eexists. split; [reflexivity|].
  unfold corner_bits. repeat (apply Forall2_cons; [split; [reflexivity|]|]); [..|constructor]; cbn; repeat (apply Forall2_cons); try constructor;
  first [now apply v_self|now apply v_sub0|now apply v_add0|now apply v_subs|now apply v_adds].
Qed.
End Vertex.
End FP.
