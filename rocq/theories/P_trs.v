(** Transforming and translating segments and polygons in machine arithmetic (C126). *)
From Coq Require Import ZArith Reals List Lia Lra Bool Psatz.
From Flocq Require Import Core BinarySingleNaN.
From Verif Require Import Ops M_scalar M_vec M_mat M_matext M_geom M_polygon M_bbox Inst_F S_vec S_mat S_affine S_pgon S_boxset S_bbox S_grid S_rnd S_hit S_lu S_tbox S_trs
  P_ieee P_fp P_fp5 P_fp8 P_hit P_hit2 P_bbox3 P_affine P_tbox P_tbox2 P_tbox6 P_tri2 P_bbox P_bbox2 P_bbox3.
Import ListNotations.
Local Open Scope R_scope.

Lemma pg_make_rotates : forall {T} {o : ops T} (vs : list (list T)), rotation_of vs (pg_make vs).
Proof.
  intros T o [|v l]; [exists [], []; split; reflexivity|]. unfold pg_make, rotate. set (k := min_element v 0 1 l). exists (firstn k (v :: l)), (skipn k (v :: l)). split; [symmetry; apply firstn_skipn|reflexivity].
Qed.
Lemma rotation_map_inv : forall {A B} (f : A -> B) (l : list A) k, rotation_of (map f l) k -> exists h, rotation_of l h /\ k = map f h.
Proof.
  intros A B f l k (a & b & E & ->). apply map_eq_app in E as (x & y & -> & <- & <-). exists (y ++ x). split; [exists x, y; split; reflexivity|]. now rewrite map_app.
Qed.

Section FP.
Variables prec emax : Z.
Context {Hprec : Prec_gt_0 prec} {Hmax : Prec_lt_emax prec emax}.
Notation fl := (binary_float prec emax).
Notation u := (unit_roundoff prec).
Notation eta := (underflow_error prec emax).
Notation Om := (bpow radix2 emax).
Hypothesis U20 : (20 <= prec)%Z.
Hypothesis E20 : (20 <= emax)%Z.

Lemma lerp_close : forall e (a b : list fl) P Q t, vnear e a P -> vnear e b Q -> length P = 3%nat -> length Q = 3%nat -> 0 <= t <= 1 -> vclose e (rlerp (values a) (values b) t) (rlerp P Q t).
Proof.
  intros e a b P Q t HA HB LP LQ Ht. destruct P as [|p0 [|p1 [|p2 [|]]]]; try discriminate. destruct Q as [|q0 [|q1 [|q2 [|]]]]; try discriminate.
  inversion HA as [|a0 ? ? ? A0 HA1]; subst. inversion HA1 as [|a1 ? ? ? A1 HA2]; subst. inversion HA2 as [|a2 ? ? ? A2 HA3]; subst. inversion HA3; subst.
  inversion HB as [|b0 ? ? ? B0 HB1]; subst. inversion HB1 as [|b1 ? ? ? B1 HB2]; subst. inversion HB2 as [|b2 ? ? ? B2 HB3]; subst. inversion HB3; subst. clear HA HA1 HA2 HA3 HB HB1 HB2 HB3.
  assert (K : forall (x y : fl) p q, near x p e -> near y q e -> Rabs (B2R x + t * (B2R y - B2R x) - (p + t * (q - p))) <= e).
  { intros x y p q (_ & X) (_ & Y). replace (_ - _) with ((1 - t) * (B2R x - p) + t * (B2R y - q)) by ring. eapply Rle_trans; [apply Rabs_triang|]. rewrite !Rabs_mult, (Rabs_pos_eq t), (Rabs_pos_eq (1 - t)) by lra.
    assert ((1 - t) * Rabs (B2R x - p) <= (1 - t) * e) by (apply Rmult_le_compat_l; lra). assert (t * Rabs (B2R y - q) <= t * e) by (apply Rmult_le_compat_l; lra). lra. }
  unfold rlerp, rpoint, rsub, values. cbn [map zip rscale radd]. repeat (apply Forall2_cons; [apply K; assumption|]). constructor.
Qed.
Lemma lerp_flip : forall a b t, length a = length b -> rlerp a b (1 - t) = rlerp b a t.
Proof. unfold rlerp, rpoint, rsub, radd, rscale. induction a as [|x a IH]; intros [|y b] t L; try discriminate; [reflexivity|]. cbn [zip map]. f_equal; [ring|]. apply IH. cbn in L. lia. Qed.
Lemma affine_lerp : forall M a b t, length a = 3%nat -> length b = 3%nat -> raffine 3 M (rlerp a b t) = rlerp (raffine 3 M a) (raffine 3 M b) t.
Proof.
  intros M a b t La Lb. destruct a as [|a0 [|a1 [|a2 [|]]]]; try discriminate. destruct b as [|b0 [|b1 [|b2 [|]]]]; try discriminate. unfold rlerp, rpoint, rsub. cbn [map zip rscale radd]. rewrite !raffine3. cbn [map zip rscale radd].
  (apply f_equal2; [ring|]). (apply f_equal2; [ring|]). (apply f_equal2; [ring|reflexivity]).
Qed.
(** Segments made of two machine points *)
Lemma made : forall e (a b : list fl) P Q, vnear e a P -> vnear e b Q -> length P = 3%nat -> length Q = 3%nat -> exists flip : bool, let s := seg_make a b in
  vnear e (seg_start s) (if flip then Q else P) /\ vnear e (seg_end s) (if flip then P else Q)
  /\ forall t, 0 <= t <= 1 -> vclose e (rlerp (values (seg_start s)) (values (seg_end s)) (if flip then 1 - t else t)) (rlerp P Q t).
Proof.
  intros e a b P Q HA HB LP LQ. unfold seg_make. destruct (v_lt a b); [exists false|exists true]; cbn; (split; [assumption|]; split; [assumption|]); intros t Ht; [now apply lerp_close|].
  rewrite <- (lerp_flip P Q t) at 1 || idtac. assert (E : rlerp P Q t = rlerp Q P (1 - t)) by (rewrite lerp_flip; congruence). rewrite E. apply lerp_close; auto; lra.
Qed.
Lemma seg_transform_F : forall (s : segment fl) m M K T, within M (seg_start s) -> within M (seg_end s) -> affine_up_to K T m -> 2 * (K * M + T + 1) <= Om ->
  let A := mvalues m in let e := image_error prec emax K M T in let s' := seg_transform 4 s m in let P := raffine 3 A (values (seg_start s)) in let Q := raffine 3 A (values (seg_end s)) in
  exists flip : bool, vnear e (seg_start s') (if flip then Q else P) /\ vnear e (seg_end s') (if flip then P else Q)
  /\ forall t, 0 <= t <= 1 -> vclose e (rlerp (values (seg_start s')) (values (seg_end s')) (if flip then 1 - t else t)) (raffine 3 A (rlerp (values (seg_start s)) (values (seg_end s)) t)).
Proof.
  intros s m M K T W1 W2 Am HO A e s' P Q. assert (P1 := point_transform prec emax U20 E20 m _ M K T W1 Am HO). assert (P2 := point_transform prec emax U20 E20 m _ M K T W2 Am HO).
  destruct (made e _ _ P Q P1 P2 (raffine_length _ _ _) (raffine_length _ _ _)) as (flip & H1 & H2 & H3). exists flip. split; [exact H1|]. split; [exact H2|]. intros t Ht.
  rewrite affine_lerp by (unfold values; rewrite map_length; first [apply W1|apply W2]). exact (H3 t Ht).
Qed.
(** Translations *)
Lemma translate_F : forall (v d : list fl) M X, within M v -> within X d -> 2 * (M + X + 1) <= Om -> vnear (u * (M + X)) (v_add v d) (radd (values v) (values d)).
Proof.
  intros v d M X (L1 & F1 & B1) (L2 & F2 & B2) HO. destruct (u_small prec ltac:(assumption)) as (U0 & U1).
  assert (K : forall x y : fl, is_finite x = true -> is_finite y = true -> Rabs (B2R x) <= M -> Rabs (B2R y) <= X -> near (o_add x y) (B2R x + B2R y) (u * (M + X))).
  { intros x y Fx Fy Bx By. eapply near_le; [apply (near_add prec emax x y (B2R x) (B2R y) 0 0 (M + X)); try (apply near_exact; assumption)|]; [eapply Rle_trans; [apply Rabs_triang|lra]| |lra]. assert (0 <= M + X) by (assert (P := Rabs_pos (B2R x)); assert (P' := Rabs_pos (B2R y)); lra). nra. }
  assert (LL : length v = length d) by congruence. clear L1 L2. revert d LL F2 B2. unfold vnear, v_add, values in *. induction v as [|x v IH]; intros [|y d] LL F2 B2; try discriminate; [constructor|]. cbn [map map2 radd zip] in *.
  apply Forall2_cons; [apply K; [exact (Forall_inv F1)|exact (Forall_inv F2)|exact (Forall_inv B1)|exact (Forall_inv B2)]|].
  apply IH; [exact (Forall_inv_tail F1)|exact (Forall_inv_tail B1)|cbn in LL; lia|exact (Forall_inv_tail F2)|exact (Forall_inv_tail B2)].
Qed.
Lemma moved_in : forall e (a b : list fl) A B q D, vnear e a (radd A D) -> vnear e b (radd B D) -> length D = length q -> Forall2 Rle A q -> Forall2 Rle q B -> in_bbox_upto e (BB (values a) (values b)) (radd q D).
Proof.
  intros e a b A B q D HA HB L H1 H2. unfold in_bbox_upto, vnear, values, radd in *. cbn [bb_min bb_max]. revert a b D L HA HB H2. revert B. induction H1 as [|x y A q X _ IH]; intros B a b D L HA HB H2.
  - inversion H2; subst. cbn in HA, HB. inversion HA; inversion HB; subst. split; constructor.
  - inversion H2 as [|? z ? B' Z H2']; subst. destruct D as [|d D]; [discriminate|]. cbn [zip] in *. inversion HA as [|a0 ? a' ? A0 HA']; subst. inversion HB as [|b0 ? b' ? B0 HB']; subst.
    destruct (IH B' a' b' D ltac:(cbn in L; lia) HA' HB' H2') as (I1 & I2). destruct A0 as (_ & A0). destruct B0 as (_ & B0). apply Rabs_le_inv in A0, B0. cbn [map]. split; constructor; auto; lra.
Qed.
Lemma box_translate_F : forall (b : bbox fl) (d : list fl) M X, box_of 3 b -> within M (bb_min b) -> within M (bb_max b) -> within X d -> 2 * (M + X + 1) <= Om -> let e := u * (M + X) in
  exists c, bb_translate b d = Ret c /\ box_of 3 c /\ vnear e (bb_min c) (radd (bb_min (box_values b)) (values d)) /\ vnear e (bb_max c) (radd (bb_max (box_values b)) (values d))
    /\ forall q, in_bbox (box_values b) q -> in_bbox_upto e (box_values c) (radd q (values d)).
Proof.
  intros b d M X HB W1 W2 Wd HO e. destruct (F_translate prec emax 3 b d HB) as (c & E & HC & E1 & E2); [split; apply W1|split; apply W2|split; apply Wd|].
  assert (P1 := translate_F _ _ M X W1 Wd HO). assert (P2 := translate_F _ _ M X W2 Wd HO). rewrite <- E1 in P1. rewrite <- E2 in P2. exists c. split; [exact E|]. split; [exact HC|]. split; [exact P1|]. split; [exact P2|].
  intros q (Q1 & Q2). apply (moved_in e _ _ _ _ q _ P1 P2); [|exact Q1|exact Q2].
  unfold values. rewrite map_length, (proj1 Wd). clear - Q1 W1. assert (L : length (bb_min (box_values b)) = length q) by (clear - Q1; induction Q1; cbn; congruence). rewrite <- L. unfold box_values, values. cbn [bb_min]. rewrite map_length. symmetry. apply W1.
Qed.
Lemma add_len3 : forall a b : list R, length a = 3%nat -> length b = 3%nat -> length (radd a b) = 3%nat.
Proof. intros [|? [|? [|? [|]]]] [|? [|? [|? [|]]]] A B; try discriminate; reflexivity. Qed.
Lemma add_lerp : forall a b d t, length a = 3%nat -> length b = 3%nat -> length d = 3%nat -> radd (rlerp a b t) d = rlerp (radd a d) (radd b d) t.
Proof. intros [|? [|? [|? [|]]]] [|? [|? [|? [|]]]] [|? [|? [|? [|]]]] t A B D; try discriminate. unfold rlerp, rpoint, rsub. cbn [map zip rscale radd]. (apply f_equal2; [ring|]). (apply f_equal2; [ring|]). (apply f_equal2; [ring|reflexivity]). Qed.
Lemma seg_translate_F : forall (s : segment fl) (d : list fl) M X, within M (seg_start s) -> within M (seg_end s) -> within X d -> 2 * (M + X + 1) <= Om ->
  let e := u * (M + X) in let s' := seg_translate s d in let P := radd (values (seg_start s)) (values d) in let Q := radd (values (seg_end s)) (values d) in
  exists flip : bool, vnear e (seg_start s') (if flip then Q else P) /\ vnear e (seg_end s') (if flip then P else Q)
  /\ forall t, 0 <= t <= 1 -> vclose e (rlerp (values (seg_start s')) (values (seg_end s')) (if flip then 1 - t else t)) (radd (rlerp (values (seg_start s)) (values (seg_end s)) t) (values d)).
Proof.
  intros s d M X W1 W2 Wd HO e s' P Q. assert (P1 := translate_F _ _ M X W1 Wd HO). assert (P2 := translate_F _ _ M X W2 Wd HO).
  assert (L : forall v : list fl, length v = 3%nat -> length (values v) = 3%nat) by (intros v Hv; unfold values; now rewrite map_length). assert (L1 := L _ (proj1 W1)). assert (L2 := L _ (proj1 W2)). assert (L3 := L _ (proj1 Wd)).
  destruct (made e _ _ P Q P1 P2 (add_len3 _ _ L1 L3) (add_len3 _ _ L2 L3)) as (flip & H1 & H2 & H3). exists flip. split; [exact H1|]. split; [exact H2|]. intros t Ht.
  rewrite add_lerp by assumption. exact (H3 t Ht).
Qed.
(** Polygons *)
Lemma pg_transform_F : forall (p : list (list fl)) m M K T, Forall (within M) p -> affine_up_to K T m -> 2 * (K * M + T + 1) <= Om ->
  exists vs, rotation_of p vs /\ Forall2 (vnear (image_error prec emax K M T)) (pg_transform 3 p m) (map (fun v => raffine 3 (mvalues m) (values v)) vs).
Proof.
  intros p m M K T W Am HO. unfold pg_transform, mlp_mul. rewrite push_loop_map. destruct (rotation_map_inv _ p _ (pg_make_rotates (map (m_mul_p 4 m) p))) as (vs & R & E). exists vs. split; [exact R|]. rewrite E.
  assert (WV : Forall (within M) vs). { destruct R as (a & b & -> & ->). apply Forall_app in W. apply Forall_app. tauto. }
  clear - WV Am HO U20 E20. induction WV as [|v vs W _ IH]; cbn [map]; constructor; [|exact IH]. exact (point_transform prec emax U20 E20 m v M K T W Am HO).
Qed.
Lemma pg_translate_F : forall (p : list (list fl)) (d : list fl) M X, Forall (within M) p -> within X d -> 2 * (M + X + 1) <= Om ->
  exists vs, rotation_of p vs /\ Forall2 (vnear (u * (M + X))) (pg_translate p d) (map (fun v => radd (values v) (values d)) vs).
Proof.
  intros p d M X W Wd HO. unfold pg_translate, lv_add. rewrite push_loop_map. destruct (rotation_map_inv _ p _ (pg_make_rotates (map (fun v => v_add v d) p))) as (vs & R & E). exists vs. split; [exact R|]. rewrite E.
  assert (WV : Forall (within M) vs). { destruct R as (a & b & -> & ->). apply Forall_app in W. apply Forall_app. tauto. }
  clear - WV Wd HO U20 E20. induction WV as [|v vs W _ IH]; cbn [map]; constructor; [|exact IH]. exact (translate_F v d M X W Wd HO).
Qed.
End FP.

Definition trs_segment : segment double := Seg v345 [cst (-1); cst 0; cst 2].
Lemma case_trs : within 12 (seg_start trs_segment) /\ within 12 (seg_end trs_segment) /\ affine_up_to 4 7 m345 /\ 2 * (4 * 12 + 7 + 1) <= bpow radix2 1024 /\ 2 * (12 + 12 + 1) <= bpow radix2 1024
  /\ v_lt (m_mul_p 4 m345 (seg_start trs_segment)) (m_mul_p 4 m345 (seg_end trs_segment)) = false.
Proof.
  assert (B := bpow_1024). destruct case_tbox as (_ & W2 & W1 & A & _). split; [exact W1|]. split; [exact W2|]. split; [exact A|]. split; [lra|]. split; [lra|].
  vm_cast_no_check (eq_refl false).
Qed.
