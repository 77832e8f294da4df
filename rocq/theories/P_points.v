(** Proofs about points_transformation_matrix (C66). *)
From Coq Require Import ZArith Reals List Bool Lia Lra Psatz.
From Flocq Require Import Core.
From Verif Require Import Ops M_scalar M_vec M_mat M_quat M_bbox M_matext Inst_XR S_vec S_mat S_det S_rot S_quat S_affine S_bbox.
From Verif Require Import P_ord P_xr P_vec P_vec2 P_mat P_mat2 P_lup P_ldet P_det P_mat3 P_quat P_affine P_rotmat P_components P_nsatz P_cond P_matext P_matext2.
Import ListNotations.
Local Open Scope R_scope.
Notation vS := (map (@Some R)).
Notation mS := (map (map (@Some R))).

Definition A9 (u v w : list R) : list (list R) :=
  of_ent 9 9 (fun r c => if Nat.eqb (c / 3) (r mod 3) then nth (c mod 3) (nth (r / 3) [u; v; w] []) 0 else 0).
Definition C9 (d : R) (u v w : list R) : list (list R) :=
  of_ent 9 9 (fun r c => if Nat.eqb (r / 3) (c mod 3)
    then nth (r mod 3) (nth (c / 3) [rcross v w; rcross w u; rcross u v] []) 0 / d else 0).
Definition xform (x : list R) : list (list R) :=
  M4 (nth 0 x 0) (nth 1 x 0) (nth 2 x 0) 0 (nth 3 x 0) (nth 4 x 0) (nth 5 x 0) 0 (nth 6 x 0) (nth 7 x 0) (nth 8 x 0) 0 0 0 0 1.
Lemma X_points4 : forall p0 p1 p2 p3 q0 q1 q2 q3,
  length p0 = 3%nat -> length p1 = 3%nat -> length p2 = 3%nat -> length p3 = 3%nat ->
  length q0 = 3%nat -> length q1 = 3%nat -> length q2 = 3%nat -> length q3 = 3%nat ->
  points_transformation_matrix4 (vS p0) (vS p1) (vS p2) (vS p3) (vS q0) (vS q1) (vS q2) (vS q3)
  = let '(success, X) := lup_solve 9 (mS (A9 (rsub p1 p0) (rsub p2 p0) (rsub p3 p0)))
                           (vS (rsub q1 q0 ++ rsub q2 q0 ++ rsub q3 q0)) in
    if negb success then m_fill 4 4 None
    else m_mul 4 4 4 (m_mul 4 4 4 (translation_matrix (vS q0))
           (m_of_rows 4 4 [vget X 0; vget X 1; vget X 2; cst 0; vget X 3; vget X 4; vget X 5; cst 0;
                           vget X 6; vget X 7; vget X 8; cst 0; cst 0; cst 0; cst 0; cst 1]))
           (translation_matrix (v_neg (vS p0))).
Proof.
  intros p0 p1 p2 p3 q0 q1 q2 q3 H0 H1 H2 H3 G0 G1 G2 G3.
  vec3 p0. vec3 p1. vec3 p2. vec3 p3. vec3 q0. vec3 q1. vec3 q2. vec3 q3. reflexivity.
Qed.
Lemma A9_shape : forall u v w, is_mat 9 9 (A9 u v w).
Proof. intros. apply of_ent_shape. Qed.
Lemma list9 : forall x : list R, length x = 9%nat -> exists a b c d e f g h i, x = [a; b; c; d; e; f; g; h; i].
Proof.
  intros [|a [|b [|c [|d [|e [|f [|g [|h [|i [|]]]]]]]]]] H; try discriminate. do 9 eexists. reflexivity.
Qed.
Lemma A9_mulv : forall u v w x, length u = 3%nat -> length v = 3%nat -> length w = 3%nat -> length x = 9%nat ->
  rmulv 9 9 (A9 u v w) x = raffine 3 (xform x) u ++ raffine 3 (xform x) v ++ raffine 3 (xform x) w.
Proof.
  intros u v w x Hu Hv Hw Hx. destruct (list9 x Hx) as (a & b & c & d & e & f & g & h & i & ->).
  vec3 u. vec3 v. vec3 w. unfold xform. rewrite !raffine_M4. unfold rmulv, A9, of_ent, ent.
  cbn -[Rplus Rmult]. listeq; try reflexivity; ring.
Qed.
Lemma app_inj_length : forall (a b a' b' : list R), length a = length a' -> a ++ b = a' ++ b' -> a = a' /\ b = b'.
Proof.
  induction a; intros b [|y a'] b' L E; try discriminate; auto. cbn in E. injection E as -> E.
  destruct (IHa b a' b') as [-> ->]; auto.
Qed.
Lemma app3_inj : forall (a b c a' b' c' : list R), length a = length a' -> length b = length b' ->
  a ++ b ++ c = a' ++ b' ++ c' -> a = a' /\ b = b' /\ c = c'.
Proof.
  intros a b c a' b' c' La Lb E. apply app_inj_length in E; auto. destruct E as [Ea E].
  apply app_inj_length in E; tauto.
Qed.
Lemma raffine_lin : forall n M p q, affine n M -> length p = n -> length q = n ->
  rsub (raffine n M p) (raffine n M q) = raffine n (rstrip n M) (rsub p q).
Proof.
  intros n M p q A Lp Lq. unfold rsub. unfold raffine.
  assert (Z : forall (f g : nat -> R) l, zip Rminus (map f l) (map g l) = map (fun r => f r - g r) l).
  { induction l; cbn; congruence. }
  rewrite Z. apply map_ext_in. intros r Hr. apply in_seq in Hr.
  unfold rstrip. rewrite of_ent_get by lia.
  replace ((r <? n)%nat && (n =? n)%nat) with true by (symmetry; apply andb_true_iff; split; [apply Nat.ltb_lt; lia|apply Nat.eqb_refl]).
  rewrite Rplus_0_r.
  transitivity (Rsum n (fun c => ent M r c * nth c p 0) - Rsum n (fun c => ent M r c * nth c q 0)); [ring|].
  rewrite <- Rsum_sub. apply Rsum_ext. intros c Hc. rewrite of_ent_get by lia.
  replace ((r <? n)%nat && (c =? n)%nat) with false by (symmetry; apply andb_false_iff; right; apply Nat.eqb_neq; lia).
  assert (N : nth c (zip Rminus p q) 0 = nth c p 0 - nth c q 0).
  { clear - Lp Lq Hc. subst n. revert q Lq c Hc. induction p as [|a p IH]; intros [|b q] L c H; try discriminate; [simpl in H; lia|].
    destruct c; cbn [zip nth]; auto. apply IH; [now injection L|simpl in H; lia]. }
  rewrite N. ring.
Qed.
Lemma points4_found : forall p0 p1 p2 p3 q0 q1 q2 q3,
  length p0 = 3%nat -> length p1 = 3%nat -> length p2 = 3%nat -> length p3 = 3%nat ->
  length q0 = 3%nat -> length q1 = 3%nat -> length q2 = 3%nat -> length q3 = 3%nat ->
  let m := points_transformation_matrix4 (vS p0) (vS p1) (vS p2) (vS p3) (vS q0) (vS q1) (vS q2) (vS q3) in
  m = m_fill 4 4 None \/
  exists M, m = mS M /\ affine 3 M /\
    m_mul_p 4 m (vS p0) = vS q0 /\ m_mul_p 4 m (vS p1) = vS q1 /\ m_mul_p 4 m (vS p2) = vS q2 /\ m_mul_p 4 m (vS p3) = vS q3 /\
    forall M', affine 3 M' -> raffine 3 M' p0 = q0 -> raffine 3 M' p1 = q1 -> raffine 3 M' p2 = q2 -> raffine 3 M' p3 = q3 -> M' = M.
Proof.
  intros p0 p1 p2 p3 q0 q1 q2 q3 H0 H1 H2 H3 G0 G1 G2 G3 m. unfold m. clear m. rewrite X_points4 by auto.
  assert (Ls : forall a b : list R, length a = 3%nat -> length b = 3%nat -> length (rsub a b) = 3%nat).
  { intros a b La Lb. vec3 a. vec3 b. reflexivity. }
  set (u := rsub p1 p0). set (v := rsub p2 p0). set (w := rsub p3 p0).
  assert (Hu : length u = 3%nat) by now apply Ls. assert (Hv : length v = 3%nat) by now apply Ls. assert (Hw : length w = 3%nat) by now apply Ls.
  set (b := rsub q1 q0 ++ rsub q2 q0 ++ rsub q3 q0).
  assert (Hb : length b = 9%nat). { unfold b. rewrite !app_length, !Ls by auto. reflexivity. }
  destruct (lup_solve 9 (mS (A9 u v w)) (vS b)) as [[|] X] eqn:E; cbn [negb]; [right|left; reflexivity].
  destruct (solve_correct 9 _ b X (A9_shape _ _ _) Hb E) as (x & -> & Lx & Hx & Ux).
  assert (HX : m_of_rows 4 4 [vget (vS x) 0; vget (vS x) 1; vget (vS x) 2; cst 0; vget (vS x) 3; vget (vS x) 4; vget (vS x) 5; cst 0;
                           vget (vS x) 6; vget (vS x) 7; vget (vS x) 8; cst 0; cst 0; cst 0; cst 0; cst 1] = mS (xform x)).
  { destruct (list9 x Lx) as (? & ? & ? & ? & ? & ? & ? & ? & ? & ->). reflexivity. }
  rewrite HX, X_neg.
  assert (AX : affine 3 (xform x)) by apply M4_affine.
  assert (Ln : length (rneg p0) = 3%nat) by (unfold rneg; now rewrite map_length).
  assert (ACT := fun p => about_acts q0 (xform x) (rneg p0) p G0 AX Ln).
  rewrite A9_mulv in Hx by auto. unfold b in Hx.
  apply app3_inj in Hx; [|rewrite raffine_length, Ls; auto|rewrite raffine_length, Ls; auto]. destruct Hx as (E1 & E2 & E3).
  set (M := rmul 4 4 4 (rmul 4 4 4 (rtransl q0) (xform x)) (rtransl (rneg p0))).
  assert (HM : m_mul 4 4 4 (m_mul 4 4 4 (translation_matrix (vS q0)) (mS (xform x))) (translation_matrix (vS (rneg p0))) = mS M).
  { rewrite !X_translation, !X_m_mul. reflexivity. }
  assert (AM : affine 3 M).
  { unfold M. pose proof (transl_affine q0) as T1. pose proof (transl_affine (rneg p0)) as T2. rewrite G0 in T1. rewrite Ln in T2.
    apply (affine_mul 3); auto. now apply (affine_mul 3). }
  assert (RM : forall p, length p = 3%nat -> raffine 3 M p = radd (raffine 3 (xform x) (rsub p p0)) q0).
  { intros p Hp. specialize (ACT p Hp). rewrite HM in ACT. change 4%nat with (S 3) in ACT. rewrite (X_affine 3) in ACT by auto.
    apply map_Some_inj in ACT. rewrite ACT. f_equal. f_equal. clear - Hp H0. vec3 p. vec3 p0. unfold radd, rneg, rsub. cbn [map zip].
    listeq; try reflexivity; ring. }
  rewrite HM. exists M. split; auto. split; auto.
  assert (R0 : raffine 3 M p0 = q0).
  { rewrite RM by auto. replace (rsub p0 p0) with [0; 0; 0] by (clear - H0; vec3 p0; unfold rsub; cbn [zip]; listeq; try reflexivity; ring).
    unfold xform. rewrite raffine_M4. clear - G0. vec3 q0. unfold radd. cbn [zip]. listeq; try reflexivity; ring. }
  assert (RR : forall p q, length p = 3%nat -> length q = 3%nat -> raffine 3 (xform x) (rsub p p0) = rsub q q0 -> raffine 3 M p = q).
  { intros p q Hp Hq Hpq. rewrite RM, Hpq by auto. clear - Hq G0. vec3 q. vec3 q0. unfold radd, rsub. cbn [zip]. listeq; try reflexivity; ring. }
  assert (R1 : raffine 3 M p1 = q1) by now apply RR. assert (R2 : raffine 3 M p2 = q2) by now apply RR. assert (R3 : raffine 3 M p3 = q3) by now apply RR.
  change 4%nat with (S 3). rewrite !(X_affine 3), R0, R1, R2, R3 by auto. do 4 (split; [reflexivity|]).
  intros M' A' S0 S1 S2 S3. apply (affine_ext 3); auto.
  set (x' := [ent M' 0 0; ent M' 0 1; ent M' 0 2; ent M' 1 0; ent M' 1 1; ent M' 1 2; ent M' 2 0; ent M' 2 1; ent M' 2 2]).
  assert (XM : forall p, length p = 3%nat -> raffine 3 (xform x') p = raffine 3 (rstrip 3 M') p).
  { intros p Hp. vec3 p. unfold xform. cbn [x' nth]. rewrite raffine_M4. unfold raffine, rstrip. cbn [seq map Rsum].
    rewrite !of_ent_get by lia. cbn [Nat.ltb Nat.leb Nat.eqb andb nth]. listeq; try reflexivity; ring. }
  assert (x' = x).
  { apply Ux; [reflexivity|]. rewrite A9_mulv by auto. rewrite !XM by auto. unfold u, v, w, b.
    rewrite <- !raffine_lin by auto. rewrite S0, S1, S2, S3. reflexivity. }
  intros p Hp. rewrite RM by auto. rewrite <- H, XM, <- raffine_lin, S0 by auto.
  assert (Lr : length (raffine 3 M' p) = 3%nat) by apply raffine_length.
  clear - Lr G0. set (r := raffine 3 M' p) in *. clearbody r. vec3 r. vec3 q0. unfold radd, rsub. cbn [zip]. listeq; try reflexivity; ring.
Qed.
Lemma points4_complete : forall p0 p1 p2 p3 q0 q1 q2 q3,
  length p0 = 3%nat -> length p1 = 3%nat -> length p2 = 3%nat -> length p3 = 3%nat ->
  length q0 = 3%nat -> length q1 = 3%nat -> length q2 = 3%nat -> length q3 = 3%nat ->
  let u := rsub p1 p0 in let v := rsub p2 p0 in let w := rsub p3 p0 in let d := rdot (rcross u v) w in
  d <> 0 -> Forall (fun k => Rabs k <= 10 ^ 13 * Rabs d) (rcross v w ++ rcross w u ++ rcross u v) ->
  points_transformation_matrix4 (vS p0) (vS p1) (vS p2) (vS p3) (vS q0) (vS q1) (vS q2) (vS q3) <> m_fill 4 4 None.
Proof.
  intros p0 p1 p2 p3 q0 q1 q2 q3 H0 H1 H2 H3 G0 G1 G2 G3 u v w d N F. rewrite X_points4 by auto. fold u v w.
  assert (Ls : forall a b : list R, length a = 3%nat -> length b = 3%nat -> length (rsub a b) = 3%nat).
  { intros a b La Lb. vec3 a. vec3 b. reflexivity. }
  assert (Hu : length u = 3%nat) by now apply Ls. assert (Hv : length v = 3%nat) by now apply Ls. assert (Hw : length w = 3%nat) by now apply Ls.
  set (b := rsub q1 q0 ++ rsub q2 q0 ++ rsub q3 q0).
  assert (Hb : length b = 9%nat). { unfold b. rewrite !app_length, !Ls by auto. reflexivity. }
  assert (Pd : 0 < Rabs d) by now apply Rabs_pos_lt.
  assert (Q : forall k, Rabs k <= 10 ^ 13 * Rabs d -> Rabs (k / d) <= 10 ^ 13).
  { intros k Hk. unfold Rdiv. rewrite Rabs_mult, Rabs_inv. apply Rmult_le_reg_r with (Rabs d); auto.
    rewrite Rmult_assoc, Rinv_l, Rmult_1_r by lra. exact Hk. }
  assert (Z0 : Rabs 0 <= 10 ^ 13) by (rewrite Rabs_R0; apply pow_le; lra).
  rewrite (solve_complete 9 _ (C9 d u v w) (10 ^ 13)).
  - cbn [negb]. rewrite X_m_mul_v. set (x := rmulv 9 9 (C9 d u v w) b). assert (Lx : length x = 9%nat) by apply rmulv_length. clearbody x.
    assert (HX : m_of_rows 4 4 [vget (vS x) 0; vget (vS x) 1; vget (vS x) 2; cst 0; vget (vS x) 3; vget (vS x) 4; vget (vS x) 5; cst 0;
                           vget (vS x) 6; vget (vS x) 7; vget (vS x) 8; cst 0; cst 0; cst 0; cst 0; cst 1] = mS (xform x)).
    { destruct (list9 x Lx) as (? & ? & ? & ? & ? & ? & ? & ? & ? & ->). reflexivity. }
    rewrite HX, X_neg, !X_translation, !X_m_mul. intros E. discriminate E.
  - apply A9_shape.
  - apply of_ent_shape.
  - clearbody u v w. clear - Hu Hv Hw N. revert N. unfold d. vec3 u. vec3 v. vec3 w. cbn [rcross rdot]. intros N.
    split; unfold rid, rmul; apply of_ent_ext; intros r c Hr Hc;
    do 9 (destruct r as [|r]; [do 9 (destruct c as [|c]; [unfold A9, C9, ent, of_ent, delta; cbn -[Rplus Rmult Rdiv Rminus]; field; lra|]); lia|]); lia.
  - apply pow_le. lra.
  - exact Hb.
  - revert F. clearbody u v w. clear - Hu Hv Hw Q Z0. revert Q. generalize d. clear d. intros d Q. vec3 u. vec3 v. vec3 w. cbn [rcross app]. intros F.
    repeat match goal with H : Forall _ (_ :: _) |- _ => inversion_clear H end.
    intros r c Hr Hc. unfold C9. rewrite of_ent_get by auto.
    do 9 (destruct r as [|r]; [do 9 (destruct c as [|c]; [cbn -[Rplus Rmult Rdiv Rminus pow]; first [apply Z0|apply Q; assumption]|]); lia|]); lia.
  - simpl INR. simpl pow. lra.
Qed.
Lemma points3_found : forall p0 p1 p2 q0 q1 q2,
  length p0 = 3%nat -> length p1 = 3%nat -> length p2 = 3%nat ->
  length q0 = 3%nat -> length q1 = 3%nat -> length q2 = 3%nat ->
  let cp := rcross (rsub p1 p0) (rsub p2 p0) in let cq := rcross (rsub q1 q0) (rsub q2 q0) in
  rnorm cp <> 0 -> rnorm cq <> 0 ->
  let m := points_transformation_matrix3 (vS p0) (vS p1) (vS p2) (vS q0) (vS q1) (vS q2) in
  m = m_fill 4 4 None \/
  exists M, m = mS M /\ affine 3 M /\
    m_mul_p 4 m (vS p0) = vS q0 /\ m_mul_p 4 m (vS p1) = vS q1 /\ m_mul_p 4 m (vS p2) = vS q2 /\
    m_mul_p 4 m (vS (radd p0 (rscale (/ rnorm cp) cp))) = vS (radd q0 (rscale (/ rnorm cq) cq)).
Proof.
  intros p0 p1 p2 q0 q1 q2 H0 H1 H2 G0 G1 G2 cp cq Np Nq m. unfold m. clear m. unfold points_transformation_matrix3.
  assert (Ls : forall a b : list R, length a = 3%nat -> length b = 3%nat -> length (rsub a b) = 3%nat).
  { intros a b La Lb. vec3 a. vec3 b. reflexivity. }
  assert (La : forall a k c, length a = 3%nat -> length c = 3%nat -> length (radd a (rscale k c)) = 3%nat).
  { intros a k c Ha Hc. vec3 a. vec3 c. reflexivity. }
  rewrite !X_sub, !X_cross3 by auto. fold cp cq. rewrite !X_normalize_vec, !X_add by auto.
  assert (Lp : length cp = 3%nat) by (apply rcross_length; auto). assert (Lq : length cq = 3%nat) by (apply rcross_length; auto).
  destruct (points4_found p0 p1 p2 (radd p0 (rscale (/ rnorm cp) cp)) q0 q1 q2 (radd q0 (rscale (/ rnorm cq) cq)))
    as [E|(M & E & A & S0 & S1 & S2 & S3 & _)]; auto.
  right. exists M. auto 10.
Qed.
