(** More proofs about transforming twice and back (C101): planes, boxes, inverses. *)
From Coq Require Import ZArith Reals List Bool Lia Lra Psatz.
From Flocq Require Import Core.
From Verif Require Import Ops M_scalar M_vec M_mat M_matext M_bbox M_geom Inst_XR S_order S_vec S_mat S_affine S_bbox S_geom.
From Verif Require Import P_ord P_xr P_vec P_vec2 P_mat P_mat2 P_mat3 P_cond P_line P_seg P_affine P_plane P_bbox2 P_bbox3 P_rigid2 P_rigid3 P_compose.
From Verif Require Import S_geom.
Import ListNotations.
Local Open Scope R_scope.

Ltac box_le := repeat (apply Forall2_cons; [ lra | ]); apply Forall2_nil.
Lemma similarity_mul : forall n A B j k, similarity n A j -> similarity n B k -> similarity n (rmul (S n) (S n) (S n) A B) (j * k).
Proof.
  intros n A B j k (HA & J & FA) (HB & K & FB). split; [ now apply affine_mul | ]. split; [ nra | ].
  intros p q Hp Hq. rewrite !raffine_mul by assumption. rewrite FA, FB by (try assumption; apply raffine_length). ring.
Qed.
Lemma similarity_keeps : forall n M k v, similarity n M k -> unit_vec n v -> keeps n M v.
Proof.
  intros n M k v HS [Hv U] E. apply (rlin_zero n M v Hv) in E. assert (D := similarity_dot n M k v v HS Hv Hv). fold (rlin n M v) in D. rewrite E, U, rdot_rzero in D.
  destruct HS as (_ & K & _). nra.
Qed.
Lemma plane_shape : forall n p M, is_plane n p -> affine n M -> keeps n M (pl_normal p) -> exists u j, v_normalize (vS (rlin n M (pl_normal p))) = vS u /\ unit_vec n u /\ 0 < j /\ rlin n M (pl_normal p) = rscale j u
  /\ pl_transform (S n) (plane_lift p) (mS M) = plane_lift (Pl (rdot (raffine n M (rscale (pl_dist p) (pl_normal p))) u) u).
Proof.
  intros n [d v] M [Hl Hu] HM K. cbn [pl_dist pl_normal] in *.
  destruct (unit_normalize n (rlin n M v)) as (u & j & E & HU & J & EJ); [ apply rlin_length | now apply keeps_lin | ].
  exists u, j. split; [ exact E | ]. split; [ exact HU | ]. split; [ exact J | ]. split; [ exact EJ | ].
  unfold pl_transform, pl_anchor, plane_lift. cbn [pl_dist pl_normal]. rewrite X_scale, X_affine, X_lin by (auto; len). rewrite E.
  unfold pl_make. now rewrite X_dot.
Qed.
Lemma tw_plane : forall n A B j k p, similarity n A j -> similarity n B k -> is_plane n p ->
  pl_transform (S n) (plane_lift p) (m_mul (S n) (S n) (S n) (mS A) (mS B)) = pl_transform (S n) (pl_transform (S n) (plane_lift p) (mS B)) (mS A).
Proof.
  intros n A B j k p SA SB HP. assert (HA := proj1 SA). assert (HB := proj1 SB). set (AB := rmul (S n) (S n) (S n) A B). assert (SAB : similarity n AB (j * k)) by now apply similarity_mul.
  assert (L := proj1 (proj1 (conj HP I))).
  destruct (plane_shape n p B HP HB) as (u & ju & E1 & HU & Ju & F1 & E2); [ now apply (similarity_keeps n B k) | ].
  set (p1 := Pl (rdot (raffine n B (rscale (pl_dist p) (pl_normal p))) u) u) in *.
  destruct (plane_shape n p1 A) as (w & jw & E3 & HW & Jw & F3 & E4); [ exact HU | exact HA | now apply (similarity_keeps n A j) | ].
  destruct (plane_shape n p AB HP (proj1 SAB)) as (w' & jw' & E5 & HW' & Jw' & F5 & E6); [ now apply (similarity_keeps n AB (j * k)) | ].
  rewrite E2, E4, X_m_mul. fold AB. rewrite E6. change (pl_normal p1) with u in *.
  assert (W : w' = w).
  { apply (unit_unique n w' w jw' (ju * jw)); auto; [ nra | ]. rewrite <- F5. unfold AB. rewrite rlin_mul by (auto; apply HP). rewrite F1, <- (rg_LK n A) by apply HU. rewrite F3, rscale_mul. f_equal. }
  rewrite W. f_equal. f_equal. unfold AB. rewrite raffine_mul by (auto; rewrite rscale_length; apply HP).
  set (q := raffine n B (rscale (pl_dist p) (pl_normal p))). assert (Hq : length q = n) by apply raffine_length.
  assert (HU1 := proj1 HU). assert (HU2 := proj2 HU). assert (HW1 := proj1 HW).
  (* both points are in the plane through A q *)
  assert (D : rdot (rsub (raffine n A q) (raffine n A (rscale (pl_dist p1) u))) w = 0).
  { rewrite (rg_AD n A) by len. assert (Z := similarity_dot n A j (rsub q (rscale (pl_dist p1) u)) u SA ltac:(len) HU1). fold (rlin n A u) in Z. fold (rlin n A (rsub q (rscale (pl_dist p1) u))) in Z.
    rewrite F3, rdot_scale_r in Z. rewrite rdot_sub_l in Z by len. rewrite rdot_scale_l, HU2 in Z. unfold p1 in Z at 2. cbn [pl_dist] in Z. fold q in Z.
    replace (j * j * (rdot q u - rdot q u * 1)) with 0 in Z by ring. apply Rmult_integral in Z. destruct Z; [ lra | assumption ]. }
  rewrite rdot_sub_l in D by (rewrite !raffine_length; congruence). change (pl_dist p1) with (rdot q u) in *. lra.
Qed.
Lemma tw_box : forall A B b, affine 3 A -> affine 3 B -> is_box 3 b -> exists c1 c2 c3,
  bb_transform (blift b) (m_mul 4 4 4 (mS A) (mS B)) = Ret (blift c1) /\ bb_transform (blift b) (mS B) = Ret (blift c2) /\ bb_transform (blift c2) (mS A) = Ret (blift c3)
  /\ forall p, in_bbox c1 p -> in_bbox c3 p.
Proof.
  intros A B b HA HB HBx. destruct (transform_ok b (rmul 4 4 4 A B) HBx) as (c1 & E1 & B1 & I1 & M1); [ now apply affine_mul | ].
  destruct (transform_ok b B HBx HB) as (c2 & E2 & B2 & I2 & M2). destruct (transform_ok c2 A B2 HA) as (c3 & E3 & B3 & I3 & M3).
  exists c1, c2, c3. rewrite X_m_mul. split; [ exact E1 | ]. split; [ exact E2 | ]. split; [ exact E3 | ].
  apply M1; [ exact B3 | ]. intros s Hs. assert (C : in_bbox b (rcorner b s)).
  { apply bits3 in Hs as (x & y & z & ->). destruct (box3 b HBx) as (m0 & m1 & m2 & N0 & N1 & N2 & -> & H0 & H1 & H2). unfold in_bbox, rcorner. cbn [bb_min bb_max pick].
    destruct x, y, z; split; box_le. }
  assert (L : length (rcorner b s) = 3%nat). { destruct C as [C _]. apply Forall2_length in C. destruct HBx as (Hl & _). congruence. }
  rewrite (raffine_mul 3 A B _ HA HB L). auto.
Qed.

(** Inverses. *)
Lemma inverse_affine : forall n A N, affine n A -> is_mat (S n) (S n) N -> inverse (S n) A N -> affine n N.
Proof.
  intros n A N [HA LA] HN [E _]. split; [ exact HN | ]. intros c Hc.
  assert (Q : ent (rmul (S n) (S n) (S n) A N) n c = ent (rid (S n)) n c) by now rewrite E.
  unfold rid in Q. rewrite of_ent_get in Q by lia. unfold rmul in Q. rewrite of_ent_get in Q by lia. rewrite <- Q. symmetry.
  etransitivity; [ | apply (Rsum_delta (S n) n (fun i => ent N i c)); lia ].
  apply Rsum_ext. intros i Hi. rewrite LA by lia. reflexivity.
Qed.
Lemma raffine_id : forall n p, length p = n -> raffine n (rid (S n)) p = p.
Proof.
  intros n p Hp. assert (Q := raffine_length n (rid (S n)) p). apply nth_ext with (d := 0) (d' := 0); [ congruence | ]. intros i Hi. rewrite Q in Hi.
  unfold raffine. rewrite (nth_indep _ 0 ((fun r => Rsum n (fun c => ent (rid (S n)) r c * nth c p 0) + ent (rid (S n)) r n) 0%nat)) by (rewrite map_length, seq_length; lia).
  rewrite (map_nth (fun r => Rsum n (fun c => ent (rid (S n)) r c * nth c p 0) + ent (rid (S n)) r n)). rewrite seq_nth by lia. cbn [plus].
  unfold rid at 2. rewrite of_ent_get by lia. unfold delta at 1. destruct (Nat.eqb_spec i n); [ lia | ]. rewrite Rplus_0_r.
  etransitivity; [ | apply (Rsum_delta n i (fun c => nth c p 0)); lia ]. apply Rsum_ext. intros c Hc. unfold rid. now rewrite of_ent_get by lia.
Qed.
Lemma rlin_id : forall n p, length p = n -> rlin n (rid (S n)) p = p.
Proof. intros n p Hp. unfold rlin. rewrite !raffine_id by (auto; apply repeat_length). unfold rzero. vext. rewrite nth_repeat. ring. Qed.
Section Undo.
Context (n : nat) (A : list (list R)) (res : list (list XR)) (HA : affine n A) (HI : m_invert (S n) (mS A) = (true, res)).
Lemma un_inv : exists N, res = mS N /\ affine n N /\ inverse (S n) A N.
Proof. destruct (invert_correct (S n) A res (proj1 HA) HI) as (N & -> & HN & I). exists N. split; [ reflexivity | ]. split; [ now apply (inverse_affine n A) | exact I ]. Qed.
Lemma un_keeps : forall d, length d = n -> d <> rzero n -> keeps n A d.
Proof.
  destruct un_inv as (N & _ & HN & [_ E]). intros d Hd Z K. apply Z. unfold keeps in K.
  assert (Q : raffine n N (raffine n A d) = raffine n N (raffine n A (rzero n))) by now rewrite K.
  rewrite <- !raffine_mul in Q by (auto; apply repeat_length). rewrite E, !raffine_id in Q by (auto; apply repeat_length). exact Q.
Qed.
Lemma unit_nonzero : forall d, unit_vec n d -> d <> rzero n.
Proof. intros d [Hd U] E. rewrite E, rdot_rzero in U. lra. Qed.
Lemma un_point : forall p, length p = n -> m_mul_p (S n) res (m_mul_p (S n) (mS A) (vS p)) = vS p.
Proof.
  destruct un_inv as (N & -> & HN & [_ E]). intros p Hp. rewrite <- affine_compose, X_m_mul, E by assumption. rewrite X_affine by (auto; apply affine_id). now rewrite raffine_id.
Qed.
Lemma normalize_unit : forall d, unit_vec n d -> v_normalize (vS d) = vS d.
Proof.
  intros d U. destruct (unit_normalize n d) as (u & j & E & HU & J & EJ); [ apply U | now apply unit_nonzero | ]. rewrite E. f_equal.
  apply (unit_unique n u d j 1); auto; [ lra | ]. rewrite <- EJ. now rewrite rscale_1.
Qed.
Lemma un_ray : forall r, is_ray n r -> ray_transform (S n) (ray_transform (S n) (ray_lift r) (mS A)) res = ray_lift r.
Proof.
  destruct un_inv as (N & -> & HN & [_ E]). intros [p d] [H1 H2]. rewrite <- tw_ray; try assumption; [ | now split | ].
  - rewrite X_m_mul, E. unfold ray_transform, ray_lift. cbn [ray_origin ray_dir] in *. rewrite X_affine, X_lin by (auto; try apply affine_id; apply H2).
    rewrite raffine_id, rlin_id by (auto; apply H2). now rewrite normalize_unit.
  - rewrite E. unfold keeps. cbn [ray_dir]. rewrite !raffine_id by (try apply repeat_length; apply H2). now apply unit_nonzero.
Qed.
Lemma un_line : forall r, is_line n r -> ln_transform (S n) (ln_transform (S n) (line_lift r) (mS A)) res = line_lift r.
Proof.
  destruct un_inv as (N & -> & HN & [_ E]). intros [p d] [H1 H2]. rewrite <- tw_line; try assumption; [ | now split | ].
  - rewrite X_m_mul, E. unfold ln_transform, line_lift. cbn [ln_point ln_dir] in *. rewrite X_affine, X_lin by (auto; try apply affine_id; apply H2).
    rewrite raffine_id, rlin_id by (auto; apply H2). now rewrite normalize_unit.
  - rewrite E. unfold keeps. cbn [ln_dir]. rewrite !raffine_id by (try apply repeat_length; apply H2). now apply unit_nonzero.
Qed.
Lemma un_seg : forall a b, length a = n -> length b = n -> seg_transform (S n) (seg_transform (S n) (seg_make (vS a) (vS b)) (mS A)) res = seg_make (vS a) (vS b).
Proof.
  destruct un_inv as (N & -> & HN & [_ E]). intros a b H1 H2.
  assert (Q : seg_make (vS a) (vS b) = seg_lift (Seg a b) \/ seg_make (vS a) (vS b) = seg_lift (Seg b a)) by (unfold seg_make, seg_lift; cbn [seg_start seg_end]; destruct (v_lt _ _); auto).
  destruct Q as [Q|Q]; rewrite Q at 1; rewrite <- tw_seg by (auto; split; assumption); rewrite X_m_mul, E; unfold seg_transform, seg_lift; cbn [seg_start seg_end];
    rewrite !X_affine by (auto; apply affine_id); rewrite !raffine_id by assumption; [ reflexivity | ]. apply seg_make_swap. congruence.
Qed.
Lemma un_plane : forall k p, similarity n A k -> is_plane n p -> pl_transform (S n) (pl_transform (S n) (plane_lift p) (mS A)) res = plane_lift p.
Proof.
  destruct un_inv as (N & -> & HN & [E1 E]). intros k p HS HP.
  assert (SN : similarity n N (/ k)).
  { destruct HS as (_ & K & F). split; [ exact HN | ]. split; [ now apply Rinv_0_lt_compat | ]. intros q r Hq Hr.
    specialize (F (raffine n N q) (raffine n N r) (raffine_length n N q) (raffine_length n N r)). rewrite <- !raffine_mul in F by assumption. rewrite E1, !raffine_id in F by assumption. rewrite F. field. lra. }
  rewrite <- (tw_plane n N A (/ k) k) by assumption. rewrite X_m_mul, E.
  destruct p as [d v]. destruct HP as [Hl Hu]. cbn [pl_dist pl_normal] in *. unfold pl_transform, pl_anchor, plane_lift. cbn [pl_dist pl_normal]. rewrite X_scale, X_affine, X_lin by (try apply affine_id; len).
  rewrite raffine_id, rlin_id by len. rewrite normalize_unit by (split; assumption). unfold pl_make. rewrite X_dot, rdot_scale_l, Hu. now rewrite Rmult_1_r.
Qed.
End Undo.
Lemma un_box : forall A res b, affine 3 A -> m_invert 4 (mS A) = (true, res) -> is_box 3 b -> exists c1 c2,
  bb_transform (blift b) (mS A) = Ret (blift c1) /\ bb_transform (blift c1) res = Ret (blift c2) /\ forall p, in_bbox b p -> in_bbox c2 p.
Proof.
  intros A res b HA HI HB. destruct (un_inv 3 A res HA HI) as (N & -> & HN & [_ E]).
  destruct (transform_ok b A HB HA) as (c1 & E1 & B1 & I1 & M1). destruct (transform_ok c1 N B1 HN) as (c2 & E2 & B2 & I2 & M2).
  exists c1, c2. split; [ exact E1 | ]. split; [ exact E2 | ]. intros p HP. assert (Hp : length p = 3%nat). { destruct HP as [C _]. apply Forall2_length in C. destruct HB as (Hl & _). congruence. }
  assert (Q := I2 _ (I1 _ HP)). rewrite <- (raffine_mul 3 N A p HN HA Hp) in Q. change (S 3) with 4%nat in *. rewrite E in Q. now rewrite (raffine_id 3) in Q.
Qed.
(** Findings: planes and boxes are not restored in general. *)
Definition stretch : list (list R) := [[16 / 9; 0; 0; 0]; [0; 1; 0; 0]; [0; 0; 1; 0]; [0; 1; 0; 1]].
Definition unstretch : list (list R) := [[9 / 16; 0; 0; 0]; [0; 1; 0; 0]; [0; 0; 1; 0]; [0; -1; 0; 1]].
Definition shear : list (list R) := [[1; 0; 0; 0]; [1; 1; 0; 0]; [0; 0; 1; 0]; [0; 0; 0; 1]].
Definition unshear : list (list R) := [[1; 0; 0; 0]; [-1; 1; 0; 0]; [0; 0; 1; 0]; [0; 0; 0; 1]].
Lemma is_mat4 : forall a b c d : list R, length a = 4%nat -> length b = 4%nat -> length c = 4%nat -> length d = 4%nat -> is_mat 4 4 [a; b; c; d].
Proof. intros. split; [ reflexivity | ]. repeat (apply Forall_cons; [ assumption | ]). apply Forall_nil. Qed.
Lemma lt4 : forall i, (i < 4)%nat -> i = 0%nat \/ i = 1%nat \/ i = 2%nat \/ i = 3%nat. Proof. intros. lia. Qed.
Ltac four := let Q := fresh in intros ? Q; apply lt4 in Q; destruct Q as [ -> | [ -> | [ -> | -> ]]].
Lemma stretch_affine : affine 3 stretch.
Proof. split; [ now apply is_mat4 | ]. intros c Hc. assert (c < 4)%nat as H by lia. revert c H Hc. four; intros; reflexivity. Qed.
Lemma shear_affine : affine 3 shear.
Proof. split; [ now apply is_mat4 | ]. intros c Hc. assert (c < 4)%nat as H by lia. revert c H Hc. four; intros; reflexivity. Qed.
Ltac inv4 := split; cbv [rmul rid of_ent map seq Rsum ent nth delta Nat.eqb stretch unstretch shear unshear]; repeat (apply f_equal2; [ repeat (apply f_equal2; [ lra | ]); reflexivity | ]); reflexivity.
Lemma stretch_invert : m_invert 4 (mS stretch) = (true, mS unstretch).
Proof.
  apply (invert_complete 4 stretch unstretch 1); [ now apply is_mat4 | now apply is_mat4 | inv4 | lra | | simpl; lra ].
  intros r c Hr Hc; revert r Hr; four; revert c Hc; four; cbv [ent nth unstretch]; unfold Rabs; destruct (Rcase_abs _); lra.
Qed.
Lemma shear_invert : m_invert 4 (mS shear) = (true, mS unshear).
Proof.
  apply (invert_complete 4 shear unshear 1); [ now apply is_mat4 | now apply is_mat4 | inv4 | lra | | simpl; lra ].
  intros r c Hr Hc; revert r Hr; four; revert c Hc; four; cbv [ent nth unshear]; unfold Rabs; destruct (Rcase_abs _); lra.
Qed.
Ltac image := intros; unfold raffine, stretch, unstretch, shear, unshear, ent; cbn [seq map Rsum nth]; repeat (apply f_equal2; [ ring | ]); reflexivity.
Lemma stretch_image : forall x y z, raffine 3 stretch [x; y; z] = [16 / 9 * x; y + 1; z]. Proof. image. Qed.
Lemma unstretch_image : forall x y z, raffine 3 unstretch [x; y; z] = [9 / 16 * x; y - 1; z]. Proof. image. Qed.
Lemma shear_image : forall x y z, raffine 3 shear [x; y; z] = [x + y; y; z]. Proof. image. Qed.
Lemma unshear_image : forall x y z, raffine 3 unshear [x; y; z] = [x - y; y; z]. Proof. image. Qed.
Lemma list3 : forall a b c a' b' c' : R, a = a' -> b = b' -> c = c' -> [a; b; c] = [a'; b'; c']. Proof. intros; congruence. Qed.
Lemma un_plane_refuted : exists A res p p', affine 3 A /\ m_invert 4 (mS A) = (true, res) /\ is_plane 3 p
  /\ pl_transform 4 (pl_transform 4 (plane_lift p) (mS A)) res = plane_lift p' /\ pl_normal p' = pl_normal p /\ pl_dist p' <> pl_dist p.
Proof.
  set (p := Pl 0 [3 / 5; 4 / 5; 0]). exists stretch, (mS unstretch), p, (Pl (- (7 / 20)) [3 / 5; 4 / 5; 0]).
  assert (HP : is_plane 3 p) by (split; [ reflexivity | simpl; lra ]).
  split; [ exact stretch_affine | ]. split; [ exact stretch_invert | ]. split; [ exact HP | ].
  split; [ | split; [ reflexivity | unfold p; cbn [pl_dist]; lra ] ].
  assert (HN : affine 3 unstretch) by exact (inverse_affine 3 stretch unstretch stretch_affine ltac:(now apply is_mat4) ltac:(inv4)).
  destruct (plane_shape 3 p stretch HP stretch_affine) as (u & j & E1 & HU & J & F1 & E2).
  { apply (un_keeps 3 stretch _ stretch_affine stretch_invert); [ reflexivity | ]. unfold p; cbn [pl_normal]. intros Q; injection Q; lra. }
  change (S 3) with 4%nat in E2. rewrite E2.
  assert (U : u = [4 / 5; 3 / 5; 0]).
  { apply (unit_unique 3 u _ j (4 / 3)); [ exact HU | split; [ reflexivity | simpl; lra ] | exact J | lra | ]. rewrite <- F1. unfold p, rlin, rzero, rsub; cbn [pl_normal repeat].
    rewrite !stretch_image. unfold rscale. cbn [zip map]. apply list3; lra. }
  subst u. set (p1 := Pl _ _). assert (P1 : p1 = Pl (3 / 5) [4 / 5; 3 / 5; 0]).
  { unfold p1, p; cbn [pl_dist pl_normal]. unfold rscale; cbn [map]. rewrite stretch_image. f_equal. simpl. lra. }
  rewrite P1. clear p1 P1.
  destruct (plane_shape 3 (Pl (3 / 5) [4 / 5; 3 / 5; 0]) unstretch) as (w & k & E3 & HW & K & F3 & E4).
  { split; [ reflexivity | simpl; lra ]. } { exact HN. }
  { unfold keeps, rzero; cbn [pl_normal repeat]. rewrite !unstretch_image. intros Q; injection Q; lra. }
  change (S 3) with 4%nat in E4. rewrite E4.
  assert (W : w = [3 / 5; 4 / 5; 0]).
  { apply (unit_unique 3 w _ k (3 / 4)); [ exact HW | split; [ reflexivity | simpl; lra ] | exact K | lra | ]. rewrite <- F3. unfold rlin, rzero, rsub; cbn [pl_normal repeat].
    rewrite !unstretch_image. unfold rscale. cbn [zip map]. apply list3; lra. }
  subst w. f_equal. cbn [pl_dist pl_normal]. unfold rscale; cbn [map]. rewrite unstretch_image. f_equal. simpl. lra.
Qed.
Lemma un_box_refuted : exists A res b c1 c2 p, affine 3 A /\ m_invert 4 (mS A) = (true, res) /\ is_box 3 b
  /\ bb_transform (blift b) (mS A) = Ret (blift c1) /\ bb_transform (blift c1) res = Ret (blift c2) /\ in_bbox c2 p /\ ~ in_bbox b p.
Proof.
  set (b := BB [0; 0; 0] [1; 1; 1]). assert (HB : is_box 3 b) by (split; [ reflexivity | split; [ reflexivity | box_le ] ]).
  assert (HN : affine 3 unshear) by exact (inverse_affine 3 shear unshear shear_affine ltac:(now apply is_mat4) ltac:(inv4)).
  destruct (transform_ok b shear HB shear_affine) as (c1 & E1 & B1 & I1 & _). destruct (transform_ok c1 unshear B1 HN) as (c2 & E2 & B2 & I2 & _).
  exists shear, (mS unshear), b, c1, c2, [2; 0; 0]. split; [ exact shear_affine | ]. split; [ exact shear_invert | ]. split; [ exact HB | ]. split; [ exact E1 | ]. split; [ exact E2 | ]. split.
  - replace [2; 0; 0] with (raffine 3 unshear [2; 0; 0]) by (rewrite unshear_image; apply list3; lra). apply I2.
    assert (Q1 : in_bbox c1 [2; 1; 0]). { replace [2; 1; 0] with (raffine 3 shear [1; 1; 0]) by (rewrite shear_image; apply list3; lra). apply I1. unfold in_bbox, b; cbn [bb_min bb_max]. split; box_le. }
    assert (Q2 : in_bbox c1 [0; 0; 0]). { replace [0; 0; 0] with (raffine 3 shear [0; 0; 0]) by (rewrite shear_image; apply list3; lra). apply I1. unfold in_bbox, b; cbn [bb_min bb_max]. split; box_le. }
    destruct (box3 c1 B1) as (m0 & m1 & m2 & N0 & N1 & N2 & -> & _). destruct Q1 as [Q1 Q3]. destruct Q2 as [Q2 Q4]. cbn [bb_min bb_max] in *.
    repeat match goal with H : Forall2 _ (_ :: _) (_ :: _) |- _ => inversion H; clear H; subst end. split; cbn [bb_min bb_max]; box_le.
  - intros [_ Q]. unfold b in Q; cbn [bb_max] in Q. inversion Q; lra.
Qed.
