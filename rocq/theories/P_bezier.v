(** Proofs about bezier_surface.h. *)
From Coq Require Import ZArith Reals List Bool Arith Lia Lra.
From Verif Require Import Ops M_scalar M_vec M_mat M_geom M_approx Inst_XR S_vec S_mat S_affine S_bezier.
From Verif Require Import P_xr P_vec P_vec2 P_mat P_mat2 P_affine P_line.
Import ListNotations.
Local Open Scope R_scope.

Definition rinterp (x : R) (a b c : list R) : list R :=
  radd (radd (rscale (bern 0 x) a) (rscale (bern 1 x) b)) (rscale (bern 2 x) c).
Lemma rinterp_length : forall x a b c n, length a = n -> length b = n -> length c = n -> length (rinterp x a b c) = n.
Proof. intros. unfold rinterp. len. Qed.
Lemma X_interpolate : forall n x a b c, length a = n -> length b = n -> length c = n ->
  bezier_interpolate n (Some x) [vS a; vS b; vS c] = vS (rinterp x a b c).
Proof.
  intros n x a b c La Lb Lc. unfold bezier_interpolate. cbn [nth]. cbv zeta.
  assert (Z : v_zero n = vS (rzero n)).
  { unfold v_zero, v_fill, rzero. clear. induction n as [|m IH]; [ reflexivity | ]. cbn [repeat map]. now rewrite IH. }
  assert (B0 : bernstein_0 (Some x : XR) = Some (bern 0 x)). { cbn. f_equal. ring. }
  assert (B1 : bernstein_1 (Some x : XR) = Some (bern 1 x)). { cbn. f_equal. ring. }
  assert (B2 : bernstein_2 (Some x : XR) = Some (bern 2 x)). { cbn. f_equal. ring. }
  rewrite Z, B0, B1, B2, !X_scale_l, !X_add. f_equal. unfold rinterp. f_equal. f_equal.
  rewrite radd_comm. generalize (radd_0_r (rscale (bern 0 x) a)). now rewrite rscale_length, La.
Qed.
Lemma grid_cases : forall n cp, is_grid n cp -> exists a b c d e f g h i,
  cp = [[a; b; c]; [d; e; f]; [g; h; i]]
  /\ length a = n /\ length b = n /\ length c = n /\ length d = n /\ length e = n /\ length f = n
  /\ length g = n /\ length h = n /\ length i = n.
Proof.
  intros n cp [L H]. 
  assert (K : forall row, length row = 3%nat /\ Forall (fun p : list R => length p = n) row -> exists a b c, row = [a; b; c] /\ length a = n /\ length b = n /\ length c = n).
  { intros row [L3 F]. destruct row as [|a [|b [|c [|]]]]; try discriminate.
    inversion F as [|? ? Fa F1]; subst. inversion F1 as [|? ? Fb F2]; subst. inversion F2 as [|? ? Fc _]; subst. exists a, b, c. auto. }
  destruct cp as [|r0 [|r1 [|r2 [|]]]]; try discriminate.
  inversion H as [|? ? H0 H']; subst. inversion H' as [|? ? H1 H'']; subst. inversion H'' as [|? ? H2 _]; subst.
  destruct (K _ H0) as (a & b & c & -> & ? & ? & ?). destruct (K _ H1) as (d & e & f & -> & ? & ? & ?). destruct (K _ H2) as (g & h & i & -> & ? & ? & ?).
  exists a, b, c, d, e, f, g, h, i. repeat split; auto.
Qed.
Definition rsurface (cp : list (list (list R))) (u v : R) : list R :=
  rinterp v (rinterp u (control cp 0 0) (control cp 0 1) (control cp 0 2))
            (rinterp u (control cp 1 0) (control cp 1 1) (control cp 1 2))
            (rinterp u (control cp 2 0) (control cp 2 1) (control cp 2 2)).
Lemma X_surface : forall n cp u v, is_grid n cp -> bezier_surface n (map (map vS) cp) (Some u) (Some v) = vS (rsurface cp u v).
Proof.
  intros n cp u v G. destruct (grid_cases n cp G) as (a & b & c & d & e & f & g & h & i & -> & ? & ? & ? & ? & ? & ? & ? & ? & ?).
  unfold bezier_surface. cbn [map nth]. 
  rewrite !(X_interpolate n) by assumption. rewrite (X_interpolate n) by (apply rinterp_length; assumption). reflexivity.
Qed.
Lemma control_length : forall n cp j k, is_grid n cp -> (j < 3)%nat -> (k < 3)%nat -> length (control cp j k) = n.
Proof.
  intros n cp j k G J K. destruct (grid_cases n cp G) as (a & b & c & d & e & f & g & h & i & -> & ? & ? & ? & ? & ? & ? & ? & ? & ?).
  unfold control. destruct j as [|[|[|]]]; try lia; destruct k as [|[|[|]]]; try lia; cbn [nth]; assumption.
Qed.
Lemma rsurface_length : forall n cp u v, is_grid n cp -> length (rsurface cp u v) = n.
Proof. intros n cp u v G. unfold rsurface. repeat apply rinterp_length; apply (control_length n); auto. Qed.
Lemma nth_rinterp : forall n x a b c i, length a = n -> length b = n -> length c = n ->
  nth i (rinterp x a b c) 0 = bern 0 x * nth i a 0 + bern 1 x * nth i b 0 + bern 2 x * nth i c 0.
Proof.
  intros n x a b c i La Lb Lc. unfold rinterp. rewrite !nth_radd by len. now rewrite !nth_rscale.
Qed.
Lemma nth_rsurface : forall n cp u v i, is_grid n cp -> nth i (rsurface cp u v) 0 = bezier_value cp u v i.
Proof.
  intros n cp u v i G. unfold rsurface.
  assert (L := control_length n cp). 
  rewrite (nth_rinterp n) by (apply rinterp_length; apply L; auto). rewrite !(nth_rinterp n) by (apply L; auto).
  unfold bezier_value, sum3. ring.
Qed.
Lemma bezier_is_value : forall n cp u v, is_grid n cp ->
  exists q, bezier_surface n (map (map vS) cp) (Some u) (Some v) = vS q /\ length q = n
    /\ forall i, nth i q 0 = bezier_value cp u v i.
Proof.
  intros n cp u v G. exists (rsurface cp u v). split; [ now apply X_surface | ]. split; [ now apply rsurface_length | ].
  intros i. now apply (nth_rsurface n).
Qed.
Lemma bern_partition : forall x, bern 0 x + bern 1 x + bern 2 x = 1.
Proof. intros x. cbn [bern]. ring. Qed.
Lemma bern_nonneg : forall k x, 0 <= x <= 1 -> 0 <= bern k x.
Proof. intros [|[|k]] x X; cbn [bern]; [ | | ]; try nra; apply pow2_ge_0. Qed.
Lemma bezier_corners : forall n cp, is_grid n cp ->
  bezier_surface n (map (map vS) cp) (Some 0) (Some 0) = vS (control cp 0 0)
  /\ bezier_surface n (map (map vS) cp) (Some 1) (Some 0) = vS (control cp 0 2)
  /\ bezier_surface n (map (map vS) cp) (Some 0) (Some 1) = vS (control cp 2 0)
  /\ bezier_surface n (map (map vS) cp) (Some 1) (Some 1) = vS (control cp 2 2).
Proof.
  intros n cp G. rewrite !(X_surface n) by assumption.
  assert (K : forall u v j k, (j < 3)%nat -> (k < 3)%nat -> (forall i, bezier_value cp u v i = nth i (control cp j k) 0) -> rsurface cp u v = control cp j k).
  { intros u v j k J K H. apply nth_ext with (d := 0) (d' := 0).
    - rewrite (rsurface_length n) by assumption. now rewrite (control_length n).
    - intros i _. rewrite (nth_rsurface n) by assumption. apply H. }
  repeat split; f_equal; apply K; auto; intros i; unfold bezier_value, sum3; cbn [bern]; ring.
Qed.
(** Every half-space that contains the control points contains the surface. *)
Lemma bezier_half_space : forall n cp u v a k, is_grid n cp -> 0 <= u <= 1 -> 0 <= v <= 1 -> length a = n ->
  (forall i j, (i < 3)%nat -> (j < 3)%nat -> rdot a (control cp i j) <= k) ->
  exists q, bezier_surface n (map (map vS) cp) (Some u) (Some v) = vS q /\ rdot a q <= k.
Proof.
  intros n cp u v a k G U V La H. exists (rsurface cp u v). split; [ now apply X_surface | ].
  assert (L := control_length n cp).
  assert (I : forall x p q r, 0 <= x <= 1 -> length p = n -> length q = n -> length r = n -> rdot a p <= k -> rdot a q <= k -> rdot a r <= k -> rdot a (rinterp x p q r) <= k).
  { intros x p q r X Lp Lq Lr P Q R. unfold rinterp.
    rewrite rdot_add_r by len. rewrite rdot_add_r by len. rewrite !rdot_scale_r.
    assert (P0 := bern_nonneg 0 x X). assert (P1 := bern_nonneg 1 x X). assert (P2 := bern_nonneg 2 x X). assert (S := bern_partition x).
    set (w0 := bern 0 x) in *. set (w1 := bern 1 x) in *. set (w2 := bern 2 x) in *. clearbody w0 w1 w2.
    replace k with (w0 * k + w1 * k + w2 * k) by (rewrite <- !Rmult_plus_distr_r, S; ring).
    apply Rplus_le_compat; [ apply Rplus_le_compat | ]; now apply Rmult_le_compat_l. }
  unfold rsurface. apply I; auto; try (apply rinterp_length; apply L; auto); apply I; auto; apply L; auto.
Qed.
Lemma bezier_in_box : forall n cp u v lo hi, is_grid n cp -> 0 <= u <= 1 -> 0 <= v <= 1 ->
  (forall i j, (i < 3)%nat -> (j < 3)%nat -> in_box (control cp i j) lo hi) ->
  exists q, bezier_surface n (map (map vS) cp) (Some u) (Some v) = vS q /\ in_box q lo hi.
Proof.
  intros n cp u v lo hi G U V H. exists (rsurface cp u v). split; [ now apply X_surface | ].
  assert (L := control_length n cp). assert (LQ := rsurface_length n cp u v G).
  assert (F2 : forall p q, Forall2 Rle p q <-> length p = length q /\ forall i, (i < length p)%nat -> nth i p 0 <= nth i q 0).
  { clear. induction p as [|x p IH]; intros [|y q].
    - split; [ intros _; split; [ reflexivity | intros i Hi; inversion Hi ] | constructor ].
    - split; [ intros K; inversion K | intros [K _]; discriminate ].
    - split; [ intros K; inversion K | intros [K _]; discriminate ].
    - split.
      + intros K. inversion K; subst. apply IH in H4. destruct H4 as [E F]. split; [ cbn; congruence | ]. intros [|i] Hi; cbn [nth]; [ assumption | ]. apply F. cbn in Hi. lia.
      + intros [E F]. constructor; [ apply (F 0%nat); cbn; lia | ]. apply IH. split; [ cbn in E; lia | ]. intros i Hi. apply (F (S i)). cbn. lia. }
  assert (LL : length lo = n /\ length hi = n).
  { destruct (H 0%nat 0%nat) as [A B]; [ lia | lia | ]. apply F2 in A, B. rewrite (L 0%nat 0%nat) in A, B by (auto; lia). split; [ apply A | symmetry; apply B ]. }
  destruct LL as [Llo Lhi].
  assert (C : forall i, (i < n)%nat -> nth i lo 0 <= bezier_value cp u v i <= nth i hi 0).
  { intros i Hi.
    assert (B : forall j k, (j < 3)%nat -> (k < 3)%nat -> nth i lo 0 <= nth i (control cp j k) 0 <= nth i hi 0).
    { intros j k J K. destruct (H j k J K) as [A B]. apply F2 in A, B. split; [ apply A; lia | apply B; rewrite (L j k) by auto; lia ]. }
    unfold bezier_value, sum3.
    assert (P0 := bern_nonneg 0 u U). assert (P1 := bern_nonneg 1 u U). assert (P2 := bern_nonneg 2 u U). assert (S := bern_partition u).
    assert (Q0 := bern_nonneg 0 v V). assert (Q1 := bern_nonneg 1 v V). assert (Q2 := bern_nonneg 2 v V). assert (S' := bern_partition v).
    set (w0 := bern 0 u) in *. set (w1 := bern 1 u) in *. set (w2 := bern 2 u) in *. 
    set (z0 := bern 0 v) in *. set (z1 := bern 1 v) in *. set (z2 := bern 2 v) in *. clearbody w0 w1 w2 z0 z1 z2.
    set (l := nth i lo 0) in *. set (t := nth i hi 0) in *.
    replace l with (z0 * w0 * l + z0 * w1 * l + z0 * w2 * l + (z1 * w0 * l + z1 * w1 * l + z1 * w2 * l) + (z2 * w0 * l + z2 * w1 * l + z2 * w2 * l)).
    2:{ replace l with ((z0 + z1 + z2) * (w0 + w1 + w2) * l) at 10 by (rewrite S, S'; ring). ring. }
    replace t with (z0 * w0 * t + z0 * w1 * t + z0 * w2 * t + (z1 * w0 * t + z1 * w1 * t + z1 * w2 * t) + (z2 * w0 * t + z2 * w1 * t + z2 * w2 * t)).
    2:{ replace t with ((z0 + z1 + z2) * (w0 + w1 + w2) * t) at 10 by (rewrite S, S'; ring). ring. }
    split; repeat apply Rplus_le_compat; apply Rmult_le_compat_l; try (apply Rmult_le_pos; assumption); apply B; lia. }
  split; apply F2.
  - split; [ congruence | ]. intros i Hi. rewrite (nth_rsurface n) by assumption. apply C. lia.
  - split; [ congruence | ]. intros i Hi. rewrite (nth_rsurface n) by assumption. apply C. lia.
Qed.
(** Affine maps *)
Lemma nth_raffine : forall n M p r, (r < n)%nat -> nth r (raffine n M p) 0 = Rsum n (fun c => ent M r c * nth c p 0) + ent M r n.
Proof.
  intros n M p r Hr. unfold raffine. set (f := fun r => Rsum n (fun c => ent M r c * nth c p 0) + ent M r n).
  rewrite (nth_indep _ 0 (f 0%nat)) by (now rewrite map_length, seq_length).
  rewrite (map_nth f), seq_nth by assumption. reflexivity.
Qed.
Lemma bezier_affine : forall n M cp u v, is_grid n cp ->
  exists q, bezier_surface n (map (map vS) cp) (Some u) (Some v) = vS q
    /\ bezier_surface n (map (map vS) (map (map (raffine n M)) cp)) (Some u) (Some v) = vS (raffine n M q).
Proof.
  intros n M cp u v G. exists (rsurface cp u v). split; [ now apply X_surface | ].
  assert (G' : is_grid n (map (map (raffine n M)) cp)).
  { destruct G as [G1 G2]. split; [ now rewrite map_length | ]. rewrite Forall_map. revert G2. apply Forall_impl. intros row [R1 R2].
    split; [ now rewrite map_length | ]. rewrite Forall_map. apply Forall_forall. intros p _. apply raffine_length. }
  rewrite (X_surface n) by assumption. f_equal. apply nth_ext with (d := 0) (d' := 0).
  { rewrite (rsurface_length n) by assumption. now rewrite raffine_length. }
  intros r Hr. rewrite (rsurface_length n) in Hr by assumption. rewrite (nth_rsurface n) by assumption. rewrite nth_raffine by assumption.
  assert (C : forall j k, (j < 3)%nat -> (k < 3)%nat -> control (map (map (raffine n M)) cp) j k = raffine n M (control cp j k)).
  { intros j k J K. destruct (grid_cases n cp G) as (a & b & c & d & e & f & g & h & i & -> & _).
    unfold control. destruct j as [|[|[|]]]; try lia; destruct k as [|[|[|]]]; try lia; reflexivity. }
  rewrite (Rsum_ext n _ (fun c => ent M r c * bezier_value cp u v c)) by (intros c _; now rewrite (nth_rsurface n)).
  unfold bezier_value at 1. unfold sum3. rewrite !C by lia. rewrite !nth_raffine by assumption.
  assert (E : Rsum n (fun c => ent M r c * bezier_value cp u v c) = sum3 (fun j => sum3 (fun k => bern j v * bern k u * Rsum n (fun c => ent M r c * nth c (control cp j k) 0)))).
  { unfold sum3, bezier_value, sum3. rewrite <- !Rsum_mul_l, <- !Rsum_add. apply Rsum_ext. intros c _. ring. }
  rewrite E. unfold sum3.
  replace (ent M r n) with ((bern 0 v + bern 1 v + bern 2 v) * (bern 0 u + bern 1 u + bern 2 u) * ent M r n) at 10 by (rewrite !bern_partition; ring).
  ring.
Qed.
