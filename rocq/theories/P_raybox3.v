(** Cases for the intersection of rays and boxes in double precision (C112). *)
From Coq Require Import ZArith Reals List Lia Lra Bool Psatz.
From Flocq Require Import Core BinarySingleNaN.
From Verif Require Import Ops M_scalar M_vec M_geom M_bbox M_intersect Inst_F S_vec S_rnd S_order S_bbox S_boxset S_grid S_intersect S_hit S_tbox S_raybox P_ord P_ieee P_compare P_vec P_line P_fp P_fp3 P_fp4 P_fp5 P_hit P_hit2 P_hit4 P_bbox3 P_ft P_tbox P_limits P_raybox P_raybox2.
Import ListNotations.
Local Open Scope R_scope.

Lemma unit_direction : forall prec emax (d : list (binary_float prec emax)), (20 <= prec)%Z -> nearly_unit d -> is_direction 3 d.
Proof.
  intros prec emax d U20 H. destruct (u_small prec U20) as [U0 U1]. assert (H' := H). destruct H as (L & F & N). destruct (unit_facts prec emax U20 d H') as (B & Q & _). split.
  - split; [exact L|]. split; [exact F|]. revert B. apply Forall_impl. intros x Hx. lra.
  - apply Rabs_le_inv in Q. destruct d as [|x [|y [|z [|]]]]; try discriminate L. unfold values in *. cbn [map rdot] in *.
    destruct (Rle_lt_dec (/ 4) (Rabs (B2R x))) as [|H1]; [now apply Exists_cons_hd|]. destruct (Rle_lt_dec (/ 4) (Rabs (B2R y))) as [|H2]; [now apply Exists_cons_tl, Exists_cons_hd|].
    destruct (Rle_lt_dec (/ 4) (Rabs (B2R z))) as [|H3]; [now apply Exists_cons_tl, Exists_cons_tl, Exists_cons_hd|]. exfalso. apply Rabs_lt_inv in H1, H2, H3. nra.
Qed.

(** From (0, 1, 0) towards (1, 1, 0), the ray enters the box from (4, -8, -8) to (6, 8, 8) at (4, 5, 0); from (5, 1, 0) towards (1, 1, -1), it leaves the box at (6, 2, -1). *)
Definition rb_from : list double := [cst 0; cst 1; cst 0].
Definition rb_toward : list double := [cst 1; cst 1; cst 0].
Definition rb_from_in : list double := [cst 5; cst 1; cst 0].
Definition rb_toward_in : list double := [cst 1; cst 1; cst (-1)].
Definition rb_box : bbox double := BB [cst 4; cst (-8); cst (-8)] [cst 6; cst 8; cst 8].
Lemma vals3 : forall x y z, (Z.abs x <= 2 ^ 53)%Z -> (Z.abs y <= 2 ^ 53)%Z -> (Z.abs z <= 2 ^ 53)%Z -> all_finite [cst x : double; cst y; cst z] /\ values [cst x : double; cst y; cst z] = [IZR x; IZR y; IZR z].
Proof.
  intros x y z Hx Hy Hz. destruct (cst_double x Hx) as [F1 V1], (cst_double y Hy) as [F2 V2], (cst_double z Hz) as [F3 V3]. split; [repeat (apply Forall_cons; [assumption|]); apply Forall_nil|].
  exact (f_equal2 cons V1 (f_equal2 cons V2 (f_equal2 cons V3 eq_refl))).
Qed.
Lemma sized3 : forall x y z M, (Z.abs x <= 2 ^ 53)%Z -> (Z.abs y <= 2 ^ 53)%Z -> (Z.abs z <= 2 ^ 53)%Z -> Rabs (IZR x) <= M -> Rabs (IZR y) <= M -> Rabs (IZR z) <= M -> sized 3 M [cst x : double; cst y; cst z].
Proof. intros x y z M Hx Hy Hz Bx By Bz. destruct (vals3 x y z Hx Hy Hz) as [F V]. split; [reflexivity|]. split; [exact F|]. rewrite V. repeat (apply Forall_cons; [assumption|]). apply Forall_nil. Qed.
Lemma box3 : forall x y z x' y' z', (Z.abs x <= 2 ^ 53)%Z -> (Z.abs y <= 2 ^ 53)%Z -> (Z.abs z <= 2 ^ 53)%Z -> (Z.abs x' <= 2 ^ 53)%Z -> (Z.abs y' <= 2 ^ 53)%Z -> (Z.abs z' <= 2 ^ 53)%Z -> (x <= x')%Z -> (y <= y')%Z -> (z <= z')%Z ->
  box_of 3 (BB [cst x : double; cst y; cst z] [cst x'; cst y'; cst z']).
Proof.
  intros x y z x' y' z' H1 H2 H3 H4 H5 H6 L1 L2 L3. destruct (cst_double x H1) as [F1 V1], (cst_double y H2) as [F2 V2], (cst_double z H3) as [F3 V3], (cst_double x' H4) as [F4 V4], (cst_double y' H5) as [F5 V5], (cst_double z' H6) as [F6 V6].
  assert (N : forall w : double, is_finite w = true -> ~ NaN w) by exact (fin_num 53 1024).
  assert (LE : forall v w : double, is_finite v = true -> is_finite w = true -> B2R v <= B2R w -> o_le v w = true) by (intros v w Fv Fw; exact (proj2 (le_fin 53 1024 v w Fv Fw))).
  split; [split; [reflexivity|]; repeat (apply Forall_cons; [now apply N|]); apply Forall_nil|]. split; [split; [reflexivity|]; repeat (apply Forall_cons; [now apply N|]); apply Forall_nil|].
  unfold vec_below. cbn [bb_min bb_max]. apply IZR_le in L1, L2, L3. repeat (apply Forall2_cons; [apply LE; [assumption|assumption|]|]); [| | |apply Forall2_nil].
  - exact (eq_ind_r (fun a => a <= _) (eq_ind_r (fun a => _ <= a) L1 V4) V1).
  - exact (eq_ind_r (fun a => a <= _) (eq_ind_r (fun a => _ <= a) L2 V5) V2).
  - exact (eq_ind_r (fun a => a <= _) (eq_ind_r (fun a => _ <= a) L3 V6) V3).
Qed.
Ltac absz := apply Rabs_le; lra.
Lemma err16 : 0 <= ray_box_error 53 1024 16 <= 1.
Proof.
  destruct (u_small 53 ltac:(lia)) as [U0 U1]. assert (T0 := eta_pos 53 1024). destruct (eta_small 53 1024 ltac:(lia)) as [_ TS]. unfold ray_box_error. split; lra.
Qed.
Lemma rb_sized : sized 3 16 rb_from /\ is_direction 3 rb_toward /\ sized 3 16 rb_from_in /\ is_direction 3 rb_toward_in /\ sized 3 16 (bb_min rb_box) /\ sized 3 16 (bb_max rb_box) /\ box_of 3 rb_box /\ 16 * 16 <= bpow radix2 1024.
Proof.
  assert (B := bpow_1024). split; [apply sized3; try lia; absz|]. split; [split; [apply sized3; try lia; absz|]|].
  { unfold rb_toward. rewrite (proj2 (vals3 1 1 0 ltac:(lia) ltac:(lia) ltac:(lia))). apply Exists_cons_hd. rewrite Rabs_pos_eq; lra. }
  split; [apply sized3; try lia; absz|]. split; [split; [apply sized3; try lia; absz|]|].
  { unfold rb_toward_in. rewrite (proj2 (vals3 1 1 (-1) ltac:(lia) ltac:(lia) ltac:(lia))). apply Exists_cons_hd. rewrite Rabs_pos_eq; lra. }
  split; [apply sized3; try lia; absz|]. split; [apply sized3; try lia; absz|]. split; [apply box3; lia|lra].
Qed.
Lemma rb_box_values : box_values rb_box = BB [4; -8; -8] [6; 8; 8].
Proof.
  unfold box_values, rb_box. cbn [bb_min bb_max]. change (BB (values [cst 4 : double; cst (-8); cst (-8)]) (values [cst 6 : double; cst 8; cst 8]) = BB [4; -8; -8] [6; 8; 8]).
  rewrite (proj2 (vals3 4 (-8) (-8) ltac:(lia) ltac:(lia) ltac:(lia))), (proj2 (vals3 6 8 8 ltac:(lia) ltac:(lia) ltac:(lia))). reflexivity.
Qed.
Lemma rb_enters : enters (ray_box_error 53 1024 16) (ray_values (Ray rb_from rb_toward)) (box_values rb_box) 0 4.
Proof.
  assert (E := err16). rewrite rb_box_values. unfold ray_values. cbn [ray_origin ray_dir]. unfold rb_from, rb_toward. rewrite (proj2 (vals3 0 1 0 ltac:(lia) ltac:(lia) ltac:(lia))), (proj2 (vals3 1 1 0 ltac:(lia) ltac:(lia) ltac:(lia))).
  split; [lra|]. split; [cbn; lia|]. unfold between_others, ray_at, rpoint, radd, rscale. cbn [ray_origin ray_dir bb_min bb_max nth zip map length]. split; [left; lra|].
  intros [|[|[|j]]] Lj Nj; cbn [nth]; [now elim Nj|lra|lra|lia].
Qed.
Lemma rb_leaves : leaves (ray_box_error 53 1024 16) (ray_values (Ray rb_from_in rb_toward_in)) (box_values rb_box) 0 1.
Proof.
  assert (E := err16). rewrite rb_box_values. unfold ray_values. cbn [ray_origin ray_dir]. unfold rb_from_in, rb_toward_in. rewrite (proj2 (vals3 5 1 0 ltac:(lia) ltac:(lia) ltac:(lia))), (proj2 (vals3 1 1 (-1) ltac:(lia) ltac:(lia) ltac:(lia))).
  split; [lra|]. split; [cbn; lia|]. unfold between_others, ray_at, rpoint, radd, rscale. cbn [ray_origin ray_dir bb_min bb_max nth zip map length]. split; [right; lra|].
  intros [|[|[|j]]] Lj Nj; cbn [nth]; [now elim Nj|lra|lra|lia].
Qed.
Lemma rb_in : in_bbox (box_values rb_box) (values rb_from_in) /\ ~ in_bbox (box_values rb_box) (values rb_from).
Proof.
  rewrite rb_box_values. unfold rb_from, rb_from_in. rewrite (proj2 (vals3 5 1 0 ltac:(lia) ltac:(lia) ltac:(lia))), (proj2 (vals3 0 1 0 ltac:(lia) ltac:(lia) ltac:(lia))). split.
  - split; cbn [bb_min bb_max]; repeat (apply Forall2_cons; [lra|]); apply Forall2_nil.
  - intros [H _]. cbn [bb_min] in H. inversion H; subst. lra.
Qed.
Lemma rb_nonzero : forall j, (j < 3)%nat -> B2R (vget rb_toward_in j) <> 0.
Proof.
  destruct (cst_double 1 ltac:(lia)) as [F1 V1], (cst_double (-1) ltac:(lia)) as [F2 V2].
  intros [|[|[|j]]] H; [exact (eq_ind_r (fun a => a <> 0) (R1_neq_R0) V1)|exact (eq_ind_r (fun a => a <> 0) (R1_neq_R0) V1)| |lia]. refine (eq_ind_r (fun a => a <> 0) _ V2). lra.
Qed.

(** A ray straight towards an edge and through the middle of the box that is not found to hit the box *)
Definition rb_diag : list double := v_normalize [cst 1; cst 1; cst 0].
Definition rb_zero : list double := [cst 0; cst 0; cst 0].
Definition rb_edge_box : bbox double := BB [cst 7; cst 7; cst (-1)] [cst 8; cst 8; cst 1].
Lemma diag_unit : nearly_unit rb_diag.
Proof.
  destruct (vals3 1 1 0 ltac:(lia) ltac:(lia) ltac:(lia)) as [F V].
  assert (Mo : moderate 1024 (values [cst 1 : double; cst 1; cst 0])).
  { rewrite V. unfold moderate, rnorm. assert (G : 1 <= sqrt (rdot [1; 1; 0] [1; 1; 0]) <= 2).
    { split; [rewrite <- sqrt_1 at 1|rewrite <- (sqrt_square 2) by lra]; apply sqrt_le_1_alt; cbn [rdot]; lra. } split.
    - apply Rle_trans with (bpow radix2 0); [apply bpow_le; vm_compute; discriminate|exact (proj1 G)].
    - apply Rle_trans with 2; [exact (proj2 G)|]. apply Rle_trans with (bpow radix2 4); [cbn; lra|apply bpow_le; vm_compute; discriminate]. }
  split; [reflexivity|]. assert (C := normalize_ok 53 1024 _ F (few_double 3 ltac:(lia)) Mo). split.
  - exact (all_fin _ _ _ _ C).
  - eapply Rle_trans; [exact (normalize_norm 53 1024 _ F (few_double 3 ltac:(lia)) Mo)|]. destruct u_double as [U0 _]. simpl. lra.
Qed.
Lemma diag_check : (o_eq (nth 0 rb_diag (cst 0)) (nth 1 rb_diag (cst 0)) && o_eq (nth 2 rb_diag (cst 0)) (cst 0) && o_lt (cst 0) (nth 0 rb_diag (cst 0)))%bool = true.
Proof. vm_cast_no_check (eq_refl true). Qed.
Lemma eq_values : forall x y : double, is_finite x = true -> is_finite y = true -> o_eq x y = true -> B2R x = B2R y.
Proof.
  intros x y Fx Fy H. change (Beqb x y = true) in H. rewrite Feqb_cmp, Bcompare_correct in H by assumption. destruct (Rcompare_spec (B2R x) (B2R y)); auto; discriminate.
Qed.
Lemma diag_generic : forall d : list double, nearly_unit d -> (o_eq (nth 0 d (cst 0)) (nth 1 d (cst 0)) && o_eq (nth 2 d (cst 0)) (cst 0) && o_lt (cst 0) (nth 0 d (cst 0)))%bool = true -> exists a, 0 < a /\ values d = [a; a; 0].
Proof.
  intros d (L & F & _) H. destruct d as [|x [|y [|z [|]]]]; try discriminate L. cbn [nth] in H. apply andb_prop in H as [H H3]. apply andb_prop in H as [H1 H2].
  inversion F as [|? ? Fx F']; subst. inversion F' as [|? ? Fy F'']; subst. inversion F'' as [|? ? Fz _]; subst. destruct (F_cst0 53 1024) as [F0 V0].
  assert (E1 := eq_values x y Fx Fy H1). assert (E2 := eq_values z (cst 0) Fz F0 H2). assert (E3 := proj1 (P_limits.lt_fin 53 1024 (cst 0) x F0 Fx) H3).
  exists (B2R x). split; [exact (eq_ind (B2R (cst 0 : double)) (fun a => a < B2R x) E3 0 V0)|]. unfold values. cbn [map]. rewrite <- E1. exact (f_equal2 cons eq_refl (f_equal2 cons eq_refl (f_equal2 cons (eq_trans E2 V0) eq_refl))).
Qed.
Lemma edge_nan : is_nan (intersect_ray_bbox 3 (Ray rb_zero rb_diag) rb_edge_box) = true.
Proof. vm_cast_no_check (eq_refl true). Qed.
Lemma edge_refuted : exists (o d : list double) (b : bbox double) t, sized 3 16 o /\ nearly_unit d /\ box_of 3 b /\ sized 3 16 (bb_min b) /\ sized 3 16 (bb_max b)
  /\ 0 <= t /\ in_bbox_upto (- / 2) (box_values b) (ray_at (ray_values (Ray o d)) t) /\ is_nan (intersect_ray_bbox 3 (Ray o d) b) = true.
Proof.
  exists rb_zero, rb_diag, rb_edge_box. destruct (diag_generic rb_diag diag_unit diag_check) as (a & A & V). exists (15 / 2 / a). split; [apply sized3; try lia; absz|]. split; [exact diag_unit|]. split; [apply box3; lia|].
  split; [apply sized3; try lia; absz|]. split; [apply sized3; try lia; absz|]. split; [apply Rlt_le, Rdiv_lt_0_compat; lra|]. split; [|exact edge_nan].
  unfold ray_at, ray_values, rpoint. cbn [ray_origin ray_dir]. rewrite V. unfold rb_zero. rewrite (proj2 (vals3 0 0 0 ltac:(lia) ltac:(lia) ltac:(lia))).
  assert (EB : box_values rb_edge_box = BB [7; 7; -1] [8; 8; 1]).
  { unfold box_values, rb_edge_box. cbn [bb_min bb_max]. change (BB (values [cst 7 : double; cst 7; cst (-1)]) (values [cst 8 : double; cst 8; cst 1]) = BB [7; 7; -1] [8; 8; 1]).
    rewrite (proj2 (vals3 7 7 (-1) ltac:(lia) ltac:(lia) ltac:(lia))), (proj2 (vals3 8 8 1 ltac:(lia) ltac:(lia) ltac:(lia))). reflexivity. }
  rewrite EB. unfold radd, rscale. cbn [map zip]. assert (E : 15 / 2 / a * a = 15 / 2) by (field; lra). rewrite E. split; cbn [bb_min bb_max]; repeat (apply Forall2_cons; [lra|]); apply Forall2_nil.
Qed.
