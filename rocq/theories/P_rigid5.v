(** Proofs about rigid motions (C100): what is not kept where the ends of a segment are exchanged. *)
From Coq Require Import ZArith Reals List Bool Lia Lra Psatz.
From Flocq Require Import Core.
From Verif Require Import Ops M_scalar M_vec M_mat M_matext M_geom M_dist M_intersect Inst_XR S_vec S_mat S_affine S_geom S_dist S_intersect S_rigid.
From Verif Require Import P_ord P_xr P_vec P_vec2 P_line P_seg P_affine P_plane P_dist P_intersect P_rigid P_rigid2 P_rigid3.
Import ListNotations.
Local Open Scope R_scope.

(** Half a turn about the z axis, and a quarter turn about it with a move. *)
Definition half_turn : list (list R) := [[-1; 0; 0; 0]; [0; -1; 0; 0]; [0; 0; 1; 0]; [0; 0; 0; 1]].
Lemma half_image : forall x y z, raffine 3 half_turn [x; y; z] = [- x; - y; z].
Proof. intros. unfold raffine, half_turn, ent. cbn [seq map Rsum nth]. repeat (apply f_equal2; [ ring | ]). reflexivity. Qed.
Lemma half_rigid : rigid 3 half_turn.
Proof.
  split; [ | split; [ lra | ] ].
  - split; [ split; [ reflexivity | repeat constructor ] | ]. intros [|[|[|[|c]]]] Hc; try lia; reflexivity.
  - intros p q Hp Hq. vec3 p. vec3 q. rewrite !half_image, Rmult_1_l. unfold rdist, rnorm. f_equal. cbn. ring.
Qed.
Lemma half_point : forall x y z x' y', x' = - x -> y' = - y -> m_mul_p 4 (mS half_turn) (vS [x; y; z]) = vS [x'; y'; z].
Proof. intros x y z x' y' -> ->. rewrite X_affine by (try reflexivity; apply half_rigid). now rewrite half_image. Qed.
Lemma lt_first : forall x y a b, x < y -> v_lt (vS (x :: a)) (vS (y :: b)) = true /\ v_lt (vS (y :: b)) (vS (x :: a)) = false.
Proof.
  intros x y a b H. unfold v_lt. cbn [map v_compare o_eq XRops Xcmp]. rewrite !Req_bool_true by reflexivity. cbn [negb andb]. cbn [o_lt o_sub o_add cst o_of_Z XRops Xcmp X2].
  split; [ rewrite Rlt_bool_true by lra; reflexivity | ]. rewrite Rlt_bool_false, Rlt_bool_true by lra. reflexivity.
Qed.
Lemma half_seg : seg_transform 4 (seg_lift wit_seg) (mS half_turn) = seg_lift (Seg [-3; 0; 0] [0; 0; 0]).
Proof.
  unfold seg_transform, seg_lift, wit_seg. cbn [seg_start seg_end].
  rewrite (half_point 0 0 0 0 0), (half_point 3 0 0 (-3) 0) by lra. unfold seg_make.
  rewrite (proj2 (lt_first (-3) 0 [0; 0] [0; 0] ltac:(lra))). reflexivity.
Qed.
Lemma rg_contains_refuted : exists M s p d, rigid 3 M /\ is_segment 3 s /\ length p = 3%nat /\ seg_start s <> seg_end s /\ 0 <= d
  /\ seg_contains (seg_lift s) (vS p) (Some d) = true
  /\ seg_contains (seg_transform 4 (seg_lift s) (mS M)) (m_mul_p 4 (mS M) (vS p)) (Some d) = false.
Proof.
  exists half_turn, wit_seg, [-1; 0; 0], 1. split; [ exact half_rigid | ]. split; [ split; reflexivity | ]. split; [ reflexivity | ].
  split; [ simpl; intros E; injection E; lra | ]. split; [ lra | ]. destruct wit_dir as [E1 E2]. split.
  - apply (X_contains wit_seg [-1; 0; 0] 1 3 [1; 0; 0] 3); try assumption; try reflexivity; [ split; reflexivity | split; [ reflexivity | simpl; lra ] | ].
    simpl. lra.
  - rewrite half_seg. rewrite (half_point (-1) 0 0 1 0) by lra. apply not_true_is_false. intros H.
    assert (D : rsub [0; 0; 0] [-3; 0; 0] = [3; 0; 0]) by (unfold rsub; cbn [zip]; repeat (apply f_equal2; [ lra | ]); reflexivity).
    apply (X_contains (Seg [-3; 0; 0] [0; 0; 0]) [1; 0; 0] 1 3 [1; 0; 0] 3) in H; try reflexivity.
    + destruct H as (_ & H & _). simpl in H. lra.
    + split; reflexivity.
    + unfold seg_direction, seg_lift, wit_seg in *. cbn [seg_start seg_end] in *. rewrite X_sub in *. rewrite D. rewrite <- E1. f_equal. f_equal. unfold rsub; cbn [zip]; repeat (apply f_equal2; [ lra | ]); reflexivity.
    + split; [ reflexivity | simpl; lra ].
    + unfold seg_squared_length, seg_lift, wit_seg in *. cbn [seg_start seg_end] in *. rewrite X_sub, X_squared_length, D. f_equal. simpl. lra.
Qed.
Lemma rg_ray_seg_refuted : exists M r s, rigid 3 M /\ is_ray 3 r /\ is_segment 3 s /\ / 1000 < area2 (rsub (seg_end s) (seg_start s)) (ray_dir r)
  /\ ld_distance (ray_seg_sqdist (ray_lift r) (seg_lift s)) = Some (/ 10000)
  /\ ld_distance (ray_seg_sqdist (ray_transform 4 (ray_lift r) (mS M)) (seg_transform 4 (seg_lift s) (mS M))) = Some 0.
Proof.
  set (r := Ray [/ 100; -1; 0] [0; 1; 0]). set (s := Seg [0; 0; 0] [/ 25; 0; 0]). exists half_turn, r, s.
  assert (HR : is_ray 3 r) by (split; [ reflexivity | split; [ reflexivity | simpl; lra ] ]). assert (HS : is_segment 3 s) by (split; reflexivity).
  assert (HD : / 1000 < area2 (rsub (seg_end s) (seg_start s)) (ray_dir r)) by (unfold area2, rdot, rsub; simpl; lra).
  split; [ exact half_rigid | ]. split; [ exact HR | ]. split; [ exact HS | ]. split; [ exact HD | ]. split.
  - destruct (X_ray_seg 3 r s HR HS) as [_ A]. destruct (A HD) as (x & t & C & E). rewrite E. cbn [ld_distance]. clear A E HD HS HR.
    assert (XT : x = 0 /\ t = 1).
    { destruct C as (sN & tN & tD & -> & -> & C). unfold rdot, s, r, rsub in C. simpl in C.
      destruct C as [(C1 & _)|[(m & C1 & C2 & _)|(_ & _ & -> & -> & ->)]]; [ exfalso; lra | exfalso; injection C1 as <-; lra | ].
      unfold rdot, s, r, rsub. simpl. split.
      - unfold snap. destruct (Rle_dec _ _) as [Q|Q]; [ reflexivity | ]. exfalso. apply Q. rewrite Rabs_pos_eq; lra.
      - unfold snap. destruct (Rle_dec _ _) as [Q|Q]; [ exfalso; rewrite Rabs_pos_eq in Q; lra | ]. rewrite Rmax_left; [ field | ]. lra. }
    destruct XT as [-> ->]. f_equal. unfold rdist2, rdot, rpoint, r, s, rsub, radd, rscale. simpl. lra.
  - set (r' := Ray [- / 100; 1; 0] [0; -1; 0]). set (s' := Seg [- / 25; 0; 0] [0; 0; 0]).
    assert (E1 : ray_transform 4 (ray_lift r) (mS half_turn) = ray_lift r').
    { rewrite (rg_ray 3 half_turn half_rigid) by assumption. unfold gray, ray_lift, r, r'. cbn [ray_origin ray_dir]. rewrite !gl_S. unfold rlin, rzero.
      cbn [repeat]. rewrite !half_image. unfold rsub. cbn [zip]. apply f_equal2; f_equal; repeat (apply f_equal2; [ lra | ]); reflexivity. }
    assert (E2 : seg_transform 4 (seg_lift s) (mS half_turn) = seg_lift s').
    { unfold seg_transform, seg_lift, s, s'. cbn [seg_start seg_end].
      rewrite (half_point 0 0 0 0 0), (half_point (/ 25) 0 0 (- / 25) 0) by lra. unfold seg_make.
      rewrite (proj2 (lt_first (- / 25) 0 [0; 0] [0; 0] ltac:(lra))). reflexivity. }
    rewrite E1, E2.
    assert (HR' : is_ray 3 r') by (split; [ reflexivity | split; [ reflexivity | simpl; lra ] ]). assert (HS' : is_segment 3 s') by (split; reflexivity).
    assert (HD' : / 1000 < area2 (rsub (seg_end s') (seg_start s')) (ray_dir r')) by (unfold area2, rdot, rsub; simpl; lra).
    destruct (X_ray_seg 3 r' s' HR' HS') as [_ A]. destruct (A HD') as (x & t & C & E). rewrite E. cbn [ld_distance]. clear A E HD HS HR HD' HR' HS' E1 E2.
    assert (XT : x = 3 / 4 /\ t = 1).
    { destruct C as (sN & tN & tD & -> & -> & C). unfold rdot, s', r', rsub in C. simpl in C.
      destruct C as [(C1 & _)|[(m & C1 & C2 & _)|(_ & _ & -> & -> & ->)]]; [ exfalso; lra | exfalso; injection C1 as <-; lra | ].
      unfold rdot, s', r', rsub. simpl. split.
      - unfold snap. destruct (Rle_dec _ _) as [Q|Q]; [ exfalso; rewrite Rabs_pos_eq in Q; lra | ]. field.
      - unfold snap. destruct (Rle_dec _ _) as [Q|Q]; [ exfalso; rewrite Rabs_pos_eq in Q; lra | ]. match goal with |- Rmax ?e 0 = 1 => replace e with 1 by field end. apply Rmax_left. lra. }
    destruct XT as [-> ->]. f_equal. unfold rdist2, rdot, rpoint, r', s', rsub, radd, rscale. simpl. lra.
Qed.
