(** Final theorems: segments, polygons and boxes transformed and translated in machine arithmetic (C126). *)
From Coq Require Import ZArith Reals List Lia Lra Bool.
From Flocq Require Import Core BinarySingleNaN.
From Verif Require Import Ops M_scalar M_vec M_mat M_matext M_geom M_polygon M_bbox Inst_F S_vec S_mat S_affine S_pgon S_boxset S_bbox S_grid S_rnd S_hit S_lu S_tbox S_trs P_ieee P_fp5 P_fp8 P_tbox6 P_trs.
Import ListNotations.
Local Open Scope R_scope.

Section IEEE.
Variables prec emax : Z.
Context {Hprec : Prec_gt_0 prec} {Hmax : Prec_lt_emax prec emax}.
Notation fl := (binary_float prec emax).
Notation u := (unit_roundoff prec).
Notation Om := (bpow radix2 emax).

(** A transformed segment: up to the error, its ends are the images of the ends, in either order, and its points are the images of the points. *)
Theorem C126_segment_transform : (20 <= prec)%Z -> (20 <= emax)%Z -> forall (s : segment fl) m M K T, within M (seg_start s) -> within M (seg_end s) -> affine_up_to K T m -> 2 * (K * M + T + 1) <= Om ->
  let A := mvalues m in let e := image_error prec emax K M T in let s' := seg_transform 4 s m in let P := raffine 3 A (values (seg_start s)) in let Q := raffine 3 A (values (seg_end s)) in
  exists flip : bool, vnear e (seg_start s') (if flip then Q else P) /\ vnear e (seg_end s') (if flip then P else Q)
  /\ forall t, 0 <= t <= 1 -> vclose e (rlerp (values (seg_start s')) (values (seg_end s')) (if flip then 1 - t else t)) (raffine 3 A (rlerp (values (seg_start s)) (values (seg_end s)) t)).
Proof. exact (seg_transform_F prec emax). Qed.
(** A translated segment *)
Theorem C126_segment_translate : (20 <= prec)%Z -> forall (s : segment fl) (d : list fl) M X, within M (seg_start s) -> within M (seg_end s) -> within X d -> 2 * (M + X + 1) <= Om ->
  let e := u * (M + X) in let s' := seg_translate s d in let P := radd (values (seg_start s)) (values d) in let Q := radd (values (seg_end s)) (values d) in
  exists flip : bool, vnear e (seg_start s') (if flip then Q else P) /\ vnear e (seg_end s') (if flip then P else Q)
  /\ forall t, 0 <= t <= 1 -> vclose e (rlerp (values (seg_start s')) (values (seg_end s')) (if flip then 1 - t else t)) (radd (rlerp (values (seg_start s)) (values (seg_end s)) t) (values d)).
Proof. exact (seg_translate_F prec emax). Qed.
(** A transformed polygon: its vertices are the images of the vertices in the same cyclic order. *)
Theorem C126_polygon_transform : (20 <= prec)%Z -> (20 <= emax)%Z -> forall (p : list (list fl)) m M K T, Forall (within M) p -> affine_up_to K T m -> 2 * (K * M + T + 1) <= Om ->
  exists vs, rotation_of p vs /\ Forall2 (vnear (image_error prec emax K M T)) (pg_transform 3 p m) (map (fun v => raffine 3 (mvalues m) (values v)) vs).
Proof. exact (pg_transform_F prec emax). Qed.
(** A translated polygon *)
Theorem C126_polygon_translate : (20 <= prec)%Z -> forall (p : list (list fl)) (d : list fl) M X, Forall (within M) p -> within X d -> 2 * (M + X + 1) <= Om ->
  exists vs, rotation_of p vs /\ Forall2 (vnear (u * (M + X))) (pg_translate p d) (map (fun v => radd (values v) (values d)) vs).
Proof. exact (pg_translate_F prec emax). Qed.
(** A translated box: a box whose corners are the images of the corners and which contains the image of every point of the box, up to the error. *)
Theorem C126_box_translate : (20 <= prec)%Z -> forall (b : bbox fl) (d : list fl) M X, box_of 3 b -> within M (bb_min b) -> within M (bb_max b) -> within X d -> 2 * (M + X + 1) <= Om -> let e := u * (M + X) in
  exists c, bb_translate b d = Ret c /\ box_of 3 c /\ vnear e (bb_min c) (radd (bb_min (box_values b)) (values d)) /\ vnear e (bb_max c) (radd (bb_max (box_values b)) (values d))
    /\ forall q, in_bbox (box_values b) q -> in_bbox_upto e (box_values c) (radd q (values d)).
Proof. exact (box_translate_F prec emax). Qed.
End IEEE.

(** A box and a translation that meet the hypotheses *)
Example ex_C126_box : box_of 3 box345 /\ within 12 (bb_min box345) /\ within 12 (bb_max box345).
Proof. destruct case_tbox as (H1 & H2 & H3 & _). repeat split; try apply H1; try apply H2; apply H3. Qed.
(** A segment and a matrix that meet the hypotheses; the image of the start is not the start of the image. *)
Example ex_C126_case : within 12 (seg_start trs_segment) /\ within 12 (seg_end trs_segment) /\ affine_up_to 4 7 m345 /\ 2 * (4 * 12 + 7 + 1) <= bpow radix2 1024 /\ 2 * (12 + 12 + 1) <= bpow radix2 1024
  /\ v_lt (m_mul_p 4 m345 (seg_start trs_segment)) (m_mul_p 4 m345 (seg_end trs_segment)) = false.
Proof. exact case_trs. Qed.
Print Assumptions C126_segment_transform.
Print Assumptions C126_segment_translate.
Print Assumptions C126_polygon_transform.
Print Assumptions C126_polygon_translate.
Print Assumptions C126_box_translate.
