(** Final theorems: distances (C52, C53). *)
From Coq Require Import ZArith Reals List Bool Lia Lra.
From Verif Require Import Ops M_scalar M_vec M_geom M_dist Inst_XR S_vec S_geom S_dist.
From Verif Require Import P_dist P_dist2.
Import ListNotations.
Local Open Scope R_scope.
Notation vS := (map (@Some R)).

(** C52. The distance of a ray or segment and a point is the smallest one, and it is attained at the
    returned position. *)
Theorem C52_ray_point : forall n r p, is_ray n r -> length p = n ->
  exists t, let q := rpoint (ray_origin r) (ray_dir r) t in
    0 <= t /\ nearest (on_ray r) p q
    /\ ray_point_sqdist (ray_lift r) (vS p) = PD (Some t) (Some (rdist2 p q))
    /\ ray_point_dist (ray_lift r) (vS p) = PD (Some t) (Some (rdist p q)).
Proof. exact ray_point_ok. Qed.
Theorem C52_segment_point : forall n s p, is_segment n s -> length p = n -> seg_start s <> seg_end s ->
  exists t, let q := seg_at s t in
    0 <= t <= rdist (seg_end s) (seg_start s) /\ nearest (on_seg s) p q
    /\ seg_point_sqdist (seg_lift s) (vS p) = PD (Some t) (Some (rdist2 p q))
    /\ seg_point_dist (seg_lift s) (vS p) = PD (Some t) (Some (rdist p q)).
Proof. exact seg_point_ok. Qed.
(** For a segment that is a single point the result is not a number. *)
Theorem C52_segment_point_degenerate : forall n s p, is_segment (S n) s -> length p = S n -> seg_start s = seg_end s ->
  pd_distance (seg_point_sqdist (seg_lift s) (vS p)) = None.
Proof. exact seg_point_degenerate. Qed.
(** C53. If the points nearest to each other on the line of the ray and the segment are on the ray (and
    not so near to the ends that the code moves them there), then they are found. *)
Theorem C53_ray_segment_partial : forall n r s x t, is_ray n r -> is_segment n s ->
  let u := rsub (seg_end s) (seg_start s) in let D := area2 u (ray_dir r) in
  let q1 := rpoint (ray_origin r) (ray_dir r) t in let q2 := rlerp (seg_start s) (seg_end s) x in
  / 1000 < D -> 0 <= t -> 0 <= x <= 1 -> closest (on_line (ray_line r)) (on_seg s) q1 q2 ->
  x = 0 \/ / 1000 < x * D -> t = 0 \/ (/ 1000 < t /\ / 1000 < t * D) ->
  closest (on_ray r) (on_seg s) q1 q2
  /\ ray_seg_sqdist (ray_lift r) (seg_lift s) = LD false (Some t) (Some (rdist2 q1 q2)) (Some (x * rnorm u))
  /\ ray_seg_dist (ray_lift r) (seg_lift s) = LD false (Some t) (Some (rdist q1 q2)) (Some (x * rnorm u)).
Proof. exact ray_seg_min. Qed.
Theorem C53_ray_ray_partial : forall n l r x t, is_ray n l -> is_ray n r ->
  let D := area2 (ray_dir r) (ray_dir l) in
  let q1 := rpoint (ray_origin l) (ray_dir l) t in let q2 := rpoint (ray_origin r) (ray_dir r) x in
  / 1000 < D -> 0 <= t -> 0 <= x -> closest (on_line (ray_line l)) (on_ray r) q1 q2 ->
  x = 0 \/ / 1000 < x * D -> t = 0 \/ (/ 1000 < t /\ / 1000 < t * D) ->
  closest (on_ray l) (on_ray r) q1 q2
  /\ ray_ray_sqdist (ray_lift l) (ray_lift r) = LD false (Some t) (Some (rdist2 q1 q2)) (Some x)
  /\ ray_ray_dist (ray_lift l) (ray_lift r) = LD false (Some t) (Some (rdist q1 q2)) (Some x).
Proof. exact ray_ray_min. Qed.
Theorem C53_ray_line_partial : forall n r l s t, is_ray n r -> is_line n l ->
  let q1 := rpoint (ray_origin r) (ray_dir r) s in let q2 := rpoint (ln_point l) (ln_dir l) t in
  / 1000 < area2 (ray_dir r) (ln_dir l) -> 0 <= s -> closest (on_line (ray_line r)) (on_line l) q1 q2 ->
  closest (on_ray r) (on_line l) q1 q2
  /\ ray_line_sqdist (ray_lift r) (line_lift l) = LD false (Some s) (Some (rdist2 q1 q2)) (Some t)
  /\ ray_line_dist (ray_lift r) (line_lift l) = LD false (Some s) (Some (rdist q1 q2)) (Some t).
Proof. exact ray_line_min. Qed.
(** The result in every case that is not parallel and in which no point is so near to an end that the code moves it there: the
    points nearest to each other on the line of the ray and the other object are taken, and if the one on the line is before
    the origin of the ray then it is replaced by the origin, without choosing the other point anew. *)
Theorem C53_ray_segment_result_partial : forall n r s, is_ray n r -> is_segment n s ->
  let u := rsub (seg_end s) (seg_start s) in let D := area2 u (ray_dir r) in / 1000 < D ->
  exists x t, let q1 k := rpoint (ray_origin r) (ray_dir r) k in let q2 := rlerp (seg_start s) (seg_end s) x in
    closest (on_line (ray_line r)) (on_seg s) (q1 t) q2
    /\ (x = 0 \/ / 1000 < x * D -> t <= 0 \/ (/ 1000 < t /\ / 1000 < t * D) ->
        let t' := Rmax 0 t in ray_seg_sqdist (ray_lift r) (seg_lift s) = LD false (Some t') (Some (rdist2 (q1 t') q2)) (Some (x * rnorm u))
          /\ ray_seg_dist (ray_lift r) (seg_lift s) = LD false (Some t') (Some (rdist (q1 t') q2)) (Some (x * rnorm u))).
Proof. exact ray_seg_result. Qed.
Theorem C53_ray_ray_result_partial : forall n l r, is_ray n l -> is_ray n r ->
  let D := area2 (ray_dir r) (ray_dir l) in / 1000 < D ->
  exists x t, let q1 k := rpoint (ray_origin l) (ray_dir l) k in let q2 := rpoint (ray_origin r) (ray_dir r) x in
    closest (on_line (ray_line l)) (on_ray r) (q1 t) q2
    /\ (x = 0 \/ / 1000 < x * D -> t <= 0 \/ (/ 1000 < t /\ / 1000 < t * D) ->
        let t' := Rmax 0 t in ray_ray_sqdist (ray_lift l) (ray_lift r) = LD false (Some t') (Some (rdist2 (q1 t') q2)) (Some x)
          /\ ray_ray_dist (ray_lift l) (ray_lift r) = LD false (Some t') (Some (rdist (q1 t') q2)) (Some x)).
Proof. exact ray_ray_result. Qed.
Theorem C53_ray_line_result : forall n r l, is_ray n r -> is_line n l -> / 1000 < area2 (ray_dir r) (ln_dir l) ->
  exists s t, let q1 k := rpoint (ray_origin r) (ray_dir r) k in let q2 := rpoint (ln_point l) (ln_dir l) t in
    closest (on_line (ray_line r)) (on_line l) (q1 s) q2
    /\ let s' := Rmax 0 s in ray_line_sqdist (ray_lift r) (line_lift l) = LD false (Some s') (Some (rdist2 (q1 s') q2)) (Some t)
       /\ ray_line_dist (ray_lift r) (line_lift l) = LD false (Some s') (Some (rdist (q1 s') q2)) (Some t).
Proof. exact ray_line_result. Qed.
(** In every case that is not parallel, the result is the distance of two points of the objects. *)
Theorem C53_ray_segment_attained : forall n r s, is_ray n r -> is_segment n s ->
  let u := rsub (seg_end s) (seg_start s) in
  / 1000 < area2 u (ray_dir r) -> exists x t, let q1 := rpoint (ray_origin r) (ray_dir r) t in let q2 := rlerp (seg_start s) (seg_end s) x in
  on_ray r q1 /\ on_seg s q2
  /\ ray_seg_sqdist (ray_lift r) (seg_lift s) = LD false (Some t) (Some (rdist2 q1 q2)) (Some (x * rnorm u)).
Proof. exact ray_seg_sound. Qed.
Theorem C53_ray_ray_attained : forall n l r, is_ray n l -> is_ray n r ->
  / 1000 < area2 (ray_dir r) (ray_dir l) -> exists x t, let q1 := rpoint (ray_origin l) (ray_dir l) t in let q2 := rpoint (ray_origin r) (ray_dir r) x in
  on_ray l q1 /\ on_ray r q2
  /\ ray_ray_sqdist (ray_lift l) (ray_lift r) = LD false (Some t) (Some (rdist2 q1 q2)) (Some x).
Proof. exact ray_ray_sound. Qed.
Theorem C53_ray_line_attained : forall n r l, is_ray n r -> is_line n l -> / 1000 < area2 (ray_dir r) (ln_dir l) ->
  exists s t, let q1 := rpoint (ray_origin r) (ray_dir r) s in let q2 := rpoint (ln_point l) (ln_dir l) t in
  on_ray r q1 /\ on_line l q2 /\ ray_line_sqdist (ray_lift r) (line_lift l) = LD false (Some s) (Some (rdist2 q1 q2)) (Some t).
Proof. exact ray_line_sound. Qed.
(** Parallel objects. *)
Theorem C53_ray_segment_parallel_partial : forall n r s, is_ray n r -> is_segment n s -> seg_start s <> seg_end s ->
  area2 (rsub (seg_end s) (seg_start s)) (ray_dir r) = 0 ->
  ld_ok (ray_seg_sqdist (ray_lift r) (seg_lift s)) (on_ray r) (on_seg s) (rpoint (ray_origin r) (ray_dir r)) (seg_at s).
Proof. exact ray_seg_par. Qed.
Theorem C53_ray_ray_parallel_partial : forall n l r, is_ray n l -> is_ray n r -> ray_dir l = ray_dir r ->
  ld_ok (ray_ray_sqdist (ray_lift l) (ray_lift r)) (on_ray l) (on_ray r)
    (rpoint (ray_origin l) (ray_dir l)) (rpoint (ray_origin r) (ray_dir r)).
Proof. exact ray_ray_parallel. Qed.
Theorem C53_ray_line_parallel_partial : forall n r l, is_ray n r -> is_line n l -> area2 (ray_dir r) (ln_dir l) = 0 ->
  ld_ok (ray_line_sqdist (ray_lift r) (line_lift l)) (on_ray r) (on_line l) (rpoint (ray_origin r) (ray_dir r)) (rpoint (ln_point l) (ln_dir l)).
Proof. exact ray_line_par. Qed.
(** But not in general: one parameter is clamped without recomputing the other; opposite rays; short segments. *)
Theorem C53_ray_segment_refuted : exists r s, is_ray 3 r /\ is_segment 3 s /\ / 1000 < area2 (rsub (seg_end s) (seg_start s)) (ray_dir r)
  /\ exists x d t p q, ray_seg_sqdist (ray_lift r) (seg_lift s) = LD false (Some x) (Some d) (Some t)
     /\ on_ray r p /\ on_seg s q /\ rdist2 p q < d.
Proof. exact ray_seg_refuted. Qed.
Theorem C53_ray_ray_refuted : exists l r, is_ray 3 l /\ is_ray 3 r /\ / 1000 < area2 (ray_dir r) (ray_dir l)
  /\ exists s d t p q, ray_ray_sqdist (ray_lift l) (ray_lift r) = LD false (Some s) (Some d) (Some t)
     /\ on_ray l p /\ on_ray r q /\ rdist2 p q < d.
Proof. exact ray_ray_refuted. Qed.
Theorem C53_ray_line_refuted : exists r l, is_ray 3 r /\ is_line 3 l /\ / 1000 < area2 (ray_dir r) (ln_dir l)
  /\ exists s d t p q, ray_line_sqdist (ray_lift r) (line_lift l) = LD false (Some s) (Some d) (Some t)
     /\ on_ray r p /\ on_line l q /\ rdist2 p q < d.
Proof. exact ray_line_refuted. Qed.
Theorem C53_ray_ray_opposite_refuted : exists l r, is_ray 3 l /\ is_ray 3 r /\ ray_dir r = rneg (ray_dir l)
  /\ exists s t, ray_ray_sqdist (ray_lift l) (ray_lift r) = LD true (Some s) (Some 0) (Some t)
     /\ forall p q, on_ray l p -> on_ray r q -> 25 <= rdist2 p q.
Proof. exact ray_ray_opposite_refuted. Qed.
Theorem C53_ray_short_segment_refuted : exists r s p, is_ray 3 r /\ is_segment 3 s
  /\ rdot (rsub (seg_end s) (seg_start s)) (ray_dir r) = 0 /\ seg_start s <> seg_end s
  /\ on_ray r p /\ on_seg s p
  /\ exists x d t, ray_seg_sqdist (ray_lift r) (seg_lift s) = LD true (Some x) (Some d) (Some t) /\ d > 0.
Proof. exact ray_short_seg_refuted. Qed.

Example ex_C52 : is_ray 3 (Ray [1; 2; 3] [3 / 5; 4 / 5; 0]) /\ is_segment 3 (Seg [0; 0; 0] [3; 0; 0]) /\ [0; 0; 0] <> [3; 0; 0].
Proof. split; [ split; [ | split ]; [ reflexivity | reflexivity | simpl; lra ] | ]. split; [ split; reflexivity | ]. intros E. injection E. lra. Qed.
Example ex_C53 : let r := Ray [0; 0; 0] [1; 0; 0] in let s := Seg [3; -4; 1] [3; 4; 1] in
  is_ray 3 r /\ is_segment 3 s /\ area2 (rsub (seg_end s) (seg_start s)) (ray_dir r) = 64
  /\ closest (on_line (ray_line r)) (on_seg s) (rpoint (ray_origin r) (ray_dir r) 3) (rlerp (seg_start s) (seg_end s) (/ 2)).
Proof.
  cbv zeta. split; [ split; [ | split ]; [ reflexivity | reflexivity | simpl; lra ] | ]. split; [ split; reflexivity | ].
  split. { unfold area2, rsub. simpl. lra. } split; [ now exists 3 | ]. split. { exists (/ 2). split; [ lra | reflexivity ]. }
  intros p q (t & ->) (x & X & ->). unfold rdist2, rlerp, rpoint, radd, rscale, rsub, ray_line. simpl. 
  assert (0 <= (t - 3) * (t - 3)) by apply Rle_0_sqr. assert (0 <= (1 - 2 * x) * (1 - 2 * x)) by apply Rle_0_sqr. nra.
Qed.
Example ex_C53_behind : let r := Ray [0; 0; 0] [1; 0; 0] in let s := Seg [-3; -4; 1] [-3; 4; 1] in let l := Ln [-3; 0; 1] [0; 1; 0] in
  is_ray 3 r /\ is_segment 3 s /\ is_line 3 l /\ / 1000 < area2 (rsub (seg_end s) (seg_start s)) (ray_dir r) /\ / 1000 < area2 (ray_dir r) (ln_dir l)
  /\ closest (on_line (ray_line r)) (on_seg s) (rpoint (ray_origin r) (ray_dir r) (-3)) (rlerp (seg_start s) (seg_end s) (/ 2)).
Proof.
  cbv zeta. split; [ split; [ | split ]; [ reflexivity | reflexivity | simpl; lra ] | ]. split; [ split; reflexivity | ].
  split; [ split; [ | split ]; [ reflexivity | reflexivity | simpl; lra ] | ].
  split. { unfold area2, rsub. simpl. lra. } split. { unfold area2, rsub. simpl. lra. } split; [ now exists (-3) | ]. split. { exists (/ 2). split; [ lra | reflexivity ]. }
  intros p q (t & ->) (x & X & ->). unfold rdist2, rlerp, rpoint, radd, rscale, rsub, ray_line. simpl.
  assert (0 <= (t + 3) * (t + 3)) by apply Rle_0_sqr. assert (0 <= (1 - 2 * x) * (1 - 2 * x)) by apply Rle_0_sqr. nra.
Qed.
Example ex_C53_parallel : let r := Ray [0; 0; 0] [1; 0; 0] in let s := Seg [3; 1; 1] [-4; 1; 1] in
  is_ray 3 r /\ is_segment 3 s /\ seg_start s <> seg_end s /\ area2 (rsub (seg_end s) (seg_start s)) (ray_dir r) = 0.
Proof.
  cbv zeta. split; [ split; [ | split ]; [ reflexivity | reflexivity | simpl; lra ] | ]. split; [ split; reflexivity | ].
  split. { intros E. injection E. lra. } unfold area2, rsub. simpl. lra.
Qed.

Print Assumptions C52_ray_point.
Print Assumptions C52_segment_point.
Print Assumptions C52_segment_point_degenerate.
Print Assumptions C53_ray_segment_partial.
Print Assumptions C53_ray_ray_partial.
Print Assumptions C53_ray_line_partial.
Print Assumptions C53_ray_segment_result_partial.
Print Assumptions C53_ray_ray_result_partial.
Print Assumptions C53_ray_line_result.
Print Assumptions C53_ray_segment_attained.
Print Assumptions C53_ray_ray_attained.
Print Assumptions C53_ray_line_attained.
Print Assumptions C53_ray_segment_parallel_partial.
Print Assumptions C53_ray_ray_parallel_partial.
Print Assumptions C53_ray_line_parallel_partial.
Print Assumptions C53_ray_segment_refuted.
Print Assumptions C53_ray_ray_refuted.
Print Assumptions C53_ray_line_refuted.
Print Assumptions C53_ray_ray_opposite_refuted.
Print Assumptions C53_ray_short_segment_refuted.
