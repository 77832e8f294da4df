(** Proofs about rigid motions (C100): pushing a rigid motion out of vector expressions, also where these are not numbers. *)
From Coq Require Import ZArith Reals List Bool Lia Lra Psatz.
From Flocq Require Import Core.
From Verif Require Import Ops M_scalar M_vec M_mat M_geom M_dist M_intersect Inst_XR S_vec S_affine S_geom S_rigid.
From Verif Require Import P_ord P_xr P_vec P_vec2 P_line P_affine P_plane.
Import ListNotations.
Local Open Scope R_scope.

(** The numbers of a vector, if all components are numbers. *)
Fixpoint unlift (x : list XR) : option (list R) :=
  match x with
  | [] => Some []
  | Some a :: x' => match unlift x' with Some v => Some (a :: v) | None => None end
  | None :: _ => None
  end.
Lemma unlift_S : forall v, unlift (vS v) = Some v.
Proof. induction v as [|a v IH]; [ reflexivity | ]. cbn [map unlift]. now rewrite IH. Qed.
Lemma map2_none_l : forall f n (y : list XR), length y = n -> map2 (X2 f) (repeat None n) y = repeat None n.
Proof. induction n as [|n IH]; intros [|b y] L; try discriminate; [ reflexivity | ]. injection L as L. cbn [repeat map2]. rewrite IH by assumption. reflexivity. Qed.
Lemma map2_none_r : forall f n (x : list XR), length x = n -> map2 (X2 f) x (repeat None n) = repeat None n.
Proof. induction n as [|n IH]; intros [|b y] L; try discriminate; [ reflexivity | ]. injection L as L. cbn [repeat map2]. rewrite IH by assumption. destruct b; reflexivity. Qed.
Definition no_dot (n : nat) : XR := match n with O => Some 0 | _ => None end.
Lemma dot_fold_none : forall l, fold_left (fun (r : XR) p => o_add r (o_mul (fst p) (snd p))) l None = None.
Proof. induction l; [ reflexivity | ]. cbn [fold_left]. exact IHl. Qed.
Lemma dot_none_l : forall n (y : list XR), length y = n -> v_dot (repeat None n) y = no_dot n.
Proof. intros [|n] [|b y] L; try discriminate; [ reflexivity | ]. unfold v_dot. cbn [repeat combine fold_left fst snd]. apply dot_fold_none. Qed.
Lemma dot_none_r : forall n (x : list XR), length x = n -> v_dot x (repeat None n) = no_dot n.
Proof.
  intros [|n] [|b y] L; try discriminate; [ reflexivity | ]. unfold v_dot. cbn [repeat combine fold_left fst snd].
  replace (o_add (cst 0) (o_mul b None)) with (None : XR) by (destruct b; reflexivity). apply dot_fold_none.
Qed.

Section Push.
Context (n : nat) (A L : list R -> list R).
Context (AL : forall p, length (A p) = n) (LL : forall v, length (L v) = n).
Context (AD : forall p q, length p = n -> length q = n -> rsub (A p) (A q) = L (rsub p q)).
Context (AA : forall p v, length p = n -> length v = n -> radd (A p) (L v) = A (radd p v)).
Context (AS : forall p v, length p = n -> length v = n -> rsub (A p) (L v) = A (rsub p v)).
Context (LA : forall v w, length v = n -> length w = n -> radd (L v) (L w) = L (radd v w)).
Context (LS : forall v w, length v = n -> length w = n -> rsub (L v) (L w) = L (rsub v w)).
Context (LK : forall v k, length v = n -> rscale k (L v) = L (rscale k v)).
Context (LD : forall v w, length v = n -> length w = n -> rdot (L v) (L w) = rdot v w).

(** A vector of numbers or of values that are not numbers. *)
Definition good (x : list XR) : Prop := (exists v, length v = n /\ x = vS v) \/ x = repeat None n.
Definition gl (f : list R -> list R) (x : list XR) : list XR :=
  match unlift x with Some v => vS (f v) | None => repeat None n end.
Lemma gl_S : forall f v, gl f (vS v) = vS (f v).
Proof. intros. unfold gl. now rewrite unlift_S. Qed.
Lemma gl_N : forall f, (forall v, length (f v) = n) -> gl f (repeat None n) = repeat None n.
Proof.
  intros f H. unfold gl. destruct n as [|m] eqn:E; [ | reflexivity ]. cbn [repeat unlift].
  specialize (H []). destruct (f []); [ reflexivity | discriminate ].
Qed.
Lemma good_S : forall v, length v = n -> good (vS v).
Proof. intros v H. left. eauto. Qed.
Lemma good_N : good (repeat None n).
Proof. now right. Qed.
Lemma good_length : forall x, good x -> length x = n.
Proof. intros x [(v & H & ->)| ->]; [ now rewrite map_length | apply repeat_length ]. Qed.

Ltac two G H := destruct G as [(?v & ?Hv & ->)| ->], H as [(?w & ?Hw & ->)| ->];
  rewrite ?gl_S, ?(gl_N A AL), ?(gl_N L LL).
Ltac nones := unfold v_add, v_sub; cbn [o_add o_sub XRops];
  repeat first [ rewrite map2_none_l by (rewrite ?map_length, ?repeat_length; auto)
               | rewrite map2_none_r by (rewrite ?map_length, ?repeat_length; auto) ]; auto using good_N.

Lemma good_add : forall x y, good x -> good y -> good (v_add x y).
Proof. intros x y G H. two G H; try (nones; fail). rewrite X_add. apply good_S. now len. Qed.
Lemma good_sub : forall x y, good x -> good y -> good (v_sub x y).
Proof. intros x y G H. two G H; try (nones; fail). rewrite X_sub. apply good_S. now len. Qed.
Lemma good_gl : forall f x, (forall v, length (f v) = n) -> good x -> good (gl f x).
Proof. intros f x Hf [(v & Hv & ->)| ->]; [ rewrite gl_S; now apply good_S | rewrite gl_N by assumption; apply good_N ]. Qed.
Lemma push_PP : forall x y, good x -> good y -> v_sub (gl A x) (gl A y) = gl L (v_sub x y).
Proof. intros x y G H. two G H; [ rewrite !X_sub, gl_S; f_equal; auto | | | ]; nones; now rewrite gl_N by assumption. Qed.
Lemma push_PV : forall x y, good x -> good y -> v_add (gl A x) (gl L y) = gl A (v_add x y).
Proof. intros x y G H. two G H; [ rewrite !X_add, gl_S; f_equal; auto | | | ]; nones; now rewrite gl_N by assumption. Qed.
Lemma push_PVs : forall x y, good x -> good y -> v_sub (gl A x) (gl L y) = gl A (v_sub x y).
Proof. intros x y G H. two G H; [ rewrite !X_sub, gl_S; f_equal; auto | | | ]; nones; now rewrite gl_N by assumption. Qed.
Lemma push_VV : forall x y, good x -> good y -> v_add (gl L x) (gl L y) = gl L (v_add x y).
Proof. intros x y G H. two G H; [ rewrite !X_add, gl_S; f_equal; auto | | | ]; nones; now rewrite gl_N by assumption. Qed.
Lemma push_VVs : forall x y, good x -> good y -> v_sub (gl L x) (gl L y) = gl L (v_sub x y).
Proof. intros x y G H. two G H; [ rewrite !X_sub, gl_S; f_equal; auto | | | ]; nones; now rewrite gl_N by assumption. Qed.
Lemma scale_N : forall m (s : XR), v_scale (repeat None m) s = repeat None m.
Proof. induction m; intros s; [ reflexivity | ]. unfold v_scale in *. cbn [repeat map]. now rewrite IHm. Qed.
Lemma scale_by_N : forall (x : list XR), v_scale x None = repeat None (length x).
Proof. induction x as [|[a|] x IH]; [ reflexivity | | ]; unfold v_scale in *; cbn [length repeat map]; now rewrite IH. Qed.
Lemma div_N : forall m (s : XR), v_div_s (repeat None m) s = repeat None m.
Proof. induction m; intros s; [ reflexivity | ]. unfold v_div_s in *. cbn [repeat map]. now rewrite IHm. Qed.
Lemma div_by_N : forall (x : list XR), v_div_s x None = repeat None (length x).
Proof. induction x as [|[a|] x IH]; [ reflexivity | | ]; unfold v_div_s in *; cbn [length repeat map]; now rewrite IH. Qed.
Lemma good_scale : forall x s, good x -> good (v_scale x s).
Proof.
  intros x [s|] G.
  - destruct G as [(v & Hv & ->)| ->]; [ rewrite X_scale; apply good_S; now len | rewrite scale_N; apply good_N ].
  - rewrite scale_by_N, good_length by assumption. apply good_N.
Qed.
Lemma good_scale_l : forall x s, good x -> good (v_scale_l s x).
Proof. intros. unfold v_scale_l. now apply good_scale. Qed.
Lemma good_div : forall x s, good x -> good (v_div_s x s).
Proof.
  intros x [s|] G.
  - destruct G as [(v & Hv & ->)| ->]; [ | rewrite div_N; apply good_N ].
    destruct (Req_dec s 0) as [->|Hs]; [ rewrite X_div_s0, Hv; apply good_N | rewrite X_div_s by assumption; apply good_S; now len ].
  - rewrite div_by_N, good_length by assumption. apply good_N.
Qed.
Lemma push_scale : forall x s, good x -> v_scale (gl L x) s = gl L (v_scale x s).
Proof.
  intros x [s|] G.
  - destruct G as [(v & Hv & ->)| ->]; [ rewrite gl_S, !X_scale, gl_S; f_equal; auto | rewrite scale_N, !gl_N by assumption; apply scale_N ].
  - rewrite !scale_by_N. rewrite (good_length x G), (good_length _ (good_gl L x LL G)). now rewrite gl_N by assumption.
Qed.
Lemma push_scale_l : forall x s, good x -> v_scale_l s (gl L x) = gl L (v_scale_l s x).
Proof. intros. unfold v_scale_l. now apply push_scale. Qed.
Lemma push_div : forall x s, good x -> v_div_s (gl L x) s = gl L (v_div_s x s).
Proof.
  intros x [s|] G.
  - destruct G as [(v & Hv & ->)| ->]; [ | rewrite div_N, !gl_N by assumption; apply div_N ].
    rewrite gl_S. destruct (Req_dec s 0) as [->|Hs].
    + rewrite !X_div_s0, LL, Hv, gl_N by assumption. reflexivity.
    + rewrite !X_div_s, gl_S by assumption. f_equal. auto.
  - rewrite !div_by_N. rewrite (good_length x G), (good_length _ (good_gl L x LL G)). now rewrite gl_N by assumption.
Qed.
Lemma push_dot : forall x y, good x -> good y -> v_dot (gl L x) (gl L y) = v_dot x y.
Proof.
  intros x y G H. two G H; [ rewrite !X_dot; f_equal; auto | | | reflexivity ];
  repeat first [ rewrite dot_none_l by (now rewrite map_length) | rewrite dot_none_r by (now rewrite map_length) ]; reflexivity.
Qed.
Lemma push_sqlen : forall x, good x -> v_squared_length (gl L x) = v_squared_length x.
Proof. intros. unfold v_squared_length. now apply push_dot. Qed.
Lemma push_len : forall x, good x -> v_length (gl L x) = v_length x.
Proof. intros. unfold v_length. now rewrite push_sqlen. Qed.
Lemma push_normalize : forall x, good x -> v_normalize (gl L x) = gl L (v_normalize x).
Proof. intros. unfold v_normalize. rewrite push_len by assumption. now apply push_div. Qed.
Lemma good_normalize : forall x, good x -> good (v_normalize x).
Proof. intros. unfold v_normalize. now apply good_div. Qed.
Lemma push_sqdist : forall x y, good x -> good y -> v_squared_distance (gl A x) (gl A y) = v_squared_distance x y.
Proof. intros. unfold v_squared_distance. rewrite push_PP by assumption. apply push_sqlen. now apply good_sub. Qed.
Lemma push_dist : forall x y, good x -> good y -> v_distance (gl A x) (gl A y) = v_distance x y.
Proof. intros. unfold v_distance. rewrite push_PP by assumption. apply push_len. now apply good_sub. Qed.
Lemma push_nan : forall x, good x -> v_is_nan (gl L x) = v_is_nan x.
Proof.
  assert (E : forall v, v_is_nan (vS v) = false). { induction v as [|a v IH]; [ reflexivity | ]. cbn [map]. unfold v_is_nan in *. cbn [existsb]. rewrite IH, X_nan. reflexivity. }
  intros x [(v & Hv & ->)| ->]; [ rewrite gl_S, !E; reflexivity | now rewrite gl_N ].
Qed.

(** Abstract lines. *)
Lemma push_al_distance : forall q d p, good q -> good d -> good p ->
  al_distance_to_projected_point (gl A q) (gl L d) (gl A p) = al_distance_to_projected_point q d p.
Proof. intros. unfold al_distance_to_projected_point. rewrite push_PP by assumption. apply push_dot; auto using good_sub. Qed.
Lemma push_al_at : forall q d t, good q -> good d -> al_point_at_distance (gl A q) (gl L d) t = gl A (al_point_at_distance q d t).
Proof. intros. unfold al_point_at_distance. rewrite push_scale by assumption. apply push_PV; auto using good_scale. Qed.
Lemma good_al_at : forall q d t, good q -> good d -> good (al_point_at_distance q d t).
Proof. intros. unfold al_point_at_distance. auto using good_add, good_scale. Qed.
Lemma push_al_project : forall q d p, good q -> good d -> good p ->
  al_project_point (gl A q) (gl L d) (gl A p) = gl A (al_project_point q d p).
Proof. intros. unfold al_project_point. rewrite push_al_distance by assumption. now apply push_al_at. Qed.
Lemma good_al_project : forall q d p, good q -> good d -> good p -> good (al_project_point q d p).
Proof. intros. unfold al_project_point. auto using good_al_at. Qed.

Ltac g := auto 20 using good_add, good_sub, good_scale, good_scale_l, good_div, good_normalize, good_al_at, good_al_project, good_S.
Ltac push := repeat first [ rewrite push_PP by g | rewrite push_PV by g | rewrite push_PVs by g | rewrite push_VV by g | rewrite push_VVs by g
  | rewrite push_scale by g | rewrite push_scale_l by g | rewrite push_div by g | rewrite push_dot by g | rewrite push_sqlen by g
  | rewrite push_len by g | rewrite push_normalize by g | rewrite push_sqdist by g | rewrite push_dist by g
  | rewrite push_al_distance by g | rewrite push_al_at by g | rewrite push_al_project by g ].

(** Objects. *)
Definition gray (r : ray XR) : ray XR := Ray (gl A (ray_origin r)) (gl L (ray_dir r)).
Definition gline (l : line XR) : line XR := Ln (gl A (ln_point l)) (gl L (ln_dir l)).
Definition gseg (s : segment XR) : segment XR := Seg (gl A (seg_start s)) (gl A (seg_end s)).
Definition good_ray (r : ray XR) : Prop := good (ray_origin r) /\ good (ray_dir r).
Definition good_line (l : line XR) : Prop := good (ln_point l) /\ good (ln_dir l).
Definition good_seg (s : segment XR) : Prop := good (seg_start s) /\ good (seg_end s).

Lemma push_ray_point : forall r p, good_ray r -> good p -> ray_point_sqdist (gray r) (gl A p) = ray_point_sqdist r p.
Proof. intros r p [G1 G2] G. unfold ray_point_sqdist, gray. cbn [ray_origin ray_dir]. push. reflexivity. Qed.
Lemma push_seg_direction : forall s, good_seg s -> seg_direction (gseg s) = gl L (seg_direction s).
Proof. intros s [G1 G2]. unfold seg_direction, gseg. cbn [seg_start seg_end]. push. reflexivity. Qed.
Lemma good_seg_direction : forall s, good_seg s -> good (seg_direction s).
Proof. intros s [G1 G2]. unfold seg_direction. g. Qed.
Lemma push_seg_point : forall s p, good_seg s -> good p -> seg_point_sqdist (gseg s) (gl A p) = seg_point_sqdist s p.
Proof.
  intros s p GS G. unfold seg_point_sqdist. rewrite push_seg_direction by assumption. assert (GD := good_seg_direction s GS). destruct GS as [G1 G2].
  unfold gseg. cbn [seg_start seg_end]. push. reflexivity.
Qed.
Lemma push_seg_contains : forall s p m, good_seg s -> good p -> seg_contains (gseg s) (gl A p) m = seg_contains s p m.
Proof.
  intros s p m GS G. unfold seg_contains, seg_squared_length. rewrite push_seg_direction by assumption. assert (GD := good_seg_direction s GS). destruct GS as [G1 G2].
  unfold gseg. cbn [seg_start seg_end]. push. reflexivity.
Qed.
Lemma push_ray_seg : forall r s, good_ray r -> good_seg s -> ray_seg_sqdist (gray r) (gseg s) = ray_seg_sqdist r s.
Proof.
  intros r s [G1 G2] GS. unfold ray_seg_sqdist, ray_seg_parallel. rewrite push_seg_direction by assumption. assert (GD := good_seg_direction s GS).
  destruct GS as [G3 G4]. unfold gray, gseg. cbn [ray_origin ray_dir seg_start seg_end]. push.
  match goal with |- (if ?b then _ else _) = _ => destruct b; [ reflexivity | ] end.
  cbv zeta. match goal with |- context [match ?b with pair _ _ => _ end] => destruct b as [[sN tN] tD] end. push. reflexivity.
Qed.
Lemma push_ray_ray : forall l r, good_ray l -> good_ray r -> ray_ray_sqdist (gray l) (gray r) = ray_ray_sqdist l r.
Proof.
  intros r s [G1 G2] [G3 G4]. unfold ray_ray_sqdist, gray. cbn [ray_origin ray_dir]. push.
  match goal with |- (if ?b then _ else _) = _ => destruct b; [ reflexivity | ] end.
  cbv zeta. match goal with |- context [match ?b with pair _ _ => _ end] => destruct b as [[sN tN] tD] end. push. reflexivity.
Qed.
Lemma push_ray_line : forall r l, good_ray r -> good_line l -> ray_line_sqdist (gray r) (gline l) = ray_line_sqdist r l.
Proof. intros r s [G1 G2] [G3 G4]. unfold ray_line_sqdist, gray, gline. cbn [ray_origin ray_dir ln_point ln_dir]. push. reflexivity. Qed.
Lemma push_ray_status : forall r p, good_ray r -> good p -> ray_point_status (gray r) (gl A p) = ray_point_status r p.
Proof. intros r p [G1 G2] G. unfold ray_point_status, gray. cbn [ray_origin ray_dir]. push. reflexivity. Qed.
Lemma push_ray_sphere : forall r c rad, good_ray r -> good c -> intersect_ray_sphere (gray r) (gl A c) rad = intersect_ray_sphere r c rad.
Proof. intros r c rad [G1 G2] G. unfold intersect_ray_sphere, gray. cbn [ray_origin ray_dir]. push. reflexivity. Qed.
End Push.
