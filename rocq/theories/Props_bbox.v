(** Final theorems: bounding boxes (C40-C44). *)
From Coq Require Import ZArith Reals List Bool Lia Lra.
From Flocq Require Import Core BinarySingleNaN.
From Verif Require Import Ops M_scalar M_vec M_mat M_bbox Inst_F Inst_XR S_vec S_mat S_affine S_bbox S_order S_boxset.
From Verif Require Import P_ord P_bbox P_bbox2 P_bbox3.
Import ListNotations.
Local Open Scope R_scope.
Notation vS := (map (@Some R)).
Notation mS := (map (map (@Some R))).

Section IEEE.
Variables prec emax : Z.
Context {Hprec : FLX.Prec_gt_0 prec} {Hmax : Prec_lt_emax prec emax}.
Notation fl := (binary_float prec emax).

(** C40 *)
Theorem C40_builder_smallest_partial : forall n (l : list (bb_item fl)), (0 < n)%nat -> l <> [] -> Forall (item_ok n) l ->
  exists b, bbb_bounds n l = Ret b /\ smallest_box n (comprises l) b.
Proof. exact bounds_ok. Qed.
Theorem C40_builder_order_independent : forall n (l l' : list (bb_item fl)), (0 < n)%nat -> l <> [] -> Forall (item_ok n) l ->
  (forall i, In i l <-> In i l') ->
  exists b b', bbb_bounds n l = Ret b /\ bbb_bounds n l' = Ret b' /\ bb_eq b b' = true.
Proof. exact bounds_order. Qed.
Theorem C40_builder_initialized : forall n (l : list (bb_item fl)), (0 < n)%nat -> Forall (item_ok n) l ->
  exists b, bbb_bounds n l = Ret b /\ bbb_initialized b = negb (match l with [] => true | _ => false end).
Proof. exact initialized_ok. Qed.
Theorem C40_merge_all : forall n (l : list (list fl)), l <> [] -> Forall (point_of n) l ->
  exists b, bb_merge_all l = Ret b /\ smallest_box n (fun p => In p l) b.
Proof. exact merge_all_ok. Qed.
Theorem C40_merge_all_order_independent : forall n (l l' : list (list fl)), l <> [] -> Forall (point_of n) l ->
  (forall i, In i l <-> In i l') ->
  exists b b', bb_merge_all l = Ret b /\ bb_merge_all l' = Ret b' /\ bb_eq b b' = true.
Proof. exact merge_all_order. Qed.
Theorem C40_merge_boxes : forall n (b c : bbox fl), box_of n b -> box_of n c ->
  exists d, bb_merge b c = Ret d /\ smallest_box n (fun p => in_set b p \/ in_set c p) d.
Proof. exact merge_ok. Qed.
Theorem C40_merge_point : forall n (b : bbox fl) p, box_of n b -> point_of n p ->
  exists d, bb_merge_p b p = Ret d /\ smallest_box n (fun q => in_set b q \/ q = p) d.
Proof. exact merge_p_ok. Qed.
(** The part of C40 that fails: a builder that was given nothing. Its box is not a valid one, so
    it is neither empty nor at the origin. *)
Theorem C40_empty_builder_refuted : forall n, (0 < n)%nat ->
  exists b : bbox fl, bbb_bounds n [] = Ret b /\ bb_is_valid b = false /\ ~ box_of n b /\ bb_is_empty b = Assert.
Proof.
  intros n N. exists (bbb_init n). destruct n as [|n]; [ lia | ].
  assert (V := init_invalid (T := fl) n). split; [ reflexivity | ]. split; [ exact V | ]. split.
  - intros B. apply box_valid in B. congruence.
  - unfold bb_is_empty. now rewrite V.
Qed.

(** C41 *)
Theorem C41_contains_point : forall n (b : bbox fl) p, box_of n b -> point_of n p ->
  exists r, bb_contains_p b p = Ret r /\ (r = true <-> in_set b p).
Proof. exact contains_p_ok. Qed.
Theorem C41_contains_box : forall n (b c : bbox fl), box_of n b -> box_of n c ->
  exists r, bb_contains b c = Ret r /\ (r = true <-> forall p, in_set c p -> in_set b p).
Proof. exact contains_ok. Qed.
Theorem C41_encloses : forall n (b c : bbox fl), box_of n b -> box_of n c ->
  exists r, bb_encloses b c = Ret r /\ (r = true <-> forall p, in_set c p -> in_interior b p).
Proof. exact encloses_ok. Qed.
Theorem C41_intersects : forall n (b c : bbox fl), box_of n b -> box_of n c ->
  (bb_intersects b c = true <-> exists p, in_set b p /\ in_set c p).
Proof. exact intersects_ok. Qed.
Theorem C41_intersect : forall n (b c : bbox fl), box_of n b -> box_of n c ->
  exists d, bb_intersect b c = Ret d /\ box_of n d
    /\ ((exists p, in_set b p /\ in_set c p) -> forall p, in_set d p <-> in_set b p /\ in_set c p)
    /\ (~ (exists p, in_set b p /\ in_set c p) -> d = bb_default n).
Proof. exact intersect_ok. Qed.
Theorem C41_is_empty : forall n (b : bbox fl), box_of n b ->
  exists r, bb_is_empty b = Ret r
    /\ (r = true <-> exists i, (i < n)%nat /\ Beqb (vget (bb_min b) i) (vget (bb_max b) i) = true).
Proof. exact is_empty_ok. Qed.

(** C42 *)
Theorem C42_constrain : forall n (b : bbox fl) p, box_of n b -> point_of n p ->
  exists q, bb_constrain b p = Ret q /\ in_set b q
    /\ forall i, (i < n)%nat ->
       (Bltb (vget p i) (vget (bb_min b) i) = true -> Beqb (vget q i) (vget (bb_min b) i) = true)
       /\ (Bltb (vget (bb_max b) i) (vget p i) = true -> Beqb (vget q i) (vget (bb_max b) i) = true)
       /\ (Bleb (vget (bb_min b) i) (vget p i) = true -> Bleb (vget p i) (vget (bb_max b) i) = true ->
           Beqb (vget q i) (vget p i) = true).
Proof. exact constrain_ok. Qed.
Theorem C42_relative_position : forall n (b : bbox fl) p, box_of n b -> point_of n p ->
  exists r, bb_relative_position b p = Ret r /\ length r = n
    /\ forall i, (i < n)%nat ->
       (nth i r R_within = R_less <-> Bltb (vget p i) (vget (bb_min b) i) = true)
       /\ (nth i r R_within = R_greater <-> Bltb (vget (bb_max b) i) (vget p i) = true)
       /\ (nth i r R_within = R_within <->
           Bleb (vget (bb_min b) i) (vget p i) = true /\ Bleb (vget p i) (vget (bb_max b) i) = true).
Proof. exact relative_ok. Qed.
Theorem C42_repair : forall n (mn mx : list fl), point_of n mn -> point_of n mx ->
  exists b, bb_repair (BB mn mx) = Ret b /\ smallest_box n (fun p => p = mn \/ p = mx) b
    /\ (vec_below mn mx -> bb_eq b (BB mn mx) = true).
Proof. exact repair_ok. Qed.
Theorem C42_translate_ieee : forall n (b : bbox fl) (d : list fl), box_of n b ->
  (length (bb_min b) = n /\ Forall (fun x => is_finite x = true) (bb_min b)) ->
  (length (bb_max b) = n /\ Forall (fun x => is_finite x = true) (bb_max b)) ->
  (length d = n /\ Forall (fun x => is_finite x = true) d) ->
  exists c, bb_translate b d = Ret c /\ box_of n c /\ bb_min c = v_add (bb_min b) d /\ bb_max c = v_add (bb_max b) d.
Proof. exact (F_translate prec emax). Qed.
Theorem C42_expand_ieee : forall n (b : bbox fl) (f : fl), box_of n b ->
  (length (bb_min b) = n /\ Forall (fun x => is_finite x = true) (bb_min b)) ->
  (length (bb_max b) = n /\ Forall (fun x => is_finite x = true) (bb_max b)) ->
  is_finite f = true -> Bleb (cst 0) f = true ->
  exists c, bb_expand b f = Ret c /\ box_of n c /\ (forall p, in_set b p -> in_set c p)
   /\ bb_min c = map (fun x => o_sub x f) (bb_min b) /\ bb_max c = map (fun x => o_add x f) (bb_max b).
Proof. exact (F_expand prec emax). Qed.
(** C43: single corners *)
Theorem C43_corner : forall n (b : bbox fl) s, box_of n b -> length s = n ->
  exists p, bb_corner b s = Ret p /\ length p = n
    /\ forall i, (i < n)%nat -> vget p i = match nth i s C_min with C_min => vget (bb_min b) i | C_max => vget (bb_max b) i end.
Proof. exact corner_ok. Qed.
End IEEE.

Theorem C42_constrain_nearest : forall n b p, is_box n b -> length p = n ->
  exists q, bb_constrain (blift b) (vS p) = Ret (vS q) /\ in_bbox b q
    /\ (forall r, in_bbox b r -> rdist p q <= rdist p r) /\ (in_bbox b p -> q = p).
Proof. exact constrain_nearest. Qed.
Theorem C42_translate : forall n b d, is_box n b -> length d = n ->
  exists c, bb_translate (blift b) (vS d) = Ret (blift c) /\ is_box n c
    /\ forall p, length p = n -> (in_bbox c (radd p d) <-> in_bbox b p).
Proof. exact translate_ok. Qed.
Theorem C42_expand : forall n b f, is_box n b ->
  (Forall (fun s => - 2 * f <= s) (rsize b) ->
   exists c, bb_expand (blift b) (Some f) = Ret (blift c) /\ is_box n c
    /\ bb_min c = map (fun x => x - f) (bb_min b) /\ bb_max c = map (fun x => x + f) (bb_max b)
    /\ (0 <= f -> forall p, in_bbox c p <-> exists q, in_bbox b q /\ Forall2 (fun x y => Rabs (x - y) <= f) p q))
  /\ (~ Forall (fun s => - 2 * f <= s) (rsize b) -> bb_expand (blift b) (Some f) = Assert).
Proof. exact expand_ok. Qed.
Theorem C42_measures : forall n b, is_box n b -> (0 < n)%nat ->
  bb_size (blift b) = Ret (vS (rsize b))
  /\ bb_center (blift b) = Ret (vS (rlerp (bb_min b) (bb_max b) (/ 2)))
  /\ in_bbox b (rlerp (bb_min b) (bb_max b) (/ 2))
  /\ bb_volume (blift b) = Ret (Some (rvolume b)).
Proof. exact measures_ok. Qed.

(** C43 in exact arithmetic; the corners as bit strings, one bit per axis. *)
Theorem C43_vertices_partial : forall b, is_box 3 b ->
  exists l, bb_vertices (blift b) = Ret (map (fun s => vS (rcorner b s)) l)
    /\ NoDup l /\ forall s, In s l <-> length s = 3%nat.
Proof. exact vertices_all. Qed.
Theorem C43_edges_partial : forall b, is_box 3 b ->
  exists l, bb_edges (blift b) = Ret (map (fun e => (vS (rcorner b (fst e)), vS (rcorner b (snd e)))) l)
    /\ NoDup l /\ (forall s t, In (s, t) l -> ~ In (t, s) l)
    /\ forall s t, In (s, t) l \/ In (t, s) l <-> length s = 3%nat /\ length t = 3%nat /\ one_differs s t.
Proof. exact edges_all. Qed.
Theorem C43_faces_partial : forall b, is_box 3 b ->
  exists l, bb_faces (blift b)
            = Ret (map (fun f => (map (fun s => vS (rcorner b s)) (snd f), vS (outward (fst (fst f)) (snd (fst f))))) l)
    /\ NoDup (map fst l) /\ (forall i s, In (i, s) (map fst l) <-> (i < 3)%nat)
    /\ forall i s vs, In ((i, s), vs) l ->
       length vs = 4%nat /\ NoDup vs /\ (forall t, In t vs <-> length t = 3%nat /\ nth i t false = s)
       /\ forall k, (k < 4)%nat ->
          let p := rcorner b (nth k vs []) in
          let q := rcorner b (nth ((k + 1) mod 4) vs []) in
          let r := rcorner b (nth ((k + 2) mod 4) vs []) in
          turn p q r (outward i s) <= 0
          /\ (Forall (fun x => 0 < x) (rsize b) -> turn p q r (outward i s) < 0).
Proof. exact faces_all. Qed.
(** Missing in C43: IEEE arithmetic, where a vertex can even lie outside the box. *)
Theorem C43_vertices_ieee_refuted : exists (b : bbox double) vs v, box_of 3 b /\ bb_vertices b = Ret vs /\ In v vs /\ bb_contains_p b v = Ret false.
Proof.
  exists wit_box, (match bb_vertices wit_box with Ret l => l | _ => [] end),
    (nth 1 (match bb_vertices wit_box with Ret l => l | _ => [] end) []).
  split; [ apply box_check; vm_compute; reflexivity | ].
  split; [ apply ret_of; vm_compute; reflexivity | ].
  split; [ apply nth_In; vm_compute; lia | vm_compute; reflexivity ].
Qed.

(** C44 *)
Theorem C44_transform : forall b M, is_box 3 b -> affine 3 M ->
  exists c, bb_transform (blift b) (mS M) = Ret (blift c) /\ is_box 3 c
    /\ (forall p, in_bbox b p -> in_bbox c (raffine 3 M p))
    /\ (forall c', is_box 3 c' -> (forall s, length s = 3%nat -> in_bbox c' (raffine 3 M (rcorner b s))) ->
        forall p, in_bbox c p -> in_bbox c' p).
Proof. exact transform_ok. Qed.

(** Non-vacuity *)
Example ex_C40 : let l := [It_point [D 3 0; D 0 0]; It_box (BB [D 1 0; D 1 0] [D 2 0; D 5 0])] in
  Forall (item_ok 2) l
  /\ match bbb_bounds 2 l with Ret b => bb_eq b (BB [D 1 0; D 0 0] [D 3 0; D 5 0]) | _ => false end = true.
Proof.
  cbv zeta. split; [ | vm_compute; reflexivity ].
  apply Forall_cons; [ apply point_check; vm_compute; reflexivity | ].
  apply Forall_cons; [ apply box_check; vm_compute; reflexivity | apply Forall_nil ].
Qed.
Example ex_C41 : bb_contains (BB [D 0 0] [D 3 0]) (BB [D 1 0] [D 3 0]) = Ret true
  /\ bb_encloses (BB [D 0 0] [D 3 0]) (BB [D 1 0] [D 3 0]) = Ret false
  /\ bb_intersects (BB [D 0 0] [D 3 0]) (BB [D 4 0] [D 5 0]) = false.
Proof. vm_compute. auto. Qed.
Example ex_C42 : bb_relative_position (BB [D 0 0; D 0 0; D 0 0] [D 1 0; D 1 0; D 1 0]) [D (-1) 0; D 1 0; D 2 0] = Ret [R_less; R_within; R_greater]
  /\ bb_eq (BB [D 1 0] [D 5 0]) (BB [D 1 0] [D 5 0]) = true.
Proof. vm_compute. auto. Qed.
Example ex_C43_C44 : is_box 3 (BB [0; 0; 0] [1; 2; 3]) /\ Forall (fun x => 0 < x) (rsize (BB [0; 0; 0] [1; 2; 3]))
  /\ affine 3 [[1; 0; 0; 0]; [0; 1; 0; 0]; [0; 0; 1; 0]; [5; 6; 7; 1]].
Proof.
  split; [ | split ].
  - split; [ reflexivity | ]. split; [ reflexivity | ]. repeat constructor; lra.
  - unfold rsize. simpl. repeat (apply Forall_cons; [ lra | ]). apply Forall_nil.
  - split.
    + split; [ reflexivity | ]. repeat constructor.
    + intros c C. destruct c as [|[|[|[|c]]]]; try lia; reflexivity.
Qed.
Print Assumptions C40_builder_smallest_partial.
Print Assumptions C40_builder_order_independent.
Print Assumptions C40_builder_initialized.
Print Assumptions C40_merge_all.
Print Assumptions C40_merge_all_order_independent.
Print Assumptions C40_merge_boxes.
Print Assumptions C40_merge_point.
Print Assumptions C40_empty_builder_refuted.
Print Assumptions C41_contains_point.
Print Assumptions C41_contains_box.
Print Assumptions C41_encloses.
Print Assumptions C41_intersects.
Print Assumptions C41_intersect.
Print Assumptions C41_is_empty.
Print Assumptions C42_constrain.
Print Assumptions C42_relative_position.
Print Assumptions C42_repair.
Print Assumptions C42_translate_ieee.
Print Assumptions C42_expand_ieee.
Print Assumptions C43_corner.
Print Assumptions C42_constrain_nearest.
Print Assumptions C42_translate.
Print Assumptions C42_expand.
Print Assumptions C42_measures.
Print Assumptions C43_vertices_partial.
Print Assumptions C43_edges_partial.
Print Assumptions C43_faces_partial.
Print Assumptions C43_vertices_ieee_refuted.
Print Assumptions C44_transform.
