(** Final theorems: which calls return (C102). *)
From Coq Require Import ZArith Reals List Bool Lia Lra Arith Permutation.
From Flocq Require Import Core BinarySingleNaN.
From Verif Require Import Ops M_scalar M_vec M_mat M_bbox M_geom M_polygon M_intersect M_hull Inst_F S_hull S_safe P_safe P_safe2 P_safe3 P_safe4 P_hull5.
Import ListNotations.

(** C102. For every type of component and all values, NaN and infinities included *)
Theorem C102_components : forall T (o : ops T) (v : list T) k,
  (returns (find_max_component v k) <-> (k < length v)%nat)
  /\ (returns (find_abs_max_component v k) <-> (k < length v)%nat)
  /\ (returns (get_max_component v k) <-> (k < length v)%nat)
  /\ (returns (get_abs_max_component v k) <-> (k < length v)%nat)
  /\ (returns (get_abs_max_component_axis v k) <-> (k < length v)%nat).
Proof. exact @components_ok. Qed.
Theorem C102_quartic : forall T (o : ops T) (lm : libm T) a b c d e epsilon,
  exists n s, solve_quartic a b c d e epsilon = Ret (n, s) /\ (n <= 4)%nat /\ length s = 4%nat.
Proof. exact @quartic_ok. Qed.
Theorem C102_torus : forall T (o : ops T) (lm : libm T) r p (major minor : T), returns (intersect_ray_torus r p major minor).
Proof. exact @torus_ok. Qed.
Theorem C102_unoriented : forall T (o : ops T) (lhs rhs : list (list T)) epsilon, returns (pg_compare_unoriented lhs rhs epsilon).
Proof. exact @unoriented_ok. Qed.
Theorem C102_point_in_polygon : forall T (o : ops T) (p : list T) axis vertices,
  returns (polygon_contains_point p axis vertices) <-> (axis <= 3)%nat /\ vertices <> [].
Proof. exact @point_in_polygon_ok. Qed.
Theorem C102_point_in_polygon_normal : forall T (o : ops T) (p n : list T) vertices, length n = 3%nat ->
  returns (polygon_contains_point_n p n vertices) <-> vertices <> [].
Proof. exact @point_in_polygon_n_ok. Qed.
Theorem C102_box : forall T (o : ops T) (b : bbox T) p c b2,
  (returns (bb_is_empty b) <-> bb_is_valid b = true) /\ (returns (bb_center b) <-> bb_is_valid b = true)
  /\ (returns (bb_size b) <-> bb_is_valid b = true) /\ (returns (bb_volume b) <-> bb_is_valid b = true)
  /\ (returns (bb_contains_p b p) <-> bb_is_valid b = true) /\ (returns (bb_contains b b2) <-> bb_is_valid b = true)
  /\ (returns (bb_encloses b b2) <-> bb_is_valid b = true) /\ (returns (bb_constrain b p) <-> bb_is_valid b = true)
  /\ (returns (bb_corner b c) <-> bb_is_valid b = true) /\ (returns (bb_relative_position b p) <-> bb_is_valid b = true)
  /\ (returns (bb_faces b) <-> bb_is_valid b = true) /\ (returns (bb_edges b) <-> bb_is_valid b = true)
  /\ (returns (bb_vertices b) <-> bb_is_valid b = true).
Proof. exact @box_ok. Qed.
(** The hull has no undefined behaviour of its own, whatever [sort] does. If [sort] only rearranges the points, the hull
    consists of given points. *)
Theorem C102_hull : forall T (o : ops T) sort ps, Forall (fun p => length p = 3%nat) ps ->
  (returns (convex_hull sort ps) \/ convex_hull sort ps = Assert)
  /\ (permutes sort -> forall hull, convex_hull sort ps = Ret hull -> incl hull ps /\ (hull = [] \/ (3 <= length hull)%nat)).
Proof. exact @hull_any_type. Qed.

Section IEEE.
Variables prec emax : Z.
Context {Hprec : Prec_gt_0 prec} {Hmax : Prec_lt_emax prec emax}.
Notation fl := (binary_float prec emax).

(** What makes a new box; only [merge] of two boxes, [translate], [expand] and [transform] ask for valid boxes. *)
Theorem C102_new_box : forall (a b : bbox fl) p l,
  returns (bb_merge_p a p) /\ returns (bb_intersect a b) /\ returns (bb_repair a)
  /\ (bb_is_valid a = true -> bb_is_valid b = true -> returns (bb_merge a b))
  /\ (returns (bb_merge_all l) <-> l <> []).
Proof. intros a b p l. exact (conj (merge_p_ret a p) (conj (intersect_ret a b) (conj (repair_ret a) (conj (merge_ret a b) (merge_all_ret l))))). Qed.
Theorem C102_moved_box : forall (b : bbox fl) d M f,
  (returns (bb_translate b d) <-> bb_is_valid b = true)
  /\ (returns (bb_transform b M) <-> bb_is_valid b = true)
  /\ (Bltb f (cst 0) = false -> (returns (bb_expand b f) <-> bb_is_valid b = true)).
Proof. intros b d M f. exact (conj (translate_ret prec emax b d) (conj (transform_ret b M) (expand_ret prec emax b f))). Qed.
Theorem C102_builder : forall n (l : list (bb_item fl)),
  (forall b, In (It_box b) l -> bb_is_valid b = true) -> returns (bbb_bounds n l).
Proof. intros n l H. apply add_all_ret, Forall_forall. intros [p|b] I; [exact Logic.I|exact (H b I)]. Qed.

(** Conversions to integers *)
Theorem C102_integer_parts : forall x : fl,
  (returns (sc_trunc x) <-> fits_i64 x) /\ (returns (sc_floor x) <-> fits_i64 x) /\ (returns (sc_ceil x) <-> fits_i64 x)
  /\ (returns (sc_fract x) <-> fits_i64 x) /\ (returns (sc_round_up x) <-> fits_i64 x) /\ (returns (sc_round_down x) <-> fits_i64 x).
Proof. exact (integer_parts_ret prec emax). Qed.
Theorem C102_quotients : forall x y : fl, (returns (sc_mod x y) <-> fits_i64 (Bdiv mode_NE x y))
  /\ (returns (sc_snap_up x y) <-> Bltb (cst 0) y = true /\ fits_i64 (Bdiv mode_NE x y))
  /\ (returns (sc_snap_down x y) <-> Bltb (cst 0) y = true /\ fits_i64 (Bdiv mode_NE x y)).
Proof. intros x y. exact (conj (mod_ret prec emax x y) (snap_up_down_ret prec emax x y)). Qed.
Theorem C102_round : (3 <= prec <= 62)%Z -> (64 <= emax)%Z -> forall (x y : fl) d epsilon,
  (returns (sc_round x) <-> fits_i64 x)
  /\ (returns (sc_snap x y) <-> Beqb y (cst 0) = false /\ fits_i64 (Bdiv mode_NE x y))
  /\ (returns (sc_correct x d epsilon) <-> (d < 32)%Z /\ fits_i64 (Bmult mode_NE x (cst (2 ^ d)))).
Proof. intros P E x y d epsilon. exact (conj (round_ret prec emax P E x) (conj (snap_ret prec emax P E x y) (correct_ret prec emax P E x d epsilon))). Qed.

(** The assertion at the end of the hull cannot fail if the comparison by angle orders the points. *)
Theorem C102_hull_ordered_partial : forall sort (ps : list (list fl)), sorts sort -> Forall (fun p => length p = 3%nat) ps ->
  (forall axis qs a rest, mapM (fun p => v_swizzle p axis) ps = Ret qs -> find_anchor qs = Ret (a :: rest) -> strict_weak_order (less_than_by_angle a) rest) ->
  returns (convex_hull sort ps).
Proof. exact (hull_ordered prec emax). Qed.
End IEEE.

(** But it does not always order them, and with a correct sorting function the assertion fails. *)
Theorem C102_hull_refuted : exists ps : list (list double),
  ps = map (map cst) [[0; 0; 0]; [1958191359; 2227469579; 0]; [988232810; 1124128401; 0]; [1581544549; 1799028657; 0]]%Z
  /\ (exists a, In a ps /\ ~ strict_weak_order (less_than_by_angle a) ps)
  /\ exists sort, sorts sort /\ permutes sort /\ convex_hull sort ps = Assert.
Proof. exact hull_fails. Qed.

(** The same with coordinates below 17000 *)
Theorem C102_hull_small_refuted : exists sort, sorts sort /\ permutes sort
  /\ convex_hull sort (map (map (fun z => D z (-17))) [[0; 0; 0]; [1958191359; 2227469579; 0]; [988232810; 1124128401; 0]; [1581544549; 1799028657; 0]]%Z) = Assert.
Proof. exact hull_fails_small. Qed.

(** Cases *)
Example ex_C102 : find_abs_max_component [B754_nan; D 1 0; B754_infinity true] 3 = Assert
  /\ returns (find_abs_max_component [B754_nan; D 1 0; B754_infinity true] 2)
  /\ ~ fits_i64 (B754_infinity false : double) /\ sc_round (B754_infinity false : double) = UB
  /\ returns (bb_translate (BB [D (-1) 0; B754_nan] [D 1 1023; D 0 0]) [D 1 1023; B754_infinity true])
  /\ bb_translate (BB [D 1 0] [D 0 0]) [D 1 0] = Assert.
Proof. exact safe_cases. Qed.
Example ex_C102_square : let square := map (map cst) [[0; 0; 0]; [8; 8; 0]; [8; 0; 0]; [0; 8; 0]; [4; 4; 0]]%Z : list (list double) in
  (forall axis qs a rest, mapM (fun p => v_swizzle p axis) square = Ret qs -> find_anchor qs = Ret (a :: rest) -> strict_weak_order (less_than_by_angle a) rest)
  /\ exists hull, convex_hull insertion_sort square = Ret hull /\ length hull = 4%nat.
Proof. exact square_ordered. Qed.
Print Assumptions C102_components.
Print Assumptions C102_quartic.
Print Assumptions C102_torus.
Print Assumptions C102_unoriented.
Print Assumptions C102_point_in_polygon.
Print Assumptions C102_point_in_polygon_normal.
Print Assumptions C102_box.
Print Assumptions C102_hull.
Print Assumptions C102_new_box.
Print Assumptions C102_moved_box.
Print Assumptions C102_builder.
Print Assumptions C102_integer_parts.
Print Assumptions C102_quotients.
Print Assumptions C102_round.
Print Assumptions C102_hull_ordered_partial.
Print Assumptions C102_hull_refuted.
Print Assumptions C102_hull_small_refuted.
