(** Final theorems: coordinates on a grid are computed exactly in machine arithmetic (C97, and C43 in machine arithmetic). *)
From Coq Require Import ZArith Reals List Lia Lra Bool Factorial.
From Flocq Require Import Core BinarySingleNaN.
From Verif Require Import Ops M_scalar M_vec M_mat M_bbox M_geom Inst_F S_vec S_mat S_det S_affine S_bbox S_rnd S_grid P_fp P_fp5 P_grid4 P_grid5 P_grid6.
Import ListNotations.
Local Open Scope R_scope.

Section IEEE.
Variables prec emax : Z.
Context {Hprec : Prec_gt_0 prec} {Hmax : Prec_lt_emax prec emax}.
Notation fl := (binary_float prec emax).
Notation fits := (representable prec emax).

(** C97: vectors *)
Theorem C97_sums : forall e A B (v w : list fl), grid_vec e A v -> grid_vec e B w -> fits e (A + B) ->
  (exact_vec (v_add v w) (radd (values v) (values w)) /\ grid_vec e (A + B) (v_add v w))
  /\ (exact_vec (v_sub v w) (rsub (values v) (values w)) /\ grid_vec e (A + B) (v_sub v w))
  /\ (exact_vec (v_neg v) (rneg (values v)) /\ grid_vec e A (v_neg v)).
Proof. exact (grid_sums prec emax). Qed.
Theorem C97_products : forall e f A B (v w : list fl) x, grid_vec e A v -> grid_vec f B w -> on_grid f B x -> fits (e + f) (A * B) ->
  (exact_vec (v_mul v w) (zip Rmult (values v) (values w)) /\ grid_vec (e + f) (A * B) (v_mul v w))
  /\ (exact_vec (v_scale v x) (rscale (B2R x) (values v)) /\ grid_vec (e + f) (A * B) (v_scale v x)).
Proof. exact (grid_products prec emax). Qed.
Theorem C97_dot : forall e f A B (v w : list fl), grid_vec e A v -> grid_vec f B w -> length v = length w -> fits (e + f) (Z.of_nat (length v) * (A * B)) ->
  exactly (v_dot v w) (rdot (values v) (values w)) /\ on_grid (e + f) (Z.of_nat (length v) * (A * B)) (v_dot v w).
Proof. exact (grid_dot prec emax). Qed.
Theorem C97_squared_distance : forall e A B (v w : list fl), grid_vec e A v -> grid_vec e B w -> length v = length w -> fits e (A + B) ->
  fits (e + e) (Z.of_nat (length v) * ((A + B) * (A + B))) ->
  exactly (v_squared_distance v w) (rdot (rsub (values v) (values w)) (rsub (values v) (values w)))
  /\ on_grid (e + e) (Z.of_nat (length v) * ((A + B) * (A + B))) (v_squared_distance v w).
Proof. exact (grid_distance prec emax). Qed.
Theorem C97_cross : forall e f A B (v w : list fl), grid_vec e A v -> grid_vec f B w -> length v = 3%nat -> length w = 3%nat -> (0 <= A)%Z -> (0 <= B)%Z ->
  fits (e + f) (2 * (A * B)) ->
  exact_vec (v_cross v w) (rcross (values v) (values w)) /\ grid_vec (e + f) (2 * (A * B)) (v_cross v w).
Proof. exact (grid_cross prec emax). Qed.
(** The test for collinear points is exact when the tolerance is below the grid. *)
Theorem C97_colinear : forall e K n (a b c : list fl) eps, grid_vec e K a -> grid_vec e K b -> grid_vec e K c -> length a = n -> length b = n -> length c = n -> (0 <= K)%Z ->
  fits e (K + K) -> let M := (Z.of_nat n * ((K + K) * (K + K)))%Z in fits (e + e) M -> fits (e + e + (e + e)) (2 * (M * M)) ->
  is_finite eps = true -> 0 <= B2R eps < bpow radix2 (e + e + (e + e)) ->
  (v_is_colinear a b c eps = true <-> collinear (values a) (values b) (values c)).
Proof. exact (grid_colinear prec emax). Qed.

(** C97: matrices *)
Theorem C97_matrix_vector : forall n e f A B (m : list (list fl)) v, grid_mat e A m -> grid_vec f B v -> (0 <= A)%Z -> (0 <= B)%Z -> fits (e + f) (Z.of_nat n * (A * B)) ->
  exact_vec (m_mul_v n m v) (rmulv n n (map values m) (values v)) /\ grid_vec (e + f) (Z.of_nat n * (A * B)) (m_mul_v n m v).
Proof. exact (grid_mat_vec prec emax). Qed.
Theorem C97_matrix_product : forall n k l e f A B (m p : list (list fl)), grid_mat e A m -> grid_mat f B p -> (0 <= A)%Z -> (0 <= B)%Z -> fits (e + f) (Z.of_nat k * (A * B)) ->
  exact_mat (m_mul n k l m p) (rmul n k l (map values m) (map values p)).
Proof. exact (grid_mat_mat prec emax). Qed.
Theorem C97_determinant : forall n e K (m : list (list fl)), is_mat (S n) (S n) m -> grid_mat e K m -> (0 <= K)%Z ->
  fits (Z.of_nat (S n) * e) (Z.of_nat (fact (S n)) * K ^ Z.of_nat (S n)) ->
  exactly (m_det (S n) m) (leibniz (S n) (ent (map values m))).
Proof. exact (grid_det prec emax). Qed.
Theorem C97_affine_point : forall n e A f T B m (p : list fl), grid_affine e A (e + f) T n m -> length p = n -> grid_vec f B p -> (0 <= A)%Z -> (0 <= B)%Z -> (0 <= T)%Z ->
  fits (e + f) (Z.of_nat n * (A * B) + T) ->
  exact_vec (m_mul_p (S n) m p) (raffine n (map values m) (values p)) /\ grid_vec (e + f) (Z.of_nat n * (A * B) + T) (m_mul_p (S n) m p).
Proof. exact (grid_affine_point prec emax). Qed.
Theorem C97_plane_distance : forall e f A B D (p : plane fl) q, grid_vec e A q -> grid_vec f B (pl_normal p) -> on_grid (e + f) D (pl_dist p) ->
  length q = length (pl_normal p) -> (0 <= A)%Z -> (0 <= B)%Z -> fits (e + f) (Z.of_nat (length q) * (A * B) + D) ->
  exactly (pl_point_distance p q) (plane_distance p q) /\ on_grid (e + f) (Z.of_nat (length q) * (A * B) + D) (pl_point_distance p q).
Proof. exact (grid_plane prec emax). Qed.

(** C97: boxes *)
Theorem C97_box_measures : forall n e K (b : bbox fl), is_box (S n) (box_values b) -> grid_box e K b -> fits e (2 * K) -> fits (e - 1) (2 * K) -> (2 <= prec)%Z ->
  (exists s, bb_size b = Ret s /\ exact_vec s (rsize (box_values b)))
  /\ exists c, bb_center b = Ret c /\ exact_vec c (rlerp (bb_min (box_values b)) (bb_max (box_values b)) (/ 2)).
Proof. exact (grid_measures prec emax). Qed.
Theorem C97_box_volume : forall n e K (b : bbox fl), is_box (S n) (box_values b) -> grid_box e K b -> fits e (2 * K) ->
  fits (Z.of_nat (S n) * e) ((2 * K) ^ Z.of_nat (S n)) -> exists s, bb_volume b = Ret s /\ exactly s (rvolume (box_values b)).
Proof. exact (grid_volume prec emax). Qed.
Theorem C97_box_translate : forall n e K D (b : bbox fl) d, is_box n (box_values b) -> grid_box e K b -> length d = n -> grid_vec e D d -> fits e (K + D) ->
  exists c, bb_translate b d = Ret c /\ exact_box c (BB (radd (bb_min (box_values b)) (values d)) (radd (bb_max (box_values b)) (values d))).
Proof. exact (grid_translate prec emax). Qed.
Theorem C97_box_transform : forall e A f T K m (b : bbox fl), is_box 3 (box_values b) -> grid_box f K b -> grid_affine e A (e + f) T 3 m -> (0 <= A)%Z -> (0 <= T)%Z ->
  fits f (8 * K) -> fits (e + f) (3 * (A * K) + T) ->
  exists c r, bb_transform b m = Ret c /\ exact_box c r /\ is_box 3 r
    /\ (forall p, in_bbox (box_values b) p -> in_bbox r (raffine 3 (map values m) p))
    /\ (forall r', is_box 3 r' -> (forall s, length s = 3%nat -> in_bbox r' (raffine 3 (map values m) (rcorner (box_values b) s))) -> forall p, in_bbox r p -> in_bbox r' p).
Proof. exact (grid_transform prec emax). Qed.

(** C43 in machine arithmetic, for boxes with corners on a grid. Missing: the other boxes, for which it is refuted (C43_vertices_ieee_refuted). *)
Theorem C43_vertices_grid_partial : forall e K (b : bbox fl), is_box 3 (box_values b) -> grid_box e K b -> fits e (8 * K) ->
  exists vs l, bb_vertices b = Ret vs /\ exact_mat vs (map (rcorner (box_values b)) l) /\ NoDup l /\ forall s, In s l <-> length s = 3%nat.
Proof. exact (grid_vertices prec emax). Qed.
Theorem C43_edges_grid_partial : forall e K (b : bbox fl), is_box 3 (box_values b) -> grid_box e K b -> fits e (8 * K) ->
  exists es l, bb_edges b = Ret es
    /\ Forall2 (fun x s => exact_vec (fst x) (rcorner (box_values b) (fst s)) /\ exact_vec (snd x) (rcorner (box_values b) (snd s))) es l
    /\ NoDup l /\ (forall s t, In (s, t) l -> ~ In (t, s) l)
    /\ forall s t, In (s, t) l \/ In (t, s) l <-> length s = 3%nat /\ length t = 3%nat /\ one_differs s t.
Proof. exact (grid_edges prec emax). Qed.
Theorem C43_faces_grid_partial : forall e K (b : bbox fl), is_box 3 (box_values b) -> grid_box e K b -> fits e (8 * K) ->
  exists fs l, bb_faces b = Ret fs
    /\ Forall2 (fun x f => exact_mat (fst x) (map (rcorner (box_values b)) (snd f)) /\ exact_vec (snd x) (outward (fst (fst f)) (snd (fst f)))) fs l
    /\ NoDup (map fst l) /\ (forall i s, In (i, s) (map fst l) <-> (i < 3)%nat)
    /\ forall i s vs, In ((i, s), vs) l ->
       length vs = 4%nat /\ NoDup vs /\ (forall t, In t vs <-> length t = 3%nat /\ nth i t false = s)
       /\ forall k, (k < 4)%nat ->
          let p := rcorner (box_values b) (nth k vs []) in let q := rcorner (box_values b) (nth ((k + 1) mod 4) vs []) in
          let r := rcorner (box_values b) (nth ((k + 2) mod 4) vs []) in
          turn p q r (outward i s) <= 0 /\ (Forall (fun x => 0 < x) (rsize (box_values b)) -> turn p q r (outward i s) < 0).
Proof. exact (grid_faces prec emax). Qed.
End IEEE.

(** Concrete cases: integer vectors, matrices and boxes in double precision meet the hypotheses. *)
Example ex_C97_vectors : grid_vec 0 9 (map cst [1; -2; 3]%Z : list double) /\ grid_vec 0 9 (map cst [4; 5; -9]%Z : list double) /\ on_grid 0 9 (cst 7 : double)
  /\ representable 53 1024 0 (9 + 9) /\ representable 53 1024 0 (3 * (9 * 9)) /\ representable 53 1024 0 (3 * ((9 + 9) * (9 + 9)))
  /\ representable 53 1024 0 (2 * ((3 * ((9 + 9) * (9 + 9))) * (3 * ((9 + 9) * (9 + 9))))).
Proof. repeat split; try apply ex_grid_vec; try apply ex_on_grid; try lia; repeat constructor; lia. Qed.
Example ex_C97_matrices : is_mat 3 3 (map (map cst) [[1; 2; 3]; [0; -5; 4]; [7; 7; 2]]%Z : list (list double))
  /\ grid_mat 0 7 (map (map cst) [[1; 2; 3]; [0; -5; 4]; [7; 7; 2]]%Z : list (list double))
  /\ representable 53 1024 0 (3 * (7 * 9)) /\ representable 53 1024 (Z.of_nat 3 * 0) (Z.of_nat (fact 3) * 7 ^ Z.of_nat 3) /\ grid_affine 0 3 (0 + 0) 100 3 gmat.
Proof. split; [split; [reflexivity|repeat constructor]|]. split; [apply ex_grid_mat; [lia|]; repeat constructor; lia|]. split; [apply ex_fits; lia|]. split; [apply ex_fits; simpl; lia|]. apply gmat_ok. Qed.
Example ex_C97_boxes : is_box 3 (box_values gbox) /\ grid_box 0 8 gbox /\ grid_affine 0 3 (0 + 0) 100 3 gmat /\ representable 53 1024 0 (8 * 8) /\ representable 53 1024 (0 - 1) (2 * 8)
  /\ representable 53 1024 (0 + 0) (3 * (3 * 8) + 100) /\ representable 53 1024 (Z.of_nat 3 * 0) ((2 * 8) ^ Z.of_nat 3).
Proof. split; [apply gbox_ok|]. split; [apply gbox_ok|]. split; [apply gmat_ok|]. repeat split; simpl; lia. Qed.
Print Assumptions C97_sums.
Print Assumptions C97_products.
Print Assumptions C97_dot.
Print Assumptions C97_squared_distance.
Print Assumptions C97_cross.
Print Assumptions C97_colinear.
Print Assumptions C97_matrix_vector.
Print Assumptions C97_matrix_product.
Print Assumptions C97_determinant.
Print Assumptions C97_affine_point.
Print Assumptions C97_plane_distance.
Print Assumptions C97_box_measures.
Print Assumptions C97_box_volume.
Print Assumptions C97_box_translate.
Print Assumptions C97_box_transform.
Print Assumptions C43_vertices_grid_partial.
Print Assumptions C43_edges_grid_partial.
Print Assumptions C43_faces_grid_partial.
