(** Final theorems: vectors and boxes of machine integers (C94, C95). *)
From Coq Require Import ZArith List Bool Lia.
From Verif Require Import Ops M_scalar M_vec M_bbox Inst_I S_order S_boxset S_int P_ord P_compare P_int P_int2 P_int3.
Import ListNotations.
Local Open Scope Z_scope.

(** C94: signed components *)
Theorem C94_signed : forall (w : Z) (v u : list (sint w)) (a b : list Z) (f : sint w) (c : Z), 1 <= w ->
  are_sints v a -> are_sints u b -> is_sint f c ->
  Forall2 s_result (v_add v u) (zzip Z.add a b)
  /\ Forall2 s_result (v_sub v u) (zzip Z.sub a b)
  /\ Forall2 s_result (v_mul v u) (zzip Z.mul a b)
  /\ Forall2 s_result (v_neg v) (map Z.opp a)
  /\ Forall2 s_result (v_abs v) (map Z.abs a)
  /\ Forall2 s_result (v_scale v f) (map (fun x => x * c) a)
  /\ Forall2 s_result (v_scale_l f v) (map (fun x => x * c) a).
Proof. exact s_arith. Qed.
Theorem C94_signed_div : forall (w : Z) (v u : list (sint w)) (a b : list Z) (f : sint w) (c : Z),
  are_sints v a -> are_sints u b -> is_sint f c ->
  (Forall (fun z => z <> 0) b -> Forall2 s_result (v_div v u) (zzip Z.quot a b))
  /\ (c <> 0 -> Forall2 s_result (v_div_s v f) (map (fun x => Z.quot x c) a))
  /\ (c = 0 -> Forall (fun x => x = S_undef) (v_div_s v f)).
Proof. exact s_divs. Qed.
Theorem C94_signed_products_partial : forall (w : Z) (v u : list (sint w)) (a b : list Z), 1 <= w ->
  are_sints v a -> are_sints u b ->
  (length a = length b -> zsum (zzip (fun x y => Z.abs (x * y)) a b) < 2 ^ (w - 1) -> is_sint (v_dot v u) (zdot a b))
  /\ (zsum (zzip (fun x y => Z.abs (x * y)) a a) < 2 ^ (w - 1) -> is_sint (v_squared_length v) (zdot a a))
  /\ (length a = 3%nat -> length b = 3%nat ->
      (forall i j, Z.abs (nth i a 0 * nth j b 0) + Z.abs (nth j a 0 * nth i b 0) < 2 ^ (w - 1)) -> are_sints (v_cross v u) (zcross a b)).
Proof. exact s_products. Qed.
(** The result fits, but an intermediate sum does not. *)
Theorem C94_signed_products_refuted : forall w : Z, 4 <= w ->
  exists (v u : list (sint w)) (a b : list Z), are_sints v a /\ are_sints u b /\ length a = length b /\ signed w (zdot a b) /\ v_dot v u = S_undef.
Proof. exact s_dot_refuted. Qed.
(** C94: unsigned components *)
Theorem C94_unsigned : forall (w : Z) (v u : list (uint w)) (a b : list Z) (f : uint w) (c : Z), 0 <= w ->
  are_uints v a -> are_uints u b -> is_uint f c ->
  Forall2 u_result (v_add v u) (zzip Z.add a b)
  /\ Forall2 u_result (v_sub v u) (zzip Z.sub a b)
  /\ Forall2 u_result (v_mul v u) (zzip Z.mul a b)
  /\ Forall2 u_result (v_neg v) (map Z.opp a)
  /\ are_uints (v_abs v) a
  /\ Forall2 u_result (v_scale v f) (map (fun x => x * c) a)
  /\ Forall2 u_result (v_scale_l f v) (map (fun x => x * c) a)
  /\ (length a = length b -> u_result (v_dot v u) (zdot a b))
  /\ u_result (v_squared_length v) (zdot a a)
  /\ (length a = 3%nat -> length b = 3%nat -> Forall2 u_result (v_cross v u) (zcross a b)).
Proof. exact u_arith. Qed.
Theorem C94_unsigned_div : forall (w : Z) (v u : list (uint w)) (a b : list Z) (f : uint w) (c : Z), 0 <= w ->
  are_uints v a -> are_uints u b -> is_uint f c ->
  (Forall (fun z => z <> 0) b -> are_uints (v_div v u) (zzip Z.div a b))
  /\ (c <> 0 -> are_uints (v_div_s v f) (map (fun x => x / c) a))
  /\ (c = 0 -> Forall (fun x => x = U_undef) (v_div_s v f)).
Proof. exact u_divs. Qed.
Example C94_example :
  are_sints (map (s_fit 32) [7; -5; 2147483647]) [7; -5; 2147483647] /\ are_sints (map (s_fit 32) [2; 2; 2]) [2; 2; 2]
  /\ is_sint (s_fit 32 2) 2 /\ zsum (zzip (fun x y => Z.abs (x * y)) [7; -5; 11] [2; 2; 2]) < 2 ^ (32 - 1)
  /\ v_add (map (s_fit 32) [7; -5; 2147483647]) (map (s_fit 32) [2; 2; 2]) = [s_fit 32 9; s_fit 32 (-3); S_undef]
  /\ v_div (map (s_fit 32) [7; -5; 2147483647]) (map (s_fit 32) [2; 2; 2]) = map (s_fit 32) [3; -2; 1073741823]
  /\ v_dot (map (s_fit 32) [7; -5; 11]) (map (s_fit 32) [2; 2; 2]) = s_fit 32 26.
Proof. repeat split; repeat constructor. Qed.
Example C94_example_unsigned :
  are_uints (map (u_fit 64) [7; 5; 0]) [7; 5; 0] /\ are_uints (map (u_fit 64) [2; 5; 1]) [2; 5; 1]
  /\ v_sub (map (u_fit 64) [7; 5; 0]) (map (u_fit 64) [2; 5; 1]) = map (u_fit 64) [5; 0; 18446744073709551615]
  /\ v_cross (map (u_fit 64) [1; 0; 0]) (map (u_fit 64) [0; 1; 0]) = map (u_fit 64) [0; 0; 1].
Proof. repeat split; repeat constructor. Qed.

(** C95: signed components *)
Theorem C95_signed_order : forall (w : Z) (v u : list (sint w)) (a b : list Z), 2 <= w ->
  are_sints v a -> are_sints u b -> length a = length b ->
  ((v_compare v u (cst 0) = -1 <-> zlex a b) /\ (v_compare v u (cst 0) = 1 <-> zlex b a) /\ (v_compare v u (cst 0) = 0 <-> a = b)
   /\ (v_compare v u (cst 0) = -1 \/ v_compare v u (cst 0) = 0 \/ v_compare v u (cst 0) = 1))
  /\ (v_lt v u = true <-> zlex a b) /\ (v_eq v u = true <-> a = b) /\ (v_gt v u = true <-> zlex b a) /\ (v_ne v u = true <-> a <> b)
  /\ (v_le v u = true <-> zlex a b \/ a = b) /\ (v_ge v u = true <-> zlex b a \/ a = b).
Proof. exact (fun w v u a b W V U L => conj (s_compare w W v u a b V U L) (s_operators w W v u a b V U L)). Qed.
Theorem C95_signed_ranges : forall (w : Z) (n : nat) (l k : list (list (sint w))) (p q : list (list Z)), 2 <= w ->
  Forall2 are_sints l p -> Forall2 are_sints k q -> Forall (fun a => length a = n) p -> Forall (fun a => length a = n) q ->
  (r_compare l k (cst 0) = -1 <-> lex zlex eq p q) /\ (r_compare l k (cst 0) = 1 <-> lex zlex eq q p) /\ (r_compare l k (cst 0) = 0 <-> p = q).
Proof. exact (fun w n l k p q W => s_ranges w W n l k p q). Qed.
Theorem C95_signed_min_max : forall (w : Z) (v u t : list (sint w)) (a b c : list Z), 2 <= w ->
  are_sints v a -> are_sints u b -> are_sints t c ->
  are_sints (v_min v u) (zzip Z.min a b) /\ are_sints (v_max v u) (zzip Z.max a b)
  /\ are_sints (v_clamp v u t) (zzip Z.min (zzip Z.max a b) c).
Proof. exact (fun w v u t a b c W V U T => conj (s_min w W v u a b V U) (conj (s_max w W v u a b V U) (s_clamp w W v u t a b c V U T))). Qed.
Theorem C95_signed_components : forall (w : Z) (v : list (sint w)) (a : list Z) (k : nat), 2 <= w -> are_sints v a -> (k < length a)%nat ->
  (exists i, find_max_component v k = Ret i /\ (i < length a)%nat
    /\ (length (filter (fun z => Z.ltb (nth i a 0%Z) z) a) <= k)%nat /\ (length (filter (fun z => Z.ltb z (nth i a 0%Z)) a) <= length a - k - 1)%nat)
  /\ (exists x z, get_max_component v k = Ret x /\ is_sint x z /\ In z a
    /\ (length (filter (fun y => Z.ltb z y) a) <= k)%nat /\ (length (filter (fun y => Z.ltb y z) a) <= length a - k - 1)%nat).
Proof. exact (fun w v a k W V K => conj (s_find w W v a k V K) (s_get w W v a k V K)). Qed.
Theorem C95_signed_equal_partial : forall (w : Z) (v u : list (sint w)) (a b : list Z) (eps : sint w) (e : Z), 2 <= w ->
  are_sints v a -> are_sints u b -> length a = length b -> is_sint eps e ->
  Forall (fun z => signed w (z - e) /\ signed w (z + e)) b ->
  (v_is_equal v u eps = true <-> Forall2 (fun p q => Z.abs (p - q) <= e) a b).
Proof. exact (fun w v u a b eps e W => s_is_equal w W v u a b eps e). Qed.
Theorem C95_signed_boxes : forall w : Z, 2 <= w ->
  (forall (b : bbox (sint w)) p lo hi a, are_sints (bb_min b) lo -> are_sints (bb_max b) hi -> are_sints p a ->
     (in_set b p <-> Forall2 Z.le lo a /\ Forall2 Z.le a hi))
  /\ (forall (b : bbox (sint w)) lo hi, are_sints (bb_min b) lo -> are_sints (bb_max b) hi -> Forall2 Z.le lo hi -> box_of (length lo) b)
  /\ (forall n (l : list (bb_item (sint w))), (0 < n)%nat -> l <> [] -> Forall (item_ok n) l ->
     exists b, bbb_bounds n l = Ret b /\ smallest_box n (comprises l) b)
  /\ (forall n (l : list (list (sint w))), l <> [] -> Forall (point_of n) l -> exists b, bb_merge_all l = Ret b /\ smallest_box n (fun p => In p l) b)
  /\ (forall n (b : bbox (sint w)) p, box_of n b -> point_of n p -> exists r, bb_contains_p b p = Ret r /\ (r = true <-> in_set b p))
  /\ (forall n (b c : bbox (sint w)), box_of n b -> box_of n c -> exists r, bb_contains b c = Ret r /\ (r = true <-> forall p, in_set c p -> in_set b p))
  /\ (forall n (b c : bbox (sint w)), box_of n b -> box_of n c -> (bb_intersects b c = true <-> exists p, in_set b p /\ in_set c p)).
Proof. exact (fun w W => conj (s_in_set w W) (conj (s_box_of w W) (s_boxes w W))). Qed.
Theorem C95_signed_center_partial : forall (w : Z) (b : bbox (sint w)) (lo hi : list Z), 3 <= w ->
  are_sints (bb_min b) lo -> are_sints (bb_max b) hi -> Forall2 Z.le lo hi -> Forall (signed w) (zzip Z.add lo hi) ->
  exists c a, bb_center b = Ret c /\ are_sints c a /\ a = map (fun z => Z.quot z 2) (zzip Z.add lo hi) /\ Forall2 Z.le lo a /\ Forall2 Z.le a hi.
Proof. exact s_center. Qed.
Theorem C95_signed_center_refuted : forall w : Z, 3 <= w ->
  exists b : bbox (sint w), are_sints (bb_min b) [2 ^ (w - 1) - 1] /\ are_sints (bb_max b) [2 ^ (w - 1) - 1] /\ bb_center b = Ret [S_undef].
Proof. exact s_center_refuted. Qed.
(** C95: unsigned components *)
Theorem C95_unsigned_order : forall (w : Z) (v u : list (uint w)) (a b : list Z), 1 <= w ->
  are_uints v a -> are_uints u b -> length a = length b ->
  ((v_compare v u (cst 0) = -1 <-> zlex a b) /\ (v_compare v u (cst 0) = 1 <-> zlex b a) /\ (v_compare v u (cst 0) = 0 <-> a = b)
   /\ (v_compare v u (cst 0) = -1 \/ v_compare v u (cst 0) = 0 \/ v_compare v u (cst 0) = 1))
  /\ (v_lt v u = true <-> zlex a b) /\ (v_eq v u = true <-> a = b) /\ (v_gt v u = true <-> zlex b a) /\ (v_ne v u = true <-> a <> b)
  /\ (v_le v u = true <-> zlex a b \/ a = b) /\ (v_ge v u = true <-> zlex b a \/ a = b).
Proof. exact (fun w v u a b W V U L => conj (u_compare w W v u a b V U L) (u_operators w W v u a b V U L)). Qed.
Theorem C95_unsigned_ranges : forall (w : Z) (n : nat) (l k : list (list (uint w))) (p q : list (list Z)), 1 <= w ->
  Forall2 are_uints l p -> Forall2 are_uints k q -> Forall (fun a => length a = n) p -> Forall (fun a => length a = n) q ->
  (r_compare l k (cst 0) = -1 <-> lex zlex eq p q) /\ (r_compare l k (cst 0) = 1 <-> lex zlex eq q p) /\ (r_compare l k (cst 0) = 0 <-> p = q).
Proof. exact (fun w n l k p q W => u_ranges w W n l k p q). Qed.
Theorem C95_unsigned_min_max : forall (w : Z) (v u t : list (uint w)) (a b c : list Z), 1 <= w ->
  are_uints v a -> are_uints u b -> are_uints t c ->
  are_uints (v_min v u) (zzip Z.min a b) /\ are_uints (v_max v u) (zzip Z.max a b)
  /\ are_uints (v_clamp v u t) (zzip Z.min (zzip Z.max a b) c).
Proof. exact (fun w v u t a b c W V U T => conj (u_min w W v u a b V U) (conj (u_max w W v u a b V U) (u_clamp w W v u t a b c V U T))). Qed.
Theorem C95_unsigned_components : forall (w : Z) (v : list (uint w)) (a : list Z) (k : nat), 1 <= w -> are_uints v a -> (k < length a)%nat ->
  (exists i, find_max_component v k = Ret i /\ (i < length a)%nat
    /\ (length (filter (fun z => Z.ltb (nth i a 0%Z) z) a) <= k)%nat /\ (length (filter (fun z => Z.ltb z (nth i a 0%Z)) a) <= length a - k - 1)%nat)
  /\ (exists x z, get_max_component v k = Ret x /\ is_uint x z /\ In z a
    /\ (length (filter (fun y => Z.ltb z y) a) <= k)%nat /\ (length (filter (fun y => Z.ltb y z) a) <= length a - k - 1)%nat).
Proof. exact (fun w v a k W V K => conj (u_find w W v a k V K) (u_get w W v a k V K)). Qed.
Theorem C95_unsigned_equal_partial : forall (w : Z) (v u : list (uint w)) (a b : list Z) (eps : uint w) (e : Z), 1 <= w ->
  are_uints v a -> are_uints u b -> length a = length b -> is_uint eps e ->
  Forall (fun z => unsigned w (z - e) /\ unsigned w (z + e)) b ->
  (v_is_equal v u eps = true <-> Forall2 (fun p q => Z.abs (p - q) <= e) a b).
Proof. exact (fun w v u a b eps e W => u_is_equal w W v u a b eps e). Qed.
(** The tolerance 1 wraps around at 0: the vector [0] is not even equal to itself. *)
Theorem C95_unsigned_equal_refuted : forall w : Z, 1 <= w -> exists v : list (uint w), are_uints v [0] /\ v_is_equal v v (cst 1) = false.
Proof. exact u_equal_refuted. Qed.
Theorem C95_unsigned_boxes : forall w : Z, 1 <= w ->
  (forall (b : bbox (uint w)) p lo hi a, are_uints (bb_min b) lo -> are_uints (bb_max b) hi -> are_uints p a ->
     (in_set b p <-> Forall2 Z.le lo a /\ Forall2 Z.le a hi))
  /\ (forall (b : bbox (uint w)) lo hi, are_uints (bb_min b) lo -> are_uints (bb_max b) hi -> Forall2 Z.le lo hi -> box_of (length lo) b)
  /\ (forall n (l : list (bb_item (uint w))), (0 < n)%nat -> l <> [] -> Forall (item_ok n) l ->
     exists b, bbb_bounds n l = Ret b /\ smallest_box n (comprises l) b)
  /\ (forall n (l : list (list (uint w))), l <> [] -> Forall (point_of n) l -> exists b, bb_merge_all l = Ret b /\ smallest_box n (fun p => In p l) b)
  /\ (forall n (b : bbox (uint w)) p, box_of n b -> point_of n p -> exists r, bb_contains_p b p = Ret r /\ (r = true <-> in_set b p))
  /\ (forall n (b c : bbox (uint w)), box_of n b -> box_of n c -> exists r, bb_contains b c = Ret r /\ (r = true <-> forall p, in_set c p -> in_set b p))
  /\ (forall n (b c : bbox (uint w)), box_of n b -> box_of n c -> (bb_intersects b c = true <-> exists p, in_set b p /\ in_set c p)).
Proof. exact (fun w W => conj (u_in_set w W) (conj (u_box_of w W) (u_boxes w W))). Qed.
Theorem C95_unsigned_center_partial : forall (w : Z) (b : bbox (uint w)) (lo hi : list Z), 2 <= w ->
  are_uints (bb_min b) lo -> are_uints (bb_max b) hi -> Forall2 Z.le lo hi -> Forall (unsigned w) (zzip Z.add lo hi) ->
  exists c a, bb_center b = Ret c /\ are_uints c a /\ a = map (fun z => z / 2) (zzip Z.add lo hi) /\ Forall2 Z.le lo a /\ Forall2 Z.le a hi.
Proof. exact u_center. Qed.
Theorem C95_unsigned_center_refuted : forall w : Z, 2 <= w ->
  exists (b : bbox (uint w)) c z, are_uints (bb_min b) [2 ^ w - 1] /\ are_uints (bb_max b) [2 ^ w - 1]
    /\ bb_center b = Ret c /\ are_uints c [z] /\ z < 2 ^ w - 1.
Proof. exact u_center_refuted. Qed.
Example C95_example :
  are_sints (map (s_fit 32) [7; -5; 1]) [7; -5; 1] /\ are_sints (map (s_fit 32) [7; -4; 0]) [7; -4; 0] /\ zlex [7; -5; 1] [7; -4; 0]
  /\ v_lt (map (s_fit 32) [7; -5; 1]) (map (s_fit 32) [7; -4; 0]) = true
  /\ v_is_equal (map (s_fit 32) [7; -5; 1]) (map (s_fit 32) [7; -4; 0]) (s_fit 32 1) = true
  /\ Forall (fun z => signed 32 (z - 1) /\ signed 32 (z + 1)) [7; -4; 0]
  /\ bb_center (BB (map (s_fit 32) [-3; 2]) (map (s_fit 32) [0; 5])) = Ret (map (s_fit 32) [-1; 3])
  /\ bb_contains_p (BB (map (u_fit 64) [1; 2]) (map (u_fit 64) [3; 5])) (map (u_fit 64) [3; 6]) = Ret false.
Proof. repeat split; try (repeat constructor; fail). unfold signed. repeat constructor; cbn; lia. Qed.
Print Assumptions C94_signed.
Print Assumptions C94_signed_div.
Print Assumptions C94_signed_products_partial.
Print Assumptions C94_signed_products_refuted.
Print Assumptions C94_unsigned.
Print Assumptions C94_unsigned_div.
Print Assumptions C95_signed_order.
Print Assumptions C95_signed_ranges.
Print Assumptions C95_signed_min_max.
Print Assumptions C95_signed_components.
Print Assumptions C95_signed_equal_partial.
Print Assumptions C95_signed_boxes.
Print Assumptions C95_signed_center_partial.
Print Assumptions C95_signed_center_refuted.
Print Assumptions C95_unsigned_order.
Print Assumptions C95_unsigned_ranges.
Print Assumptions C95_unsigned_min_max.
Print Assumptions C95_unsigned_components.
Print Assumptions C95_unsigned_equal_partial.
Print Assumptions C95_unsigned_equal_refuted.
Print Assumptions C95_unsigned_boxes.
Print Assumptions C95_unsigned_center_partial.
Print Assumptions C95_unsigned_center_refuted.
