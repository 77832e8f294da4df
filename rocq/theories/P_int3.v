(** Final statements about integer vectors and boxes. *)
From Coq Require Import ZArith Reals List Bool Lia Lra.
From Flocq Require Import Core.
From Verif Require Import Ops M_scalar M_vec M_bbox Inst_I S_order S_boxset S_int P_ord P_compare P_bbox P_bbox3 P_int P_int2.
Import ListNotations.
Local Open Scope Z_scope.

Lemma S_val_nan : forall w (x : sint w) z, is_sint x z -> is_nan x = false.
Proof. intros. now apply (s_same w x z). Qed.
Lemma S_val_key : forall w (W : 2 <= w) (x : sint w) z, is_sint x z -> @key _ _ (S_ord w W) x = IZR z.
Proof. intros. now apply (s_same w x z). Qed.
Lemma U_val_nan : forall w (x : uint w) z, is_uint x z -> is_nan x = false.
Proof. intros. now apply (u_same w x z). Qed.
Lemma U_val_key : forall w (W : 1 <= w) (x : uint w) z, is_uint x z -> @key _ _ (U_ord w W) x = IZR z.
Proof. intros. now apply (u_same w x z). Qed.

(** Every defined vector has values. *)
Lemma s_values : forall w (v : list (sint w)), Forall (fun x => ~ NaN x) v -> exists a, are_sints v a.
Proof.
  intros w v F. induction F as [|x v X F [a IH]]; [exists []; constructor|]. destruct x as [z H|].
  - exists (z :: a). constructor; [reflexivity|exact IH].
  - exfalso. now apply X.
Qed.
Lemma u_values : forall w (v : list (uint w)), Forall (fun x => ~ NaN x) v -> exists a, are_uints v a.
Proof.
  intros w v F. induction F as [|x v X F [a IH]]; [exists []; constructor|]. destruct x as [z H|].
  - exists (z :: a). constructor; [reflexivity|exact IH].
  - exfalso. now apply X.
Qed.

Section Signed.
Variable w : Z.
Hypothesis W : 2 <= w.
Let ol := S_ord w W.
#[local] Existing Instance ol.
Definition s_compare := compare_z is_sint (S_val_nan w) (S_val_key w W).
Definition s_operators := operators_z is_sint (S_val_nan w) (S_val_key w W).
Definition s_ranges := ranges_z is_sint (S_val_nan w) (S_val_key w W).
Definition s_min := min_z is_sint (S_val_nan w) (S_val_key w W).
Definition s_max := max_z is_sint (S_val_nan w) (S_val_key w W).
Definition s_clamp := clamp_z is_sint (S_val_nan w) (S_val_key w W).
Definition s_find := find_max_z is_sint (S_val_nan w) (S_val_key w W).
Definition s_get := get_max_z is_sint (S_val_nan w) (S_val_key w W).
Lemma s_in_set : forall (b : bbox (sint w)) p lo hi a, are_sints (bb_min b) lo -> are_sints (bb_max b) hi -> are_sints p a ->
  (in_set b p <-> Forall2 Z.le lo a /\ Forall2 Z.le a hi).
Proof.
  intros b p lo hi a L H P. unfold in_set.
  rewrite (below_z is_sint (S_val_nan w) (S_val_key w W) _ _ lo a L P), (below_z is_sint (S_val_nan w) (S_val_key w W) _ _ a hi P H). tauto.
Qed.
Lemma s_box_of : forall (b : bbox (sint w)) lo hi, are_sints (bb_min b) lo -> are_sints (bb_max b) hi -> Forall2 Z.le lo hi -> box_of (length lo) b.
Proof.
  intros b lo hi L H B. split; [|split].
  - now apply (point_z is_sint (S_val_nan w)).
  - assert (E : length lo = length hi) by apply (len2 _ _ _ B). rewrite E. now apply (point_z is_sint (S_val_nan w)).
  - now apply (below_z is_sint (S_val_nan w) (S_val_key w W) _ _ lo hi L H).
Qed.
Lemma s_is_equal : forall (v u : list (sint w)) a b (eps : sint w) e, are_sints v a -> are_sints u b -> length a = length b -> is_sint eps e ->
  Forall (fun z => signed w (z - e) /\ signed w (z + e)) b ->
  (v_is_equal v u eps = true <-> Forall2 (fun p q => Z.abs (p - q) <= e) a b).
Proof.
  intros v u a b eps e V U L E B. apply (is_equal_z is_sint (S_val_nan w) (S_val_key w W)); auto.
  clear V L. induction U as [|y q u b Y U IH]; inversion_clear B as [|? ? [B1 B2] B']; constructor; auto. split.
  - apply s_result_in; auto. now apply (s_op2_result w Z.sub).
  - apply s_result_in; auto. now apply (s_op2_result w Z.add).
Qed.
Lemma s_boxes :
  (forall n (l : list (bb_item (sint w))), (0 < n)%nat -> l <> [] -> Forall (item_ok n) l ->
     exists b, bbb_bounds n l = Ret b /\ smallest_box n (comprises l) b)
  /\ (forall n (l : list (list (sint w))), l <> [] -> Forall (point_of n) l -> exists b, bb_merge_all l = Ret b /\ smallest_box n (fun p => In p l) b)
  /\ (forall n (b : bbox (sint w)) p, box_of n b -> point_of n p -> exists r, bb_contains_p b p = Ret r /\ (r = true <-> in_set b p))
  /\ (forall n (b c : bbox (sint w)), box_of n b -> box_of n c -> exists r, bb_contains b c = Ret r /\ (r = true <-> forall p, in_set c p -> in_set b p))
  /\ (forall n (b c : bbox (sint w)), box_of n b -> box_of n c -> (bb_intersects b c = true <-> exists p, in_set b p /\ in_set c p)).
Proof. exact (conj bounds_ok (conj merge_all_ok (conj contains_p_ok (conj contains_ok intersects_ok)))). Qed.
End Signed.

Section Unsigned.
Variable w : Z.
Hypothesis W : 1 <= w.
Let ol := U_ord w W.
#[local] Existing Instance ol.
Definition u_compare := compare_z is_uint (U_val_nan w) (U_val_key w W).
Definition u_operators := operators_z is_uint (U_val_nan w) (U_val_key w W).
Definition u_ranges := ranges_z is_uint (U_val_nan w) (U_val_key w W).
Definition u_min := min_z is_uint (U_val_nan w) (U_val_key w W).
Definition u_max := max_z is_uint (U_val_nan w) (U_val_key w W).
Definition u_clamp := clamp_z is_uint (U_val_nan w) (U_val_key w W).
Definition u_find := find_max_z is_uint (U_val_nan w) (U_val_key w W).
Definition u_get := get_max_z is_uint (U_val_nan w) (U_val_key w W).
Lemma u_in_set : forall (b : bbox (uint w)) p lo hi a, are_uints (bb_min b) lo -> are_uints (bb_max b) hi -> are_uints p a ->
  (in_set b p <-> Forall2 Z.le lo a /\ Forall2 Z.le a hi).
Proof.
  intros b p lo hi a L H P. unfold in_set.
  rewrite (below_z is_uint (U_val_nan w) (U_val_key w W) _ _ lo a L P), (below_z is_uint (U_val_nan w) (U_val_key w W) _ _ a hi P H). tauto.
Qed.
Lemma u_box_of : forall (b : bbox (uint w)) lo hi, are_uints (bb_min b) lo -> are_uints (bb_max b) hi -> Forall2 Z.le lo hi -> box_of (length lo) b.
Proof.
  intros b lo hi L H B. split; [|split].
  - now apply (point_z is_uint (U_val_nan w)).
  - assert (E : length lo = length hi) by apply (len2 _ _ _ B). rewrite E. now apply (point_z is_uint (U_val_nan w)).
  - now apply (below_z is_uint (U_val_nan w) (U_val_key w W) _ _ lo hi L H).
Qed.
Lemma u_op_exact : forall f (x y : uint w) a b, is_uint x a -> is_uint y b -> unsigned w (f a b) -> is_uint (u_op2 f x y) (f a b).
Proof.
  intros f x y a b X Y R. assert (H := u_op2_result w f x y a b ltac:(lia) X Y). unfold u_result in H. now rewrite Z.mod_small in H.
Qed.
Lemma u_is_equal : forall (v u : list (uint w)) a b (eps : uint w) e, are_uints v a -> are_uints u b -> length a = length b -> is_uint eps e ->
  Forall (fun z => unsigned w (z - e) /\ unsigned w (z + e)) b ->
  (v_is_equal v u eps = true <-> Forall2 (fun p q => Z.abs (p - q) <= e) a b).
Proof.
  intros v u a b eps e V U L E B. apply (is_equal_z is_uint (U_val_nan w) (U_val_key w W)); auto.
  clear V L. induction U as [|y q u b Y U IH]; inversion_clear B as [|? ? [B1 B2] B']; constructor; auto. split; apply u_op_exact; auto.
Qed.
Lemma u_boxes :
  (forall n (l : list (bb_item (uint w))), (0 < n)%nat -> l <> [] -> Forall (item_ok n) l ->
     exists b, bbb_bounds n l = Ret b /\ smallest_box n (comprises l) b)
  /\ (forall n (l : list (list (uint w))), l <> [] -> Forall (point_of n) l -> exists b, bb_merge_all l = Ret b /\ smallest_box n (fun p => In p l) b)
  /\ (forall n (b : bbox (uint w)) p, box_of n b -> point_of n p -> exists r, bb_contains_p b p = Ret r /\ (r = true <-> in_set b p))
  /\ (forall n (b c : bbox (uint w)), box_of n b -> box_of n c -> exists r, bb_contains b c = Ret r /\ (r = true <-> forall p, in_set c p -> in_set b p))
  /\ (forall n (b c : bbox (uint w)), box_of n b -> box_of n c -> (bb_intersects b c = true <-> exists p, in_set b p /\ in_set c p)).
Proof. exact (conj bounds_ok (conj merge_all_ok (conj contains_p_ok (conj contains_ok intersects_ok)))). Qed.
Lemma one_is : is_uint (cst 1 : uint w) 1.
Proof. assert (P : 2 <= 2 ^ w) by (replace 2 with (2 ^ 1) at 1 by reflexivity; apply Z.pow_le_mono_r; lia). 
  assert (H := u_fit_is w 1 ltac:(lia)). now rewrite Z.mod_small in H by lia. Qed.
Lemma zero_is : is_uint (cst 0 : uint w) 0.
Proof. assert (H := u_fit_is w 0 ltac:(lia)). now rewrite Z.mod_0_l in H by (apply Z.pow_nonzero; lia). Qed.
(** With the tolerance 1 the zero vector is not equal to itself. *)
Lemma u_equal_refuted : exists v : list (uint w), are_uints v [0] /\ v_is_equal v v (cst 1) = false.
Proof.
  exists [cst 0]. split; [repeat constructor; apply zero_is|]. unfold v_is_equal.
  assert (P : 2 <= 2 ^ w) by (replace 2 with (2 ^ 1) at 1 by reflexivity; apply Z.pow_le_mono_r; lia).
  assert (S := u_op2_result w Z.sub _ _ _ _ ltac:(lia) zero_is one_is). unfold u_result in S.
  replace ((0 - 1) mod 2 ^ w) with (2 ^ w - 1) in S. 2: { apply Z.mod_unique with (-1); lia. }
  cbn [v_compare]. assert (NX : o_eq (cst 0 : uint w) (cst 0) = true) by now apply (val_eq is_uint (U_val_nan w) (U_val_key w W) _ _ 0 0 zero_is zero_is).
  unfold neq. rewrite NX. cbn [negb andb].
  change (o_sub (cst 0) (cst 1) : uint w) with (u_op2 Z.sub (cst 0 : uint w) (cst 1)).
  rewrite (ltb_z is_uint (U_val_nan w) (U_val_key w W) _ _ 0 (2 ^ w - 1) zero_is S). destruct (Z.ltb_spec 0 (2 ^ w - 1)); [reflexivity|lia].
Qed.
End Unsigned.

(** ** The center of a box *)
Lemma valid_make : forall w (W : 2 <= w) (b : bbox (sint w)) lo hi, are_sints (bb_min b) lo -> are_sints (bb_max b) hi -> Forall2 Z.le lo hi -> bb_is_valid b = true.
Proof.
  intros w W b lo hi L H B. pose (ol := S_ord w W). apply (@box_valid _ _ ol (length lo)). now apply (s_box_of w W) with hi.
Qed.
Lemma s_center : forall w (b : bbox (sint w)) lo hi, 3 <= w -> are_sints (bb_min b) lo -> are_sints (bb_max b) hi -> Forall2 Z.le lo hi ->
  Forall (signed w) (zzip Z.add lo hi) ->
  exists c a, bb_center b = Ret c /\ are_sints c a /\ a = map (fun z => Z.quot z 2) (zzip Z.add lo hi) /\ Forall2 Z.le lo a /\ Forall2 Z.le a hi.
Proof.
  intros w b lo hi W L H B F. unfold bb_center. rewrite (valid_make w ltac:(lia) b lo hi L H B). cbn [require].
  exists (v_div_s (v_add (bb_min b) (bb_max b)) (cst 2)), (map (fun z => Z.quot z 2) (zzip Z.add lo hi)). split; [reflexivity|].
  assert (P : 4 <= 2 ^ (w - 1)) by (replace 4 with (2 ^ 2) at 1 by reflexivity; apply Z.pow_le_mono_r; lia).
  assert (T : is_sint (cst 2 : sint w) 2) by (apply s_fit_in; unfold signed; lia).
  assert (Q : forall z, z <= 2 * Z.quot z 2 + 1 /\ 2 * Z.quot z 2 <= z + 1).
  { intros z. assert (E := Z.quot_rem z 2 ltac:(lia)). assert (G := Z.rem_bound_abs z 2 ltac:(lia)). lia. }
  generalize dependent (bb_max b). generalize dependent (bb_min b). clear b. intros mn L mx H. split; [|split; [reflexivity|]].
  - unfold v_div_s, v_add. revert mn mx L H F. induction B as [|p q lo hi PQ B IH]; intros mn mx L H F; inversion_clear L; inversion_clear H; simpl; [constructor|].
    inversion_clear F. constructor; auto.
    + apply s_result_in.
      * apply s_div_result; auto; [|lia]. apply s_result_in; auto. now apply (s_op2_result w Z.add).
      * unfold signed in *. specialize (Q (p + q)). lia.
    + now apply IH.
  - clear - B Q. induction B as [|p q lo hi PQ B [I1 I2]]; simpl; split; constructor; auto; specialize (Q (p + q)).
    + assert (E := Z.quot_rem (p + q) 2 ltac:(lia)). assert (G := Z.rem_bound_abs (p + q) 2 ltac:(lia)). lia.
    + assert (E := Z.quot_rem (p + q) 2 ltac:(lia)). assert (G := Z.rem_bound_abs (p + q) 2 ltac:(lia)). lia.
Qed.
(** If a sum does not fit, the center is undefined. *)
Lemma s_center_refuted : forall w, 3 <= w -> exists b : bbox (sint w), are_sints (bb_min b) [2 ^ (w - 1) - 1] /\ are_sints (bb_max b) [2 ^ (w - 1) - 1]
  /\ bb_center b = Ret [S_undef].
Proof.
  intros w W. assert (P : 4 <= 2 ^ (w - 1)) by (replace 4 with (2 ^ 2) at 1 by reflexivity; apply Z.pow_le_mono_r; lia).
  assert (M : is_sint (s_fit w (2 ^ (w - 1) - 1)) (2 ^ (w - 1) - 1)) by (apply s_fit_in; unfold signed; lia).
  assert (A : are_sints [s_fit w (2 ^ (w - 1) - 1)] [2 ^ (w - 1) - 1]) by (repeat constructor; exact M).
  exists (BB [s_fit w (2 ^ (w - 1) - 1)] [s_fit w (2 ^ (w - 1) - 1)]). split; [exact A|]. split; [exact A|].
  unfold bb_center. rewrite (valid_make w ltac:(lia) (BB _ _) _ _ A A) by (repeat constructor; lia). cbn [require bb_min bb_max v_add map2 v_div_s map].
  f_equal. f_equal. assert (R := s_op2_result w Z.add _ _ _ _ M M). destruct R as [[S _]|[_ E]]; [unfold signed in S; lia|].
  change (o_add ?x ?y) with (s_op2 Z.add x y). rewrite E. reflexivity.
Qed.
(** For unsigned components the sum wraps around, and the center may lie outside of the box. *)
Lemma u_center_refuted : forall w, 2 <= w -> exists (b : bbox (uint w)) c z, are_uints (bb_min b) [2 ^ w - 1] /\ are_uints (bb_max b) [2 ^ w - 1]
  /\ bb_center b = Ret c /\ are_uints c [z] /\ z < 2 ^ w - 1.
Proof.
  intros w W. assert (P : 4 <= 2 ^ w) by (replace 4 with (2 ^ 2) at 1 by reflexivity; apply Z.pow_le_mono_r; lia).
  assert (W1 : 1 <= w) by lia. pose (ol := U_ord w W1).
  assert (M : is_uint (u_fit w (2 ^ w - 1)) (2 ^ w - 1)) by (assert (H := u_fit_is w (2 ^ w - 1) ltac:(lia)); now rewrite Z.mod_small in H by lia).
  assert (A : are_uints [u_fit w (2 ^ w - 1)] [2 ^ w - 1]) by (repeat constructor; exact M).
  assert (T : is_uint (cst 2 : uint w) 2) by (assert (H := u_fit_is w 2 ltac:(lia)); now rewrite Z.mod_small in H by lia).
  exists (BB [u_fit w (2 ^ w - 1)] [u_fit w (2 ^ w - 1)]), (v_div_s (v_add [u_fit w (2 ^ w - 1)] [u_fit w (2 ^ w - 1)]) (cst 2)), ((2 ^ w - 2) / 2).
  split; [exact A|]. split; [exact A|]. split; [|split].
  - unfold bb_center. replace (bb_is_valid _) with true; [reflexivity|]. symmetry. apply (@box_valid _ _ ol 1).
    apply (u_box_of w W1 (BB _ _) _ _ A A). repeat constructor. lia.
  - cbn [v_add map2 v_div_s map]. constructor; [|constructor]. apply u_div_result; auto; try lia.
    assert (S := u_op2_result w Z.add _ _ _ _ ltac:(lia) M M). unfold u_result in S.
    replace (2 ^ w - 2) with ((2 ^ w - 1 + (2 ^ w - 1)) mod 2 ^ w); [exact S|]. symmetry. apply Z.mod_unique with 1; lia.
  - apply Z.div_lt_upper_bound; lia.
Qed.

(** ** Arithmetic *)
Lemma map_map2_s : forall w (f : sint w -> sint w) (g : Z -> Z) v a, (forall x z, is_sint x z -> s_result (f x) (g z)) -> are_sints v a ->
  Forall2 s_result (map f v) (map g a).
Proof. intros. now apply s_map. Qed.
Lemma s_arith : forall (w : Z) (v u : list (sint w)) (a b : list Z) (f : sint w) (c : Z), 1 <= w ->
  are_sints v a -> are_sints u b -> is_sint f c ->
  Forall2 s_result (v_add v u) (zzip Z.add a b)
  /\ Forall2 s_result (v_sub v u) (zzip Z.sub a b)
  /\ Forall2 s_result (v_mul v u) (zzip Z.mul a b)
  /\ Forall2 s_result (v_neg v) (map Z.opp a)
  /\ Forall2 s_result (v_abs v) (map Z.abs a)
  /\ Forall2 s_result (v_scale v f) (map (fun x => x * c) a)
  /\ Forall2 s_result (v_scale_l f v) (map (fun x => x * c) a).
Proof.
  intros w v u a b f c W V U F. repeat split.
  - apply s_map2; auto. exact (s_op2_result w Z.add).
  - apply s_map2; auto. exact (s_op2_result w Z.sub).
  - apply s_map2; auto. exact (s_op2_result w Z.mul).
  - apply s_map; auto. exact (s_op1_result w Z.opp).
  - apply s_map; auto. intros. now apply abs_signed.
  - apply s_map; auto. intros x z X. exact (s_op2_result w Z.mul x f z c X F).
  - apply s_map; auto. intros x z X. exact (s_op2_result w Z.mul x f z c X F).
Qed.
Lemma s_divs : forall (w : Z) (v u : list (sint w)) (a b : list Z) (f : sint w) (c : Z),
  are_sints v a -> are_sints u b -> is_sint f c ->
  (Forall (fun z => z <> 0) b -> Forall2 s_result (v_div v u) (zzip Z.quot a b))
  /\ (c <> 0 -> Forall2 s_result (v_div_s v f) (map (fun x => Z.quot x c) a))
  /\ (c = 0 -> Forall (fun x => x = S_undef) (v_div_s v f)).
Proof.
  intros w v u a b f c V U F. split; [|split].
  - now apply s_div_vec.
  - intros C. apply s_map; auto. intros x z X. now apply s_div_result.
  - intros ->. unfold v_div_s. apply Forall_map. apply Forall_forall. intros x _. now apply s_div_zero.
Qed.
Lemma s_products : forall (w : Z) (v u : list (sint w)) (a b : list Z), 1 <= w ->
  are_sints v a -> are_sints u b ->
  (length a = length b -> zsum (zzip (fun x y => Z.abs (x * y)) a b) < 2 ^ (w - 1) -> is_sint (v_dot v u) (zdot a b))
  /\ (zsum (zzip (fun x y => Z.abs (x * y)) a a) < 2 ^ (w - 1) -> is_sint (v_squared_length v) (zdot a a))
  /\ (length a = 3%nat -> length b = 3%nat ->
      (forall i j, Z.abs (nth i a 0 * nth j b 0) + Z.abs (nth j a 0 * nth i b 0) < 2 ^ (w - 1)) -> are_sints (v_cross v u) (zcross a b)).
Proof.
  intros w v u a b W V U. split; [|split].
  - now apply s_dot.
  - intros. unfold v_squared_length. now apply s_dot.
  - now apply s_cross.
Qed.
Lemma s_dot_refuted : forall w : Z, 4 <= w ->
  exists (v u : list (sint w)) (a b : list Z), are_sints v a /\ are_sints u b /\ length a = length b /\ signed w (zdot a b) /\ v_dot v u = S_undef.
Proof.
  intros w W. assert (P : 8 <= 2 ^ (w - 1)) by (replace 8 with (2 ^ 3) at 1 by reflexivity; apply Z.pow_le_mono_r; lia).
  pose (m := 2 ^ (w - 1) - 1).
  assert (G : forall z, -1 <= z <= m -> is_sint (s_fit w z) z) by (intros z Z; apply s_fit_in; unfold signed; unfold m in *; lia).
  exists [s_fit w m; s_fit w 1; s_fit w (-1)], [s_fit w 1; s_fit w 1; s_fit w 1], [m; 1; -1], [1; 1; 1].
  assert (M1 := G 1 ltac:(unfold m; lia)). assert (Mm := G m ltac:(unfold m; lia)). assert (Mn := G (-1) ltac:(unfold m; lia)).
  split; [repeat constructor; auto|]. split; [repeat constructor; auto|]. split; [reflexivity|]. split.
  { unfold zdot, zsum, signed. cbn [zzip fold_right]. unfold m in *. lia. }
  unfold v_dot. cbn [combine fold_left fst snd].
  assert (Z0 : is_sint (cst 0 : sint w) 0) by (apply s_fit_in; unfold signed; lia).
  assert (A : is_sint (o_mul (s_fit w m) (s_fit w 1)) (m * 1)) by (apply s_result_in; [now apply (s_op2_result w Z.mul)|unfold signed, m; lia]).
  assert (B : is_sint (o_add (cst 0) (o_mul (s_fit w m) (s_fit w 1))) (0 + m * 1)) by (apply s_result_in; [now apply (s_op2_result w Z.add)|unfold signed, m; lia]).
  assert (C : is_sint (o_mul (s_fit w 1) (s_fit w 1)) (1 * 1)) by (apply s_result_in; [now apply (s_op2_result w Z.mul)|unfold signed; lia]).
  destruct (s_op2_result w Z.add _ _ _ _ B C) as [[S _]|[_ E]]; [unfold signed, m in S; lia|].
  change (s_op2 Z.add) with (@o_add _ (Sops w)) in E. rewrite E. reflexivity.
Qed.
Lemma u_arith : forall (w : Z) (v u : list (uint w)) (a b : list Z) (f : uint w) (c : Z), 0 <= w ->
  are_uints v a -> are_uints u b -> is_uint f c ->
  Forall2 u_result (v_add v u) (zzip Z.add a b)
  /\ Forall2 u_result (v_sub v u) (zzip Z.sub a b)
  /\ Forall2 u_result (v_mul v u) (zzip Z.mul a b)
  /\ Forall2 u_result (v_neg v) (map Z.opp a)
  /\ are_uints (v_abs v) a
  /\ Forall2 u_result (v_scale v f) (map (fun x => x * c) a)
  /\ Forall2 u_result (v_scale_l f v) (map (fun x => x * c) a)
  /\ (length a = length b -> u_result (v_dot v u) (zdot a b))
  /\ u_result (v_squared_length v) (zdot a a)
  /\ (length a = 3%nat -> length b = 3%nat -> Forall2 u_result (v_cross v u) (zcross a b)).
Proof.
  intros w v u a b f c W V U F. repeat split.
  - apply u_map2; auto. intros; now apply (u_op2_result w Z.add).
  - apply u_map2; auto. intros; now apply (u_op2_result w Z.sub).
  - apply u_map2; auto. intros; now apply (u_op2_result w Z.mul).
  - apply u_map; auto. intros; now apply (u_op1_result w Z.opp).
  - unfold v_abs. replace (map sc_abs v) with v; auto. rewrite <- (map_id v) at 1. apply map_ext. intros. now rewrite abs_unsigned.
  - apply u_map; auto. intros x z X. exact (u_op2_result w Z.mul x f z c W X F).
  - apply u_map; auto. intros x z X. exact (u_op2_result w Z.mul x f z c W X F).
  - now apply u_dot.
  - unfold v_squared_length. now apply u_dot.
  - now apply u_cross.
Qed.
Lemma u_divs : forall (w : Z) (v u : list (uint w)) (a b : list Z) (f : uint w) (c : Z), 0 <= w ->
  are_uints v a -> are_uints u b -> is_uint f c ->
  (Forall (fun z => z <> 0) b -> are_uints (v_div v u) (zzip Z.div a b))
  /\ (c <> 0 -> are_uints (v_div_s v f) (map (fun x => x / c) a))
  /\ (c = 0 -> Forall (fun x => x = U_undef) (v_div_s v f)).
Proof.
  intros w v u a b f c W V U F. split; [|split].
  - now apply u_div_vec.
  - intros C. unfold v_div_s. clear U. induction V as [|x z v a X V IH]; simpl; constructor; auto. now apply u_div_result.
  - intros ->. unfold v_div_s. apply Forall_map. apply Forall_forall. intros x _. now apply u_div_zero.
Qed.
Lemma u_center : forall w (b : bbox (uint w)) lo hi, 2 <= w -> are_uints (bb_min b) lo -> are_uints (bb_max b) hi -> Forall2 Z.le lo hi ->
  Forall (unsigned w) (zzip Z.add lo hi) ->
  exists c a, bb_center b = Ret c /\ are_uints c a /\ a = map (fun z => z / 2) (zzip Z.add lo hi) /\ Forall2 Z.le lo a /\ Forall2 Z.le a hi.
Proof.
  intros w b lo hi W L H B F. assert (W1 : 1 <= w) by lia. pose (ol := U_ord w W1). unfold bb_center.
  replace (bb_is_valid b) with true by (symmetry; apply (@box_valid _ _ ol (length lo)); now apply (u_box_of w W1) with hi). cbn [require].
  exists (v_div_s (v_add (bb_min b) (bb_max b)) (cst 2)), (map (fun z => z / 2) (zzip Z.add lo hi)). split; [reflexivity|].
  assert (P : 4 <= 2 ^ w) by (replace 4 with (2 ^ 2) at 1 by reflexivity; apply Z.pow_le_mono_r; lia).
  assert (T : is_uint (cst 2 : uint w) 2) by (assert (G := u_fit_is w 2 ltac:(lia)); now rewrite Z.mod_small in G by lia).
  generalize dependent (bb_max b). generalize dependent (bb_min b). clear b. intros mn L mx H. split; [|split; [reflexivity|]].
  - unfold v_div_s, v_add. revert mn mx L H F. induction B as [|p q lo hi PQ B IH]; intros mn mx L H F; inversion_clear L; inversion_clear H; simpl; [constructor|].
    inversion_clear F. constructor; auto.
    + apply u_div_result; auto; [lia| |lia]. now apply (u_op_exact w W1 Z.add).
    + now apply IH.
  - clear - B. induction B as [|p q lo hi PQ B [I1 I2]]; simpl; split; constructor; auto.
    + apply Z.div_le_lower_bound; lia.
    + apply Z.div_le_upper_bound; lia.
Qed.
