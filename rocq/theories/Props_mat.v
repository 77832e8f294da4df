(** Final theorems: matrices (C27 to C33). *)
From Coq Require Import ZArith Reals List Bool Lia Lra Permutation.
From Verif Require Import Ops M_scalar M_vec M_mat Inst_XR S_vec S_mat S_det S_rot.
From Verif Require Import P_xr P_vec P_vec2 P_mat P_mat2 P_lup P_ldet P_det P_mat3 P_cond.
Import ListNotations.
Local Open Scope R_scope.

(** [vS a] and [mS A] are the vector and the matrix with the real components [a] and [A]. *)
Notation vS := (map (@Some R)).
Notation mS := (map (map (@Some R))).
Notation mmul4 := (@m_mul XR XRops 4 4 4).

(** C27 *)
Theorem C27_additive_laws : forall nr nc A B C k l, is_mat nr nc A -> is_mat nr nc B -> is_mat nr nc C ->
  let a := mS A in let b := mS B in let c := mS C in
  m_add a b = m_add b a /\ m_add a (m_add b c) = m_add (m_add a b) c
  /\ m_add a (m_zero nr nc) = a /\ m_add a (m_neg a) = m_zero nr nc
  /\ m_sub a b = m_add a (m_neg b)
  /\ m_scale (m_add a b) (Some k) = m_add (m_scale a (Some k)) (m_scale b (Some k))
  /\ m_scale a (Some (k + l)) = m_add (m_scale a (Some k)) (m_scale a (Some l))
  /\ m_scale a (Some (k * l)) = m_scale (m_scale a (Some l)) (Some k)
  /\ m_scale a (Some 1) = a /\ m_scale_l (Some k) a = m_scale a (Some k)
  /\ (k <> 0 -> m_div_s a (Some k) = m_scale a (Some (/ k))).
Proof. exact mat_ring. Qed.
Theorem C27_product_entries : forall nr n nc A B r c, (r < nr)%nat -> (c < nc)%nat ->
  nth r (nth c (m_mul nr n nc (mS A) (mS B)) []) None = Some (Rsum n (fun i => ent A r i * ent B i c)).
Proof. exact mat_mul_entries. Qed.
Theorem C27_entries : forall nr nc A B k, is_mat nr nc A -> is_mat nr nc B ->
  m_add (mS A) (mS B) = mS (of_ent nr nc (fun r c => ent A r c + ent B r c))
  /\ m_sub (mS A) (mS B) = mS (of_ent nr nc (fun r c => ent A r c - ent B r c))
  /\ m_neg (mS A) = mS (of_ent nr nc (fun r c => - ent A r c))
  /\ m_scale (mS A) (Some k) = mS (of_ent nr nc (fun r c => k * ent A r c)).
Proof. exact mat_entries. Qed.
Theorem C27_product_associative : forall n1 n2 n3 n4 A B C,
  m_mul n1 n3 n4 (m_mul n1 n2 n3 (mS A) (mS B)) (mS C) = m_mul n1 n2 n4 (mS A) (m_mul n2 n3 n4 (mS B) (mS C)).
Proof. exact mat_mul_assoc. Qed.
Theorem C27_product_identity : forall nr nc A, is_mat nr nc A ->
  m_mul nr nr nc (m_identity nr nr) (mS A) = mS A /\ m_mul nr nc nc (mS A) (m_identity nc nc) = mS A.
Proof. exact mat_mul_id. Qed.
Theorem C27_product_distributes : forall n1 n2 n3 A B C k, is_mat n1 n2 A -> is_mat n2 n3 B -> is_mat n2 n3 C ->
  m_mul n1 n2 n3 (mS A) (m_add (mS B) (mS C)) = m_add (m_mul n1 n2 n3 (mS A) (mS B)) (m_mul n1 n2 n3 (mS A) (mS C))
  /\ m_mul n1 n2 n3 (m_scale (mS A) (Some k)) (mS B) = m_scale (m_mul n1 n2 n3 (mS A) (mS B)) (Some k).
Proof. exact mat_mul_distr. Qed.
Theorem C27_product_distributes_right : forall n1 n2 n3 A B C, is_mat n1 n2 A -> is_mat n1 n2 B -> is_mat n2 n3 C ->
  m_mul n1 n2 n3 (m_add (mS A) (mS B)) (mS C) = m_add (m_mul n1 n2 n3 (mS A) (mS C)) (m_mul n1 n2 n3 (mS B) (mS C)).
Proof. exact mat_mul_distr_r. Qed.
Theorem C27_vector_laws : forall n A B v, is_mat n n A -> is_mat n n B -> length v = n ->
  let a := mS A in let b := mS B in
  (forall r, (r < n)%nat -> nth r (m_mul_v n a (vS v)) None = Some (Rsum n (fun c => ent A r c * nth c v 0)))
  /\ m_mul_v n (m_mul n n n a b) (vS v) = m_mul_v n a (m_mul_v n b (vS v))
  /\ v_mul_m n n (vS v) (m_mul n n n a b) = (do u <- v_mul_m n n (vS v) a; v_mul_m n n u b)
  /\ m_mul_v n (m_identity n n) (vS v) = vS v
  /\ v_mul_m n n (vS v) (m_identity n n) = Ret (vS v)
  /\ v_mul_m n n (vS v) a = Ret (m_mul_v n (m_transpose n a) (vS v)).
Proof. exact mat_vec_laws. Qed.
Theorem C27_transpose_reverses_products : forall n A B, is_mat n n A -> is_mat n n B ->
  m_transpose n (m_mul n n n (mS A) (mS B)) = m_mul n n n (m_transpose n (mS B)) (m_transpose n (mS A)).
Proof. exact mat_transpose_mul. Qed.
(** Finding: the row vector product writes out of bounds if the matrix has more columns than rows. *)
Theorem C27_row_vector_product_undefined : forall T (o : ops T) r c (v : list T) m, (r < c)%nat -> v_mul_m r c v m = UB.
Proof. exact vec_mul_wide. Qed.
Example C27_case : is_mat 2 2 M22 /\ m_mul 2 2 2 (mS M22) (mS M22) = mS [[5; 5]; [5; 10]].
Proof.
  split; [exact M22_shape|]. rewrite X_m_mul. apply (f_equal (map (map (@Some R)))).
  unfold rmul, of_ent, ent, M22. cbn -[IZR]. ringlist.
Qed.

(** C28 *)
Theorem C28_transpose : forall T (o : ops T) n (m : list (list T)) d, is_mat n n m ->
  is_mat n n (m_transpose n m)
  /\ (forall c r, (c < n)%nat -> (r < n)%nat ->
       nth r (nth c (m_transpose n m) []) d = nth c (nth r m []) d)
  /\ m_transpose n (m_transpose n m) = m.
Proof. exact transpose_entries. Qed.
Theorem C28_extract_minor : forall T (o : ops T) R C (m : list (list T)) row col d, is_mat R C m ->
  m_extract_minor R C m row col = (if (row <? R) && (col <? C) then Ret (m_minor R C m row col) else Assert)%nat
  /\ ((row < R)%nat -> (col < C)%nat -> is_mat (R - 1) (C - 1) (m_minor R C m row col) /\
    forall c r, (c < C - 1)%nat -> (r < R - 1)%nat ->
      nth r (nth c (m_minor R C m row col) []) d
      = nth (if r <? row then r else r + 1)%nat (nth (if c <? col then c else c + 1)%nat m []) d).
Proof. exact minor_entries. Qed.
Theorem C28_slice : forall T (o : ops T) RR RC R C (m : list (list T)) r0 c0 d, is_mat R C m -> (RR <= R)%nat ->
  match m_slice RR RC R C m r0 c0 with
  | Ret s => (r0 + RR <= R)%nat /\ (c0 + RC <= C)%nat /\ is_mat RR RC s /\
      forall c r, (c < RC)%nat -> (r < RR)%nat -> nth r (nth c s []) d = nth (r0 + r) (nth (c0 + c) m []) d
  | Assert => ~ ((r0 + RR <= R)%nat /\ (c0 + RC <= C)%nat)
  | _ => False
  end.
Proof. exact slice_entries. Qed.
Theorem C28_set : forall T (o : ops T) R C (m : list (list T)) r0 c0 v d, is_mat R C m ->
  match m_set R C m r0 c0 v with
  | Ret s => (r0 < R)%nat /\ (c0 < C)%nat /\ is_mat R C s /\
      forall c r, (c < C)%nat -> (r < R)%nat ->
        nth r (nth c s []) d = if (r =? r0)%nat && (c =? c0)%nat then v else nth r (nth c m []) d
  | Assert => ~ ((r0 < R)%nat /\ (c0 < C)%nat)
  | _ => False
  end.
Proof. exact set_entries. Qed.
Example C28_case : m_transpose 2 (mS [[1; 2]; [3; 4]]) = mS [[1; 3]; [2; 4]]
  /\ m_extract_minor 2 2 (mS [[1; 2]; [3; 4]]) 0 1 = Ret (mS [[2]]).
Proof. split; reflexivity. Qed.

(** C29 *)
Theorem C29_determinant_leibniz : forall n A, is_mat (S n) (S n) A -> m_det (S n) (mS A) = Some (leibniz (S n) (ent A)).
Proof. exact det_leibniz. Qed.
Theorem C29_determinant_product : forall n A B, is_mat (S n) (S n) A -> is_mat (S n) (S n) B ->
  m_det (S n) (m_mul (S n) (S n) (S n) (mS A) (mS B)) = o_mul (m_det (S n) (mS A)) (m_det (S n) (mS B)).
Proof. exact det_mul. Qed.
Theorem C29_determinant_transpose : forall n A, is_mat (S n) (S n) A ->
  m_det (S n) (m_transpose (S n) (mS A)) = m_det (S n) (mS A).
Proof. exact det_transpose. Qed.
Theorem C29_determinant_identity : forall n, m_det (S n) (m_identity (S n) (S n)) = Some 1.
Proof. exact det_identity. Qed.
Theorem C29_determinant_zero_iff_singular : forall n A, is_mat (S n) (S n) A ->
  (m_det (S n) (mS A) = Some 0 <-> singular (S n) A).
Proof. exact det_zero_singular. Qed.
Example C29_case : is_mat 2 2 M22 /\ m_det 2 (mS M22) = Some 5.
Proof. exact (conj M22_shape M22_det). Qed.

(** C30 *)
Theorem C30_adjugate : forall n A, is_mat (S (S n)) (S (S n)) A ->
  let s := S (S n) in
  m_mul s s s (mS A) (m_adjugate s (mS A)) = m_scale_l (m_det s (mS A)) (m_identity s s)
  /\ m_mul s s s (m_adjugate s (mS A)) (mS A) = m_scale_l (m_det s (mS A)) (m_identity s s).
Proof. exact adjugate_law. Qed.
Example C30_case : is_mat 2 2 M22 /\ m_adjugate 2 (mS M22) = mS [[3; -1]; [-1; 2]].
Proof.
  split; [exact M22_shape|]. rewrite X_adjugate by exact M22_shape. apply (f_equal (map (map (@Some R)))).
  unfold of_ent, ent, M22, sgn, P_mat.skip. cbn -[IZR]. ringlist.
Qed.

(** C31 *)
Theorem C31_lup_factors : forall n A lu pi, is_mat n n A ->
  lup_find_decomposition n (mS A) = Some (lu, pi) ->
  exists LU, lu = mS LU /\ is_mat n n LU /\ Permutation pi (seq 0 n) /\
    (forall i, (i < n)%nat -> ent LU i i <> 0) /\
    forall i j, (i < n)%nat -> (j < n)%nat ->
      ent A (nth i pi 0%nat) j
      = Rsum n (fun t => (if (t <? i)%nat then ent LU i t else if (t =? i)%nat then 1 else 0)
                         * (if (t <=? j)%nat then ent LU t j else 0)).
Proof. exact lup_factors. Qed.
Theorem C31_solve : forall n A b res, is_mat n n A -> length b = n ->
  lup_solve n (mS A) (vS b) = (true, res) ->
  exists x, res = vS x /\ length x = n /\ rmulv n n A x = b
    /\ forall y, length y = n -> rmulv n n A y = b -> y = x.
Proof. exact solve_correct. Qed.
Theorem C31_solve_failure : forall n A b res, is_mat n n A ->
  lup_solve n (mS A) (vS b) = (false, res) -> res = v_zero n /\
  exists B, is_mat n n B /\ singular n B /\
    forall r c, (r < n)%nat -> (c < n)%nat -> Rabs (ent A r c - ent B r c) < 1 / 10 ^ 15.
Proof. exact solve_failure. Qed.
Example C31_case : is_mat 2 2 M22 /\ exists lu pi, lup_find_decomposition 2 (mS M22) = Some (lu, pi).
Proof.
  split; [exact M22_shape|]. pose proof M22_invert as H. unfold m_invert in H.
  destruct (lup_find_decomposition 2 (mS M22)) as [[lu pi]|]; [eauto|discriminate].
Qed.

(** A well-conditioned system is solved. *)
Theorem C31_solve_well_conditioned : forall n A C K b, is_mat n n A -> is_mat n n C -> inverse n A C -> 0 <= K -> length b = n ->
  (forall r c, (r < n)%nat -> (c < n)%nat -> Rabs (ent C r c) <= K) -> INR n * INR n * K < 10 ^ 15 ->
  lup_solve n (mS A) (vS b) = (true, m_mul_v n (mS C) (vS b)).
Proof. exact solve_complete. Qed.

(** C32 *)
Theorem C32_invert_success_partial : forall n A res, is_mat n n A -> m_invert n (mS A) = (true, res) ->
  exists B, res = mS B /\ is_mat n n B /\ inverse n A B.
Proof. exact invert_correct. Qed.
Theorem C32_invert_singular_partial : forall n A, is_mat n n A -> singular n A ->
  m_invert n (mS A) = (false, m_identity n n).
Proof. exact invert_singular. Qed.
(** A failure is reported only within 1e-15 (per entry) of a singular matrix. *)
Theorem C32_invert_failure_partial : forall n A res, is_mat n n A -> m_invert n (mS A) = (false, res) ->
  res = m_identity n n /\
  exists B, is_mat n n B /\ singular n B /\
    forall r c, (r < n)%nat -> (c < n)%nat -> Rabs (ent A r c - ent B r c) < 1 / 10 ^ 15.
Proof. exact invert_failure. Qed.
(** Every matrix whose inverse has entries of at most K is inverted if n*n*K < 10^15. *)
Theorem C32_invert_well_conditioned_partial : forall n A C K, is_mat n n A -> is_mat n n C -> inverse n A C -> 0 <= K ->
  (forall r c, (r < n)%nat -> (c < n)%nat -> Rabs (ent C r c) <= K) -> INR n * INR n * K < 10 ^ 15 ->
  m_invert n (mS A) = (true, mS C).
Proof. exact invert_complete. Qed.
Example C32_well_conditioned_case : inverse 1 [[2]] [[1/2]] /\ Rabs (1/2) <= 1 /\ INR 1 * INR 1 * 1 < 10 ^ 15.
Proof.
  split; [split; cbv [rmul rid of_ent map seq Rsum ent nth delta Nat.eqb]; repeat f_equal; lra|].
  split; [rewrite Rabs_pos_eq; lra|simpl; lra].
Qed.
(** Finding: an invertible matrix is reported as not invertible. *)
Theorem C32_invert_complete_refuted : exists A B, is_mat 1 1 A /\ inverse 1 A B /\ fst (m_invert 1 (mS A)) = false.
Proof. exact invert_refuted. Qed.
Example C32_case : is_mat 2 2 M22 /\ fst (m_invert 2 (mS M22)) = true.
Proof. exact (conj M22_shape M22_invert). Qed.

(** C33: [const_acts m f] if multiplying a point by m gives f of it. *)
Theorem C33_rotations :
  const_acts rot_90_x_ccw (rrot [1; 0; 0] (PI / 2)) /\ const_acts rot_90_x_cw (rrot [1; 0; 0] (- (PI / 2)))
  /\ const_acts rot_90_y_ccw (rrot [0; 1; 0] (PI / 2)) /\ const_acts rot_90_y_cw (rrot [0; 1; 0] (- (PI / 2)))
  /\ const_acts rot_90_z_ccw (rrot [0; 0; 1] (PI / 2)) /\ const_acts rot_90_z_cw (rrot [0; 0; 1] (- (PI / 2)))
  /\ const_acts rot_180_x (rrot [1; 0; 0] PI) /\ const_acts rot_180_y (rrot [0; 1; 0] PI)
  /\ const_acts rot_180_z (rrot [0; 0; 1] PI).
Proof. exact rotations_act. Qed.
Theorem C33_mirrors :
  const_acts mirror_x (fun p => [- nth 0 p 0; nth 1 p 0; nth 2 p 0])
  /\ const_acts mirror_y (fun p => [nth 0 p 0; - nth 1 p 0; nth 2 p 0])
  /\ const_acts mirror_z (fun p => [nth 0 p 0; nth 1 p 0; - nth 2 p 0]).
Proof. exact mirrors_act. Qed.
Theorem C33_compositions :
  let I4 := m_identity 4 4 in
  mmul4 rot_90_x_cw rot_90_x_ccw = I4 /\ mmul4 rot_90_x_ccw rot_90_x_cw = I4
  /\ mmul4 rot_90_y_cw rot_90_y_ccw = I4 /\ mmul4 rot_90_y_ccw rot_90_y_cw = I4
  /\ mmul4 rot_90_z_cw rot_90_z_ccw = I4 /\ mmul4 rot_90_z_ccw rot_90_z_cw = I4
  /\ mmul4 rot_90_x_cw rot_90_x_cw = rot_180_x /\ mmul4 rot_90_x_ccw rot_90_x_ccw = rot_180_x
  /\ mmul4 rot_90_y_cw rot_90_y_cw = rot_180_y /\ mmul4 rot_90_y_ccw rot_90_y_ccw = rot_180_y
  /\ mmul4 rot_90_z_cw rot_90_z_cw = rot_180_z /\ mmul4 rot_90_z_ccw rot_90_z_ccw = rot_180_z
  /\ mmul4 rot_180_x rot_180_x = I4 /\ mmul4 rot_180_y rot_180_y = I4 /\ mmul4 rot_180_z rot_180_z = I4
  /\ mmul4 mirror_x mirror_x = I4 /\ mmul4 mirror_y mirror_y = I4 /\ mmul4 mirror_z mirror_z = I4.
Proof. exact constants_compose. Qed.
Theorem C33_orthogonal : forall m : list (list XR),
  In m [rot_90_x_cw; rot_90_y_cw; rot_90_z_cw; rot_90_x_ccw; rot_90_y_ccw; rot_90_z_ccw;
        rot_180_x; rot_180_y; rot_180_z; mirror_x; mirror_y; mirror_z] ->
  m_mul 4 4 4 m (m_transpose 4 m) = m_identity 4 4.
Proof. exact constants_orthogonal. Qed.
Theorem C33_zero_out : forall n e v, (e < n)%nat -> length v = n ->
  exists m, m_zero_out n e = Ret m /\
    forall i, (i < n)%nat -> nth i (m_mul_v n m (vS v)) None = Some (if (i =? e)%nat then 0 else nth i v 0).
Proof. exact zero_out_acts. Qed.
Example C33_case : m_mul_p 4 rot_90_z_ccw (vS [1; 0; 0]) = vS [0; 1; 0].
Proof.
  rewrite (proj1 (proj2 (proj2 (proj2 (proj2 rotations_act)))) 1 0 0). apply (f_equal (map (@Some R))).
  unfold rrot. cbn -[IZR cos sin PI]. rewrite cos_PI2, sin_PI2. ringlist.
Qed.
Print Assumptions C27_additive_laws.
Print Assumptions C27_product_entries.
Print Assumptions C27_entries.
Print Assumptions C27_product_associative.
Print Assumptions C27_product_identity.
Print Assumptions C27_product_distributes.
Print Assumptions C27_product_distributes_right.
Print Assumptions C27_vector_laws.
Print Assumptions C27_transpose_reverses_products.
Print Assumptions C27_row_vector_product_undefined.
Print Assumptions C28_transpose.
Print Assumptions C28_extract_minor.
Print Assumptions C28_slice.
Print Assumptions C28_set.
Print Assumptions C29_determinant_leibniz.
Print Assumptions C29_determinant_product.
Print Assumptions C29_determinant_transpose.
Print Assumptions C29_determinant_identity.
Print Assumptions C29_determinant_zero_iff_singular.
Print Assumptions C30_adjugate.
Print Assumptions C31_lup_factors.
Print Assumptions C31_solve.
Print Assumptions C31_solve_failure.
Print Assumptions C31_solve_well_conditioned.
Print Assumptions C32_invert_success_partial.
Print Assumptions C32_invert_singular_partial.
Print Assumptions C32_invert_failure_partial.
Print Assumptions C32_invert_well_conditioned_partial.
Print Assumptions C32_invert_complete_refuted.
Print Assumptions C33_rotations.
Print Assumptions C33_mirrors.
Print Assumptions C33_compositions.
Print Assumptions C33_orthogonal.
Print Assumptions C33_zero_out.
