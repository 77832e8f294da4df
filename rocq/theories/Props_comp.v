(** Final statements: C76, C77, C78. Vocabulary: S_comp, S_order. *)
From Coq Require Import ZArith Reals List Bool Lia Lra.
From Flocq Require Import Core BinarySingleNaN.
From Verif Require Import Ops M_scalar M_vec M_mat Inst_F Inst_XR S_order S_comp P_comp.
Import ListNotations.
Local Open Scope R_scope.
Notation vS := (map (@Some R)).
Notation mS := (map (map (@Some R))).

(** C76. Any component type. *)
Theorem C76_functions : forall (T : Type) (o : ops T) (v : list T),
  all_components sc_abs v (v_abs v) /\ all_components sc_sign v (v_sign v) /\ all_components o_neg v (v_neg v)
  /\ forall x, all_components (fun c => o_div x c) v (v_s_div x v) /\ all_components (fun c => o_div c x) v (v_div_s v x)
     /\ all_components (fun c => o_mul c x) v (v_scale v x) /\ all_components (fun c => o_mul c x) v (v_scale_l x v).
Proof. exact @vec_functions. Qed.
Theorem C76_functions2 : forall (T : Type) (o : ops T) (v w : list T), length v = length w ->
  all_components2 o_add v w (v_add v w) /\ all_components2 o_sub v w (v_sub v w)
  /\ all_components2 o_mul v w (v_mul v w) /\ all_components2 o_div v w (v_div v w)
  /\ all_components2 (fun x y => sc_min x [y]) v w (v_min v w) /\ all_components2 (fun x y => sc_max x [y]) v w (v_max v w)
  /\ all_components2 (fun x y => sc_abs_min x [y]) v w (v_abs_min v w) /\ all_components2 (fun x y => sc_abs_max x [y]) v w (v_abs_max v w)
  /\ all_components2 sc_step v w (v_step v w).
Proof. exact @vec_functions2. Qed.
Theorem C76_functions3 : forall (T : Type) (o : ops T) (u v w : list T), length u = length v -> length v = length w ->
  (length (v_smoothstep u v w) = length u /\ forall i x y z, component u i x -> component v i y -> component w i z ->
     component (v_smoothstep u v w) i (sc_smoothstep x y z))
  /\ (length (v_mix u v w) = length u /\ forall i x y z, component u i x -> component v i y -> component w i z ->
     component (v_mix u v w) i (sc_mix x y z)).
Proof. exact @vec_functions3. Qed.
(** min, max, abs_min, abs_max of more than two vectors. *)
Theorem C76_variadic : forall (T : Type) (o : ops T) (f : T -> list T -> T) v rest, length (v_variadic f v rest) = length v
  /\ forall i x ys, component v i x -> Forall2 (fun r y => component r i y) rest ys -> component (v_variadic f v rest) i (f x ys).
Proof. exact @vec_variadic. Qed.
(** Functions with a conversion to an integer may have undefined behaviour; the vector functions have it exactly
    where the scalar ones have it for some component. *)
Theorem C76_rounding : forall (T : Type) (o : ops T) (v : list T),
  componentwise sc_floor v (v_floor v) /\ componentwise sc_ceil v (v_ceil v) /\ componentwise sc_trunc v (v_trunc v)
  /\ componentwise sc_round v (v_round v) /\ componentwise sc_fract v (v_fract v)
  /\ forall decimals epsilon, componentwise (fun x => sc_correct x decimals epsilon) v (v_correct v decimals epsilon).
Proof. exact @vec_partial_functions. Qed.
Theorem C76_rounding2 : forall (T : Type) (o : ops T) (v m : list T), length v = length m ->
  componentwise2 sc_snap v m (v_snap v m) /\ componentwise2 sc_snap_up v m (v_snap_up v m)
  /\ componentwise2 sc_snap_down v m (v_snap_down v m) /\ componentwise2 sc_mod v m (v_mod v m).
Proof. exact @vec_partial_functions2. Qed.
Example C76_ex : v_abs [Some (-3); Some 2] = vS [3; 2] /\ component (vS [-3; 2]) 0 (Some (-3)).
Proof. split; [|reflexivity]. unfold v_abs. cbn [map]. rewrite !P_xr.X_abs, Rabs_left, Rabs_pos_eq by lra. do 2 f_equal. ring. Qed.

(** C77 *)
Theorem C77_is_nan : forall (T : Type) (o : ops T) (v : list T), v_is_nan v = true <-> Exists NaN v.
Proof. exact @v_is_nan_iff. Qed.
Theorem C77_is_zero : forall a e, 0 <= e -> (v_is_zero (vS a) (Some e) = true <-> Forall (fun x => Rabs x <= e) a).
Proof. exact X_v_is_zero. Qed.
Theorem C77_matrix_is_zero : forall m e, 0 <= e -> (m_is_zero (mS m) (Some e) = true <-> Forall (Forall (fun x => Rabs x <= e)) m).
Proof. exact X_m_is_zero. Qed.
Theorem C77_is_integral : forall a e, Forall (fun x => Rabs x < IZR (2 ^ 63) - 1) a ->
  exists b, v_is_integral (vS a) (Some e) = Ret b /\ (b = true <-> Forall (fun x => exists z, Rabs (x - IZR z) <= e) a).
Proof. exact X_is_integral. Qed.
Example C77_ex : Forall (fun x => Rabs x < IZR (2 ^ 63) - 1) [3; -5 + / 2048] /\ Forall (fun x => exists z, Rabs (x - IZR z) <= / 1000) [3; -5 + / 2048]
  /\ v_is_nan [Bone : double; B754_nan] = true.
Proof.
  split; [|split; [|reflexivity]].
  - repeat constructor; apply Rabs_def1; simpl; lra.
  - constructor; [exists 3%Z|constructor; [exists (-5)%Z|constructor]]; apply Rabs_le; simpl; lra.
Qed.

(** C78. Any component type. *)
Theorem C78_fill : forall (T : Type) (n : nat) (x : T), length (v_fill n x) = n /\ forall i, (i < n)%nat -> component (v_fill n x) i x.
Proof. exact @v_fill_spec. Qed.
Theorem C78_init_list : forall (T : Type) (o : ops T) n (l : list T), length (v_init_list n l) = n /\ forall i x, (i < n)%nat ->
  (component l i x -> component (v_init_list n l) i x) /\ ((length l <= i)%nat -> component (v_init_list n l) i (cst 0)).
Proof. exact @pad_spec. Qed.
Theorem C78_convert : forall (T : Type) (o : ops T) U (conv : U -> T) n (l : list U), length (v_convert conv n l) = n /\ forall i x, (i < n)%nat ->
  (component l i x -> component (v_convert conv n l) i (conv x)) /\ ((length l <= i)%nat -> component (v_convert conv n l) i (cst 0)).
Proof. exact @v_convert_spec. Qed.
Theorem C78_extend : forall (T : Type) U (conv : U -> T) (l : list U) args, let v := v_extend conv l args in
  length v = (length l + length args)%nat
  /\ (forall i x, component l i x -> component v i (conv x)) /\ forall i x, component args i x -> component v (length l + i) x.
Proof. exact @v_extend_spec. Qed.
Theorem C78_slice : forall (T : Type) n (v : list T) k, (n <= length v)%nat ->
  ((k + n <= length v)%nat -> exists w, v_slice n v k = Ret w /\ length w = n
     /\ forall i x, (i < n)%nat -> component v (k + i) x -> component w i x)
  /\ ((length v < k + n)%nat -> v_slice n v k = Assert).
Proof. exact @v_slice_spec. Qed.
Theorem C78_xyz : forall (T : Type) (o : ops T) (v : list T), (3 <= length v)%nat ->
  length (v_xyz v) = 3%nat /\ forall i x, (i < 3)%nat -> component v i x -> component (v_xyz v) i x.
Proof. exact @v_xyz_spec. Qed.
Theorem C78_matrix_convert : forall (T U : Type) (conv : U -> T) (m : list (list U)), all_components (map conv) m (m_convert conv m)
  /\ forall c r col x, component m c col -> component col r x -> exists col', component (m_convert conv m) c col' /\ component col' r (conv x).
Proof. exact @m_convert_spec. Qed.
Example C78_ex : v_init_list 3 (vS [1; 2]) = vS [1; 2; 0] /\ v_slice 2 [1; 2; 3]%Z 1 = Ret [2; 3]%Z /\ v_slice 2 [1; 2; 3]%Z 2 = Assert.
Proof. repeat split. Qed.

Print Assumptions C76_functions.
Print Assumptions C76_functions2.
Print Assumptions C76_functions3.
Print Assumptions C76_variadic.
Print Assumptions C76_rounding.
Print Assumptions C76_rounding2.
Print Assumptions C77_is_nan.
Print Assumptions C77_is_zero.
Print Assumptions C77_matrix_is_zero.
Print Assumptions C77_is_integral.
Print Assumptions C78_fill.
Print Assumptions C78_init_list.
Print Assumptions C78_convert.
Print Assumptions C78_extend.
Print Assumptions C78_slice.
Print Assumptions C78_xyz.
Print Assumptions C78_matrix_convert.
