(** Final theorems: approx (C64), Bezier surfaces (C65), matrix comparison (C71). *)
From Coq Require Import ZArith Reals List Bool Lia Lra Arith.
From Flocq Require Import Core BinarySingleNaN.
From Verif Require Import Ops M_scalar M_vec M_mat M_geom M_approx Inst_F Inst_XR S_order S_vec S_mat S_affine S_geom S_approx S_bezier.
From Verif Require Import P_ord P_compare P_approx P_small P_bezier.
Import ListNotations.
Local Open Scope R_scope.
Notation vS := (map (@Some R)).

(** C64 over the reals: the suffix _r means that the approx is the right operand, _l the left one. *)
Theorem C64_trichotomy_reals : forall x v e, 0 <= e -> let a := Approx (Some v) (Some e) in let y := Some x : XR in
  exactly_one3 (ap_lt_r y a) (ap_eq_r y a) (ap_gt_r y a)
  /\ ap_le_r y a = ap_lt_r y a || ap_eq_r y a /\ ap_ge_r y a = ap_gt_r y a || ap_eq_r y a
  /\ ap_lt_l a y = ap_gt_r y a /\ ap_gt_l a y = ap_lt_r y a /\ ap_eq_l a y = ap_eq_r y a
  /\ ap_le_l a y = ap_ge_r y a /\ ap_ge_l a y = ap_le_r y a
  /\ ap_ne_r y a = negb (ap_eq_r y a) /\ ap_ne_l a y = negb (ap_eq_r y a).
Proof. exact X_ap_trichotomy. Qed.
Theorem C64_meaning_reals : forall x v e, 0 <= e ->
  (ap_lt_r (Some x) (Approx (Some v) (Some e)) = true <-> x < v - e)
  /\ (ap_eq_r (Some x) (Approx (Some v) (Some e)) = true <-> Rabs (x - v) <= e)
  /\ (ap_gt_r (Some x) (Approx (Some v) (Some e)) = true <-> v + e < x)
  /\ (ap_le_r (Some x) (Approx (Some v) (Some e)) = true <-> x <= v + e)
  /\ (ap_ge_r (Some x) (Approx (Some v) (Some e)) = true <-> v - e <= x).
Proof. exact X_ap_left. Qed.
Theorem C64_constructor : forall A (value : A) e, (0 <= e -> ap_make value (Some e) = Ret (Approx value (Some e)))
  /\ (e < 0 -> ap_make value (Some e) = Assert).
Proof. exact (fun A value e => conj (ap_make_ok A value e) (ap_make_negative A value e)). Qed.
Theorem C64_default_tolerance : forall A (value : A), ap_make_default value = Ret (Approx value (Some (1 / 1000))).
Proof. exact ap_default. Qed.
Theorem C64_lists_reals : forall xs vs, Forall (fun a => 0 <= ap_eps a) vs ->
  let as_ := map (fun a => Approx (Some (ap_value a)) (Some (ap_eps a))) vs in
  (apl_eq_r (map Some xs) as_ = true <-> Forall2 (fun x a => Rabs (x - ap_value a) <= ap_eps a) xs vs)
  /\ apl_eq_l as_ (map Some xs) = apl_eq_r (map Some xs) as_
  /\ apl_ne_r (map Some xs) as_ = negb (apl_eq_r (map Some xs) as_)
  /\ apl_ne_l as_ (map Some xs) = negb (apl_eq_r (map Some xs) as_).
Proof. exact X_apl_eq. Qed.
(** Vectors. Missing: that one of the three relations holds (refuted below). *)
Theorem C64_vectors_reals_partial : forall n x v e, length x = n -> length v = n -> 0 <= e ->
  let a := Approx (vS v) (Some e) in let y := vS x in
  (apv_eq_r y a = true <-> vec_within e x v)
  /\ apv_eq_l a y = apv_eq_r y a /\ apv_ne_r y a = negb (apv_eq_r y a) /\ apv_ne_l a y = negb (apv_eq_r y a)
  /\ (apv_eq_r y a = true -> apv_lt_r n y a = false /\ apv_gt_r n y a = false)
  /\ (apv_lt_r n y a = true -> apv_gt_r n y a = false)
  /\ (apv_le_r n y a = negb (apv_gt_r n y a))
  /\ (apv_le_l n a y = negb (apv_gt_l n a y))
  /\ (apv_lt_r n y a = true -> apv_le_r n y a = true) /\ (apv_eq_r y a = true -> apv_le_r n y a = true).
Proof. exact X_apv_spec. Qed.
Theorem C64_vectors_refuted : exists x v e, length x = 2%nat /\ length v = 2%nat /\ 0 <= e
  /\ let a := Approx (vS v) (Some e) in let y := vS x in
     apv_lt_r 2 y a = false /\ apv_eq_r y a = false /\ apv_gt_r 2 y a = false.
Proof. exact X_apv_trichotomy_refuted. Qed.
Theorem C64_matrices_reals : forall A B e, Forall2 (fun a b => length a = length b) A B -> 0 <= e ->
  let a := Approx (map vS B) (Some e) in let y := map vS A in
  (apm_eq_r y a = true <-> Forall2 (vec_within e) A B)
  /\ apm_eq_l a y = apm_eq_r y a /\ apm_ne_r y a = negb (apm_eq_r y a) /\ apm_ne_l a y = negb (apm_eq_r y a).
Proof. exact X_apm_spec. Qed.
Theorem C64_lines_reals : forall l m e, length (ln_point l) = length (ln_point m) -> length (ln_dir l) = length (ln_dir m) -> 0 <= e ->
  let a := Approx (line_lift m) (Some e) in
  (apn_eq_r (line_lift l) a = true <-> vec_within e (ln_point l) (ln_point m) /\ vec_within e (ln_dir l) (ln_dir m))
  /\ apn_eq_l a (line_lift l) = apn_eq_r (line_lift l) a.
Proof. exact X_apn_spec. Qed.

Section IEEE.
Variables prec emax : Z.
Context {Hprec : FLX.Prec_gt_0 prec} {Hmax : Prec_lt_emax prec emax}.
Notation fl := (binary_float prec emax).

(** C64 over IEEE numbers with the approx on the right. Missing: the approx on the left (refuted below); value and epsilon
    both infinite. *)
Theorem C64_trichotomy_partial : forall x v e : fl, ~ NaN x -> ~ NaN v -> o_le (cst 0) e = true -> is_finite v = true \/ is_finite e = true ->
  let a := Approx v e in
  exactly_one3 (ap_lt_r x a) (ap_eq_r x a) (ap_gt_r x a)
  /\ ap_le_r x a = ap_lt_r x a || ap_eq_r x a /\ ap_ge_r x a = ap_gt_r x a || ap_eq_r x a
  /\ ap_eq_l a x = ap_eq_r x a /\ ap_ne_r x a = negb (ap_eq_r x a) /\ ap_ne_l a x = negb (ap_eq_r x a).
Proof. exact (F_ap_trichotomy prec emax). Qed.
(** C71. NaN entries equal each other (C01). *)
Theorem C71_operators : forall A B : list (list fl), Forall2 (fun a b => length a = length b) A B ->
  (m_eq A B = true <-> Forall2 vec_eq A B) /\ m_ne A B = negb (m_eq A B) /\ m_is_equal A B (cst 0) = m_eq A B.
Proof. exact m_operators. Qed.
End IEEE.
Theorem C64_operand_orders_refuted : exists x v e : double, is_finite x = true /\ is_finite v = true /\ o_le (cst 0) e = true
  /\ ap_lt_r x (Approx v e) = true
  /\ ap_lt_l (Approx v e) x = false /\ ap_eq_l (Approx v e) x = false /\ ap_gt_l (Approx v e) x = false.
Proof. exact ap_orders_refuted. Qed.
Theorem C71_is_equal_reals : forall A B e, Forall2 (fun a b => length a = length b) A B -> 0 <= e ->
  (m_is_equal (map vS A) (map vS B) (Some e) = true <-> Forall2 (vec_within e) A B).
Proof. exact X_m_is_equal. Qed.

(** C65 *)
Theorem C65_value : forall n cp u v, is_grid n cp ->
  exists q, bezier_surface n (map (map vS) cp) (Some u) (Some v) = vS q /\ length q = n
    /\ forall i, nth i q 0 = bezier_value cp u v i.
Proof. exact bezier_is_value. Qed.
Theorem C65_weights : forall u v, sum3 (fun j => sum3 (fun k => bern j v * bern k u)) = 1
  /\ (0 <= u <= 1 -> 0 <= v <= 1 -> forall j k, 0 <= bern j v * bern k u).
Proof.
  intros u v. split.
  - unfold sum3. cbn [bern]. ring.
  - intros U V j k. apply Rmult_le_pos; now apply bern_nonneg.
Qed.
Theorem C65_corners : forall n cp, is_grid n cp ->
  bezier_surface n (map (map vS) cp) (Some 0) (Some 0) = vS (control cp 0 0)
  /\ bezier_surface n (map (map vS) cp) (Some 1) (Some 0) = vS (control cp 0 2)
  /\ bezier_surface n (map (map vS) cp) (Some 0) (Some 1) = vS (control cp 2 0)
  /\ bezier_surface n (map (map vS) cp) (Some 1) (Some 1) = vS (control cp 2 2).
Proof. exact bezier_corners. Qed.
Theorem C65_convex_hull : forall n cp u v a k, is_grid n cp -> 0 <= u <= 1 -> 0 <= v <= 1 -> length a = n ->
  (forall i j, (i < 3)%nat -> (j < 3)%nat -> rdot a (control cp i j) <= k) ->
  exists q, bezier_surface n (map (map vS) cp) (Some u) (Some v) = vS q /\ rdot a q <= k.
Proof. exact bezier_half_space. Qed.
Theorem C65_bounding_box : forall n cp u v lo hi, is_grid n cp -> 0 <= u <= 1 -> 0 <= v <= 1 ->
  (forall i j, (i < 3)%nat -> (j < 3)%nat -> in_box (control cp i j) lo hi) ->
  exists q, bezier_surface n (map (map vS) cp) (Some u) (Some v) = vS q /\ in_box q lo hi.
Proof. exact bezier_in_box. Qed.
Theorem C65_affine : forall n M cp u v, is_grid n cp ->
  exists q, bezier_surface n (map (map vS) cp) (Some u) (Some v) = vS q
    /\ bezier_surface n (map (map vS) (map (map (raffine n M)) cp)) (Some u) (Some v) = vS (raffine n M q).
Proof. exact bezier_affine. Qed.

(** ** Instances *)
Example ex_C64 : let a := Approx (Some 1) (Some (/ 4)) : approx XR XR in
  ap_eq_r (Some (1 + / 8)) a = true /\ ap_lt_r (Some (/ 2)) a = true /\ ap_gt_r (Some 2) a = true.
Proof.
  destruct (X_ap_left (1 + / 8) 1 (/ 4)) as (_ & E & _); [ lra | ]. destruct (X_ap_left (/ 2) 1 (/ 4)) as (L & _); [ lra | ].
  destruct (X_ap_left 2 1 (/ 4)) as (_ & _ & G & _); [ lra | ]. cbv zeta. split; [ apply E, Rabs_le; lra | split; [ apply L; lra | apply G; lra ] ].
Qed.
Example ex_C64_double : exists x v e : double, ~ NaN x /\ ~ NaN v /\ o_le (cst 0) e = true /\ is_finite v = true
  /\ ap_eq_r x (Approx v e) = true /\ ap_eq_r v (Approx x (D 1 (-20))) = false.
Proof.
  exists (D 1 0), (D 17 (-4)), (D 1 (-4)). assert (N : forall x : double, o_eq x x = true -> ~ NaN x) by (unfold NaN; congruence).
  split; [ apply N; vm_compute; reflexivity | ]. split; [ apply N; vm_compute; reflexivity | ]. repeat split; vm_compute; reflexivity.
Qed.
Example ex_C64_vectors : let a := Approx (vS [1; 2]) (Some (/ 4)) in
  apv_eq_r (vS [1 + / 8; 2 - / 8]) a = true /\ apv_lt_r 2 (vS [0; 7]) a = true.
Proof.
  cbv zeta. split.
  - apply (X_apv_spec 2 [1 + / 8; 2 - / 8] [1; 2] (/ 4)); try reflexivity; [ lra | ]. repeat (apply Forall2_cons; [ apply Rabs_le; lra | ]). apply Forall2_nil.
  - unfold apv_lt_r, v_lt. cbn [ap_value ap_eps]. rewrite X_sub_fill by reflexivity. cbn [map]. rewrite v_compare_cons, X_ccmp.
    rewrite Flocq.Core.Raux.Rcompare_Lt by lra. reflexivity.
Qed.
Example ex_C65 : exists cp, is_grid 3 cp /\ bezier_value cp (/ 2) (/ 2) 2 = / 4 * 4.
Proof.
  exists [[[0;0;0]; [1;0;0]; [2;0;0]]; [[0;1;0]; [1;1;4]; [2;1;0]]; [[0;2;0]; [1;2;0]; [2;2;0]]]. split.
  - split; [ reflexivity | ]. repeat constructor.
  - unfold bezier_value, sum3, control. cbn [nth bern]. lra.
Qed.
Example ex_C71 : exists A B : list (list double), Forall2 (fun a b => length a = length b) A B /\ m_eq A A = true /\ m_eq A B = false.
Proof.
  exists [[D 1 0; D 2 0]; [D 3 0; D 4 0]], [[D 1 0; D 2 0]; [D 3 0; D 5 0]]. split; [ repeat constructor | ]. split; vm_compute; reflexivity.
Qed.
Print Assumptions C64_trichotomy_reals.
Print Assumptions C64_meaning_reals.
Print Assumptions C64_constructor.
Print Assumptions C64_default_tolerance.
Print Assumptions C64_lists_reals.
Print Assumptions C64_vectors_reals_partial.
Print Assumptions C64_vectors_refuted.
Print Assumptions C64_matrices_reals.
Print Assumptions C64_lines_reals.
Print Assumptions C64_trichotomy_partial.
Print Assumptions C71_operators.
Print Assumptions C64_operand_orders_refuted.
Print Assumptions C71_is_equal_reals.
Print Assumptions C65_value.
Print Assumptions C65_weights.
Print Assumptions C65_corners.
Print Assumptions C65_convex_hull.
Print Assumptions C65_bounding_box.
Print Assumptions C65_affine.
