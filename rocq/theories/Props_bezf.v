(** Final theorems: Bezier surfaces in machine arithmetic (C122). *)
From Coq Require Import ZArith Reals List Lia Lra Bool.
From Flocq Require Import Core BinarySingleNaN.
From Verif Require Import Ops M_scalar M_vec M_approx Inst_F S_vec S_rnd S_hit S_bezier P_ieee P_polyf3 P_bezf P_bezf2.
Import ListNotations.
Local Open Scope R_scope.

Section IEEE.
Variables prec emax : Z.
Context {Hprec : Prec_gt_0 prec} {Hmax : Prec_lt_emax prec emax}.
Notation fl := (binary_float prec emax).
Notation u := (unit_roundoff prec).

(** The computed point is finite and within 27uM of the exact point of the surface, in every component. *)
Theorem C122_value : (20 <= prec)%Z -> (20 <= emax)%Z -> forall n (cp : list (list (list fl))) (a b : fl) M, is_grid n (map (map values) cp) -> Forall (Forall (fun v => all_finite v /\ Forall (fun x => Rabs x <= M) (values v))) cp ->
  is_finite a = true -> is_finite b = true -> 0 <= B2R a <= 1 -> 0 <= B2R b <= 1 -> 1 <= M -> 4 * M <= bpow radix2 emax ->
  let q := bezier_surface n cp a b in length q = n /\ all_finite q /\ forall i, (i < n)%nat -> Rabs (nth i (values q) 0 - bezier_value (map (map values) cp) (B2R a) (B2R b) i) <= 27 * (u * M).
Proof. exact (surface_near prec emax). Qed.
(** It leaves the bounding box of the control points by no more than that. *)
Theorem C122_bounding_box : (20 <= prec)%Z -> (20 <= emax)%Z -> forall n (cp : list (list (list fl))) (a b : fl) M, is_grid n (map (map values) cp) -> Forall (Forall (fun v => all_finite v /\ Forall (fun x => Rabs x <= M) (values v))) cp ->
  is_finite a = true -> is_finite b = true -> 0 <= B2R a <= 1 -> 0 <= B2R b <= 1 -> 1 <= M -> 4 * M <= bpow radix2 emax ->
  forall i l h, (i < n)%nat -> (forall j k, (j < 3)%nat -> (k < 3)%nat -> l <= nth i (control (map (map values) cp) j k) 0 <= h) ->
  l - 27 * (u * M) <= nth i (values (bezier_surface n cp a b)) 0 <= h + 27 * (u * M).
Proof. exact (surface_box prec emax). Qed.
(** The corners are interpolated without any error, whatever the size of the control points. *)
Theorem C122_corners : (2 <= prec)%Z -> forall n (cp : list (list (list fl))) (a b : fl) j k, is_grid n (map (map values) cp) -> Forall (Forall (fun v => all_finite v)) cp ->
  is_finite a = true /\ (B2R a = 0 /\ k = 0%nat \/ B2R a = 1 /\ k = 2%nat) -> is_finite b = true /\ (B2R b = 0 /\ j = 0%nat \/ B2R b = 1 /\ j = 2%nat) ->
  let q := bezier_surface n cp a b in all_finite q /\ values q = control (map (map values) cp) j k.
Proof. exact (surface_corner prec emax). Qed.
End IEEE.

(** The hypotheses are met in double precision by a patch over the square [0, 8] x [0, 8] whose middle is (4, 4, 3). *)
Example ex_C122_case : is_grid 3 (map (map values) patch) /\ Forall (Forall (fun v => all_finite v /\ Forall (fun x => Rabs x <= 8) (values v))) patch /\ is_finite half_d = true /\ 0 <= B2R half_d <= 1 /\ 4 * 8 <= bpow radix2 1024
  /\ v_eq (bezier_surface 3 patch half_d half_d) (ints [4; 4; 3]%Z) = true /\ bezier_value (map (map values) patch) (/ 2) (/ 2) 2 = 3.
Proof. exact patch_case. Qed.
Example ex_C122_corner : v_eq (bezier_surface 3 patch (cst 1) (cst 0)) (ints [8; 0; 0]%Z) = true /\ v_eq (bezier_surface 3 patch (cst 1) (cst 1)) (ints [8; 8; 0]%Z) = true.
Proof. split; vm_cast_no_check (eq_refl true). Qed.
Print Assumptions C122_value.
Print Assumptions C122_bounding_box.
Print Assumptions C122_corners.
