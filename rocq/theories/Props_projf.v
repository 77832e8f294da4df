(** Final theorems: projections onto lines in machine arithmetic (C119). *)
From Coq Require Import ZArith Reals List Lia Lra Bool.
From Flocq Require Import Core BinarySingleNaN.
From Verif Require Import Ops M_scalar M_vec M_geom Inst_F S_vec S_geom S_rnd S_hit S_projf P_ieee P_hit P_projf P_polyf3 P_raypoly2.
Import ListNotations.
Local Open Scope R_scope.

Section IEEE.
Variables prec emax : Z.
Context {Hprec : Prec_gt_0 prec} {Hmax : Prec_lt_emax prec emax}.
Notation fl := (binary_float prec emax).
Notation u := (unit_roundoff prec).

(** The projection is the one nearest point q of the line, up to rounding errors, and so is its distance t from the point of the line. *)
Theorem C119_projection : (20 <= prec)%Z -> (20 <= emax)%Z -> forall (l : line fl) (p : list fl) M,
  S_hit.within M (ln_point l) -> nearly_unit (ln_dir l) -> S_hit.within M p -> 1 <= M -> 16384 * (M * M) <= bpow radix2 emax ->
  exists q t, nearest (on_line (line_values l)) (values p) q /\ (forall q', nearest (on_line (line_values l)) (values p) q' -> q' = q) /\ q = rpoint (values (ln_point l)) (values (ln_dir l)) t
  /\ near (al_distance_to_projected_point (ln_point l) (ln_dir l) p) t (145 * (u * M)) /\ point_near (al_project_point (ln_point l) (ln_dir l) p) q (154 * (u * M)).
Proof. exact (project_ok prec emax). Qed.
(** The distance of the projection of a computed point of the line is the distance it was computed for, up to rounding errors. *)
Theorem C119_round_trip : (20 <= prec)%Z -> (20 <= emax)%Z -> forall (l : line fl) (s : fl) M,
  S_hit.within M (ln_point l) -> nearly_unit (ln_dir l) -> is_finite s = true -> Rabs (B2R s) <= M -> 1 <= M -> 131072 * (M * M) <= bpow radix2 emax ->
  near (al_distance_to_projected_point (ln_point l) (ln_dir l) (al_point_at_distance (ln_point l) (ln_dir l) s)) (B2R s) (106 * (u * M)).
Proof. exact (round_trip prec emax). Qed.
End IEEE.

(** The line through (1, 2, 3) in the direction (0, 0, -1) and the point (5, -2, 7) in double precision; the projection is (1, 2, 7) at the distance -4. *)
Definition post : line double := Ln (ints [1; 2; 3]%Z) (ints [0; 0; -1]%Z).
Example ex_C119_case : S_hit.within 8 (ln_point post) /\ nearly_unit (ln_dir post) /\ S_hit.within 8 (ints [5; -2; 7]%Z) /\ 131072 * (8 * 8) <= bpow radix2 1024
  /\ o_eq (al_distance_to_projected_point (ln_point post) (ln_dir post) (ints [5; -2; 7]%Z)) (cst (-4)) = true /\ v_eq (al_project_point (ln_point post) (ln_dir post) (ints [5; -2; 7]%Z)) (ints [1; 2; 7]%Z) = true.
Proof.
  split; [apply (ints_within 1 2 3); lia|]. split; [apply ints_unit; reflexivity|]. split; [apply (ints_within 5 (-2) 7); lia|]. split; [apply Rle_trans with (bpow radix2 30); [cbn; lra|apply bpow_le; lia]|].
  split; vm_cast_no_check (eq_refl true).
Qed.
Print Assumptions C119_projection.
Print Assumptions C119_round_trip.
