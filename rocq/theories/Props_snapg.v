(** Final theorems: snapping, remainders, fractional parts and angles in machine arithmetic (C99). *)
From Coq Require Import ZArith Reals List Lia Lra Bool.
From Flocq Require Import Core BinarySingleNaN.
From Verif Require Import Ops M_scalar M_vec Inst_F S_vec S_rnd S_grid P_ieee P_fp5 P_grid6 P_snapg P_snapg2 P_snapg3.
Import ListNotations.
Local Open Scope R_scope.

Section IEEE.
Variables prec emax : Z.
Context {Hprec : Prec_gt_0 prec} {Hmax : Prec_lt_emax prec emax}.
Notation fl := (binary_float prec emax).
Notation fits := (representable prec emax).
Hypothesis P3 : (3 <= prec <= 63)%Z.
Hypothesis EM : (prec + 2 <= emax)%Z.

(** C99: numbers and cell sizes that are integer multiples of one power of two; the cell size itself need not be a power of two. *)
Theorem C99_snap : forall e K (v g : fl), on_grid e K v -> on_grid e K g -> B2R g <> 0 -> fits e (2 * K) ->
  exists s (k : Z), sc_snap v g = Ret s /\ on_grid e (2 * K) s /\ B2R s = B2R g * IZR k
    /\ Rabs (B2R v - B2R s) <= Rabs (B2R g) / 2 /\ (forall k' : Z, Rabs (B2R v - B2R s) <= Rabs (B2R v - B2R g * IZR k')).
Proof. exact (snap_grid prec emax P3 EM). Qed.
Theorem C99_snap_up : forall e K (v g : fl), on_grid e K v -> on_grid e K g -> 0 < B2R g -> fits e (2 * K) ->
  exists s (k : Z), sc_snap_up v g = Ret s /\ on_grid e (2 * K) s /\ B2R s = B2R g * IZR k
    /\ 0 <= B2R v * B2R s /\ Rabs (B2R v) <= Rabs (B2R s) < Rabs (B2R v) + B2R g.
Proof. exact (fun e K v g Gv Gg P F => snap_up_grid prec emax P3 EM e K v g Gv Gg (Rgt_not_eq _ _ P) F P). Qed.
Theorem C99_snap_down : forall e K (v g : fl), on_grid e K v -> on_grid e K g -> 0 < B2R g -> fits e (2 * K) ->
  exists s (k : Z), sc_snap_down v g = Ret s /\ on_grid e (2 * K) s /\ B2R s = B2R g * IZR k
    /\ 0 <= B2R v * B2R s /\ Rabs (B2R s) <= Rabs (B2R v) < Rabs (B2R s) + B2R g.
Proof. exact (fun e K v g Gv Gg P F => snap_down_grid prec emax P3 EM e K v g Gv Gg (Rgt_not_eq _ _ P) F P). Qed.
Theorem C99_snap_idempotent : forall e K (v g s : fl), on_grid e K v -> on_grid e K g -> 0 < B2R g -> fits e (4 * K) ->
  (sc_snap v g = Ret s -> exists t, sc_snap s g = Ret t /\ exactly t (B2R s))
  /\ (sc_snap_up v g = Ret s -> exists t, sc_snap_up s g = Ret t /\ exactly t (B2R s))
  /\ (sc_snap_down v g = Ret s -> exists t, sc_snap_down s g = Ret t /\ exactly t (B2R s)).
Proof.
  exact (fun e K v g s Gv Gg P F => conj (snap_twice prec emax P3 EM e K v g s Gv Gg (Rgt_not_eq _ _ P) F)
    (conj (snap_up_twice prec emax P3 EM e K v g s Gv Gg P F) (snap_down_twice prec emax P3 EM e K v g s Gv Gg P F))).
Qed.
Theorem C99_mod : forall e K (x y : fl), on_grid e K x -> on_grid e K y -> B2R y <> 0 -> fits e (2 * K) ->
  exists r (k : Z), sc_mod x y = Ret r /\ on_grid e K r /\ B2R x = IZR k * B2R y + B2R r /\ Rabs (B2R r) < Rabs (B2R y) /\ 0 <= B2R r * B2R x.
Proof. exact (mod_grid prec emax P3 EM). Qed.
(** Every angle on a grid of whole degrees or of fractions of degrees by a power of two; the loop takes at most n rounds. *)
Theorem C99_normalize_degrees : (9 <= prec)%Z -> forall e K (a : fl), on_grid e K a -> (e <= 3)%Z -> (45 * 2 ^ (3 - e) <= K)%Z -> fits e (2 * K) ->
  exists (r : fl) (k : Z) (n : nat), on_grid e K r /\ 0 <= B2R r < 360 /\ B2R a = IZR k * 360 + B2R r
    /\ forall fuel, (n <= fuel)%nat -> sc_normalize_degrees fuel a = Ret r.
Proof. exact (fun P9 => degrees_grid prec emax (conj P9 (proj2 P3)) EM). Qed.
End IEEE.

(** C99: the fractional part of any number is exact. *)
Theorem C99_fract : forall prec emax {Hprec : Prec_gt_0 prec} {Hmax : Prec_lt_emax prec emax} (v : binary_float prec emax),
  is_finite v = true -> - IZR (2 ^ 63) - 1 < B2R v < IZR (2 ^ 63) ->
  exists r (z : Z), sc_fract v = Ret r /\ is_finite r = true /\ B2R v = IZR z + B2R r /\ Rabs (B2R r) < 1 /\ 0 <= B2R r * B2R v.
Proof. exact (fun prec emax Hprec Hmax v F H => fract_ieee prec emax v F ltac:(unfold i64_range; rewrite bpow63; exact H)). Qed.

Example ex_C99 : on_grid 0 4000 (cst 1001 : double) /\ on_grid 0 4000 (cst 3 : double) /\ on_grid 0 4000 (cst (-725) : double) /\ 0 < B2R (cst 3 : double)
  /\ representable 53 1024 0 (4 * 4000) /\ (45 * 2 ^ (3 - 0) <= 4000)%Z.
Proof.
  split; [apply ex_on_grid; lia|]. split; [apply ex_on_grid; lia|]. split; [apply ex_on_grid; lia|]. split; [rewrite (proj2 (cst_double 3 ltac:(lia))); lra|].
  split; [unfold representable; lia|simpl; lia].
Qed.
Example ex_C99_values : match sc_snap (cst 1001 : double) (cst 3), sc_normalize_degrees 3 (cst (-725) : double), sc_mod (cst (-725) : double) (cst 360), sc_fract (D (-11) (-2)) with
  | Ret s, Ret a, Ret m, Ret f => Beqb s (cst 1002) && Beqb a (cst 355) && Beqb m (cst (-5)) && Beqb f (D (-3) (-2)) | _, _, _, _ => false end = true.
Proof. vm_compute. reflexivity. Qed.
Print Assumptions C99_snap.
Print Assumptions C99_snap_up.
Print Assumptions C99_snap_down.
Print Assumptions C99_snap_idempotent.
Print Assumptions C99_mod.
Print Assumptions C99_normalize_degrees.
Print Assumptions C99_fract.
