(** Operators that only rearrange other ones. *)
From Coq Require Import ZArith Reals List Bool Lia Lra.
From Flocq Require Import Core.
From Verif Require Import Ops M_scalar M_vec M_quat M_approx Inst_XR S_quat P_xr P_approx.
Import ListNotations.
Local Open Scope R_scope.

(** [operator*] with a scalar scales the real part only, from both sides. *)
Lemma quat_scalar : forall q s, is_quat q -> q_pos (qlift q) = qlift q
  /\ q_scale (qlift q) (Some s) = qlift (Q (s * q_r q) (q_v q)) /\ q_scale_l (Some s) (qlift q) = q_scale (qlift q) (Some s).
Proof.
  intros [r v] s _. unfold q_pos, q_scale, q_scale_l, qlift. cbn [q_r q_v]. split; [reflexivity|]. cbn [o_mul XRops X2].
  split; [|reflexivity || now rewrite (Rmult_comm s)]; now rewrite ?(Rmult_comm s).
Qed.
(** The tolerance is 1/1000 if none is given. *)
Lemma ap_default : forall A (value : A), ap_make_default value = Ret (Approx value (Some (1 / 1000))).
Proof.
  intros A value. unfold ap_make_default. replace (almost_zero : XR) with (Some (1 / 1000) : XR).
  - apply ap_make_ok. lra.
  - unfold almost_zero. rewrite X_lit by lia. reflexivity.
Qed.
