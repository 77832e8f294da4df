(** The real numbers as a field of the Mathematical Components library, and the determinant as the
    Leibniz sum over all permutations. *)
From mathcomp Require Import all_ssreflect all_algebra perm.
From Coq Require Import Reals List ClassicalEpsilon FunctionalExtensionality Lra.
Set Implicit Arguments.
Unset Strict Implicit.
Unset Printing Implicit Defensive.

Definition eqr (x y : R) : bool := if Req_EM_T x y then true else false.
Lemma eqrP : Equality.axiom eqr.
Proof. move=> x y; rewrite /eqr; case: Req_EM_T => H; by constructor. Qed.
Canonical R_eqMixin := EqMixin eqrP.
Canonical R_eqType := Eval hnf in EqType R R_eqMixin.

Definition pickR (P : pred R) (n : nat) : option R :=
  match excluded_middle_informative (exists x, P x) with
  | left H => Some (proj1_sig (constructive_indefinite_description _ H))
  | right _ => None
  end.
Lemma pickR_some P n x : pickR P n = Some x -> P x.
Proof.
  rewrite /pickR; case: excluded_middle_informative => // H [<-].
  by case: constructive_indefinite_description.
Qed.
Lemma pickR_ex (P : pred R) : (exists x : R, P x) -> exists n, pickR P n.
Proof. by move=> H; exists 0%N; rewrite /pickR; case: excluded_middle_informative. Qed.
Lemma pickR_ext (P Q : pred R) : P =1 Q -> pickR P =1 pickR Q.
Proof. by move=> H; have -> : P = Q by apply: functional_extensionality. Qed.
Definition R_choiceMixin := Choice.Mixin pickR_some pickR_ex pickR_ext.
Canonical R_choiceType := Eval hnf in ChoiceType R R_choiceMixin.

Lemma RaddA : associative Rplus. Proof. by move=> x y z; rewrite Rplus_assoc. Qed.
Definition R_zmodMixin := ZmodMixin RaddA Rplus_comm Rplus_0_l Rplus_opp_l.
Canonical R_zmodType := Eval hnf in ZmodType R R_zmodMixin.
Lemma RmulA : associative Rmult. Proof. by move=> x y z; rewrite Rmult_assoc. Qed.
Lemma R1_neq0 : R1 != R0. Proof. by apply/eqP; exact: R1_neq_R0. Qed.
Definition R_ringMixin := ComRingMixin RmulA Rmult_comm Rmult_1_l Rmult_plus_distr_r R1_neq0.
Canonical R_ringType := Eval hnf in RingType R R_ringMixin.
Canonical R_comRingType := Eval hnf in ComRingType R Rmult_comm.
Definition Rinvx (x : R) : R := if x == R0 then R0 else Rinv x.
Lemma Rinvx_l : forall x : R, x != 0%R -> (Rinvx x * x)%R = 1%R.
Proof.
  move=> x H; rewrite /Rinvx (negbTE H). apply: Rinv_l. by apply/eqP.
Qed.
Lemma Rinvx_0 : Rinvx R0 = R0.
Proof. by rewrite /Rinvx eqxx. Qed.
Definition R_unitRingMixin := FieldUnitMixin Rinvx_l Rinvx_0.
Canonical R_unitRingType := Eval hnf in UnitRingType R R_unitRingMixin.
Canonical R_comUnitRingType := Eval hnf in [comUnitRingType of R].
Lemma R_fieldP : GRing.Field.mixin_of R_unitRingType.
Proof. by move=> x H; rewrite qualifE /= H. Qed.
Canonical R_idomainType := Eval hnf in IdomainType R (FieldIdomainMixin R_fieldP).
Canonical R_fieldType := Eval hnf in FieldType R R_fieldP.

Import GRing.Theory.
Delimit Scope ring_scope with ring.
Local Open Scope ring_scope.


(** The sum over all permutations s of {0, ..., n-1} of sign(s) * a(0,s(0)) * ... * a(n-1,s(n-1)). *)
Definition leibniz (n : nat) (a : nat -> nat -> R) : R :=
  \sum_(s : 'S_n) (-1) ^+ s * \prod_(i < n) a i (s i).
