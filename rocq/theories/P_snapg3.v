(** Normalizing angles on grids. *)
From Coq Require Import ZArith Reals List Lia Lra Bool Psatz.
From Flocq Require Import Core BinarySingleNaN.
From Verif Require Import Ops M_scalar M_vec Inst_F Inst_XR S_vec S_mat S_rnd S_grid P_ieee P_round P_xr P_scalar_xr P_vec P_fp P_grid P_grid2 P_grid3 P_snapg P_snapg2.
Import ListNotations.
Local Open Scope R_scope.

Section Grid.
Variables prec emax : Z.
Context {Hprec : Prec_gt_0 prec} {Hmax : Prec_lt_emax prec emax}.
Notation fl := (binary_float prec emax).
Notation fits := (representable prec emax).
Notation rel := (rel prec emax).
Hypothesis P3 : (9 <= prec <= 63)%Z.
Hypothesis EM : (prec + 2 <= emax)%Z.

Lemma rel_size : forall e K x a, rel e K x a -> exists r, a = Some r /\ Rabs r <= IZR K * bpow radix2 e /\ B2R x = r.
Proof.
  intros e K x a [[F (k & V & B)] ->]. exists (B2R x). split; auto. split; auto. rewrite V, Rabs_mult, (Rabs_pos_eq (bpow _ _)) by apply bpow_ge_0.
  apply Rmult_le_compat_r; [apply bpow_ge_0|]. rewrite <- abs_IZR. now apply IZR_le.
Qed.
Lemma wrap_X : forall e K (p : fl) q, rel e K p q -> 0 < B2R p -> fits e (2 * K) ->
  forall fuel (x : fl) a, rel e K x a -> orel (rel e K) (wrap_up fuel x p) (wrap_up fuel a q).
Proof.
  intros e K p q Rp Pp HF fuel. induction fuel as [|fuel IH]; intros x a R; cbn [wrap_up].
  - rewrite (rel_lt prec emax _ _ _ _ _ _ _ _ R (rel_zero prec emax e 0 ltac:(lia))). destruct (o_lt a (cst 0)); [exact I|exact R].
  - rewrite (rel_lt prec emax _ _ _ _ _ _ _ _ R (rel_zero prec emax e 0 ltac:(lia))). destruct (o_lt a (cst 0)) eqn:L; [|exact R]. apply IH.
    assert (S := rel_add prec emax e K K x p a q R Rp ltac:(replace (K + K)%Z with (2 * K)%Z by lia; exact HF)).
    apply (rel_tight prec emax _ _ _ _ _ S).
    destruct (rel_size _ _ _ _ R) as (r & -> & Br & Vr). destruct (rel_size _ _ _ _ Rp) as (s & -> & Bs & Vs). destruct (rel_size _ _ _ _ S) as (t & Et & _ & ->).
    cbn in Et. injection Et as <-. change (o_lt (Some r) (cst 0)) with (Rlt_bool r 0) in L. revert L. case Rlt_bool_spec; [intros L _|discriminate].
    rewrite Vs in Pp. rewrite Rabs_left in Br by lra. rewrite Rabs_pos_eq in Bs by lra. apply Rabs_le. lra.
Qed.
Theorem degrees_grid : forall e K (a : fl), on_grid e K a -> (e <= 3)%Z -> (45 * 2 ^ (3 - e) <= K)%Z -> fits e (2 * K) ->
  exists (r : fl) (k : Z) (n : nat), on_grid e K r /\ 0 <= B2R r < 360 /\ B2R a = IZR k * 360 + B2R r
    /\ forall fuel, (n <= fuel)%nat -> sc_normalize_degrees fuel a = Ret r.
Proof.
  intros e K a G He HK HF. assert (P9 : (2 ^ 9 <= 2 ^ prec)%Z) by (apply Z.pow_le_mono_r; lia).
  destruct (F_cst prec emax 360) as [F1 B1]; [simpl in *; lia|].
  assert (G1 : on_grid e K (cst 360 : fl)).
  { split; auto. exists (45 * 2 ^ (3 - e))%Z. split; [|rewrite Z.abs_eq; [exact HK|]; assert (0 <= 2 ^ (3 - e))%Z by (apply Z.pow_nonneg; lia); lia].
    rewrite B1, mult_IZR. change 2%Z with (radix_val radix2). rewrite (IZR_Zpower radix2) by lia. rewrite Rmult_assoc, <- bpow_plus. replace (3 - e + e)%Z with 3%Z by lia. simpl. lra. }
  assert (KS : (2 * K < 2 ^ prec)%Z) by apply HF.
  assert (SZ : Rabs (B2R a) <= IZR K * bpow radix2 e) by (destruct (rel_size e K a (Some (B2R a)) (conj G eq_refl)) as (r & E & B & V); injection E as E; rewrite E; exact B).
  (* the number of steps *)
  destruct (INR_above (- B2R a / 360)) as [n Hn]. assert (Hn' : - 360 * INR n <= B2R a) by lra.
  destruct (X_wrap_up 360 ltac:(lra) n (B2R a) Hn') as (j & EX & B & U & Z0).
  assert (C360 : (cst 360 : XR) = Some 360) by reflexivity.
  assert (TR : forall fuel, (n <= fuel)%nat -> exists x, wrap_up fuel a (cst 360) = Ret x /\ rel e K x (Some (B2R a + 360 * INR j))).
  { intros fuel Hf. assert (W := wrap_X e K (cst 360) (Some (B2R (cst 360 : fl))) (conj G1 eq_refl) ltac:(rewrite B1; lra) HF fuel a (Some (B2R a)) (conj G eq_refl)).
    rewrite B1 in W. rewrite (X_wrap_mono _ n fuel _ _ Hf EX) in W. destruct (wrap_up fuel a (cst 360)) as [x| | |]; try contradiction. now exists x. }
  assert (UN : forall m x, wrap_up m a (cst 360 : fl) = Ret x -> forall fuel, (m <= fuel)%nat -> wrap_up fuel a (cst 360) = Ret x).
  { intros m. generalize a. induction m as [|m IH]; intros b x E fuel Hf.
    - destruct fuel; cbn [wrap_up] in *; destruct (o_lt b (cst 0)); auto; discriminate.
    - destruct fuel as [|fuel]; [lia|]. cbn [wrap_up] in *. destruct (o_lt b (cst 0)); auto. apply IH; auto. lia. }
  destruct (TR n (Nat.le_refl n)) as (x & Ex & Rx). assert (Vx : B2R x = B2R a + 360 * INR j) by (destruct Rx as [_ Rx]; injection Rx as Rx; auto).
  destruct (mod_grid prec emax ltac:(lia) EM e K x (cst 360) (proj1 Rx) G1 ltac:(rewrite B1; lra) HF) as (r & k & Er & Gr & Ek & Br & Sr).
  exists r, (k - Z.of_nat j)%Z, n. rewrite B1 in *. rewrite Vx in *. rewrite (Rabs_pos_eq 360) in Br by lra. apply Rabs_def2 in Br. split; [exact Gr|].
  assert (R0 : 0 <= B2R r).
  { destruct (Rle_or_lt 0 (B2R r)) as [|Q]; auto. exfalso. assert (Z1 : B2R a + 360 * INR j = 0) by nra. assert (W : IZR k * 360 = - B2R r) by lra.
    assert (0 < IZR k) by nra. assert (IZR k < 1) by nra. apply (lt_IZR 0) in H. apply (lt_IZR _ 1) in H0. lia. }
  split; [lra|]. split; [rewrite minus_IZR, <- INR_IZR_INZ; lra|].
  intros fuel Hf. unfold sc_normalize_degrees. rewrite (UN n x Ex fuel Hf). exact Er.
Qed.
End Grid.
