(** Snapping twice, fractional parts and angles on grids. *)
From Coq Require Import ZArith Reals List Lia Lra Bool Psatz.
From Flocq Require Import Core BinarySingleNaN.
From Verif Require Import Ops M_scalar M_vec Inst_F Inst_XR S_vec S_mat S_rnd S_grid P_ieee P_round P_xr P_scalar_xr P_vec P_fp P_grid P_grid3 P_snapg.
Import ListNotations.
Local Open Scope R_scope.

Section Grid.
Variables prec emax : Z.
Context {Hprec : Prec_gt_0 prec} {Hmax : Prec_lt_emax prec emax}.
Notation fl := (binary_float prec emax).
Notation fits := (representable prec emax).
Notation rel := (rel prec emax).
Hypothesis P3 : (3 <= prec <= 63)%Z.
Hypothesis EM : (prec + 2 <= emax)%Z.

Lemma weak_grid : forall e K K' (x : fl), on_grid e K x -> (K <= K')%Z -> on_grid e K' x.
Proof. intros e K K' x [F (k & V & B)] H. split; auto. exists k. split; auto. lia. Qed.
Lemma grid_nonneg : forall e K (x : fl), on_grid e K x -> (0 <= K)%Z.
Proof. intros e K x [_ (k & _ & B)]. lia. Qed.

Theorem snap_twice : forall e K (v g s : fl), on_grid e K v -> on_grid e K g -> B2R g <> 0 -> fits e (4 * K) -> sc_snap v g = Ret s ->
  exists t, sc_snap s g = Ret t /\ exactly t (B2R s).
Proof.
  intros e K v g s Gv Gg Ng HF E. assert (K0 := grid_nonneg _ _ _ Gv).
  destruct (snap_grid prec emax P3 EM e K v g Gv Gg Ng) as (s' & k & E1 & G1 & V1 & _); [apply (fits_le prec emax _ _ _ HF); lia|]. rewrite E in E1. injection E1 as <-.
  destruct (snap_grid prec emax P3 EM e (2 * K) s g G1 (weak_grid e K (2 * K) g Gg ltac:(lia)) Ng) as (t & k2 & E2 & G2 & _ & _ & N2); [apply (fits_le prec emax _ _ _ HF); lia|].
  exists t. split; [exact E2|]. split; [apply G2|]. specialize (N2 k). rewrite <- V1 in N2. replace (B2R s - B2R s) with 0 in N2 by ring. rewrite Rabs_R0 in N2.
  assert (A := Rabs_pos (B2R s - B2R t)). destruct (Req_dec (B2R s - B2R t) 0) as [Z0|Z0]; [symmetry; now apply Rminus_diag_uniq|]. apply Rabs_no_R0 in Z0. exfalso. apply Z0. lra.
Qed.
Lemma multiples : forall g (k j : Z), 0 < g -> 0 <= g * IZR k * (g * IZR j) -> Rabs (g * IZR k) <= Rabs (g * IZR j) < Rabs (g * IZR k) + g -> j = k.
Proof.
  intros g k j Pg S [A B]. rewrite !Rabs_mult, (Rabs_pos_eq g) in A, B by lra. rewrite <- !abs_IZR in A, B.
  apply Rmult_le_reg_l in A; auto. apply le_IZR in A. assert (B' : IZR (Z.abs j) < IZR (Z.abs k + 1)) by (rewrite plus_IZR; apply (Rmult_lt_reg_l g); auto; lra). apply lt_IZR in B'.
  assert (S' : 0 <= IZR (k * j)). { rewrite mult_IZR. assert (0 < g * g) by nra. apply (Rmult_le_reg_l (g * g)); auto. lra. } apply (le_IZR 0) in S'.
  destruct (Z.eq_dec k 0) as [->|Nk]; nia.
Qed.
Theorem snap_up_twice : forall e K (v g s : fl), on_grid e K v -> on_grid e K g -> 0 < B2R g -> fits e (4 * K) -> sc_snap_up v g = Ret s ->
  exists t, sc_snap_up s g = Ret t /\ exactly t (B2R s).
Proof.
  intros e K v g s Gv Gg Pg HF E. assert (K0 := grid_nonneg _ _ _ Gv). assert (Ng : B2R g <> 0) by lra.
  destruct (snap_up_grid prec emax P3 EM e K v g Gv Gg Ng) as (s' & k & E1 & G1 & V1 & _); auto; [apply (fits_le prec emax _ _ _ HF); lia|]. rewrite E in E1. injection E1 as <-.
  destruct (snap_up_grid prec emax P3 EM e (2 * K) s g G1 (weak_grid e K (2 * K) g Gg ltac:(lia)) Ng) as (t & k2 & E2 & G2 & V2 & S2 & N2); auto; [apply (fits_le prec emax _ _ _ HF); lia|].
  exists t. split; [exact E2|]. split; [apply G2|]. rewrite V1, V2 in *. now rewrite (multiples (B2R g) k k2 Pg S2 N2).
Qed.
Theorem snap_down_twice : forall e K (v g s : fl), on_grid e K v -> on_grid e K g -> 0 < B2R g -> fits e (4 * K) -> sc_snap_down v g = Ret s ->
  exists t, sc_snap_down s g = Ret t /\ exactly t (B2R s).
Proof.
  intros e K v g s Gv Gg Pg HF E. assert (K0 := grid_nonneg _ _ _ Gv). assert (Ng : B2R g <> 0) by lra.
  destruct (snap_down_grid prec emax P3 EM e K v g Gv Gg Ng) as (s' & k & E1 & G1 & V1 & _); auto; [apply (fits_le prec emax _ _ _ HF); lia|]. rewrite E in E1. injection E1 as <-.
  destruct (snap_down_grid prec emax P3 EM e (2 * K) s g G1 (weak_grid e K (2 * K) g Gg ltac:(lia)) Ng) as (t & k2 & E2 & G2 & V2 & S2 & N2); auto; [apply (fits_le prec emax _ _ _ HF); lia|].
  exists t. split; [exact E2|]. split; [apply G2|]. rewrite V1, V2 in *. rewrite (multiples (B2R g) k2 k Pg); auto. rewrite Rmult_comm. exact S2.
Qed.

End Grid.
(** ** Fractional part *)
Section Fract.
Variables prec emax : Z.
Context {Hprec : Prec_gt_0 prec} {Hmax : Prec_lt_emax prec emax}.
Notation fl := (binary_float prec emax).
Lemma finite_grid : forall x : fl, is_finite x = true -> exists e K, on_grid e K x /\ (3 - emax - prec <= e)%Z /\ (K < 2 ^ prec)%Z.
Proof.
  intros x F. assert (G := generic_format_B2R prec emax x). apply (FLT_format_generic radix2 (3 - emax - prec) prec) in G. destruct G as [[m e] V B1 B2]. cbn in B1, B2.
  exists e, (Z.abs m). split; [split; [exact F|]; exists m; split; [exact V|lia]|]. split; [exact B2|exact B1].
Qed.
Theorem fract_ieee : forall v : fl, is_finite v = true -> i64_range (B2R v) ->
  exists r (z : Z), sc_fract v = Ret r /\ is_finite r = true /\ B2R v = IZR z + B2R r /\ Rabs (B2R r) < 1 /\ 0 <= B2R r * B2R v.
Proof.
  intros v F H. destruct (finite_grid v F) as (e & K & [_ (k & V & B)] & L & U). destruct (F_cst0 prec emax) as [F0 B0].
  assert (SUB : forall f z, is_finite f = true -> B2R f = IZR z -> Rabs (IZR z) <= Rabs (B2R v) -> 0 <= IZR z * B2R v -> Rabs (B2R v - IZR z) < 1 -> is_finite (o_sub v f) = true /\ B2R (o_sub v f) = B2R v - IZR z).
  { intros f z Ff Vf Bf Sf Cf. rewrite <- Vf. apply (Fminus_exact prec emax v f F Ff).
    - assert (AB : Rabs (B2R v - B2R f) <= Rabs (B2R v)). { rewrite Vf. unfold Rabs in *. destruct (Rcase_abs (B2R v)), (Rcase_abs (IZR z)), (Rcase_abs (B2R v - IZR z)); nra. }
      destruct (Z_lt_le_dec e 0) as [N|N].
      + assert (E : B2R v - B2R f = IZR (k - z * 2 ^ (- e)) * bpow radix2 e).
        { rewrite minus_IZR, mult_IZR, V, Vf. change 2%Z with (radix_val radix2). rewrite (IZR_Zpower radix2) by lia. rewrite Rmult_minus_distr_r, Rmult_assoc, <- bpow_plus, Z.add_opp_diag_l. simpl. ring. }
        rewrite E in *. apply (fl_format prec emax); [|lia]. rewrite V, !Rabs_mult in AB. apply Rmult_le_reg_r in AB; [|apply Rabs_pos_lt, Rgt_not_eq, bpow_gt_0]. rewrite <- !abs_IZR in AB. apply le_IZR in AB. lia.
      + assert (E : B2R v = IZR (k * 2 ^ e)). { rewrite V, mult_IZR. f_equal. change 2%Z with (radix_val radix2). rewrite (IZR_Zpower radix2) by lia. reflexivity. }
        rewrite Vf, E in *. rewrite <- minus_IZR, <- abs_IZR in Cf. apply (lt_IZR _ 1) in Cf. replace z with (k * 2 ^ e)%Z by lia. rewrite Rminus_diag_eq by reflexivity. apply generic_format_0.
    - eapply Rle_lt_trans; [|apply (abs_B2R_lt_emax prec emax v)]. rewrite Vf. unfold Rabs in *. destruct (Rcase_abs (B2R v)), (Rcase_abs (IZR z)), (Rcase_abs (B2R v - IZR z)); nra. }
  unfold sc_fract. change (o_lt (cst 0) v) with (Bltb (cst 0) v). rewrite (Flt prec emax) by auto. rewrite B0. destruct (Rlt_bool_spec 0 (B2R v)) as [P|N].
  - destruct (F_floor prec emax v F H) as (f & E & Ff & Vf). rewrite E. cbn [bind]. generalize (Zfloor_lb (B2R v)) (Zfloor_ub (B2R v)). intros A1 A2.
    assert (A3 : 0 <= IZR (Zfloor (B2R v))) by (apply (IZR_le 0); apply Zfloor_lub; lra).
    destruct (SUB f (Zfloor (B2R v)) Ff Vf) as [S1 S2]; [rewrite !Rabs_pos_eq; lra|nra|apply Rabs_def1; lra|].
    exists (o_sub v f), (Zfloor (B2R v)). split; [reflexivity|]. split; [exact S1|]. rewrite S2. split; [ring|]. split; [apply Rabs_def1; lra|nra].
  - destruct (F_ceil prec emax v F H) as (f & E & Ff & Vf). rewrite E. cbn [bind]. generalize (Zceil_lb (B2R v)) (Zceil_ub (B2R v)). intros A1 A2.
    assert (A3 : IZR (Zceil (B2R v)) <= 0) by (apply (IZR_le _ 0); apply Zceil_glb; lra).
    destruct (SUB f (Zceil (B2R v)) Ff Vf) as [S1 S2]; [rewrite !Rabs_left1; lra|nra|apply Rabs_def1; lra|].
    exists (o_sub v f), (Zceil (B2R v)). split; [reflexivity|]. split; [exact S1|]. rewrite S2. split; [ring|]. split; [apply Rabs_def1; lra|nra].
Qed.
End Fract.
