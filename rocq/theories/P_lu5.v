(** Solving and inverting in double precision: 4x4 matrices, and cases (C108). *)
From Coq Require Import ZArith Reals List Lia Lra Bool Arith Psatz.
From Flocq Require Import Core BinarySingleNaN.
From Verif Require Import Ops M_scalar M_vec M_mat Inst_F S_mat S_rnd S_lu P_ieee P_mat P_mat2 P_mat3 P_fp P_fp5 P_lu P_lu2 P_lu3 P_lu4.
Import ListNotations.
Local Open Scope R_scope.

Lemma residual_double4 : forall M X, 1 <= M -> 1 <= X -> residual_bound 53 1024 4 M X <= 13 / 10 / 10 ^ 12 * (M * X).
Proof.
  intros M X HM HX. unfold residual_bound. replace (INR 4) with 4 by (simpl; ring).
  assert (UV : unit_roundoff 53 = / 9007199254740992) by reflexivity. rewrite UV.
  assert (E1 : underflow_error 53 1024 <= / 10 ^ 30). { apply Rle_trans with (bpow radix2 (-100)); [apply bpow_le; lia|]. cbn. lra. }
  assert (E0 : 0 < underflow_error 53 1024) by apply bpow_gt_0. set (e := underflow_error 53 1024) in *. clearbody e.
  assert (P : 1 <= M * X) by nra. assert (Q : M <= M * X) by nra.
  assert (M * e <= M * X * / 10 ^ 30) by (apply Rmult_le_compat; lra). cbn [pow] in *. lra.
Qed.
Lemma invert_double4 : forall M X (m res : list (list double)), 1 <= M -> 1 <= X -> M * X <= 10 ^ 11 -> square_up_to 4 M m -> m_invert 4 m = (true, res) -> square_up_to 4 X res ->
  (forall r c, (r < 4)%nat -> (c < 4)%nat -> Rabs (ent (rmul 4 4 4 (mvalues m) (mvalues res)) r c - delta r c) <= 13 / 10 / 10 ^ 12 * (M * X))
  /\ exists B, is_mat 4 4 B /\ inverse 4 (mvalues m) B /\ forall r c, (r < 4)%nat -> (c < 4)%nat -> Rabs (ent (mvalues res) r c - ent B r c) <= 11 / 10 ^ 12 * (M * X) * X.
Proof.
  intros M X m res HM HX HMX HS E HR.
  assert (O : 2 ^ 4 * M < bpow radix2 1024).
  { apply Rle_lt_trans with (2 ^ 4 * 10 ^ 11); [apply Rmult_le_compat_l; [lra|nra]|]. apply Rlt_le_trans with (bpow radix2 100); [cbn; lra|apply bpow_le; lia]. }
  assert (NU : INR 4 ^ 2 * unit_roundoff 53 <= / 100) by (replace (INR 4) with 4 by (simpl; ring); replace (unit_roundoff 53) with (/ 9007199254740992) by reflexivity; lra).
  pose proof (residual_double4 M X HM HX) as RB. set (rho := residual_bound 53 1024 4 M X) in *.
  assert (RP : 0 <= rho) by (apply (residual_pos 53 1024); first [lia|lra]).

  assert (B1 : rho <= 13 / 100). { eapply Rle_trans; [exact RB|]. cbn [pow] in *. lra. }
  split.
  - intros r c Hr Hc. eapply Rle_trans; [|exact RB]. apply (invert_residual 53 1024); auto; lia.
  - assert (I4 : INR 4 = 4) by (simpl; ring).
    destruct (invert_near 53 1024 ltac:(lia) ltac:(lia) 4 M X m res HS O NU E HR) as (B & HB & HI & HD). { fold rho. rewrite I4. lra. }
    exists B. split; [exact HB|]. split; [exact HI|]. intros r c Hr Hc. eapply Rle_trans; [apply (HD r c Hr Hc)|]. fold rho. rewrite I4. apply Rmult_le_compat_r; [lra|].
    apply Rmult_le_reg_r with (1 - 4 * rho); [lra|]. unfold Rdiv at 1. rewrite Rmult_assoc, Rinv_l by lra. set (T := M * X) in *.
    assert (0 <= T) by (unfold T; nra). assert (11 / 10 ^ 12 * T * (1 - 4 * rho) >= 11 / 10 ^ 12 * T * (48 / 100)). { apply Rle_ge, Rmult_le_compat_l; [cbn [pow]; lra|lra]. } cbn [pow] in *. lra.
Qed.

(** ** A singular matrix that is inverted *)
Definition sing3 : list (list double) := [[cst 10; cst 40; cst 70]; [cst 20; cst 50; cst 80]; [cst 30; cst 60; cst 90]].
Definition sing3_bool : bool := fst (m_invert 3 sing3) && forallb (forallb is_finite) (snd (m_invert 3 sing3)).
Lemma sing3_true : sing3_bool = true.
Proof. vm_cast_no_check (eq_refl true). Qed.
Lemma inverted : forall n (m : list (list double)), fst (m_invert n m) && forallb (forallb is_finite) (snd (m_invert n m)) = true ->
  exists res, m_invert n m = (true, res) /\ Forall (Forall (fun x => is_finite x = true)) res.
Proof.
  intros n m H. apply andb_true_iff in H as [H1 H2]. destruct (m_invert n m) as [f res]. cbn [fst snd] in *. subst f. exists res. split; [reflexivity|].
  apply Forall_forall. intros v Hv. apply Forall_forall. intros x Hx. rewrite forallb_forall in H2. specialize (H2 v Hv). rewrite forallb_forall in H2. now apply H2.
Qed.
Definition int_matrix (m : list (list Z)) : list (list double) := map (map cst) m.
Lemma int_square : forall n M m, length m = n -> Forall (fun col => length col = n /\ Forall (fun z => (Z.abs z <= M)%Z) col) m -> (M <= 2 ^ 53)%Z ->
  square_up_to n (IZR M) (int_matrix m) /\ mvalues (int_matrix m) = map (map IZR) m.
Proof.
  intros n M m L H HM. split.
  - split.
    + split; [unfold int_matrix; now rewrite map_length|]. apply Forall_map. eapply Forall_impl; [|exact H]. intros col [Q _]. now rewrite map_length.
    + apply Forall_map. eapply Forall_impl; [|exact H]. intros col [_ Q]. apply Forall_map. eapply Forall_impl; [|exact Q]. cbv beta. intros z Hz.
      destruct (cst_double z ltac:(lia)) as [F ->]. split; [exact F|]. rewrite <- abs_IZR. now apply IZR_le.
  - unfold mvalues, int_matrix, values. rewrite map_map. apply map_ext_in. intros col Hc. rewrite Forall_forall in H. destruct (H col Hc) as [_ Q]. rewrite map_map. apply map_ext_in. intros z Hz.
    rewrite Forall_forall in Q. apply cst_double. specialize (Q z Hz). lia.
Qed.
Definition sing3z : list (list Z) := [[10; 40; 70]; [20; 50; 80]; [30; 60; 90]]%Z.
Lemma singular_inverted : exists m res : list (list double), square_up_to 3 90 m /\ singular 3 (mvalues m) /\ m_invert 3 m = (true, res) /\ Forall (Forall (fun x => is_finite x = true)) res.
Proof.
  destruct (int_square 3 90 sing3z eq_refl) as [S V]; [repeat constructor; lia|lia|]. destruct (inverted 3 sing3 sing3_true) as (res & E & Fr).
  exists (int_matrix sing3z), res. split; [exact S|]. split; [|split; [exact E|exact Fr]]. rewrite V.
  exists [1; -2; 1]. split; [reflexivity|]. split; [intros Q; injection Q; lra|]. unfold rmulv, ent, sing3z. cbn [map seq Rsum nth repeat]. repeat (f_equal; try ring).
Qed.

(** ** A regular system with large coefficients that is solved wrongly *)
Definition huge : double := @B754_finite 53 1024 false 4503599627370496 971 eq_refl.
Definition hugem : list (list double) := [[huge; o_neg huge]; [huge; huge]].
Definition hugeb : list double := [huge; cst 0].
Lemma huge_value : is_finite huge = true /\ B2R huge = bpow radix2 1023.
Proof. split; [reflexivity|]. unfold huge, B2R, F2R. cbn [cond_Zopp Fnum Fexp]. change 4503599627370496 with (bpow radix2 52). rewrite <- bpow_plus. reflexivity. Qed.
Lemma huge_neg : is_finite (o_neg huge) = true /\ B2R (o_neg huge) = - bpow radix2 1023.
Proof. split; [reflexivity|]. change (o_neg huge) with (Bopp huge). now rewrite B2R_Bopp, (proj2 huge_value). Qed.
Definition same2 (v : list double) : bool := match v with [x; y] => Beqb x (cst 1 : double) && Beqb y (cst 0 : double) | _ => false end.
Lemma huge_bool : fst (lup_solve 2 hugem hugeb) && same2 (snd (lup_solve 2 hugem hugeb)) = true.
Proof. vm_cast_no_check (eq_refl true). Qed.
Lemma eqb_finite : forall x y : double, is_finite y = true -> Beqb x y = true -> is_finite x = true.
Proof. intros x y F H. destruct x as [s|s| |s mm e B]; try reflexivity; destruct y as [s'|s'| |s' m' e' B']; try discriminate F; try destruct s; try destruct s'; cbv in H; discriminate H. Qed.
Lemma eqb_cst : forall (x : double) k, (Z.abs k <= 2 ^ 53)%Z -> Beqb x (cst k : double) = true -> is_finite x = true /\ B2R x = IZR k.
Proof.
  intros x k Hk H. destruct (cst_double k Hk) as [F V]. assert (Fx : is_finite x = true).
  { exact (eqb_finite x (cst k) F H). }
  split; [exact Fx|]. rewrite Beqb_correct in H by auto. rewrite V in H. revert H. case Req_bool_spec; [auto|discriminate].
Qed.
Lemma solved2 : forall (r : bool * list double), fst r && same2 (snd r) = true -> exists x, r = (true, x) /\ all_finite x /\ values x = [1; 0].
Proof.
  intros [f x] H. cbn [fst snd] in H. apply andb_true_iff in H as [H1 H2]. exists x. split; [now rewrite H1|].
  destruct x as [|a [|b [|]]]; try discriminate H2. cbn [same2] in H2. apply andb_true_iff in H2 as [Ha Hb].
  destruct (eqb_cst a 1 ltac:(lia) Ha) as [Fa Va]. destruct (eqb_cst b 0 ltac:(lia) Hb) as [Fb Vb]. split; [repeat constructor; auto|]. unfold values. cbn [map]. now rewrite Va, Vb.
Qed.
Lemma huge_wrong : exists (m : list (list double)) (b x : list double), square_up_to 2 (bpow radix2 1023) m /\ lup_solve 2 m b = (true, x) /\ all_finite b /\ all_finite x /\ values x = [1; 0]
  /\ rmulv 2 2 (mvalues m) [1 / 2; 1 / 2] = values b.
Proof.
  destruct huge_value as [F V]. destruct huge_neg as [FN VN]. destruct (solved2 _ huge_bool) as (x & E & Fx & Vx). destruct (cst_double 0 ltac:(lia)) as [F0 V0].
  assert (P : 0 < bpow radix2 1023) by apply bpow_gt_0.
  assert (Q1 : is_finite huge = true /\ Rabs (B2R huge) <= bpow radix2 1023) by (split; [exact F|]; rewrite V, Rabs_pos_eq by lra; apply Rle_refl).
  assert (Q2 : is_finite (o_neg huge) = true /\ Rabs (B2R (o_neg huge)) <= bpow radix2 1023) by (split; [exact FN|]; rewrite VN, Rabs_Ropp, Rabs_pos_eq by lra; apply Rle_refl).
  exists hugem, hugeb, x. split.
  - split; [repeat constructor|]. unfold hugem. apply Forall_cons; [apply Forall_cons; [exact Q1|apply Forall_cons; [exact Q2|constructor]]|apply Forall_cons; [apply Forall_cons; [exact Q1|apply Forall_cons; [exact Q1|constructor]]|constructor]].
  - split; [exact E|]. split; [unfold hugeb; apply Forall_cons; [exact F|apply Forall_cons; [exact F0|constructor]]|]. split; [exact Fx|]. split; [exact Vx|].
    assert (EB : values hugeb = [bpow radix2 1023; 0]) by (unfold values, hugeb; cbn [map]; now rewrite V, V0).
    assert (EM : mvalues hugem = [[bpow radix2 1023; - bpow radix2 1023]; [bpow radix2 1023; bpow radix2 1023]]) by (unfold mvalues, values, hugem; cbn [map]; now rewrite V, VN).
    rewrite EB, EM. generalize (bpow radix2 1023). intros h. unfold rmulv, ent. cbn [map seq Rsum nth]. repeat (f_equal; try field).
Qed.

(** ** A case: a 3x3 matrix with determinant 31 *)
Definition reg3z : list (list Z) := [[2; 1; 0]; [1; 3; 1]; [0; 2; 7]]%Z.
Definition reg3 : list (list double) := int_matrix reg3z.
Lemma reg3_bool : fst (m_invert 3 reg3) && forallb (forallb (fun x => is_finite x && Bleb (Babs x) (cst 1 : double))) (snd (m_invert 3 reg3)) = true.
Proof. vm_cast_no_check (eq_refl true). Qed.
Lemma up_to_k : forall n k (r : bool * list (list double)), (Z.abs k <= 2 ^ 53)%Z -> is_mat n n (snd r) -> fst r && forallb (forallb (fun x => is_finite x && Bleb (Babs x) (cst k : double))) (snd r) = true ->
  exists res, r = (true, res) /\ square_up_to n (IZR k) res.
Proof.
  intros n k [f res] Hk L H. cbn [fst snd] in *. apply andb_true_iff in H as [H1 H2]. exists res. split; [now rewrite H1|]. split; [exact L|].
  destruct (cst_double k Hk) as [F1 V1]. apply Forall_forall. intros v Hv. apply Forall_forall. intros x Hx. rewrite forallb_forall in H2. specialize (H2 v Hv). rewrite forallb_forall in H2.
  specialize (H2 x Hx). apply andb_true_iff in H2 as [Fx Q]. split; [exact Fx|]. rewrite Bleb_correct in Q; [|now rewrite is_finite_Babs|exact F1]. rewrite B2R_Babs, V1 in Q. revert Q. case Rle_bool_spec; [auto|discriminate].
Qed.
Lemma shape_bool : forall n (res : list (list double)), Nat.eqb (length res) n && forallb (fun c => Nat.eqb (length c) n) res = true -> is_mat n n res.
Proof.
  intros n res H. apply andb_true_iff in H as [H1 H2]. split; [now apply Nat.eqb_eq|]. apply Forall_forall. intros c Hc. rewrite forallb_forall in H2. now apply Nat.eqb_eq, H2.
Qed.
Lemma reg3_shape : Nat.eqb (length (snd (m_invert 3 reg3))) 3 && forallb (fun c => Nat.eqb (length c) 3) (snd (m_invert 3 reg3)) = true.
Proof. vm_cast_no_check (eq_refl true). Qed.
Lemma reg3_case : square_up_to 3 7 reg3 /\ (exists res, m_invert 3 reg3 = (true, res) /\ square_up_to 3 1 res) /\ 2 ^ 3 * 7 < bpow radix2 1024 /\ INR 3 ^ 2 * unit_roundoff 53 <= / 100
  /\ INR 3 * residual_bound 53 1024 3 7 1 < 1.
Proof.
  split; [apply (int_square 3 7 reg3z eq_refl); [repeat constructor; lia|lia]|]. split; [exact (up_to_k 3 1 _ ltac:(lia) (shape_bool 3 _ reg3_shape) reg3_bool)|].
  assert (I : INR 3 = 3) by (simpl; ring). rewrite I. split; [apply Rlt_le_trans with (bpow radix2 100); [cbn; lra|apply bpow_le; lia]|].
  assert (UV : unit_roundoff 53 = / 9007199254740992) by reflexivity. split; [rewrite UV; lra|]. unfold residual_bound. rewrite UV, I.
  assert (E1 : underflow_error 53 1024 <= / 10 ^ 30). { apply Rle_trans with (bpow radix2 (-100)); [apply bpow_le; lia|]. cbn. lra. }
  assert (E0 : 0 < underflow_error 53 1024) by apply bpow_gt_0. set (e := underflow_error 53 1024) in *. clearbody e. cbn [pow] in *. lra.
Qed.
Definition inv3 : list (list R) := [[19 / 31; -7 / 31; 1 / 31]; [-7 / 31; 14 / 31; -2 / 31]; [2 / 31; -4 / 31; 5 / 31]].
Lemma inv3_case : is_mat 3 3 inv3 /\ inverse 3 (mvalues reg3) inv3 /\ (forall r c, (r < 3)%nat -> (c < 3)%nat -> Rabs (ent inv3 r c) <= 1) /\ INR 3 * INR 3 * 1 * failure_bound 53 3 7 < 1.
Proof.
  split; [repeat constructor|]. split.
  - unfold reg3. rewrite (proj2 (int_square 3 7 reg3z eq_refl ltac:(repeat constructor; lia) ltac:(lia))).
    split; unfold rmul, rid, of_ent, ent, delta, reg3z, inv3; cbn [map seq Rsum nth Nat.eqb]; repeat (f_equal; try field).
  - split.
    + intros r c Hr Hc. destruct r as [|[|[|r]]]; [| | |lia]; destruct c as [|[|[|c]]]; try lia; unfold ent, inv3; cbn [nth]; apply Rabs_le; lra.
    + unfold failure_bound. replace (INR 3) with 3 by (simpl; ring). replace (unit_roundoff 53) with (/ 9007199254740992) by reflexivity. cbn [pow]. lra.
Qed.
Definition rhs3 : list double := [cst 1; cst 2; cst 3].
Lemma rhs3_bool : fst (lup_solve 3 reg3 rhs3) && Nat.eqb (length (snd (lup_solve 3 reg3 rhs3))) 3 && forallb (fun x => is_finite x && Bleb (Babs x) (cst 1 : double)) (snd (lup_solve 3 reg3 rhs3)) = true.
Proof. vm_cast_no_check (eq_refl true). Qed.
Lemma vec_up_to_1 : forall n (r : bool * list double), fst r && Nat.eqb (length (snd r)) n && forallb (fun x => is_finite x && Bleb (Babs x) (cst 1 : double)) (snd r) = true -> exists x, r = (true, x) /\ vector_up_to n 1 x.
Proof.
  intros n [f x] H. cbn [fst snd] in H. apply andb_true_iff in H as [H H3]. apply andb_true_iff in H as [H1 H2]. exists x. split; [now rewrite H1|]. split; [now apply Nat.eqb_eq|].
  destruct (cst_double 1 ltac:(lia)) as [F1 V1]. apply Forall_forall. intros y Hy. rewrite forallb_forall in H3. specialize (H3 y Hy).
  apply andb_true_iff in H3 as [Fx Q]. split; [exact Fx|]. rewrite Bleb_correct in Q; [|now rewrite is_finite_Babs|exact F1]. rewrite B2R_Babs, V1 in Q. revert Q. case Rle_bool_spec; [auto|discriminate].
Qed.
Lemma rhs3_case : exists x, lup_solve 3 reg3 rhs3 = (true, x) /\ vector_up_to 3 1 x.
Proof. exact (vec_up_to_1 3 _ rhs3_bool). Qed.
Definition flat3z : list (list Z) := [[1; 4; 7]; [2; 5; 8]; [3; 6; 9]]%Z.
Lemma flat3_bool : fst (m_invert 3 (int_matrix flat3z)) || fst (lup_solve 3 (int_matrix flat3z) rhs3) = false.
Proof. vm_cast_no_check (eq_refl false). Qed.
Lemma flat3_case : square_up_to 3 9 (int_matrix flat3z) /\ fst (m_invert 3 (int_matrix flat3z)) = false /\ fst (lup_solve 3 (int_matrix flat3z) rhs3) = false.
Proof. split; [apply (int_square 3 9 flat3z eq_refl); [repeat constructor; lia|lia]|]. exact (proj1 (orb_false_iff _ _) flat3_bool). Qed.
(** A 4x4 matrix: twice the identity, sheared *)
Definition reg4z : list (list Z) := [[2; 0; 0; 0]; [1; 2; 0; 0]; [0; 1; 2; 0]; [5; 6; 7; 1]]%Z.
Definition reg4 : list (list double) := int_matrix reg4z.
Lemma reg4_bool : fst (m_invert 4 reg4) && forallb (forallb (fun x => is_finite x && Bleb (Babs x) (cst 4 : double))) (snd (m_invert 4 reg4)) = true.
Proof. vm_cast_no_check (eq_refl true). Qed.
Lemma reg4_shape : Nat.eqb (length (snd (m_invert 4 reg4))) 4 && forallb (fun c => Nat.eqb (length c) 4) (snd (m_invert 4 reg4)) = true.
Proof. vm_cast_no_check (eq_refl true). Qed.
Lemma reg4_case : square_up_to 4 7 reg4 /\ exists res, m_invert 4 reg4 = (true, res) /\ square_up_to 4 4 res.
Proof. split; [apply (int_square 4 7 reg4z eq_refl); [repeat constructor; lia|lia]|]. exact (up_to_k 4 4 _ ltac:(lia) (shape_bool 4 _ reg4_shape) reg4_bool). Qed.
