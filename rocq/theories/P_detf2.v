(** Determinants and adjugates in machine arithmetic: the final form (C123). *)
From Coq Require Import ZArith Reals List Lia Lra Bool Psatz Factorial.
From Flocq Require Import Core BinarySingleNaN.
From Verif Require Import Ops M_scalar M_vec M_mat Inst_F S_vec S_mat S_det S_rnd S_hit P_ieee P_vec P_mat P_mat2 P_det P_fp P_fp4 P_fp5 P_fp6 P_hit P_hit2 P_ft P_ldet P_polyf3 P_detf.
Import ListNotations.
Local Open Scope R_scope.

Section FP.
Variables prec emax : Z.
Context {Hprec : Prec_gt_0 prec} {Hmax : Prec_lt_emax prec emax}.
Notation fl := (binary_float prec emax).
Notation u := (unit_roundoff prec).
Notation eta := (underflow_error prec emax).
Notation Om := (bpow radix2 emax).
Hypothesis U20 : (20 <= prec)%Z.
Hypothesis E20 : (20 <= emax)%Z.

Lemma mat_ent : forall (m : list (list fl)) r c, ent (map values m) r c = B2R (mget m c r).
Proof.
  intros m r c. unfold ent, mget, mcol, vget. change (@nil R) with (values (@nil fl)). rewrite map_nth. unfold values. rewrite <- (proj2 (F_cst0 prec emax)) at 1. apply map_nth.
Qed.
Lemma entries : forall N (m : list (list fl)) M, is_mat N N m -> Forall (fun col => all_finite col /\ Forall (fun x => Rabs x <= M) (values col)) m ->
  forall r c, (r < N)%nat -> (c < N)%nat -> near (mget m c r) (ent (map values m) r c) 0 /\ Rabs (ent (map values m) r c) <= M.
Proof.
  intros N m M (L & S) F r c Hr Hc. rewrite mat_ent. assert (I : In (mcol m c) m) by (unfold mcol; apply nth_In; lia). rewrite Forall_forall in F, S. destruct (F _ I) as (A & B). assert (LC := S _ I). cbn beta in LC. unfold all_finite in A. rewrite Forall_forall in A, B.
  assert (J : In (mget m c r) (mcol m c)) by (unfold mget, vget; apply nth_In; lia). split; [apply near_exact, A, J|]. apply B. unfold values. now apply in_map.
Qed.
Lemma det_final : forall n (m : list (list fl)) M, let N := S n in is_mat N N m -> Forall (fun col => all_finite col /\ Forall (fun x => Rabs x <= M) (values col)) m -> 1 <= M ->
  100 * (INR N * INR N * u) <= 1 -> 2 * (INR (fact N) * M ^ N) <= Om ->
  is_finite (m_det N m) = true /\ Rabs (B2R (m_det N m) - leibniz N (ent (map values m))) <= INR N * INR N * (u * (INR (fact N) * M ^ N)).
Proof.
  intros n m M N S F M1 NU NO. destruct (det_near prec emax U20 E20 M M1 n m (ent (map values m)) S (entries N m M S F) NU NO) as (A & _). rewrite <- ldet_leibniz. exact A.
Qed.
Lemma sgn_pow : forall k, sgn k = (-1) ^ k.
Proof.
  induction k as [|k IH]; [reflexivity|]. cbn [pow]. rewrite <- IH. unfold sgn. rewrite Nat.even_succ, <- Nat.negb_even. destruct (Nat.even k); cbn; ring.
Qed.
Lemma adj_final : forall n (m : list (list fl)) M, let N := S n in is_mat (S N) (S N) m -> Forall (fun col => all_finite col /\ Forall (fun x => Rabs x <= M) (values col)) m -> 1 <= M ->
  100 * (INR N * INR N * u) <= 1 -> 2 * (INR (fact N) * M ^ N) <= Om ->
  is_mat (S N) (S N) (m_adjugate (S N) m) /\ forall i j, (i < S N)%nat -> (j < S N)%nat -> is_finite (mget (m_adjugate (S N) m) j i) = true
    /\ Rabs (ent (map values (m_adjugate (S N) m)) i j - (-1) ^ (i + j) * leibniz N (ent (of_ent N N (fun r c => ent (map values m) (if r <? j then r else S r)%nat (if c <? i then c else S c)%nat)))) <= (INR N * INR N + 2) * (u * (INR (fact N) * M ^ N)).
Proof.
  intros n m M N Sm F M1 NU NO. split; [apply mk_shape|]. intros i j Hi Hj. rewrite mat_ent. assert (E := entries (S N) m M Sm F). unfold m_adjugate. rewrite mk_get by assumption. replace (S N - 1)%nat with N by lia.
  set (f := fun r c => ent (map values m) (if r <? j then r else S r)%nat (if c <? i then c else S c)%nat).
  destruct (det_near prec emax U20 E20 M M1 n (m_minor (S N) (S N) m j i) f) as (A & B).
  - rewrite minor_mk by auto. replace (S N - 1)%nat with N by lia. apply mk_shape.
  - intros r c Hr Hc. rewrite minor_mk by auto. fold N in Hr, Hc. rewrite mk_get by lia. unfold f, skip. apply E; [destruct (Nat.ltb_spec r j); lia|destruct (Nat.ltb_spec c i); lia].
  - exact NU.
  - exact NO.
  - fold N in A, B. change (dbound M N) with (INR (fact N) * M ^ N) in A, B. change (sq N) with (INR N * INR N) in A. set (D := INR (fact N) * M ^ N) in *. destruct (u_small prec U20) as [U0 U1]. destruct (eta_small prec emax E20) as [E0 E1]. assert (D1 : 1 <= D) by apply (dbound_ge1 M M1 N).
    set (k := INR N * INR N) in *. assert (K0 : 0 <= k) by (apply Rmult_le_pos; apply pos_INR). clearbody k D. assert (KU : 0 <= k * (u * D) <= / 100 * D) by (replace (k * (u * D)) with (k * u * D) by ring; assert (0 <= k * u) by (apply Rmult_le_pos; lra); split; [apply Rmult_le_pos; lra|apply Rmult_le_compat_r; lra]). assert (UD : u * 1 <= u * D) by (apply Rmult_le_compat_l; lra). assert (UD1 : u * D <= / 1000000 * D) by (apply Rmult_le_compat_r; lra).
    replace (leibniz N (ent (of_ent N N f))) with (ldet N f) by (rewrite <- ldet_leibniz; apply ldet_ext; intros r c Hr Hc; now rewrite of_ent_get). rewrite <- sgn_pow. destruct (sign_near prec emax U20 (i + j)) as (Ns & Bs).
    eapply near_le; [apply (near_mul prec emax _ _ _ _ _ _ 1 D Ns A Bs B)|]; rewrite ?Rplus_0_r, ?Rmult_1_l.
    + apply Rle_lt_trans with (101 / 100 * D * (1001 / 1000) + eta); [apply Rplus_le_compat_r, Rmult_le_compat; lra|lra].
    + assert (u * (D + k * (u * D)) <= u * (101 / 100 * D)) by (apply Rmult_le_compat_l; lra). lra.
Qed.
End FP.

(** A 4 x 4 matrix of double precision numbers with determinant -70. *)
Definition m44 : list (list double) := [ints [2; 1; 0; 3]; ints [1; 3; 1; 0]; ints [0; 2; 4; 1]; ints [5; 0; 1; 6]]%Z.
Lemma ints4 : forall a b c d, (Z.abs a <= 8)%Z -> (Z.abs b <= 8)%Z -> (Z.abs c <= 8)%Z -> (Z.abs d <= 8)%Z -> all_finite (ints [a; b; c; d]) /\ Forall (fun x => Rabs x <= 8) (values (ints [a; b; c; d])).
Proof.
  intros a b c d A B C D. destruct (ints_ok [a; b; c; d]) as (F & V); [repeat constructor; lia|]. split; [exact F|]. rewrite V. cbn [map]. repeat (apply Forall_cons; [rewrite <- abs_IZR; apply IZR_le; assumption|]). apply Forall_nil.
Qed.
Lemma m44_case : is_mat 4 4 m44 /\ Forall (fun col => all_finite col /\ Forall (fun x => Rabs x <= 8) (values col)) m44 /\ 100 * (INR 4 * INR 4 * unit_roundoff 53) <= 1 /\ 2 * (INR (fact 4) * 8 ^ 4) <= bpow radix2 1024
  /\ Beqb (m_det 4 m44) (cst (-70)) = true /\ Beqb (mget (m_adjugate 4 m44) 1 0) (cst (-28)) = true.
Proof.
  split; [split; [reflexivity|unfold m44; repeat constructor]|]. split; [unfold m44; repeat (apply Forall_cons; [apply ints4; lia|]); apply Forall_nil|]. split; [unfold unit_roundoff; cbn; lra|]. split; [apply Rle_trans with (bpow radix2 30); [cbn; lra|apply bpow_le; lia]|]. split; vm_cast_no_check (eq_refl true).
Qed.
