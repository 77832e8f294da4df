(** The Laplace expansion is the determinant. *)
From mathcomp Require Import all_ssreflect all_algebra perm.
From Coq Require Import Reals List Lra.
From Verif Require Import S_det S_mat P_mat P_mat2 P_ldet.
Set Implicit Arguments.
Unset Strict Implicit.
Unset Printing Implicit Defensive.
Import GRing.Theory.
Delimit Scope ring_scope with ring.
Local Open Scope ring_scope.

Definition mx (nr nc : nat) (A : list (list R)) : 'M[R]_(nr, nc) := \matrix_(i, j) ent A i j.

Lemma Rsum_big n (f : nat -> R) : Rsum n f = \sum_(i < n) f i.
Proof.
  elim: n => [|n IH]; first by rewrite big_ord0.
  by rewrite big_ord_recr /= -IH.
Qed.
Lemma evenE i : Nat.even i = ~~ odd i.
Proof. by elim: i => // i IH; rewrite Nat.even_succ -Nat.negb_even IH. Qed.
Lemma sgn_exp i : sgn i = (-1) ^+ i.
Proof. by rewrite /sgn -signr_odd evenE; case: (odd i) => /=; rewrite ?expr0 ?expr1. Qed.
Lemma skipE k i : skip k i = bump k i.
Proof.
  rewrite /skip /bump. case: (Nat.ltb_spec0 i k) => [/ltP H|/ltP H].
  - by rewrite leqNgt H.
  - by rewrite leqNgt H add1n.
Qed.
Lemma ldetE n (f : nat -> nat -> R) : ldet n f = \det (\matrix_(i < n, j < n) f i j).
Proof.
  elim: n f => [|n IH] f; first by rewrite det_mx00.
  rewrite (expand_det_col _ ord0).
  have -> : ldet n.+1 f = Rsum n.+1 (fun r => (sgn r * f r 0%N * ldet n (fun i j => f (skip r i) j.+1))%R) by [].
  rewrite Rsum_big. apply: eq_bigr => i _. rewrite mxE /cofactor sgn_exp addn0 IH.
  have E : \matrix_(i0 < n, j < n) f (skip i i0) j.+1 = row' i (col' ord0 (\matrix_(i0 < n.+1, j < n.+1) f i0 j)).
  { by apply/matrixP => r c; rewrite !mxE skipE /=. }
  rewrite E. rewrite mulrA. congr (_ * _). by rewrite mulrC.
Qed.

Lemma mx_mul n1 n2 n3 A B : mx n1 n3 (rmul n1 n2 n3 A B) = mx n1 n2 A *m mx n2 n3 B.
Proof.
  apply/matrixP => i j. rewrite !mxE /rmul of_ent_get ?Rsum_big; try by apply/ltP.
  by apply: eq_bigr => k _; rewrite !mxE.
Qed.
Lemma mx_trans n1 n2 A : mx n2 n1 (rtrans n1 n2 A) = (mx n1 n2 A)^T.
Proof. by apply/matrixP => i j; rewrite !mxE /rtrans of_ent_get //; apply/ltP. Qed.
Lemma mx_inj n1 n2 A B : is_mat n1 n2 A -> is_mat n1 n2 B -> mx n1 n2 A = mx n1 n2 B -> A = B.
Proof.
  move=> HA HB /matrixP E. apply: (ent_ext n1 n2) => // r c /ltP Hr /ltP Hc.
  by move: (E (Ordinal Hr) (Ordinal Hc)); rewrite !mxE.
Qed.

Lemma mx_adj n A : mx n.+1 n.+1 (adjl n A) = \adj (mx n.+1 n.+1 A).
Proof.
  apply/matrixP => i j. rewrite mxE [RHS]mxE /adjl of_ent_get; try by apply/ltP.
  rewrite sgn_exp plusE ldetE /cofactor [addn j i]addnC. congr (_ * \det _).
  by apply/matrixP => r c; rewrite !mxE !skipE.
Qed.

(** ** Consequences, without mathcomp notions *)
Lemma ldet_mul n A B : ldet n (ent (rmul n n n A B)) = (ldet n (ent A) * ldet n (ent B))%R.
Proof. by rewrite !ldetE -!/(mx n n _) mx_mul det_mulmx. Qed.
Lemma ldet_trans n A : ldet n (ent (rtrans n n A)) = ldet n (ent A).
Proof. by rewrite !ldetE -!/(mx n n _) mx_trans det_tr. Qed.
Lemma ldet_id n : ldet n (ent (rid n)) = 1%R.
Proof.
  rewrite ldetE -/(mx n n _). have -> : mx n n (rid n) = 1%:M; last by rewrite det1.
  apply/matrixP => i j. rewrite !mxE /rid of_ent_get; try by apply/ltP.
  rewrite /delta. case: (Nat.eqb_spec i j) => [/ord_inj -> |H]; first by rewrite eqxx.
  by case: eqP => // E; case: H; rewrite E.
Qed.
Lemma adj_mul n A : is_mat n.+1 n.+1 A ->
  rmul n.+1 n.+1 n.+1 A (adjl n A) = of_ent n.+1 n.+1 (fun i j => (ldet n.+1 (ent A) * delta i j)%R) /\
  rmul n.+1 n.+1 n.+1 (adjl n A) A = of_ent n.+1 n.+1 (fun i j => (ldet n.+1 (ent A) * delta i j)%R).
Proof.
  move=> HA.
  have E : mx n.+1 n.+1 (of_ent n.+1 n.+1 (fun i j => (ldet n.+1 (ent A) * delta i j)%R)) = (\det (mx n.+1 n.+1 A))%:M.
  { apply/matrixP => i j. rewrite !mxE of_ent_get; try by apply/ltP.
    rewrite ldetE -/(mx _ _ _) /delta. case: (Nat.eqb_spec i j) => [/ord_inj -> |H].
    - by rewrite eqxx mulr1n Rmult_1_r.
    - case: eqP => [E|_]; first by case: H; rewrite E. by rewrite mulr0n Rmult_0_r. }
  split; apply: (@mx_inj n.+1 n.+1); try exact: of_ent_shape.
  - by rewrite mx_mul mx_adj E mul_mx_adj.
  - by rewrite mx_mul mx_adj E mul_adj_mx.
Qed.
Lemma nth_repeat0 n i : List.nth i (repeat R0 n) R0 = R0.
Proof. by apply: nth_repeat. Qed.
Lemma ldet_singular n A : is_mat n n A -> (ldet n (ent A) = R0 <-> singular n A).
Proof.
  move=> HA. rewrite ldetE -/(mx n n _) -det_tr. split.
  - move=> /eqP /det0P [v vn0 vA].
    have [i0 Hi0] : exists i0, v ord0 i0 != 0.
    { apply/existsP. rewrite -negb_forall. apply: contra vn0 => /forallP H.
      apply/eqP/matrixP => i j. rewrite ord1 mxE. exact: (eqP (H j)). }
    pose g (k : nat) : R := if insub k is Some i then v ord0 i else R0.
    have gE (i : 'I_n) : g i = v ord0 i.
    { rewrite /g. case: insubP => [j _ /ord_inj -> //|]. by rewrite ltn_ord. }
    exists (List.map g (List.seq 0 n)). split; first by rewrite map_length seq_length.
    split.
    + move=> E. move/negP: Hi0. apply. apply/eqP.
      have := nth_repeat0 n i0. rewrite -E nth_map_seq ?gE //. by apply/ltP.
    + apply: (@nth_ext _ _ _ R0 R0); first by rewrite rmulv_length repeat_length.
      move=> i. rewrite rmulv_length => /ltP Hi. rewrite nth_repeat0 rmulv_nth; last by apply/ltP.
      move/matrixP: vA => /(_ ord0 (Ordinal Hi)). rewrite !mxE => E.
      apply: (etrans _ E). rewrite Rsum_big. apply: eq_bigr => k _. rewrite !mxE nth_map_seq; last by apply/ltP.
      by rewrite gE mulrC.
  - case=> v [Hl [Hn Hv]]. apply/eqP/det0P. exists (\row_j List.nth j v R0).
    + apply/eqP => /matrixP E. apply: Hn. apply: (@nth_ext _ _ _ R0 R0); first by rewrite repeat_length.
      move=> i. rewrite Hl => /ltP Hi. rewrite nth_repeat0.
      by move: (E ord0 (Ordinal Hi)); rewrite !mxE.
    + apply/matrixP => i j. rewrite !mxE. have Hj : (j < n)%coq_nat by apply/ltP.
      have := nth_repeat0 n j. rewrite -Hv rmulv_nth // Rsum_big => E. apply: (etrans _ E).
      apply: eq_bigr => k _. by rewrite !mxE mulrC.
Qed.
Lemma ldet_leibniz n A : ldet n (ent A) = leibniz n (ent A).
Proof.
  rewrite ldetE /determinant. apply: eq_bigr => s _. congr (_ * _). by apply: eq_bigr => i _; rewrite mxE.
Qed.
