(** Coordinates on a grid: determinants, affine points, colinearity and boxes. *)
From Coq Require Import ZArith Reals List Lia Lra Bool Psatz Factorial.
From Flocq Require Import Core BinarySingleNaN.
From Verif Require Import Ops M_scalar M_vec M_mat M_bbox M_geom Inst_F Inst_XR S_vec S_mat S_affine S_bbox S_rnd S_grid P_ord P_ieee P_xr P_vec P_vec2 P_mat P_affine P_fp P_fp6 P_fp7 P_grid.
Import ListNotations.
Local Open Scope R_scope.

Section Grid.
Variables prec emax : Z.
Context {Hprec : Prec_gt_0 prec} {Hmax : Prec_lt_emax prec emax}.
Notation fl := (binary_float prec emax).
Notation fits := (representable prec emax).
Notation rel := (rel prec emax).
Notation vrel := (vrel prec emax).
Notation mrel := (mrel prec emax).
Notation vS := (map (@Some R)).
Notation mS := (map (map (@Some R))).

(** Determinants *)
Lemma rel_to : forall e e' A B (x : fl) a, rel e A x a -> e = e' -> (A <= B)%Z -> rel e' B x a.
Proof. intros e e' A B x a H -> L. eapply rel_weak; eauto. Qed.
Lemma fits_down : forall n k e M M', fits (Z.of_nat n * e) M -> (k <= n)%nat -> (M' <= M)%Z -> fits (Z.of_nat k * e) M'.
Proof.
  intros n k e M M' [[H1 H2] H3] K L. assert (P := Hprec). unfold Prec_gt_0 in P. assert (Q := Hmax). unfold Prec_lt_emax in Q.
  split; [|lia]. destruct (Z_le_gt_dec 0 e); split; nia.
Qed.
Definition det_bound (n : nat) (K : Z) : Z := (Z.of_nat (fact n) * K ^ Z.of_nat n)%Z.
Lemma det_bound_S : forall n K, (0 <= K)%Z -> det_bound (S n) K = (Z.of_nat (S n) * (K * det_bound n K))%Z.
Proof.
  intros n K H. unfold det_bound. rewrite fact_simpl, Nat2Z.inj_mul. rewrite Nat2Z.inj_succ, Z.pow_succ_r by lia. ring.
Qed.
Lemma det_bound_pos : forall n K, (0 <= K)%Z -> (0 <= det_bound n K)%Z.
Proof. intros n K H. unfold det_bound. assert (0 <= K ^ Z.of_nat n)%Z by now apply Z.pow_nonneg. nia. Qed.
Lemma rel_sign : forall k, rel 0 1 (if Nat.even k then cst 1 else cst (-1)) (if Nat.even k then cst 1 else cst (-1)).
Proof.
  intros k. assert (1 <= 2 ^ prec)%Z by (assert (P := Hprec); unfold Prec_gt_0 in P; assert (0 < 2 ^ prec)%Z by (apply Z.pow_pos_nonneg; lia); lia).
  destruct (Nat.even k); [apply (rel_cst prec emax 1)|apply (rel_cst prec emax (-1))]; simpl; lia.
Qed.
Lemma det_unfold : forall T (o : ops T) n (m : list (list T)), m_det (S (S (S (S n)))) m = acc_sum (S (S (S (S n)))) 0 (fun r =>
  o_mul (o_mul (if Nat.even r then cst 1 else cst (-1)) (mget m 0 r)) (m_det (S (S (S n))) (m_minor (S (S (S (S n)))) (S (S (S (S n)))) m r 0))) (cst 0).
Proof. reflexivity. Qed.
Definition detrel (N : nat) (e K : Z) : Prop := forall m w, is_mat N N m -> is_mat N N w -> mrel e K m w ->
  fits (Z.of_nat N * e) (det_bound N K) -> rel (Z.of_nat N * e) (det_bound N K) (m_det N m) (m_det N w).
Lemma bound1 : forall K, det_bound 1 K = K.
Proof. intros K. unfold det_bound. simpl Z.of_nat. rewrite Z.pow_1_r. lia. Qed.
Lemma bound2 : forall K, (0 <= K)%Z -> det_bound 2 K = (2 * (K * K))%Z.
Proof. intros K H. rewrite det_bound_S, bound1 by auto. lia. Qed.
Lemma bound3 : forall K, (0 <= K)%Z -> det_bound 3 K = (6 * (K * K * K))%Z.
Proof. intros K H. rewrite det_bound_S, bound2 by auto. lia. Qed.
Lemma det1 : forall e K, (0 <= K)%Z -> detrel 1 e K.
Proof. intros e K HK m w _ _ R F. cbn [m_det]. eapply rel_to; [apply mrel_get; eauto|lia|rewrite bound1; lia]. Qed.
Lemma det2 : forall e K, (0 <= K)%Z -> detrel 2 e K.
Proof.
  intros e K HK m w _ _ R F. assert (0 <= K * K)%Z by nia. cbn [m_det]. rewrite bound2 in * by auto. assert (G := mrel_get prec emax e K m w).
  replace (Z.of_nat 2 * e)%Z with (e + e)%Z in * by lia.
  replace (2 * (K * K))%Z with (K * K + K * K)%Z in * by lia. apply rel_sub; auto; apply rel_mul; auto; eapply fits_le; eauto; lia.
Qed.
Lemma det3 : forall e K, (0 <= K)%Z -> detrel 3 e K.
Proof.
  intros e K HK m w _ _ R F. assert (Q : (0 <= K * K)%Z) by nia. cbn [m_det]. rewrite bound3 in * by auto. assert (G := mrel_get prec emax e K m w).
  assert (L : (K * K <= K * K * K)%Z). { destruct (Z.eq_dec K 0) as [->|N]; [lia|]. assert (0 <= K * K * (K - 1))%Z by (apply Z.mul_nonneg_nonneg; lia). lia. }
  assert (F2 : fits (e + e) (K * K)). { replace (e + e)%Z with (Z.of_nat 2 * e)%Z by lia. eapply fits_down; [exact F|lia|lia]. }
  replace (Z.of_nat 3 * e)%Z with (e + e + e)%Z in * by lia. set (C := (K * K * K)%Z) in *. assert (C0 : (0 <= C)%Z) by lia.
  assert (P : forall a b c d g h, rel (e + e + e) C (o_mul (o_mul (mget m a b) (mget m c d)) (mget m g h)) (o_mul (o_mul (mget w a b) (mget w c d)) (mget w g h))).
  { intros a b c d g h. unfold C. apply rel_mul; [apply rel_mul; auto|auto|]. eapply fits_le; [exact F|]. fold C. lia. }
  clearbody C. replace (6 * C)%Z with (C + C + C + C + C + C)%Z in * by lia.
  apply rel_sub; [|apply P|exact F]. apply rel_sub; [|apply P|eapply fits_le; eauto; lia]. apply rel_sub; [|apply P|eapply fits_le; eauto; lia].
  apply rel_add; [|apply P|eapply fits_le; eauto; lia]. apply rel_add; try apply P; eapply fits_le; eauto; lia.
Qed.
Lemma det_next : forall n e K, (0 <= K)%Z -> detrel (S (S (S n))) e K -> detrel (S (S (S (S n)))) e K.
Proof.
  intros n e K HK IH m w Sm Sw R F. rewrite !det_unfold. set (N := S (S (S n))) in *. rewrite (det_bound_S _ K HK) in *.
  assert (D0 : (0 <= det_bound N K)%Z) by now apply det_bound_pos.
  assert (L : (K <= Z.of_nat (S N) * (K * det_bound N K) /\ det_bound N K <= Z.of_nat (S N) * (K * det_bound N K))%Z).
  { destruct (Z.eq_dec K 0) as [EK|NK].
    - rewrite EK. unfold det_bound. rewrite Z.pow_0_l by (unfold N; lia). lia.
    - assert (1 <= det_bound N K)%Z by (unfold det_bound; assert (0 < K ^ Z.of_nat N)%Z by (apply Z.pow_pos_nonneg; lia); assert (P := lt_O_fact N); nia).
      assert (1 * K <= K * det_bound N K)%Z by nia. assert (1 * det_bound N K <= K * det_bound N K)%Z by nia. split; nia. }
  destruct L as [L1 L2].
  assert (FN : fits (Z.of_nat N * e) (det_bound N K)) by (eapply fits_down; [exact F|lia|exact L2]).
  assert (FK : fits (0 + e) (1 * K)) by (replace (0 + e)%Z with (Z.of_nat 1 * e)%Z by lia; eapply fits_down; [exact F|lia|lia]).
  replace (Z.of_nat (S N) * e)%Z with (0 + e + Z.of_nat N * e)%Z in * by lia.
  replace (Z.of_nat (S N) * (K * det_bound N K))%Z with (0 + Z.of_nat (S N) * (1 * K * det_bound N K))%Z in * by lia.
  assert (0 <= K * det_bound N K)%Z by nia.
  apply rel_acc; [lia| |apply rel_zero; lia|exact F].
  intros i Hi. apply rel_mul; [apply rel_mul; [apply rel_sign|now apply mrel_get|exact FK]| |eapply fits_le; eauto; nia].
  rewrite !minor_mk by (auto; lia). apply IH; auto.
  - replace (S N - 1)%nat with N by lia. apply mk_shape.
  - replace (S N - 1)%nat with N by lia. apply mk_shape.
  - apply mrel_mk. intros. now apply mrel_get.
Qed.
Lemma rel_det : forall n e K, (0 <= K)%Z -> detrel (S n) e K.
Proof.
  intros n e K HK. destruct n as [|[|n]]; [now apply det1|now apply det2|]. induction n as [|n IH]; [now apply det3|now apply det_next].
Qed.

(** Points under affine matrices *)
Lemma grid_finite : forall e K (v : list fl), grid_vec e K v -> all_finite v.
Proof. intros e K v H. eapply Forall_impl; [|exact H]. now intros x [F _]. Qed.
Lemma acc_snoc : forall T (o : ops T) n lo (f : nat -> T) s, acc_sum (S n) lo f s = o_add (acc_sum n lo f s) (f (lo + n)%nat).
Proof.
  intros T o n. unfold acc_sum. induction n as [|n IH]; intros lo f s.
  - cbn. now rewrite Nat.add_0_r.
  - cbn [for_loop] in *. rewrite IH. now replace (S lo + n)%nat with (lo + S n)%nat by lia.
Qed.
Lemma rel_affine : forall n e A f T B m (p : list fl), grid_affine e A (e + f) T n m -> length p = n -> grid_vec f B p -> (0 <= A)%Z -> (0 <= B)%Z -> (0 <= T)%Z ->
  fits (e + f) (Z.of_nat n * (A * B) + T) ->
  affine n (map values m) /\ vrel (e + f) (Z.of_nat n * (A * B) + T) (m_mul_p (S n) m p) (vS (raffine n (map values m) (values p))).
Proof.
  intros n e A f T B m p (Sm & GA & GT & GL) Lp Gp HA HB HT F.
  assert (GET : forall r c, B2R (nth r (nth c m []) (B754_zero false)) = ent (map values m) r c).
  { intros r c. unfold ent. change (@nil R) with (values (@nil fl)). rewrite map_nth. unfold values. change 0 with (B2R (B754_zero false : fl)). now rewrite map_nth. }
  assert (AFF : affine n (map values m)).
  { split. { destruct Sm as [S1 S2]. split; [now rewrite map_length|]. rewrite Forall_map. eapply Forall_impl; [|exact S2]. intros col Hc. unfold values. now rewrite map_length. }
    intros c Hc. destruct (GL c Hc) as [_ V]. now rewrite <- GET. }
  split; [exact AFF|].
  assert (LR : last_row prec emax n m).
  { split.
    - destruct (GL n) as [Fn V]; auto. unfold delta in V. rewrite Nat.eqb_refl in V. now apply (one_value prec emax).
    - intros c Hc. destruct (GL c) as [Fn V]; [lia|]. unfold delta in V. destruct (Nat.eqb_spec n c); [lia|]. now apply (zero_value prec emax). }
  rewrite (affine_point prec emax n m p Lp (grid_finite _ _ _ Gp) LR).
  unfold raffine. rewrite map_map. apply vrel_map_seq. intros r Hr. rewrite acc_snoc, Nat.add_0_l, homogeneous_get, Lp, Nat.ltb_irrefl, Nat.eqb_refl, mul_1_r.
  assert (0 <= A * B)%Z by nia.
  assert (E : Some (Rsum n (fun c => ent (map values m) r c * nth c (values p) 0) + ent (map values m) r n)
    = o_add (acc_sum n 0 (fun c => o_mul (Some (ent (map values m) r c)) (Some (nth c (values p) 0))) (cst 0)) (Some (ent (map values m) r n))).
  { assert (Q : forall k, acc_sum k 0 (fun c => o_mul (Some (ent (map values m) r c)) (Some (nth c (values p) 0))) (cst 0) = Some (Rsum k (fun c => ent (map values m) r c * nth c (values p) 0))).
    { intros k. induction k as [|k IH]; [reflexivity|]. rewrite acc_snoc, IH. reflexivity. }
    rewrite Q. reflexivity. }
  rewrite E. apply rel_add; auto.
  - rewrite <- (Z.add_0_l (Z.of_nat n * (A * B))). apply rel_acc; auto; try (apply rel_zero; lia); [|eapply fits_le; eauto; lia].
    intros c Hc. apply rel_mul.
    + destruct (GA r c) as [G1 G2]; [lia|lia|]. split; [now split|]. now rewrite <- GET.
    + rewrite homogeneous_get, Lp. destruct (Nat.ltb_spec c n); [|lia]. rewrite (values_nth prec emax). split; auto.
      unfold grid_vec in Gp. rewrite Forall_forall in Gp. apply Gp. unfold vget. apply nth_In. lia.
    + eapply fits_le; eauto. assert (1 <= Z.of_nat n)%Z by lia. nia.
  - split; [now apply GT|]. now rewrite <- GET.
Qed.
(** Comparisons and minima *)
Lemma rel_lt : forall e K e' K' (x y : fl) a b, rel e K x a -> rel e' K' y b -> o_lt x y = o_lt a b.
Proof. intros e K e' K' x y a b [[F _] ->] [[F' _] ->]. cbn. now apply Flt. Qed.
Lemma rel_le : forall e K e' K' (x y : fl) a b, rel e K x a -> rel e' K' y b -> o_le x y = o_le a b.
Proof. intros e K e' K' x y a b [[F _] ->] [[F' _] ->]. cbn. now apply Fle. Qed.
Lemma vrel_min : forall e K v w p q, vrel e K v p -> vrel e K w q -> vrel e K (v_min v w) (v_min p q).
Proof.
  intros. unfold v_min. eapply vrel_zip; eauto. intros x y a b R R'. cbn [sc_min]. rewrite (rel_lt e K e K x y a b R R'). now destruct (o_lt a b).
Qed.
Lemma vrel_max : forall e K v w p q, vrel e K v p -> vrel e K w q -> vrel e K (v_max v w) (v_max p q).
Proof.
  intros. unfold v_max. eapply vrel_zip; eauto. intros x y a b R R'. cbn [sc_max]. rewrite (rel_lt e K e K y x b a R' R). now destruct (o_lt b a).
Qed.
Lemma rel_abs : forall e K x a, rel e K x a -> rel e K (sc_abs x) (sc_abs a).
Proof.
  intros e K x a R. unfold sc_abs. assert (Z0 : rel e 0 (cst 0) (cst 0)) by (apply rel_zero; lia).
  first [rewrite (rel_lt e K e 0 x (cst 0) a (cst 0) R Z0) | rewrite (rel_lt e 0 e K (cst 0) x (cst 0) a Z0 R)]; match goal with |- context [if ?c then _ else _] => destruct c end; auto; now apply rel_neg.
Qed.
End Grid.
