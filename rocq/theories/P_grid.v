(** Coordinates on a grid are computed exactly: the computation with machine numbers and the one with real numbers go the same way. *)
From Coq Require Import ZArith Reals List Lia Lra Bool Psatz.
From Flocq Require Import Core BinarySingleNaN.
From Verif Require Import Ops M_scalar M_vec M_mat M_bbox Inst_F Inst_XR S_vec S_mat S_rnd S_grid P_ieee P_xr P_vec P_vec2 P_mat P_fp P_fp6 P_fp7.
Import ListNotations.
Local Open Scope R_scope.

Section Grid.
Variables prec emax : Z.
Context {Hprec : Prec_gt_0 prec} {Hmax : Prec_lt_emax prec emax}.
Notation fl := (binary_float prec emax).
Notation rnd := (round radix2 (SpecFloat.fexp prec emax) (round_mode mode_NE)).
Notation fits := (representable prec emax).

(** x and y are the same multiple of 2^e, of at most K units. *)
Definition rel (e K : Z) (x : fl) (y : XR) : Prop := on_grid e K x /\ y = Some (B2R x).

Lemma fits_le : forall e K K', fits e K -> (K' <= K)%Z -> fits e K'.
Proof. unfold representable. intros. lia. Qed.
Lemma grid_format : forall e K k, fits e K -> (Z.abs k <= K)%Z ->
  rnd (IZR k * bpow radix2 e) = IZR k * bpow radix2 e /\ Rabs (IZR k * bpow radix2 e) < bpow radix2 emax.
Proof.
  intros e K k [[E1 E2] HK] Hk. split.
  - apply round_generic; auto with typeclass_instances. change (IZR k * bpow radix2 e) with (F2R (Float radix2 k e)).
    apply (generic_format_FLT radix2 (3 - emax - prec) prec). exists (Float radix2 k e); auto. simpl Fnum. change (Z.pow_pos 2 1) with 2%Z. simpl radix_val. lia.
  - rewrite Rabs_mult, (Rabs_pos_eq (bpow radix2 e)) by apply bpow_ge_0. rewrite <- abs_IZR.
    apply Rlt_le_trans with (bpow radix2 (prec + e)); [|apply bpow_le; lia]. rewrite bpow_plus. apply Rmult_lt_compat_r; [apply bpow_gt_0|].
    replace (bpow radix2 prec) with (IZR (2 ^ prec)). { apply IZR_lt. lia. }
    rewrite <- (IZR_Zpower radix2 prec); [reflexivity|]. unfold Prec_gt_0 in Hprec. lia.
Qed.
Lemma rel_add : forall e A B x y a b, rel e A x a -> rel e B y b -> fits e (A + B) -> rel e (A + B) (o_add x y) (o_add a b).
Proof.
  intros e A B x y a b [[Fx (k & Kx & Bx)] ->] [[Fy (l & Ky & By)] ->] H.
  assert (E : B2R x + B2R y = IZR (k + l) * bpow radix2 e) by (rewrite Kx, Ky, plus_IZR; ring).
  destruct (grid_format e (A + B) (k + l) H) as [G1 G2]; [lia|].
  generalize (Bplus_correct prec emax Hprec Hmax mode_NE x y Fx Fy). rewrite E, G1, Rlt_bool_true by auto. intros (V & F & _).
  split; [split; [exact F|exists (k + l)%Z; split; [exact V|lia]]|]. cbn. f_equal. rewrite E. symmetry. exact V.
Qed.
Lemma rel_sub : forall e A B x y a b, rel e A x a -> rel e B y b -> fits e (A + B) -> rel e (A + B) (o_sub x y) (o_sub a b).
Proof.
  intros e A B x y a b [[Fx (k & Kx & Bx)] ->] [[Fy (l & Ky & By)] ->] H.
  assert (E : B2R x - B2R y = IZR (k - l) * bpow radix2 e) by (rewrite Kx, Ky, minus_IZR; ring).
  destruct (grid_format e (A + B) (k - l) H) as [G1 G2]; [lia|].
  generalize (Bminus_correct prec emax Hprec Hmax mode_NE x y Fx Fy). rewrite E, G1, Rlt_bool_true by auto. intros (V & F & _).
  split; [split; [exact F|exists (k - l)%Z; split; [exact V|lia]]|]. cbn. f_equal. rewrite E. symmetry. exact V.
Qed.
Lemma rel_mul : forall e f A B x y a b, rel e A x a -> rel f B y b -> fits (e + f) (A * B) -> rel (e + f) (A * B) (o_mul x y) (o_mul a b).
Proof.
  intros e f A B x y a b [[Fx (k & Kx & Bx)] ->] [[Fy (l & Ky & By)] ->] H.
  assert (E : B2R x * B2R y = IZR (k * l) * bpow radix2 (e + f)) by (rewrite Kx, Ky, mult_IZR, bpow_plus; ring).
  assert (L : (Z.abs (k * l) <= A * B)%Z) by (rewrite Z.abs_mul; apply Z.mul_le_mono_nonneg; lia).
  destruct (grid_format (e + f) (A * B) (k * l) H) as [G1 G2]; [lia|].
  generalize (Bmult_correct prec emax Hprec Hmax mode_NE x y). rewrite E, G1, Rlt_bool_true by auto. rewrite Fx, Fy. intros (V & F & _).
  split; [split; [exact F|exists (k * l)%Z; split; [exact V|lia]]|]. cbn. f_equal. rewrite E. symmetry. exact V.
Qed.
Lemma rel_neg : forall e A x a, rel e A x a -> rel e A (o_neg x) (o_neg a).
Proof.
  intros e A x a [[Fx (k & Kx & Bx)] ->]. change (o_neg x) with (Bopp x). split.
  - split; [now rewrite is_finite_Bopp|]. exists (- k)%Z. rewrite B2R_Bopp, Kx, opp_IZR. split; [ring|lia].
  - cbn. f_equal. symmetry. apply B2R_Bopp.
Qed.
Lemma rel_weak : forall e A B x a, rel e A x a -> (A <= B)%Z -> rel e B x a.
Proof. intros e A B x a [[F (k & K & L)] ->] H. split; auto. split; auto. exists k. split; auto. lia. Qed.
Lemma rel_zero : forall e K, (0 <= K)%Z -> rel e K (cst 0) (cst 0).
Proof.
  intros e K H. destruct (F_cst0 prec emax) as [F B]. split; [split; [exact F|]|]. { exists 0%Z. rewrite B. split; [ring|simpl; lia]. }
  now rewrite B.
Qed.
Lemma rel_cst : forall z, (Z.abs z <= 2 ^ prec)%Z -> rel 0 (Z.abs z) (cst z) (cst z).
Proof.
  intros z H. destruct (F_cst prec emax z H) as [F B]. split; [split; [exact F|]|].
  - exists z. rewrite B. split; [simpl; ring|lia].
  - now rewrite B.
Qed.
(** Halves *)
Lemma rel_half : forall e K x a, rel e K x a -> fits (e - 1) K -> (2 <= prec)%Z -> rel (e - 1) K (o_div x (cst 2)) (o_div a (cst 2)).
Proof.
  intros e K x a [[F (k & V & L)] ->] H P. assert (P2 : (2 ^ 2 <= 2 ^ prec)%Z) by (apply Z.pow_le_mono_r; lia).
  destruct (F_cst prec emax 2) as [F2 B2]; [simpl in *; lia|].
  assert (NZ : B2R (cst 2 : fl) <> 0) by (rewrite B2; lra).
  assert (E : B2R x / B2R (cst 2 : fl) = IZR k * bpow radix2 (e - 1)).
  { rewrite B2, V. unfold Z.sub. rewrite bpow_plus. change (bpow radix2 (- (1))) with (/ 2). field. }
  destruct (grid_format (e - 1) K k H L) as [G1 G2].
  generalize (Bdiv_correct prec emax Hprec Hmax mode_NE x (cst 2) NZ). rewrite E, G1, Rlt_bool_true by auto. rewrite F. intros (V' & F' & _).
  split; [split; [exact F'|exists k; split; [exact V'|exact L]]|]. cbn. rewrite Req_bool_false by lra. f_equal. rewrite B2 in E. rewrite E. symmetry. exact V'.
Qed.

(** Vectors *)
Definition vrel e K (v : list fl) (w : list XR) : Prop := Forall2 (rel e K) v w.
Lemma vrel_values : forall e K v, grid_vec e K v -> vrel e K v (map Some (values v)).
Proof. intros e K v H. induction H; constructor; auto. now split. Qed.
Lemma vrel_exact : forall e K v r, vrel e K v (map Some r) -> exact_vec v r.
Proof.
  intros e K v r H. remember (map Some r) as w eqn:E. revert r E. induction H as [|x y v w [[F G] V] H IH]; intros [|a r] E; try discriminate; constructor.
  - injection E as -> _. injection V as ->. now split.
  - apply IH. now injection E.
Qed.
Lemma rel_exact : forall e K x r, rel e K x (Some r) -> exactly x r.
Proof. intros e K x r [[F G] V]. injection V as ->. now split. Qed.
Lemma vrel_weak : forall e A B v w, vrel e A v w -> (A <= B)%Z -> vrel e B v w.
Proof. intros e A B v w H L. induction H; constructor; auto. now apply rel_weak with A. Qed.
Lemma vrel_length : forall e K v w, vrel e K v w -> length v = length w.
Proof. intros e K v w H. now apply Forall2_length in H. Qed.
Lemma vrel_get : forall e K v w i, (0 <= K)%Z -> vrel e K v w -> rel e K (vget v i) (vget w i).
Proof.
  intros e K v w i HK H. revert i. induction H as [|x y v w R H IH]; intros [|i]; try (now apply rel_zero). { exact R. } apply IH.
Qed.
Lemma vrel_zip : forall e K e1 K1 e2 K2 (f : fl -> fl -> fl) (g : XR -> XR -> XR), (forall x y a b, rel e1 K1 x a -> rel e2 K2 y b -> rel e K (f x y) (g a b)) ->
  forall v w p q, vrel e1 K1 v p -> vrel e2 K2 w q -> vrel e K (map2 f v w) (map2 g p q).
Proof.
  intros e K e1 K1 e2 K2 f g H v w p q HV. revert w q. induction HV; intros w q HW; [constructor|]. destruct HW; [constructor|]. cbn [map2]. constructor; [now apply H|]. now apply IHHV.
Qed.
Lemma vrel_add : forall e A B v w p q, vrel e A v p -> vrel e B w q -> fits e (A + B) -> vrel e (A + B) (v_add v w) (v_add p q).
Proof. intros. unfold v_add. eapply vrel_zip; eauto. intros. now apply rel_add. Qed.
Lemma vrel_sub : forall e A B v w p q, vrel e A v p -> vrel e B w q -> fits e (A + B) -> vrel e (A + B) (v_sub v w) (v_sub p q).
Proof. intros. unfold v_sub. eapply vrel_zip; eauto. intros. now apply rel_sub. Qed.
Lemma vrel_mul : forall e f A B v w p q, vrel e A v p -> vrel f B w q -> fits (e + f) (A * B) -> vrel (e + f) (A * B) (v_mul v w) (v_mul p q).
Proof. intros. unfold v_mul. eapply vrel_zip; eauto. intros. now apply rel_mul. Qed.
Lemma vrel_neg : forall e A v p, vrel e A v p -> vrel e A (v_neg v) (v_neg p).
Proof. intros e A v p H. induction H; constructor; auto. now apply rel_neg. Qed.
Lemma vrel_scale : forall e f A B v p x a, vrel e A v p -> rel f B x a -> fits (e + f) (A * B) -> vrel (e + f) (A * B) (v_scale v x) (v_scale p a).
Proof. intros e f A B v p x a H Hx F. induction H; constructor; auto. now apply rel_mul. Qed.
Lemma vrel_half : forall e K v p, vrel e K v p -> fits (e - 1) K -> (2 <= prec)%Z -> vrel (e - 1) K (v_div_s v (cst 2)) (v_div_s p (cst 2)).
Proof. intros e K v p H F P. induction H; constructor; auto. now apply rel_half. Qed.
Lemma rel_acc : forall n e S K lo (f : nat -> fl) (g : nat -> XR) s t, (0 <= K)%Z -> (forall i, (lo <= i < lo + n)%nat -> rel e K (f i) (g i)) -> rel e S s t ->
  fits e (S + Z.of_nat n * K) -> rel e (S + Z.of_nat n * K) (acc_sum n lo f s) (acc_sum n lo g t).
Proof.
  intros n. induction n as [|n IH]; intros e S K lo f g s t HK H HS F.
  - cbn. now rewrite Z.add_0_r.
  - unfold acc_sum. cbn [for_loop]. replace (S + Z.of_nat (Datatypes.S n) * K)%Z with (S + K + Z.of_nat n * K)%Z in * by lia.
    apply (IH e (S + K)%Z K (Datatypes.S lo) f g); auto.
    + intros i Hi. apply H. lia.
    + apply rel_add; auto. { apply H. lia. } eapply fits_le; eauto. nia.
Qed.
Lemma rel_fold_dot : forall e f A B v p, vrel e A v p -> forall w q, vrel f B w q -> length v = length w -> forall S s t, (0 <= S)%Z -> rel (e + f) S s t ->
  fits (e + f) (S + Z.of_nat (length v) * (A * B)) ->
  rel (e + f) (S + Z.of_nat (length v) * (A * B)) (fold_left (fun r p => o_add r (o_mul (fst p) (snd p))) (combine v w) s) (fold_left (fun r p => o_add r (o_mul (fst p) (snd p))) (combine p q) t).
Proof.
  intros e f A B v p H. induction H as [|x a v p R H IH]; intros w q HW L S s t HS HR F.
  - cbn. now rewrite Z.add_0_r.
  - destruct HW as [|y b w q R' HW]; [discriminate|]. cbn [combine fold_left fst snd length] in *.
    assert (A0 : (0 <= A)%Z) by (destruct R as [[_ (k & _ & ?)] _]; lia). assert (B0 : (0 <= B)%Z) by (destruct R' as [[_ (k & _ & ?)] _]; lia).
    assert (0 <= A * B)%Z by nia.
    replace (S + Z.of_nat (Datatypes.S (length v)) * (A * B))%Z with (S + A * B + Z.of_nat (length v) * (A * B))%Z in * by lia.
    apply IH; auto; try nia. apply rel_add; auto.
    + apply rel_mul; auto. eapply fits_le; eauto. nia.
    + eapply fits_le; eauto. nia.
Qed.
Lemma rel_dot : forall e f A B v p w q, vrel e A v p -> vrel f B w q -> length v = length w -> fits (e + f) (Z.of_nat (length v) * (A * B)) ->
  rel (e + f) (Z.of_nat (length v) * (A * B)) (v_dot v w) (v_dot p q).
Proof.
  intros e f A B v p w q HV HW L F. unfold v_dot. rewrite <- (Z.add_0_l (_ * _)) in *. eapply rel_fold_dot; eauto; try lia. apply rel_zero. lia.
Qed.
Lemma rel_cross : forall e f A B v p w q, (0 <= A)%Z -> (0 <= B)%Z -> vrel e A v p -> vrel f B w q -> fits (e + f) (2 * (A * B)) ->
  vrel (e + f) (2 * (A * B)) (v_cross v w) (v_cross p q).
Proof.
  intros e f A B v p w q HA HB HV HW F. assert (0 <= A * B)%Z by nia. assert (F1 : fits (e + f) (A * B)) by (eapply fits_le; eauto; lia).
  replace (2 * (A * B))%Z with (A * B + A * B)%Z in * by lia. unfold v_cross. constructor; [|constructor; [|constructor; [|constructor]]]; apply rel_sub; auto; apply rel_mul; auto; now apply vrel_get.
Qed.

(** Matrices *)
Definition mrel e K (m : list (list fl)) (w : list (list XR)) : Prop := Forall2 (vrel e K) m w.
Lemma mrel_values : forall e K m, grid_mat e K m -> mrel e K m (map (map Some) (map values m)).
Proof. intros e K v H. induction H; constructor; auto. now apply vrel_values. Qed.
Lemma mrel_exact : forall e K v r, mrel e K v (map (map Some) r) -> exact_mat v r.
Proof.
  intros e K v r H. remember (map (map Some) r) as w eqn:E. revert r E. induction H as [|x y v w V H IH]; intros [|a r] E; try discriminate; constructor.
  - injection E as -> _. now apply vrel_exact with e K.
  - apply IH. now injection E.
Qed.
Lemma mrel_get : forall e K m w c r, (0 <= K)%Z -> mrel e K m w -> rel e K (mget m c r) (mget w c r).
Proof.
  intros e K m w c r HK H. unfold mget, mcol. apply vrel_get; auto. revert c. induction H; intros [|c]; cbn; auto; constructor.
Qed.
Lemma vrel_map_seq : forall e K (f : nat -> fl) (g : nat -> XR) n, (forall i, (i < n)%nat -> rel e K (f i) (g i)) -> vrel e K (map f (seq 0 n)) (map g (seq 0 n)).
Proof.
  intros e K f g n H. assert (G : forall l, (forall i, In i l -> (i < n)%nat) -> vrel e K (map f l) (map g l)).
  { intros l. induction l as [|i l IH]; intros HL; constructor. { apply H, HL. now left. } apply IH. intros j Hj. apply HL. now right. }
  apply G. intros i Hi. apply in_seq in Hi. lia.
Qed.
Lemma mrel_mk : forall e K R C (f : nat -> nat -> fl) (g : nat -> nat -> XR), (forall c r, (c < C)%nat -> (r < R)%nat -> rel e K (f c r) (g c r)) ->
  mrel e K (mk_mat R C f) (mk_mat R C g).
Proof.
  intros e K R C f g H. unfold mk_mat. assert (G : forall l, (forall i, In i l -> (i < C)%nat) -> mrel e K (map (fun c => map (f c) (seq 0 R)) l) (map (fun c => map (g c) (seq 0 R)) l)).
  { intros l. induction l as [|i l IH]; intros HL; constructor. { apply vrel_map_seq. intros r Hr. apply H; auto. apply HL. now left. } apply IH. intros j Hj. apply HL. now right. }
  apply G. intros i Hi. apply in_seq in Hi. lia.
Qed.
Lemma rel_mul_v : forall n e f A B m w v p, (0 <= A)%Z -> (0 <= B)%Z -> mrel e A m w -> vrel f B v p -> fits (e + f) (Z.of_nat n * (A * B)) ->
  vrel (e + f) (Z.of_nat n * (A * B)) (m_mul_v n m v) (m_mul_v n w p).
Proof.
  intros n e f A B m w v p HA HB HM HV F. unfold m_mul_v. apply vrel_map_seq. intros r Hr. rewrite <- (Z.add_0_l (_ * _)) in *. assert (0 <= A * B)%Z by nia.
  apply rel_acc; auto; try (apply rel_zero; lia). intros c Hc. apply rel_mul; try (now apply mrel_get); try (now apply vrel_get). eapply fits_le; eauto. nia.
Qed.
Lemma rel_m_mul : forall n k l e f A B m w v p, (0 <= A)%Z -> (0 <= B)%Z -> mrel e A m w -> mrel f B v p -> fits (e + f) (Z.of_nat k * (A * B)) ->
  mrel (e + f) (Z.of_nat k * (A * B)) (m_mul n k l m v) (m_mul n k l w p).
Proof.
  intros n k l e f A B m w v p HA HB HM HV F. unfold m_mul. apply mrel_mk. intros c r Hc Hr. rewrite <- (Z.add_0_l (_ * _)) in *. assert (0 <= A * B)%Z by nia.
  apply rel_acc; auto; try (apply rel_zero; lia). intros i Hi. apply rel_mul; try (now apply mrel_get). eapply fits_le; eauto. nia.
Qed.
End Grid.
