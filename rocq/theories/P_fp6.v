(** Products with zero and one are exact: transformations that only move components, in machine arithmetic. *)
From Coq Require Import ZArith Reals List Lia Lra Bool.
From Flocq Require Import Core BinarySingleNaN.
From Verif Require Import Ops M_scalar M_vec M_mat M_bbox M_matext Inst_F S_order S_vec S_mat S_rnd P_ord P_ieee P_vec P_vec2 P_mat P_fp4.
Import ListNotations.
Local Open Scope R_scope.

Section FP.
Variables prec emax : Z.
Context {Hprec : Prec_gt_0 prec} {Hmax : Prec_lt_emax prec emax}.
Notation fl := (binary_float prec emax).

(** The same number, except that the two zeros are not told apart *)
Definition zero (x : fl) : Prop := exists s, x = B754_zero s.
Definition feq (x y : fl) : Prop := x = y \/ (zero x /\ zero y).

Lemma feq_refl : forall x, feq x x. Proof. now left. Qed.
Lemma feq_sym : forall x y, feq x y -> feq y x. Proof. intros x y [->|[A B]]; [now left|now right]. Qed.
Lemma feq_trans : forall x y z, feq x y -> feq y z -> feq x z.
Proof. intros x y z [->|[A B]] [->|[C D]]; try (now left); right; auto. Qed.
Lemma zero_feq : forall x y, zero x -> zero y -> feq x y. Proof. now right. Qed.
Lemma feq_zero : forall x y, feq x y -> zero y -> zero x. Proof. intros x y [->|[A B]]; auto. Qed.
Lemma zero_value : forall x : fl, is_finite x = true -> B2R x = 0 -> zero x.
Proof.
  intros [s|s| |s m e B] F V; try discriminate; [now exists s|].
  exfalso. simpl in V. apply eq_0_F2R in V. destruct s; discriminate.
Qed.
Lemma cst0_zero : zero (cst 0). Proof. destruct (F_cst0 prec emax). now apply zero_value. Qed.
Lemma feq_comp : forall x y, feq x y -> comp_eq x y.
Proof.
  intros x y [->|[[s ->] [t ->]]].
  - destruct (is_finite y) eqn:Fy; [right; cbn [o_eq Fops]; rewrite (Feq prec emax) by auto; now apply Req_bool_true|].
    destruct y as [|[|]| |]; try discriminate; [right; reflexivity|right; reflexivity|left; split; reflexivity].
  - right. reflexivity.
Qed.

Lemma add_zero_l : forall z x : fl, zero z -> feq (o_add z x) x.
Proof. intros z x [s ->]. destruct x as [t| | |]; try (now left). right. destruct s, t; split; eexists; reflexivity. Qed.
Lemma add_zero_r : forall z x : fl, zero z -> feq (o_add x z) x.
Proof. intros. rewrite (Bplus_swap prec emax). now apply add_zero_l. Qed.
Lemma mul_zero_l : forall z x : fl, zero z -> is_finite x = true -> zero (o_mul z x).
Proof. intros z x [s ->] F. destruct x as [t| | |]; try discriminate; eexists; reflexivity. Qed.
Lemma mul_zero_r : forall z x : fl, zero z -> is_finite x = true -> zero (o_mul x z).
Proof. intros. rewrite (Bmult_swap prec emax). now apply mul_zero_l. Qed.
Lemma add_feq : forall x x' y y' : fl, feq x x' -> feq y y' -> feq (o_add x y) (o_add x' y').
Proof.
  assert (G : forall x y y' : fl, feq y y' -> feq (o_add x y) (o_add x y')).
  { intros x y y' [->|[A B]]; [now left|]. eapply feq_trans; [now apply add_zero_r|]. apply feq_sym. now apply add_zero_r. }
  intros x x' y y' A B. eapply feq_trans; [exact (G x y y' B)|]. rewrite (Bplus_swap prec emax x), (Bplus_swap prec emax x'). now apply G.
Qed.
Lemma mul_1_r : forall x : fl, o_mul x (cst 1) = x.
Proof.
  intros x. destruct (F_cst1 prec emax) as [F1 B1]. assert (S1 := Bone_sign prec emax).
  change (o_mul x (cst 1)) with (Bmult mode_NE x (cst 1)).
  destruct (is_finite x) eqn:Fx.
  - assert (H := Bmult_correct prec emax Hprec Hmax mode_NE x (cst 1)).
    rewrite B1, Rmult_1_r in H. rewrite round_generic in H; [ | auto with typeclass_instances | apply generic_format_B2R ].
    rewrite Rlt_bool_true in H by apply abs_B2R_lt_emax.
    destruct H as (H1 & H2 & H3). rewrite Fx, F1 in H2. apply B2R_Bsign_inj; auto.
    rewrite H3, S1, xorb_false_r; auto.
    destruct (Bmult mode_NE x (cst 1)); auto; discriminate.
  - destruct (cst 1 : fl) as [|  | |s m e h]; try discriminate.
    { simpl in B1. lra. }
    simpl in S1. subst s. destruct x as [| [] | |]; try discriminate; reflexivity.
Qed.
Lemma mul_1_l : forall x : fl, o_mul (cst 1) x = x.
Proof. intros. rewrite (Bmult_swap prec emax). apply mul_1_r. Qed.
Lemma cst_m1 : cst (-1) = Bopp (cst 1) :> fl.
Proof.
  assert (P : (2 ^ 1 <= 2 ^ prec)%Z) by (apply Z.pow_le_mono_r; [lia|]; assert (H := Hp prec); lia).
  destruct (F_cst prec emax (-1)) as [A B]; [simpl in *; lia|].
  destruct (F_cst1 prec emax) as [A1 B1].
  apply B2R_inj.
  - destruct (cst (-1) : fl); try discriminate; auto. simpl in B. lra.
  - destruct (cst 1 : fl); try discriminate; auto. simpl in B1. lra.
  - rewrite B2R_Bopp, B, B1. reflexivity.
Qed.
Lemma mul_opp_l : forall x y : fl, o_mul (Bopp x) y = Bopp (o_mul x y).
Proof.
  intros x y. destruct x as [sx|sx| |sx mx ex Bx], y as [sy|sy| |sy my ey By];
    try (destruct sx; destruct sy; reflexivity); try (destruct sx; reflexivity); try reflexivity.
  assert (C := Bmult_correct prec emax Hprec Hmax mode_NE (B754_finite sx mx ex Bx) (B754_finite sy my ey By)).
  assert (C' := Bmult_correct prec emax Hprec Hmax mode_NE (Bopp (B754_finite sx mx ex Bx)) (B754_finite sy my ey By)).
  rewrite B2R_Bopp, is_finite_Bopp in C'.
  set (x := B754_finite sx mx ex Bx) in *. set (y := B754_finite sy my ey By) in *.
  change (o_mul (Bopp x) y) with (Bmult mode_NE (Bopp x) y). change (o_mul x y) with (Bmult mode_NE x y).
  replace (- B2R x * B2R y) with (- (B2R x * B2R y)) in C' by ring.
  cbn [round_mode] in C, C'. rewrite round_NE_opp, Rabs_Ropp in C'.
  destruct (Rlt_bool_spec (Rabs (round radix2 (SpecFloat.fexp prec emax) ZnearestE (B2R x * B2R y))) (bpow radix2 emax)) as [L|L].
  - destruct C as (C1 & C2 & C3), C' as (C1' & C2' & C3').
    assert (N : forall z : fl, is_finite z = true -> BinarySingleNaN.is_nan z = false) by (intros [| | |]; auto; discriminate).
    assert (Fx : is_finite x && is_finite y = true) by reflexivity. rewrite Fx in C2, C2'.
    apply B2R_Bsign_inj; rewrite ?is_finite_Bopp; auto.
    + rewrite B2R_Bopp. congruence.
    + assert (F1 := N _ C2). assert (F2 := N _ C2'). rewrite C3' by auto. specialize (C3 F1).
      rewrite (Bsign_Bopp _ _ _ F1). rewrite C3. subst x y. destruct sx, sy; reflexivity.
  - destruct (Bmult mode_NE x y) as [|[|]| |], (Bmult mode_NE (Bopp x) y) as [|[|]| |]; cbn in C, C'; try discriminate;
      destruct sx, sy; simpl in *; try discriminate; reflexivity.
Qed.
Lemma mul_opp_r : forall x y : fl, o_mul x (Bopp y) = Bopp (o_mul x y).
Proof. intros. now rewrite (Bmult_swap prec emax), mul_opp_l, (Bmult_swap prec emax). Qed.
Lemma mul_m1 : forall x : fl, o_mul (cst (-1)) x = o_neg x.
Proof. intros. rewrite cst_m1, mul_opp_l, mul_1_l. reflexivity. Qed.

(** Sums with one term *)
Lemma acc_S : forall n lo (f : nat -> fl) s, acc_sum (S n) lo f s = acc_sum n (S lo) f (o_add s (f lo)).
Proof. reflexivity. Qed.
Lemma acc_feq : forall n lo (f g : nat -> fl) s t, (forall i, (lo <= i < lo + n)%nat -> feq (f i) (g i)) -> feq s t -> feq (acc_sum n lo f s) (acc_sum n lo g t).
Proof.
  intros n. induction n as [|n IH]; intros lo f g s t H E; [exact E|]. rewrite !acc_S. apply IH.
  - intros i Hi. apply H. lia.
  - apply add_feq; auto. apply H. lia.
Qed.
Lemma acc_zero : forall n lo (f : nat -> fl) s, (forall i, (lo <= i < lo + n)%nat -> zero (f i)) -> feq (acc_sum n lo f s) s.
Proof.
  intros n. induction n as [|n IH]; intros lo f s H; [now left|]. rewrite acc_S. eapply feq_trans; [apply IH|].
  - intros i Hi. apply H. lia.
  - apply add_zero_r, H. lia.
Qed.
Lemma acc_one : forall n lo (f : nat -> fl) s k, (forall i, (lo <= i < lo + n)%nat -> i <> k -> zero (f i)) -> (lo <= k < lo + n)%nat ->
  feq (acc_sum n lo f s) (o_add s (f k)).
Proof.
  intros n. induction n as [|n IH]; intros lo f s k H K; [lia|]. rewrite acc_S.
  destruct (Nat.eq_dec lo k) as [->|N].
  - apply acc_zero. intros i Hi. apply H; lia.
  - eapply feq_trans; [apply (IH (S lo) f _ k); [intros i Hi; apply H; lia|lia]|].
    apply add_feq; [|now left]. apply add_zero_r. apply H; lia.
Qed.
Lemma acc_one0 : forall n lo (f : nat -> fl) k, (forall i, (lo <= i < lo + n)%nat -> i <> k -> zero (f i)) -> (lo <= k < lo + n)%nat ->
  feq (acc_sum n lo f (cst 0)) (f k).
Proof. intros n lo f k H K. eapply feq_trans; [exact (acc_one n lo f _ k H K)|]. apply add_zero_l, cst0_zero. Qed.
Lemma acc_last : forall n lo (f : nat -> fl) s, acc_sum (S n) lo f s = o_add (acc_sum n lo f s) (f (lo + n)%nat).
Proof. intros. unfold acc_sum. rewrite for_last. reflexivity. Qed.

Lemma feq_nonzero : forall x y : fl, feq x y -> B2R y <> 0 -> x = y.
Proof. intros x y [E|[_ [s E]]] N; auto. subst. exfalso. now apply N. Qed.
Lemma Forall2_map_seq : forall A (P : A -> fl -> Prop) (f : nat -> A) (l : list fl) k, (forall i, (i < length l)%nat -> P (f (k + i)%nat) (nth i l (cst 0))) ->
  Forall2 P (map f (seq k (length l))) l.
Proof.
  intros A P f l. induction l as [|x l IH]; intros k H; simpl; constructor.
  - specialize (H 0%nat). rewrite Nat.add_0_r in H. apply H. simpl. lia.
  - apply IH. intros i Hi. replace (S k + i)%nat with (k + S i)%nat by lia. apply (H (S i)). simpl. lia.
Qed.
Lemma finite_get : forall (v : list fl) i, all_finite v -> is_finite (vget v i) = true.
Proof.
  intros v i F. unfold vget. destruct (Nat.lt_ge_cases i (length v)) as [L|L].
  - unfold all_finite in F. rewrite Forall_forall in F. apply F. now apply nth_In.
  - rewrite nth_overflow by lia. apply (F_cst0 prec emax).
Qed.
Lemma id_get : forall n c r, (c < n)%nat -> (r < n)%nat -> mget (m_identity n n : list (list fl)) c r = if Nat.eqb c r then cst 1 else cst 0.
Proof. intros. unfold m_identity. now rewrite mk_get. Qed.

(** Identity *)
Lemma id_vec : forall n (v : list fl), length v = n -> all_finite v -> vec_eq (m_mul_v n (m_identity n n) v) v.
Proof.
  intros n v L F. unfold m_mul_v, vec_eq. rewrite <- L. apply Forall2_map_seq. intros r Hr. cbn [Nat.add]. apply feq_comp.
  eapply feq_trans; [apply (acc_one0 _ _ _ r)|].
  - intros i Hi N. apply mul_zero_l; [|now apply finite_get]. rewrite id_get by lia. apply Nat.eqb_neq in N. rewrite N. apply cst0_zero.
  - lia.
  - cbv beta. rewrite id_get, Nat.eqb_refl by lia. rewrite mul_1_l. now left.
Qed.
Lemma finite_mget : forall (m : list (list fl)) c r, finite_mat m -> is_finite (mget m c r) = true.
Proof.
  intros m c r F. unfold mget. apply finite_get. unfold mcol. destruct (Nat.lt_ge_cases c (length m)) as [L|L].
  - unfold finite_mat in F. rewrite Forall_forall in F. apply F. now apply nth_In.
  - rewrite nth_overflow by lia. constructor.
Qed.
Lemma mat_rel : forall R C (f : nat -> nat -> fl) m, is_mat R C m -> (forall c r, (c < C)%nat -> (r < R)%nat -> feq (f c r) (mget m c r)) ->
  Forall2 vec_eq (mk_mat R C f) m.
Proof.
  intros R C f m M H. rewrite (mat_eta R C m M). unfold mk_mat.
  assert (G : forall l, (forall c, In c l -> (c < C)%nat) -> Forall2 vec_eq (map (fun c => map (fun r => f c r) (seq 0 R)) l) (map (fun c => map (fun r => mget m c r) (seq 0 R)) l)).
  { intros l. induction l as [|c l IH]; intros K; simpl; constructor.
    - assert (Kc : (c < C)%nat) by (apply K; now left). 
      assert (G' : forall l', (forall r, In r l' -> (r < R)%nat) -> Forall2 comp_eq (map (fun r => f c r) l') (map (fun r => mget m c r) l')).
      { intros l'. induction l' as [|r l' IH']; intros K'; simpl; constructor; [apply feq_comp, H; auto; apply K'; now left|].
        apply IH'. intros. apply K'. now right. }
      apply G'. intros r Hr. apply in_seq in Hr. lia.
    - apply IH. intros. apply K. now right. }
  apply G. intros c Hc. apply in_seq in Hc. lia.
Qed.
Lemma id_mat : forall n k (m : list (list fl)), is_mat n k m -> finite_mat m ->
  Forall2 vec_eq (m_mul n n k (m_identity n n) m) m /\ Forall2 vec_eq (m_mul n k k m (m_identity k k)) m.
Proof.
  intros n k m M F. split; unfold m_mul; apply mat_rel; auto; intros c r Hc Hr.
  - eapply feq_trans; [apply (acc_one0 _ _ _ r)|].
    + intros i Hi N. apply mul_zero_l; [|now apply finite_mget]. rewrite id_get by lia. apply Nat.eqb_neq in N. rewrite N. apply cst0_zero.
    + lia.
    + cbv beta. rewrite id_get, Nat.eqb_refl by lia. rewrite mul_1_l. now left.
  - eapply feq_trans; [apply (acc_one0 _ _ _ c)|].
    + intros i Hi N. apply mul_zero_r; [|now apply finite_mget]. rewrite id_get by lia. destruct (Nat.eqb_spec c i); [lia|]. apply cst0_zero.
    + lia.
    + cbv beta. rewrite id_get, Nat.eqb_refl by lia. rewrite mul_1_r. now left.
Qed.

(** Affine matrices: the division by the last component is exact. *)
Definition last_row (n : nat) (m : list (list fl)) : Prop :=
  mget m n n = cst 1 /\ forall c, (c < n)%nat -> zero (mget m c n).
Lemma homogeneous_get : forall (p : list fl) i, vget (v_to_homogeneous p) i = if (i <? length p)%nat then vget p i else if (i =? length p)%nat then cst 1 else cst 0.
Proof.
  intros p i. unfold v_to_homogeneous, v_extend, vget. rewrite map_id. destruct (Nat.ltb_spec i (length p)).
  - now rewrite app_nth1.
  - rewrite app_nth2 by lia. destruct (Nat.eqb_spec i (length p)) as [->|N].
    + now rewrite Nat.sub_diag.
    + destruct (i - length p)%nat as [|[|k]] eqn:E; [lia| |]; reflexivity.
Qed.
Lemma affine_point : forall n m (p : list fl), length p = n -> all_finite p -> last_row n m ->
  m_mul_p (S n) m p = map (fun r => acc_sum (S n) 0 (fun c => o_mul (mget m c r) (vget (v_to_homogeneous p) c)) (cst 0)) (seq 0 n).
Proof.
  intros n m p L F [H1 H0]. unfold m_mul_p, v_to_cartesian, m_mul_v.
  set (f := fun r => acc_sum (S n) 0 (fun c => o_mul (mget m c r) (vget (v_to_homogeneous p) c)) (cst 0)). rewrite map_length, seq_length.
  replace (S n - 1)%nat with n by lia.
  assert (E : vget (map f (seq 0 (S n))) n = cst 1).
  { unfold vget. rewrite nth_map_seq by lia. unfold f. destruct (F_cst1 prec emax) as [F1 B1].
    assert (G : vget (v_to_homogeneous p) n = cst 1) by (rewrite homogeneous_get, L, Nat.ltb_irrefl, Nat.eqb_refl; reflexivity).
    apply feq_nonzero; [|rewrite B1; lra]. eapply feq_trans; [apply (acc_one0 _ _ _ n)|].
    - intros i Hi N. apply mul_zero_l; [apply H0; lia|]. rewrite homogeneous_get.
      destruct (i <? length p)%nat; [now apply finite_get|]. destruct (i =? length p)%nat; [apply F_cst1|apply F_cst0].
    - lia.
    - cbv beta. rewrite H1, G, mul_1_l. now left. }
  rewrite E. rewrite <- (map_id (map f (seq 0 n))). rewrite firstn_map.
  replace (firstn n (seq 0 (S n))) with (seq 0 n).
  - apply map_ext. intros x. apply Bdiv_1.
  - rewrite seq_S. rewrite firstn_app, seq_length, Nat.sub_diag, firstn_O, app_nil_r. rewrite firstn_all2; auto. rewrite seq_length. lia.
Qed.

Lemma transl_get : forall (d : list fl) c r, (c <= length d)%nat -> (r <= length d)%nat ->
  mget (translation_matrix d) c r = if (c =? length d)%nat && (r <? length d)%nat then vget d r else if Nat.eqb c r then cst 1 else cst 0.
Proof.
  intros d c r Hc Hr. unfold translation_matrix. set (n := length d) in *.
  assert (G : forall k, (k <= n)%nat -> is_mat (n + 1) (n + 1) (for_loop k 0 (fun i m => mput m n i (vget d i)) (m_identity (n + 1) (n + 1))) /\
    forall c r, (c <= n)%nat -> (r <= n)%nat -> mget (for_loop k 0 (fun i m => mput m n i (vget d i)) (m_identity (n + 1) (n + 1))) c r
      = if (c =? n)%nat && (r <? k)%nat then vget d r else if Nat.eqb c r then cst 1 else cst 0).
  { intros k. induction k as [|k IH]; intros Hk.
    - split; [apply mk_shape|]. intros c' r' A B. simpl for_loop. rewrite id_get by lia. now rewrite andb_false_r.
    - destruct IH as [I1 I2]; [lia|]. rewrite for_last. cbn [Nat.add]. split; [apply mput_shape; auto; lia|].
      intros c' r' A B. rewrite (mput_get (n + 1) (n + 1)) by (auto; lia).
      rewrite I2 by lia. destruct (Nat.eqb_spec c' n) as [->|]; destruct (Nat.eqb_spec r' k) as [->|];
        cbn [andb]; try reflexivity.
      + now rewrite (proj2 (Nat.ltb_lt k (S k)) ltac:(lia)).
      + destruct (Nat.ltb_spec r' k), (Nat.ltb_spec r' (S k)); try lia; reflexivity. }
  apply G; auto.
Qed.
Lemma scal_get : forall (d : list fl) c r, (c <= length d)%nat -> (r <= length d)%nat ->
  mget (scaling_matrix d) c r = if Nat.eqb c r then (if (c <? length d)%nat then vget d c else cst 1) else cst 0.
Proof.
  intros d c r Hc Hr. unfold scaling_matrix. set (n := length d) in *.
  assert (G : forall k, (k <= n)%nat -> is_mat (n + 1) (n + 1) (for_loop k 0 (fun i m => mput m i i (vget d i)) (m_identity (n + 1) (n + 1))) /\
    forall c r, (c <= n)%nat -> (r <= n)%nat -> mget (for_loop k 0 (fun i m => mput m i i (vget d i)) (m_identity (n + 1) (n + 1))) c r
      = if Nat.eqb c r then (if (c <? k)%nat then vget d c else cst 1) else cst 0).
  { intros k. induction k as [|k IH]; intros Hk.
    - split; [apply mk_shape|]. intros c' r' A B. simpl for_loop. rewrite id_get by lia. reflexivity.
    - destruct IH as [I1 I2]; [lia|]. rewrite for_last. cbn [Nat.add]. split; [apply mput_shape; auto; lia|].
      intros c' r' A B. rewrite (mput_get (n + 1) (n + 1)) by (auto; lia).
      rewrite I2 by lia. destruct (Nat.eqb_spec c' k) as [->|]; destruct (Nat.eqb_spec r' k) as [->|]; cbn [andb].
      + now rewrite Nat.eqb_refl, (proj2 (Nat.ltb_lt k (S k)) ltac:(lia)).
      + destruct (Nat.eqb_spec k r'); [lia|reflexivity].
      + destruct (Nat.eqb_spec c' k); [lia|reflexivity].
      + destruct (Nat.eqb_spec c' r'); auto. destruct (Nat.ltb_spec c' k), (Nat.ltb_spec c' (S k)); try lia; reflexivity. }
  apply G; auto.
Qed.
Lemma vadd_get : forall (a b : list fl) i, length a = length b -> (i < length a)%nat -> vget (v_add a b) i = o_add (vget a i) (vget b i).
Proof.
  unfold vget, v_add. intros a. induction a as [|x a IH]; intros [|y b] i L Hi; simpl in *; try lia. destruct i; auto. apply IH; lia.
Qed.
Lemma vmul_get : forall (a b : list fl) i, length a = length b -> (i < length a)%nat -> vget (v_mul a b) i = o_mul (vget a i) (vget b i).
Proof.
  unfold vget, v_mul. intros a. induction a as [|x a IH]; intros [|y b] i L Hi; simpl in *; try lia. destruct i; auto. apply IH; lia.
Qed.
Lemma map2_len : forall (f : fl -> fl -> fl) a b, length a = length b -> length (map2 f a b) = length a.
Proof. intros f a. induction a as [|x a IH]; intros [|y b] L; simpl in *; try lia. rewrite IH; lia. Qed.

Lemma translation_point : forall d p : list fl, length p = length d -> all_finite p -> all_finite d ->
  vec_eq (m_mul_p (S (length d)) (translation_matrix d) p) (v_add p d).
Proof.
  intros d p L Fp Fd. set (n := length d) in *. rewrite affine_point; auto.
  2:{ split.
      - rewrite transl_get by (unfold n; lia). fold n. now rewrite Nat.ltb_irrefl, andb_false_r, Nat.eqb_refl.
      - intros c Hc. rewrite transl_get by (fold n; lia). fold n. rewrite Nat.ltb_irrefl, andb_false_r.
        destruct (Nat.eqb_spec c n); [lia|apply cst0_zero]. }
  assert (LV : length (v_add p d) = n) by (unfold v_add; rewrite map2_len; auto).
  unfold vec_eq. replace (seq 0 n) with (seq 0 (length (v_add p d))) by now rewrite LV. apply Forall2_map_seq. intros r Hr. rewrite LV in Hr. cbn [Nat.add]. apply feq_comp.
  change (nth r (v_add p d) (cst 0)) with (vget (v_add p d) r). rewrite vadd_get by lia.
  rewrite acc_last. cbn [Nat.add]. apply add_feq.
  - eapply feq_trans; [apply (acc_one0 _ _ _ r)|].
    + intros i Hi N. rewrite transl_get by (fold n; lia). fold n. destruct (Nat.eqb_spec i n); [lia|]. cbn [andb].
      destruct (Nat.eqb_spec i r); [lia|]. apply mul_zero_l; [apply cst0_zero|]. rewrite homogeneous_get, L. fold n.
      rewrite (proj2 (Nat.ltb_lt i n)) by lia. now apply finite_get.
    + lia.
    + cbv beta. rewrite transl_get by (fold n; lia). fold n. destruct (Nat.eqb_spec r n); [lia|]. cbn [andb]. rewrite Nat.eqb_refl, mul_1_l.
      rewrite homogeneous_get, L. fold n. rewrite (proj2 (Nat.ltb_lt r n)) by lia. now left.
  - rewrite transl_get by (fold n; lia). fold n. rewrite Nat.eqb_refl, (proj2 (Nat.ltb_lt r n)) by lia. cbn [andb].
    rewrite homogeneous_get, L. fold n. rewrite Nat.ltb_irrefl, Nat.eqb_refl, mul_1_r. now left.
Qed.
Lemma scaling_point : forall f p : list fl, length p = length f -> all_finite p -> all_finite f ->
  vec_eq (m_mul_p (S (length f)) (scaling_matrix f) p) (v_mul f p).
Proof.
  intros d p L Fp Fd. set (n := length d) in *. rewrite affine_point; auto.
  2:{ split.
      - rewrite scal_get by (unfold n; lia). fold n. now rewrite Nat.ltb_irrefl, Nat.eqb_refl.
      - intros c Hc. rewrite scal_get by (fold n; lia). 
        destruct (Nat.eqb_spec c n); [lia|apply cst0_zero]. }
  assert (LV : length (v_mul d p) = n) by (unfold v_mul; rewrite map2_len; auto).
  unfold vec_eq. replace (seq 0 n) with (seq 0 (length (v_mul d p))) by now rewrite LV. apply Forall2_map_seq. intros r Hr. rewrite LV in Hr. cbn [Nat.add]. apply feq_comp.
  change (nth r (v_mul d p) (cst 0)) with (vget (v_mul d p) r). rewrite vmul_get by (fold n; lia).
  eapply feq_trans; [apply (acc_one0 _ _ _ r)|].
  - intros i Hi N. rewrite scal_get by (fold n; lia).
    destruct (Nat.eqb_spec i r); [lia|]. apply mul_zero_l; [apply cst0_zero|]. rewrite homogeneous_get.
    destruct (i <? length p)%nat; [now apply finite_get|]. destruct (i =? length p)%nat; [apply F_cst1|apply F_cst0].
  - lia.
  - cbv beta. rewrite scal_get by (fold n; lia). fold n. rewrite Nat.eqb_refl, (proj2 (Nat.ltb_lt r n)) by lia.
    rewrite homogeneous_get, L. fold n. rewrite (proj2 (Nat.ltb_lt r n)) by lia. now left.
Qed.

(** The constant matrices *)
Lemma cst1_fin : is_finite (cst 1 : fl) = true. Proof. apply F_cst1. Qed.
Lemma ints_get : forall l c r, (c < 4)%nat -> (r < 4)%nat -> mget (m_ints l : list (list fl)) c r = nth (c + 4 * r)%nat (map cst l) (cst 0).
Proof. intros. unfold m_ints, m_of_rows. now rewrite mk_get. Qed.
Lemma sum4 : forall f : nat -> fl, acc_sum 4 0 f (cst 0) = o_add (o_add (o_add (o_add (cst 0) (f 0%nat)) (f 1%nat)) (f 2%nat)) (f 3%nat).
Proof. reflexivity. Qed.
Lemma row_val : forall k0 k1 k2 (x y z : fl), is_finite x = true -> is_finite y = true -> is_finite z = true ->
  let m k t := o_mul (cst k) t in
  (k1 = 0%Z -> k2 = 0%Z -> feq (o_add (o_add (o_add (o_add (cst 0) (m k0 x)) (m k1 y)) (m k2 z)) (m 0%Z (cst 1))) (m k0 x))
  /\ (k0 = 0%Z -> k2 = 0%Z -> feq (o_add (o_add (o_add (o_add (cst 0) (m k0 x)) (m k1 y)) (m k2 z)) (m 0%Z (cst 1))) (m k1 y))
  /\ (k0 = 0%Z -> k1 = 0%Z -> feq (o_add (o_add (o_add (o_add (cst 0) (m k0 x)) (m k1 y)) (m k2 z)) (m 0%Z (cst 1))) (m k2 z)).
Proof.
  intros k0 k1 k2 x y z Fx Fy Fz m. assert (Z0 := cst0_zero). unfold m.
  assert (MZ : forall t : fl, is_finite t = true -> zero (o_mul (cst 0) t)) by (intros; now apply mul_zero_l).
  assert (L1 := cst1_fin).
  repeat split; intros -> ->; (eapply feq_trans; [apply add_zero_r, MZ; auto|]).
  - eapply feq_trans; [apply add_zero_r, MZ; auto|]. eapply feq_trans; [apply add_zero_r, MZ; auto|]. now apply add_zero_l.
  - eapply feq_trans; [apply add_zero_r, MZ; auto|]. eapply feq_trans; [apply add_feq; [apply add_zero_l; auto|now left]|]. now apply add_zero_l, MZ.
  - eapply feq_trans; [apply add_feq; [|now left]|].
    + eapply feq_trans; [apply add_zero_r, MZ; auto|]. now apply add_zero_l.
    + now apply add_zero_l, MZ.
Qed.
Ltac turn := intros x y z F; rewrite (affine_point 3);
  [ | reflexivity | exact F | split; [rewrite ints_get by lia; reflexivity | intros [|[|[|c]]] ?; try lia; rewrite ints_get by lia; apply cst0_zero] ];
  inversion F as [|? ? Fx F']; inversion F' as [|? ? Fy F'']; inversion F'' as [|? ? Fz ?]; subst;
  cbn [seq map]; rewrite !sum4, !ints_get by lia; cbn [Nat.add Nat.mul nth map];
  match goal with |- context [vget (v_to_homogeneous ?l)] => 
    change (vget (v_to_homogeneous l) 0) with x; change (vget (v_to_homogeneous l) 1) with y; change (vget (v_to_homogeneous l) 2) with z;
    change (vget (v_to_homogeneous l) 3) with (cst 1 : fl) end;
  repeat (constructor; [apply feq_comp;
    (eapply feq_trans; [ first [ now apply (proj1 (row_val _ _ _ x y z Fx Fy Fz)) | now apply (proj1 (proj2 (row_val _ _ _ x y z Fx Fy Fz)))
      | now apply (proj2 (proj2 (row_val _ _ _ x y z Fx Fy Fz))) ] | rewrite ?mul_1_l, ?mul_m1; now left ]) | ]); constructor.
Notation acts m r := (forall x y z : fl, all_finite [x; y; z] -> vec_eq (m_mul_p 4 m [x; y; z]) (r x y z)).
Lemma turn_x_cw : acts rot_90_x_cw (fun x y z => [x; z; o_neg y]). Proof. unfold rot_90_x_cw. turn. Qed.
Lemma turn_x_ccw : acts rot_90_x_ccw (fun x y z => [x; o_neg z; y]). Proof. unfold rot_90_x_ccw. turn. Qed.
Lemma turn_y_cw : acts rot_90_y_cw (fun x y z => [o_neg z; y; x]). Proof. unfold rot_90_y_cw. turn. Qed.
Lemma turn_y_ccw : acts rot_90_y_ccw (fun x y z => [z; y; o_neg x]). Proof. unfold rot_90_y_ccw. turn. Qed.
Lemma turn_z_cw : acts rot_90_z_cw (fun x y z => [y; o_neg x; z]). Proof. unfold rot_90_z_cw. turn. Qed.
Lemma turn_z_ccw : acts rot_90_z_ccw (fun x y z => [o_neg y; x; z]). Proof. unfold rot_90_z_ccw. turn. Qed.
Lemma half_x : acts rot_180_x (fun x y z => [x; o_neg y; o_neg z]). Proof. unfold rot_180_x. turn. Qed.
Lemma half_y : acts rot_180_y (fun x y z => [o_neg x; y; o_neg z]). Proof. unfold rot_180_y. turn. Qed.
Lemma half_z : acts rot_180_z (fun x y z => [o_neg x; o_neg y; z]). Proof. unfold rot_180_z. turn. Qed.
Lemma flip_x : acts (mirror_matrix 0) (fun x y z => [o_neg x; y; z]). Proof. unfold mirror_matrix, mirror_x. turn. Qed.
Lemma flip_y : acts (mirror_matrix 1) (fun x y z => [x; o_neg y; z]). Proof. unfold mirror_matrix, mirror_y. turn. Qed.
Lemma flip_z : acts (mirror_matrix 2) (fun x y z => [x; y; o_neg z]). Proof. unfold mirror_matrix, mirror_z. turn. Qed.

(** Transposition *)
Lemma transpose_mul : forall n (a b : list (list fl)), is_mat n n a -> is_mat n n b ->
  m_transpose n (m_mul n n n a b) = m_mul n n n (m_transpose n b) (m_transpose n a).
Proof.
  intros n a b A B. rewrite !transpose_mk; auto; try apply mk_shape. unfold m_mul. apply mk_ext. intros c r Hc Hr.
  rewrite mk_get by lia. unfold acc_sum. apply for_ext. intros i s Hi. rewrite !mk_get by lia.
  now rewrite (Bmult_swap prec emax (mget a i c)).
Qed.
Lemma dot_acc : forall (v w : list fl) s, length v = length w -> fold_left (fun d (p : fl * fl) => o_add d (o_mul (fst p) (snd p))) (combine v w) s
  = acc_sum (length v) 0 (fun i => o_mul (vget v i) (vget w i)) s.
Proof.
  intros v. induction v as [|x v IH]; intros [|y w] s L; try discriminate; [reflexivity|].
  cbn [combine fold_left length fst snd]. rewrite acc_S. rewrite IH by (simpl in L; lia). unfold acc_sum.
  assert (G : forall n lo (f g : nat -> fl) s, (forall i, f (S i) = g i) -> for_loop n (S lo) (fun i s => o_add s (f i)) s = for_loop n lo (fun i s => o_add s (g i)) s).
  { intros n. induction n as [|n IHn]; intros lo f g s' E; [reflexivity|]. cbn [for_loop]. rewrite E. now apply IHn. }
  symmetry. apply G. intros i. reflexivity.
Qed.
Lemma dot_sum : forall v w : list fl, length v = length w -> v_dot v w = acc_sum (length v) 0 (fun i => o_mul (vget v i) (vget w i)) (cst 0).
Proof. intros v w L. unfold v_dot. now apply dot_acc. Qed.
Lemma row_vector : forall n (m : list (list fl)) v, is_mat n n m -> length v = n -> v_mul_m n n v m = Ret (m_mul_v n (m_transpose n m) v).
Proof.
  intros n m v M L. unfold v_mul_m. rewrite Nat.leb_refl, Nat.sub_diag. cbn [repeat]. rewrite app_nil_r. f_equal. unfold m_mul_v.
  apply map_ext_in. intros c Hc. apply in_seq in Hc. rewrite dot_sum by (rewrite (shape_col n n); auto; lia). rewrite L. unfold acc_sum.
  apply for_ext. intros i s Hi. rewrite transpose_mk, mk_get by (auto; lia). now rewrite (Bmult_swap prec emax).
Qed.
End FP.
