(** The functions evaluated at compile time end (C75). *)
From Coq Require Import ZArith Reals List Bool Lra Lia.
From Flocq Require Import Core BinarySingleNaN.
From Verif Require Import Ops M_scalar M_vec M_mat M_matext M_geom M_constexpr Inst_F P_ord P_ieee S_sqrt P_sqrtc P_sqrtc2.
Local Open Scope R_scope.

Section F.
Variables prec emax : Z.
Context {Hprec : Prec_gt_0 prec} {Hmax : Prec_lt_emax prec emax}.
Hypothesis Hprec4 : (4 <= prec)%Z.
Hypothesis Hemax4 : (prec + 4 <= emax)%Z.
Notation fl := (binary_float prec emax).
Notation fexp := (SpecFloat.fexp prec emax).
#[local] Existing Instance fexp_correct.

Lemma sqrt_c_ends : forall x : fl, exists r, ends (fun fuel => sqrt_c fuel x) r.
Proof.
  intros x. destruct (sqrt_c_special prec emax 0) as (N & P & M).
  destruct (is_finite x) eqn:Fx.
  - destruct (Rle_or_lt 0 (B2R x)) as [X|X].
    + destruct (sqrt_c_spec prec emax Hprec4 Hemax4 x Fx X) as (r & fuel & H & _). exists r, fuel. exact H.
    + exists o_nan, O. intros f _. now apply sqrt_c_negative.
  - destruct x as [| [|] | |]; try discriminate.
    + exists B754_nan, O. intros f _. apply sqrt_c_special.
    + exists (B754_infinity false), O. intros f _. apply sqrt_c_special.
    + exists B754_nan, O. intros f _. apply sqrt_c_special.
Qed.

(** A result and the correctly rounded root *)
Lemma sqrt_next : forall x : fl, is_finite x = true -> 0 <= B2R x ->
  is_finite (o_sqrt x) = true /\ next_to prec emax (sqrt (B2R x)) (B2R (o_sqrt x)).
Proof.
  intros x Fx X. destruct (Bsqrt_correct prec emax Hprec Hmax mode_NE x) as (E & Fs & _). split.
  - change (is_finite (Bsqrt mode_NE x) = true). rewrite Fs. destruct x; try reflexivity; try discriminate. destruct s; [|reflexivity].
    exfalso. cbn in X. assert (H := F2R_lt_0 radix2 (Float radix2 (Z.neg m) e) ltac:(cbn; lia)). cbn in H. unfold F2R in *. cbn in *. lra.
  - unfold next_to. change (B2R (o_sqrt x)) with (B2R (Bsqrt mode_NE x)). rewrite E. apply round_DN_or_UP. auto with typeclass_instances.
Qed.

(** A squared length is NaN, infinite or not negative. *)
Definition nonneg (x : fl) : Prop := match x with B754_nan => True | B754_infinity s => s = false | _ => 0 <= B2R x end.
Lemma nonneg_fin : forall x : fl, is_finite x = true -> nonneg x <-> 0 <= B2R x.
Proof. intros x Fx. destruct x; cbn in *; try discriminate; tauto. Qed.
Lemma sign_neg : forall x : fl, is_finite x = true -> Bsign x = true -> B2R x <= 0.
Proof.
  intros x Fx S. destruct x; cbn in *; try discriminate; try lra. subst s. apply Rlt_le.
  apply (F2R_lt_0 radix2 (Float radix2 (Z.neg m) e)). cbn. lia.
Qed.
Lemma nonneg_plus : forall x y : fl, nonneg x -> nonneg y -> nonneg (Bplus mode_NE x y).
Proof.
  intros x y X Y. destruct (is_finite x) eqn:Fx, (is_finite y) eqn:Fy.
  - apply nonneg_fin in X; [|exact Fx]. apply nonneg_fin in Y; [|exact Fy].
    assert (H := Bplus_correct prec emax Hprec Hmax mode_NE x y Fx Fy).
    destruct (Rlt_bool _ _) eqn:O.
    + destruct H as (E & Fs & _). apply nonneg_fin; [exact Fs|]. rewrite E. apply rnd_ge; [exact Hprec|apply generic_format_0|lra].
    + destruct H as (E & Sxy). destruct (Bsign x) eqn:S.
      * exfalso. symmetry in Sxy. apply sign_neg in S; [|exact Fx]. apply sign_neg in Sxy; [|exact Fy].
        replace (B2R x + B2R y) with 0 in O by lra. rewrite round_0, Rabs_R0 in O by auto with typeclass_instances.
        rewrite Rlt_bool_true in O; [discriminate|apply bpow_gt_0].
      * destruct (Bplus mode_NE x y); cbn in E; try discriminate; injection E as ->; reflexivity.
  - destruct x as [| | |], y as [| | |]; cbn in *; try discriminate; auto.
  - destruct x as [| | |], y as [| | |]; cbn in *; try discriminate; auto.
  - destruct x as [| | |], y as [| | |]; cbn in *; try discriminate; auto; subst; auto.
Qed.
Lemma nonneg_square : forall x : fl, nonneg (Bmult mode_NE x x).
Proof.
  intros x. destruct (is_finite x) eqn:Fx.
  - assert (H := Bmult_correct prec emax Hprec Hmax mode_NE x x). destruct (Rlt_bool _ _) eqn:O.
    + destruct H as (E & Fs & _). rewrite Fx in Fs. apply nonneg_fin; [exact Fs|]. rewrite E. apply rnd_ge; [exact Hprec|apply generic_format_0|].
      apply Rle_0_sqr.
    + rewrite xorb_nilpotent in H. destruct (Bmult mode_NE x x); cbn in H; try discriminate; injection H as ->; reflexivity.
  - destruct x as [| s | |]; cbn in *; try discriminate; auto. destruct s; reflexivity.
Qed.
Lemma nonneg_squared_length : forall v : list fl, nonneg (v_squared_length v).
Proof.
  intros v. unfold v_squared_length, v_dot.
  assert (G : forall l (r : fl), nonneg r -> nonneg (fold_left (fun result p => (result + fst p * snd p)%sc) (combine l l) r)).
  { induction l as [|x l IH]; intros r Hr; cbn [combine fold_left fst snd]; [exact Hr|]. apply IH. apply nonneg_plus; [exact Hr|apply nonneg_square]. }
  apply G. destruct (F_cst0 prec emax) as (F0 & B0). apply nonneg_fin; [exact F0|lra].
Qed.

Lemma sumsq_eq : forall v : list fl, v_squared_length v = sum_squares v.
Proof.
  intros v. unfold v_squared_length, v_dot, sum_squares.
  change (cst 0 : fl) with (B754_zero false : fl). generalize (B754_zero false : fl). induction v as [|x v IH]; intros r; [reflexivity|].
  cbn [combine fold_left fst snd]. rewrite IH. reflexivity.
Qed.
Lemma sub_eq : forall v w : list fl, v_sub v w = differences v w.
Proof. induction v as [|x v IH]; intros [|y w]; try reflexivity. unfold differences in *. cbn [combine map fst snd]. rewrite <- IH. reflexivity. Qed.
Lemma inner_eq : forall v w : list fl, v_dot v w = inner v w.
Proof. reflexivity. Qed.
Lemma root_sqrt : forall x : fl, nonneg x -> root x (o_sqrt x).
Proof.
  intros x X. destruct (is_finite x) eqn:Fx.
  - assert (P := proj1 (nonneg_fin _ Fx) X). assert (H := sqrt_next x Fx P).
    destruct x; try discriminate; cbn [root]; (split; [intros _; exact H|intros L; exfalso; apply (Rlt_irrefl (B2R (B754_zero s))); lra] || (split; [intros _; exact H|lra])).
  - destruct x as [|[|]| |]; cbn in *; try discriminate; reflexivity.
Qed.
Lemma root_sqrt_c : forall x : fl, nonneg x -> exists r, ends (fun fuel => sqrt_c fuel x) r /\ root x r.
Proof.
  intros x X. destruct (is_finite x) eqn:Fx.
  - assert (P := proj1 (nonneg_fin _ Fx) X). destruct (sqrt_c_spec prec emax Hprec4 Hemax4 x Fx P) as (r & fuel & H & Fr & N).
    exists r. split; [exists fuel; exact H|]. destruct x; try discriminate; cbn [root]; (split; [intros _; split; [exact Fr|exact N]|lra]).
  - destruct (sqrt_c_ends x) as (r & fuel & H). exists r. split; [exists fuel; exact H|].
    specialize (H fuel (le_n _)). destruct (sqrt_c_special prec emax fuel) as (N & P & M).
    destruct x as [|[|]| |]; try discriminate; cbn [root]; congruence.
Qed.
Lemma length_c_spec : forall v : list fl, exists r, ends (fun fuel => v_length_c fuel v) r /\ root (sum_squares v) r.
Proof. intros v. unfold v_length_c. rewrite sumsq_eq. apply root_sqrt_c. rewrite <- sumsq_eq. apply nonneg_squared_length. Qed.
Lemma length_spec : forall v : list fl, root (sum_squares v) (v_length v).
Proof. intros v. unfold v_length. rewrite sumsq_eq. apply root_sqrt. rewrite <- sumsq_eq. apply nonneg_squared_length. Qed.
Lemma distance_c_spec : forall v w : list fl, root (sum_squares (differences v w)) (v_distance v w)
  /\ exists r, ends (fun fuel => v_distance_c fuel v w) r /\ root (sum_squares (differences v w)) r.
Proof. intros v w. rewrite <- sub_eq. split; [apply length_spec|apply length_c_spec]. Qed.
Lemma normalize_spec : forall v : list fl, unit_of v (v_normalize v).
Proof. intros v. exists (v_length v). split; [apply length_spec|reflexivity]. Qed.

Lemma ends_bind : forall A B (f : nat -> outcome A) (g : A -> nat -> outcome B) a r, ends f a -> ends (g a) r ->
  ends (fun fuel => do a <- f fuel; g a fuel) r.
Proof.
  intros A B f g a r (n & Ha) (k & Hr). exists (n + k)%nat.
  intros f' L. rewrite Ha by lia. cbn. apply Hr. lia.
Qed.
Lemma ends_ret : forall A (a : A), ends (fun _ => Ret a) a.
Proof. intros A a. exists O. reflexivity. Qed.
Lemma normalize_c_spec : forall v : list fl, exists u, ends (fun fuel => v_normalize_c fuel v) u /\ unit_of v u.
Proof.
  intros v. destruct (length_c_spec v) as (l & E & R). exists (v_div_s v l). split; [|exists l; split; [exact R|reflexivity]].
  unfold v_normalize_c. apply (ends_bind _ _ (fun fuel => v_length_c fuel v) (fun l _ => Ret (v_div_s v l)) l); [exact E|apply ends_ret].
Qed.
Lemma abs_eq : forall d : fl, sc_abs d = Babs d \/ d = B754_zero true.
Proof.
  intros d. unfold sc_abs. change (cst 0 : fl) with (B754_zero false : fl). change (o_lt d (B754_zero false)) with (Bltb d (B754_zero false)).
  destruct d as [[|]|[|]| |[|] m e H]; cbn; auto.
Qed.
Lemma close_eq : forall x y eps : fl, sc_is_equal x y eps = machine_close x y eps.
Proof.
  intros x y eps. unfold sc_is_equal, machine_close. change (o_sub x y) with (Bminus mode_NE x y).
  destruct (abs_eq (Bminus mode_NE x y)) as [-> | ->]; [reflexivity|]. destruct eps as [[|]|[|]| |[|]]; reflexivity.
Qed.
Lemma close_abs : forall x eps : fl, machine_close (sc_abs x) (cst 1) eps = machine_close (Babs x) (cst 1) eps.
Proof.
  intros x eps. destruct (abs_eq x) as [-> | ->]; [reflexivity|].
  assert (H : exists m e h, cst 1 = (B754_finite false m e h : fl)).
  { destruct (F_cst1 prec emax) as (F1 & B1). destruct (cst 1 : fl) as [s|s| |s m e h] eqn:E; cbn in *; try discriminate; try lra.
    destruct s; [|eauto]. exfalso. assert (H := F2R_lt_0 radix2 (Float radix2 (Z.neg m) e) ltac:(cbn; lia)). unfold F2R in *. cbn in *. lra. }
  destruct H as (m & e & h & ->). reflexivity.
Qed.
Lemma is_unit_c_spec : forall (v : list fl) eps, exists l, root (sum_squares v) l /\ ends (fun fuel => v_is_unit_c fuel v eps) (machine_close l (cst 1) eps).
Proof.
  intros v eps. destruct (length_c_spec v) as (l & E & R). exists l. split; [exact R|].
  rewrite <- close_eq. unfold v_is_unit_c. apply (ends_bind _ _ (fun fuel => v_length_c fuel v) (fun l _ => Ret (sc_is_equal l (cst 1) eps)) l); [exact E|apply ends_ret].
Qed.
Lemma is_parallel_c_spec : forall (v w : list fl) eps, exists a b, unit_of v a /\ unit_of w b
  /\ ends (fun fuel => v_is_parallel_c fuel v w eps) (machine_close (Babs (inner a b)) (cst 1) eps).
Proof.
  intros v w eps. destruct (normalize_c_spec v) as (a & Ea & Ua). destruct (normalize_c_spec w) as (b & Eb & Ub).
  exists a, b. split; [exact Ua|]. split; [exact Ub|].
  rewrite <- close_abs, <- close_eq, <- inner_eq. unfold v_is_parallel_c.
  apply (ends_bind _ _ (fun fuel => v_normalize_c fuel v) (fun a fuel => do b <- v_normalize_c fuel w; Ret (sc_is_equal (sc_abs (v_dot a b)) (cst 1) eps)) a); [exact Ea|].
  apply (ends_bind _ _ (fun fuel => v_normalize_c fuel w) (fun b _ => Ret (sc_is_equal (sc_abs (v_dot a b)) (cst 1) eps)) b); [exact Eb|apply ends_ret].
Qed.
Lemma is_between_c_spec : forall p s e : list fl, v_is_colinear p s e colinear_epsilon = true ->
  (v_eq p s = true \/ v_eq p e = true -> forall fuel, v_is_between_c fuel p s e = Ret true)
  /\ (v_eq p s = false -> v_eq p e = false -> exists u, unit_of (differences s p) u
      /\ ends (fun fuel => v_is_between_c fuel p s e) (Bltb (inner (differences e p) u) (B754_zero false))).
Proof.
  intros p s e C. unfold v_is_between_c, require. rewrite C. split.
  - intros [-> | ->] fuel; [reflexivity|]. now rewrite orb_true_r.
  - intros -> ->. destruct (normalize_c_spec (v_sub s p)) as (u & E & U). rewrite sub_eq in U. exists u. split; [exact U|]. cbn [orb].
    rewrite <- !sub_eq. exact (ends_bind _ _ _ (fun n _ => Ret (v_dot (v_sub e p) n <? cst 0)%sc) u _ E (ends_ret _ _)).
Qed.
Lemma is_between_c_assert : forall fuel (p s e : list fl), v_is_colinear p s e colinear_epsilon = false -> v_is_between_c fuel p s e = Assert.
Proof. intros fuel p s e C. unfold v_is_between_c, require. now rewrite C. Qed.
Lemma ln_transform_c_spec : forall S (l : line fl) M, let d := m_mul_p S (strip_translation S M) (ln_dir l) in
  exists l', ends (fun fuel => ln_transform_c fuel S l M) l' /\ ln_point l' = ln_point (ln_transform S l M)
  /\ unit_of d (ln_dir l') /\ unit_of d (ln_dir (ln_transform S l M)).
Proof.
  intros S l M d. destruct (normalize_c_spec d) as (u & E & U). exists (Ln (m_mul_p S M (ln_point l)) u). repeat split; try assumption.
  - exact (ends_bind _ _ _ (fun u _ => Ret (Ln (m_mul_p S M (ln_point l)) u)) u _ E (ends_ret _ _)).
  - apply normalize_spec.
Qed.
Lemma ray_transform_c_spec : forall S (r : ray fl) M, let d := m_mul_p S (strip_translation S M) (ray_dir r) in
  exists r', ends (fun fuel => ray_transform_c fuel S r M) r' /\ ray_origin r' = ray_origin (ray_transform S r M)
  /\ unit_of d (ray_dir r') /\ unit_of d (ray_dir (ray_transform S r M)).
Proof.
  intros S r M d. destruct (normalize_c_spec d) as (u & E & U). exists (Ray (m_mul_p S M (ray_origin r)) u). repeat split; try assumption.
  - exact (ends_bind _ _ _ (fun u _ => Ret (Ray (m_mul_p S M (ray_origin r)) u)) u _ E (ends_ret _ _)).
  - apply normalize_spec.
Qed.
Lemma pl_transform_c_spec : forall S (p : plane fl) M, let d := m_mul_p S (strip_translation S M) (pl_normal p) in
  let a := m_mul_p S M (pl_anchor p) in
  exists p', ends (fun fuel => pl_transform_c fuel S p M) p'
  /\ unit_of d (pl_normal p') /\ pl_dist p' = inner a (pl_normal p')
  /\ unit_of d (pl_normal (pl_transform S p M)) /\ pl_dist (pl_transform S p M) = inner a (pl_normal (pl_transform S p M)).
Proof.
  intros S p M d a. destruct (normalize_c_spec d) as (u & E & U). exists (pl_make a u). repeat split; try assumption.
  - exact (ends_bind _ _ _ (fun u _ => Ret (pl_make a u)) u _ E (ends_ret _ _)).
  - apply normalize_spec.
Qed.
End F.
