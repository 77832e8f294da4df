(** Solving and inverting in machine arithmetic: residuals, distance to the inverse, failures (C108). *)
From Coq Require Import ZArith Reals List Bool Lra Lia Arith Permutation Psatz.
From Flocq Require Import Core BinarySingleNaN.
From Verif Require Import Ops M_scalar M_vec M_mat Inst_F S_mat S_det S_rnd S_lu P_ieee P_mat P_mat2 P_mat3 P_lup P_cond P_ldet P_det P_fp P_lu P_lu2 P_lu3.
Import ListNotations.
Local Open Scope R_scope.

(** ** Real matrices *)
Lemma max_fn : forall n (f : nat -> R), (0 < n)%nat -> exists i, (i < n)%nat /\ forall j, (j < n)%nat -> f j <= f i.
Proof.
  induction n as [|n IH]; intros f H; [lia|]. destruct n as [|n].
  - exists 0%nat. split; [lia|]. intros j Hj. replace j with 0%nat by lia. lra.
  - destruct (IH f ltac:(lia)) as (i & Hi & L). destruct (Rle_dec (f (S n)) (f i)) as [H1|H1].
    + exists i. split; [lia|]. intros j Hj. destruct (Nat.eq_dec j (S n)) as [->|]; [exact H1|apply L; lia].
    + exists (S n). split; [lia|]. intros j Hj. destruct (Nat.eq_dec j (S n)) as [->|]; [lra|]. specialize (L j ltac:(lia)). lra.
Qed.
Lemma max_entry : forall n (f : nat -> nat -> R), (0 < n)%nat ->
  exists r c, (r < n)%nat /\ (c < n)%nat /\ forall r' c', (r' < n)%nat -> (c' < n)%nat -> f r' c' <= f r c.
Proof.
  intros n f H.
  assert (G : forall k, (k <= n)%nat -> (0 < k)%nat -> exists r c, (r < k)%nat /\ (c < n)%nat /\ forall r' c', (r' < k)%nat -> (c' < n)%nat -> f r' c' <= f r c).
  { induction k as [|k IH]; intros Hk K0; [lia|]. destruct (max_fn n (f k) H) as (j & Hj & L). destruct k as [|k].
    - exists 0%nat, j. repeat split; auto. intros r' c' Hr Hc. replace r' with 0%nat by lia. auto.
    - destruct (IH ltac:(lia) ltac:(lia)) as (r & c & Hr & Hc & L2). destruct (Rle_dec (f (S k) j) (f r c)) as [H1|H1].
      + exists r, c. repeat split; auto. intros r' c' Hr' Hc'. destruct (Nat.eq_dec r' (S k)) as [->|]; [eapply Rle_trans; [apply L; auto|exact H1]|apply L2; lia].
      + exists (S k), j. repeat split; auto; try lia. intros r' c' Hr' Hc'. destruct (Nat.eq_dec r' (S k)) as [->|]; [apply L; auto|].
        specialize (L2 r' c' ltac:(lia) Hc'). lra. }
  apply G; lia.
Qed.
Lemma nonsingular_inverse : forall n A, is_mat n n A -> ~ singular n A -> exists B, is_mat n n B /\ inverse n A B.
Proof.
  intros n A HA HS. destruct n as [|n].
  - exists []. destruct HA as [HA _]. split; [repeat constructor|]. split; reflexivity.
  - assert (D : ldet (S n) (ent A) <> 0) by (intros D; apply HS; now apply ldet_singular).
    destruct (adj_mul HA) as [E1 E2]. set (d := ldet (S n) (ent A)) in *.
    exists (of_ent (S n) (S n) (fun r c => / d * ent (adjl n A) r c)). split; [apply of_ent_shape|]. split.
    + unfold rmul, rid. apply of_ent_ext. intros r c Hr Hc.
      rewrite (Rsum_ext (S n) _ (fun i => / d * (ent A r i * ent (adjl n A) i c))) by (intros; rewrite of_ent_get by auto; ring).
      rewrite Rsum_mul_l. apply (f_equal (fun m => ent m r c)) in E1. unfold rmul in E1. rewrite !of_ent_get in E1 by auto.
      rewrite E1. field. exact D.
    + unfold rmul, rid. apply of_ent_ext. intros r c Hr Hc.
      rewrite (Rsum_ext (S n) _ (fun i => / d * (ent (adjl n A) r i * ent A i c))) by (intros; rewrite of_ent_get by auto; ring).
      rewrite Rsum_mul_l. apply (f_equal (fun m => ent m r c)) in E2. unfold rmul in E2. rewrite !of_ent_get in E2 by auto.
      rewrite E2. field. exact D.
Qed.
(** An approximate right inverse of A: A is invertible and its inverse is near. *)
Lemma near_inverse : forall n A Q X rho, is_mat n n A -> is_mat n n Q -> 0 <= rho -> 0 <= X ->
  (forall r c, (r < n)%nat -> (c < n)%nat -> Rabs (ent Q r c) <= X) ->
  (forall r c, (r < n)%nat -> (c < n)%nat -> Rabs (ent (rmul n n n A Q) r c - delta r c) <= rho) ->
  INR n * rho < 1 ->
  exists B, is_mat n n B /\ inverse n A B /\ forall r c, (r < n)%nat -> (c < n)%nat -> Rabs (ent Q r c - ent B r c) <= INR n * rho / (1 - INR n * rho) * X.
Proof.
  intros n A Q X rho HA HQ H0 HX BQ HE Hn.
  set (P := rmul n n n A Q) in *. assert (HP : is_mat n n P) by apply of_ent_shape.
  assert (NP : ~ singular n P).
  { intros (v & Lv & Nv & Pv). assert (Hv : v <> []). { intros ->. apply Nv. simpl in Lv. now subst n. }
    destruct (max_abs v Hv) as (i & Hi & Mx). rewrite Lv in Hi. set (m := Rabs (nth i v 0)) in *. assert (Pm : 0 <= m) by apply Rabs_pos.
    assert (Z : Rsum n (fun c => ent P i c * nth c v 0) = 0).
    { apply (f_equal (fun l => nth i l 0)) in Pv. rewrite rmulv_nth in Pv by auto. rewrite Pv. apply nth_repeat. }
    assert (E : nth i v 0 = - Rsum n (fun c => (ent P i c - delta i c) * nth c v 0)).
    { rewrite (Rsum_ext n _ (fun c => ent P i c * nth c v 0 - delta i c * nth c v 0)) by (intros; ring). rewrite Rsum_sub, Z, Rsum_delta by auto. ring. }
    assert (m <= INR n * (rho * m)).
    { unfold m at 1. rewrite E, Rabs_Ropp. apply Rsum_abs_le. intros c Hc. rewrite Rabs_mult. apply Rmult_le_compat; auto using Rabs_pos. }
    assert (m = 0) by nra. apply Nv. rewrite <- Lv. apply nth_ext with 0 0; [now rewrite repeat_length|]. intros j Hj.
    rewrite nth_repeat. specialize (Mx j). rewrite H1 in Mx. pose proof (Rabs_pos (nth j v 0)).
    destruct (Req_dec (nth j v 0) 0) as [|N]; auto. apply Rabs_no_R0 in N. lra. }
  assert (NA : ~ singular n A).
  { intros HS. apply NP, ldet_singular; auto. unfold P. rewrite ldet_mul. apply ldet_singular in HS; auto. rewrite HS. ring. }
  destruct (nonsingular_inverse n A HA NA) as (B & HB & HI). exists B. split; [exact HB|]. split; [exact HI|].
  destruct n as [|n]; [intros; lia|].
  assert (D : forall r c, (r < S n)%nat -> (c < S n)%nat -> ent Q r c - ent B r c = Rsum (S n) (fun i => ent B r i * (ent P i c - delta i c))).
  { intros r c Hr Hc. rewrite (Rsum_ext (S n) _ (fun i => ent B r i * ent P i c - ent B r i * delta i c)) by (intros; ring).
    rewrite Rsum_sub, Rsum_delta_r by auto. f_equal.
    transitivity (ent (rmul (S n) (S n) (S n) B P) r c).
    - unfold P. rewrite <- rmul_assoc. destruct HI as [_ ->]. rewrite rmul_id_l by auto. reflexivity.
    - unfold rmul at 1. now rewrite of_ent_get. }
  destruct (max_entry (S n) (fun r c => Rabs (ent B r c)) ltac:(lia)) as (r0 & c0 & Hr0 & Hc0 & L). set (b := Rabs (ent B r0 c0)) in *.
  assert (W : forall r c, (r < S n)%nat -> (c < S n)%nat -> Rabs (ent Q r c - ent B r c) <= INR (S n) * rho * b).
  { intros r c Hr Hc. rewrite D by auto. rewrite Rmult_assoc. apply Rsum_abs_le. intros i Hi. rewrite Rabs_mult, Rmult_comm. apply Rmult_le_compat; auto using Rabs_pos. }
  assert (b0 : 0 <= b) by apply Rabs_pos.
  assert (BB : b <= X + INR (S n) * rho * b).
  { unfold b at 1. replace (ent B r0 c0) with (ent Q r0 c0 - (ent Q r0 c0 - ent B r0 c0)) by ring. eapply Rle_trans; [apply Rabs_triang|]. rewrite Rabs_Ropp. apply Rplus_le_compat; auto. }
  assert (b <= X / (1 - INR (S n) * rho)).
  { apply Rmult_le_reg_r with (1 - INR (S n) * rho); [lra|]. unfold Rdiv. rewrite Rmult_assoc, Rinv_l by lra. lra. }
  intros r c Hr Hc. eapply Rle_trans; [apply (W r c Hr Hc)|]. assert (0 <= INR (S n) * rho) by (apply Rmult_le_pos; auto using pos_INR).
  replace (INR (S n) * rho / (1 - INR (S n) * rho) * X) with (INR (S n) * rho * (X / (1 - INR (S n) * rho))) by (field; lra).
  now apply Rmult_le_compat_l.
Qed.
Lemma near_eps : forall n A A' k f pi eps d, lupinv n k A' f pi -> (k < n)%nat -> 0 < eps ->
  (forall i, (k <= i < n)%nat -> Rabs (f i k) < eps) -> (forall r c, (r < n)%nat -> (c < n)%nat -> Rabs (A r c - A' r c) <= d) ->
  exists B, is_mat n n B /\ singular n B /\ forall r c, (r < n)%nat -> (c < n)%nat -> Rabs (A r c - ent B r c) < eps + d.
Proof.
  intros n A A' k f pi eps d HL Hk He HF HD. destruct (fail_near_eps n A' eps k f pi He Hk HL HF) as (B & x & HB & (i & Hi & Hx) & H0).
  exists (of_ent n n B). split; [apply of_ent_shape|]. split.
  - exists (map x (seq 0 n)). split; [now rewrite map_length, seq_length|]. split.
    + intros E. apply Hx. rewrite <- (nth_map_seq x n i 0) by auto. rewrite E. apply nth_repeat.
    + apply rmulv_list; [apply repeat_length|]. intros r Hr. rewrite nth_repeat.
      rewrite <- (H0 r Hr). apply Rsum_ext. intros. now rewrite of_ent_get.
  - intros r c Hr Hc. rewrite of_ent_get by auto. specialize (HB r c Hr Hc). specialize (HD r c Hr Hc).
    replace (A r c - B r c) with ((A r c - A' r c) + (A' r c - B r c)) by ring. eapply Rle_lt_trans; [apply Rabs_triang|]. lra.
Qed.

(** ** Machine matrices *)
Section FP.
Variables prec emax : Z.
Context {Hprec : Prec_gt_0 prec} {Hmax : Prec_lt_emax prec emax}.
Notation fl := (binary_float prec emax).
Notation u := (unit_roundoff prec).
Notation eta := (underflow_error prec emax).
Notation Om := (bpow radix2 emax).
Notation F := (generic_format radix2 (SpecFloat.fexp prec emax)).
Hypothesis U20 : (20 <= prec)%Z.
Hypothesis E64 : (64 <= emax)%Z.

Lemma ent_values : forall n (m : list (list fl)) r c, is_mat n n m -> (r < n)%nat -> (c < n)%nat -> ent (mvalues m) r c = B2R (mget m c r).
Proof.
  intros n m r c [H1 H2] Hr Hc. unfold ent, mvalues, mget, vget, mcol, values.
  assert (L : length (nth c m []) = n) by (rewrite Forall_forall in H2; apply H2, nth_In; lia).
  rewrite (nth_indep (map _ m) [] (map B2R (nth c m []))) by (rewrite map_length; lia).
  change (map B2R (nth c m [])) with ((fun v : list fl => map B2R v) (nth c m [])). rewrite (nth_indep _ _ ((fun v : list fl => map B2R v) [])) by (rewrite map_length; lia).
  rewrite map_nth. cbv beta.
  rewrite (nth_indep _ 0 (B2R (cst 0 : fl))) by (rewrite map_length; lia). now rewrite map_nth.
Qed.
Lemma square_get : forall n M (m : list (list fl)) r c, square_up_to n M m -> (r < n)%nat -> (c < n)%nat -> is_finite (mget m c r) = true /\ Rabs (B2R (mget m c r)) <= M.
Proof.
  intros n M m r c [[H1 H2] H] Hr Hc. rewrite Forall_forall in H, H2. unfold mget, vget, mcol.
  assert (In (nth c m []) m) by (apply nth_In; lia). specialize (H _ H0). specialize (H2 _ H0). rewrite Forall_forall in H. apply H, nth_In. lia.
Qed.
Lemma mvalues_shape : forall n (m : list (list fl)), is_mat n n m -> is_mat n n (mvalues m).
Proof.
  intros n m [H1 H2]. unfold mvalues. split; [now rewrite map_length|]. apply Forall_map. eapply Forall_impl; [|exact H2].
  intros v Hv. unfold values. now rewrite map_length.
Qed.
Lemma small_fails : forall n (m : list (list fl)), is_mat (S n) (S n) m ->
  (forall r c, (r < S n)%nat -> (c < S n)%nat -> is_finite (mget m c r) = true /\ Rabs (B2R (mget m c r)) < 9 / 10 / 10 ^ 15) ->
  lup_find_decomposition (S n) m = None.
Proof.
  intros n m Hm H. destruct (threshold prec emax ltac:(assumption) ltac:(assumption)) as [TF TV].
  assert (T0 : 0 < / 10 ^ 15) by (apply Rinv_0_lt_compat, pow_lt; lra).
  destruct (pivot_F prec emax (S n) 0 m (fun r c => mget m c r)) as (p & k' & E & Fp & Hp & Hp' & _); [split; auto|lia|intros; now apply H|].
  unfold lup_find_decomposition. cbn [lup_loop]. rewrite E.
  change (o_lt p (lit 1 1000000000000000)) with (Bltb p (lit 1 1000000000000000)). rewrite (Flt prec emax) by auto.
  destruct (Rlt_bool_spec (B2R p) (B2R (lit 1 1000000000000000 : fl))) as [L|L]; [reflexivity|exfalso].
  unfold Rdiv in *. destruct (Hp' ltac:(lra)) as [Hk Ep]. destruct (H k' 0%nat ltac:(lia) ltac:(lia)) as [_ HH]. lra.
Qed.
Lemma decomposition_F : forall n M (m : list (list fl)), square_up_to n M m -> 2 ^ n * M < Om -> (0 < n)%nat ->
  match lup_find_decomposition n m with
  | Some (lu, pi) => exists M' g, 0 < M' <= M /\ 8 / 10 / 10 ^ 15 <= M' /\ grid n lu g /\ finv prec emax n (ent (mvalues m)) M' n g pi
  | None => exists B, is_mat n n B /\ singular n B /\ forall r c, (r < n)%nat -> (c < n)%nat -> Rabs (ent (mvalues m) r c - ent B r c) < failure_bound prec n M
  end.
Proof.
  intros n M m HS HM Hn. assert (Hm := proj1 HS). destruct (u_tiny prec ltac:(assumption)) as (U0 & U1).
  assert (T0 : 0 < / 10 ^ 15) by (apply Rinv_0_lt_compat, pow_lt; lra).
  assert (P2 : 1 <= 2 ^ n) by (apply pow_R1_Rle; lra).
  destruct (max_entry n (fun r c => Rabs (B2R (mget m c r))) Hn) as (r0 & c0 & Hr0 & Hc0 & L). cbv beta in L.
  destruct (square_get n M m r0 c0 HS Hr0 Hc0) as [_ Lx]. set (x := mget m c0 r0) in *.
  assert (M00 : 0 <= M) by (pose proof (Rabs_pos (B2R x)); lra).
  destruct (Rlt_le_dec (Rabs (B2R x)) (8 / 10 / 10 ^ 15)) as [Sm|La].
  - destruct n as [|n]; [lia|]. rewrite small_fails; auto.
    2:{ intros r c Hr Hc. split; [now apply (square_get (S n) M)|]. specialize (L r c Hr Hc). unfold Rdiv in *. lra. }
    exists (of_ent (S n) (S n) (fun _ _ => 0)). split; [apply of_ent_shape|]. split.
    + exists (repeat 1 (S n)). split; [apply repeat_length|]. split; [simpl; intros E; injection E; lra|].
      apply nth_ext with 0 0; [now rewrite rmulv_length, repeat_length|]. intros i. rewrite rmulv_length. intros Hi. rewrite rmulv_nth, nth_repeat by auto.
      apply Rsum_zero. intros j Hj. rewrite of_ent_get by auto. ring.
    + intros r c Hr Hc. rewrite of_ent_get by auto. rewrite Rminus_0_r, (ent_values (S n)) by auto. specialize (L r c Hr Hc). unfold failure_bound.
      assert (0 <= 2 ^ S n * (u * M)) by (apply Rmult_le_pos; [lra|apply Rmult_le_pos; lra]). unfold Rdiv in *. lra.
  - set (M' := Rabs (B2R x)) in *. assert (P' : 0 < M') by (unfold Rdiv in La; lra).
    assert (FM : F M') by (apply generic_format_abs, generic_format_B2R).
    assert (HM' : 2 ^ n * M' < Om) by (apply Rle_lt_trans with (2 ^ n * M); [apply Rmult_le_compat_l; lra|exact HM]).
    assert (HG : grid n m (fun r c => mget m c r)) by (split; auto).
    assert (HF : finv prec emax n (ent (mvalues m)) M' 0 (fun r c => mget m c r) (seq 0 n)).
    { apply finv_start. intros i j Hi Hj. rewrite (ent_values n) by auto. split; [now apply (square_get n M)|]. split; auto. }
    assert (LF := loop_F prec emax ltac:(assumption) ltac:(assumption) n (ent (mvalues m)) M' P' La FM HM' n 0 m _ (seq 0 n) HG HF eq_refl).
    unfold lup_find_decomposition. destruct (lup_loop n n 0 m (seq 0 n)) as [[lu pi]|].
    + destruct LF as (g & G1 & G2). exists M', g. auto.
    + destruct LF as (k & f & pi & Hk & Hf & Sm). assert (PE : 0 < 1001 / 1000 / 10 ^ 15) by (unfold Rdiv; lra).
      destruct (exact_of prec emax ltac:(assumption) n _ M' P' k f pi Hf ltac:(lia)) as (A' & HL & HD).
      destruct (near_eps n _ A' k _ pi (1001 / 1000 / 10 ^ 15) _ HL Hk PE Sm HD) as (B & B1 & B2 & B3).
      exists B. split; [exact B1|]. split; [exact B2|]. intros r c Hr Hc. eapply Rlt_le_trans; [apply (B3 r c Hr Hc)|]. unfold failure_bound. apply Rplus_le_compat_l.
      assert (QQ : 0 <= 2 ^ n * u) by (apply Rmult_le_pos; lra). replace (3 * 2 ^ n * u * M') with (3 * ((2 ^ n * u) * M')) by ring. replace (4 * 2 ^ n * u * M) with (4 * ((2 ^ n * u) * M)) by ring.
      assert (2 ^ n * u * M' <= 2 ^ n * u * M) by (apply Rmult_le_compat_l; lra). assert (0 <= 2 ^ n * u * M') by (apply Rmult_le_pos; lra). lra.
Qed.
Lemma residual_mono : forall n M M' X, M' <= M -> 0 <= X -> residual_bound prec emax n M' X <= residual_bound prec emax n M X.
Proof.
  intros n M M' X H HX. destruct (u_tiny prec ltac:(assumption)) as (U0 & U1). destruct (eta_tiny prec emax ltac:(assumption)) as (E0 & E1).
  unfold residual_bound. apply Rplus_le_compat_r. apply Rmult_le_compat_r; [nra|]. apply Rmult_le_compat_l; [|exact H].
  assert (0 <= INR n) by apply pos_INR. assert (0 <= 2 ^ n) by (apply pow_le; lra). assert (0 <= INR n ^ 3) by (apply pow_le; lra). repeat apply Rmult_le_pos; lra.
Qed.
Lemma vector_get : forall n X (v : list fl) i, vector_up_to n X v -> (i < n)%nat -> is_finite (vget v i) = true /\ Rabs (B2R (vget v i)) <= X.
Proof. intros n X v i [H1 H2] Hi. rewrite Forall_forall in H2. apply H2. unfold vget. apply nth_In. lia. Qed.
Lemma nth_values : forall (v : list fl) i, (i < length v)%nat -> nth i (values v) 0 = B2R (vget v i).
Proof. intros v i Hi. unfold values, vget. rewrite (nth_indep _ 0 (B2R (cst 0 : fl))) by (rewrite map_length; lia). now rewrite map_nth. Qed.
Lemma internal_F : forall n A M M' (lu : list (list fl)) g pi b X, 0 < M' <= M -> 8 / 10 / 10 ^ 15 <= M' -> grid n lu g -> finv prec emax n A M' n g pi ->
  INR n ^ 2 * u <= / 100 -> vector_up_to n X (lup_solve_internal n lu pi b) ->
  forall r, (r < n)%nat -> Rabs (Rsum n (fun j => A r j * nth j (values (lup_solve_internal n lu pi b)) 0) - B2R (vget b r)) <= residual_bound prec emax n M X.
Proof.
  intros n A M M' lu g pi b X [HM HM'] H15 Hg Hf NU. unfold lup_solve_internal.
  destruct (line_forward n lu g pi b Hg) as (y & Ly & Hy). destruct (line_backward n lu g _ y Hg Ly) as (x & Lx & Hx). intros HX r Hr.
  assert (FX : forall i, (i < n)%nat -> is_finite (x i) = true /\ Rabs (B2R (x i)) <= X).
  { intros i Hi. rewrite <- (proj2 Lx) by auto. now apply (vector_get n). }
  destruct (perm_onto n pi r (proj1 Hf) Hr) as (i & Hi & <-).
  rewrite (Rsum_ext n _ (fun j => A (nth i pi 0%nat) j * B2R (x j))).
  2:{ intros j Hj. rewrite nth_values by (rewrite (proj1 Lx); auto). now rewrite (proj2 Lx). }
  eapply Rle_trans; [eapply solve_residual; eauto; lra|]. apply residual_mono; auto.
  destruct (FX i Hi) as [_ Q]. pose proof (Rabs_pos (B2R (x i))). lra.
Qed.
Lemma solve_F : forall n M X (m : list (list fl)) b x, square_up_to n M m -> length b = n -> 2 ^ n * M < Om -> INR n ^ 2 * u <= / 100 ->
  lup_solve n m b = (true, x) -> vector_up_to n X x ->
  forall r, (r < n)%nat -> Rabs (nth r (rmulv n n (mvalues m) (values x)) 0 - nth r (values b) 0) <= residual_bound prec emax n M X.
Proof.
  intros n M X m b x HS Hb HM NU E HX r Hr. unfold lup_solve in E. pose proof (decomposition_F n M m HS HM ltac:(lia)) as D.
  destruct (lup_find_decomposition n m) as [[lu pi]|]; [|discriminate]. injection E as <-.
  destruct D as (M' & g & D1 & D2 & D3 & D4). rewrite rmulv_nth by auto. rewrite nth_values by lia. eapply internal_F; eauto.
Qed.
Lemma invert_residual : forall n M X (m res : list (list fl)), square_up_to n M m -> 2 ^ n * M < Om -> INR n ^ 2 * u <= / 100 ->
  m_invert n m = (true, res) -> square_up_to n X res ->
  forall r c, (r < n)%nat -> (c < n)%nat -> Rabs (ent (rmul n n n (mvalues m) (mvalues res)) r c - delta r c) <= residual_bound prec emax n M X.
Proof.
  intros n M X m res HS HM NU E HX r c Hr Hc. unfold m_invert in E. pose proof (decomposition_F n M m HS HM ltac:(lia)) as D.
  destruct (lup_find_decomposition n m) as [[lu pi]|]; [|discriminate]. injection E as E.
  destruct D as (M' & g & D1 & D2 & D3 & D4). destruct (F_cst1 prec emax) as [_ C1].
  set (b := upd (v_zero n) c (cst 1 : fl)). assert (EC : nth c res [] = lup_solve_internal n lu pi b).
  { rewrite <- E. rewrite nth_map_seq by auto. reflexivity. }
  assert (VX : vector_up_to n X (nth c res [])).
  { destruct HX as [[L1 L2] L3]. rewrite Forall_forall in L2, L3. assert (I : In (nth c res []) res) by (apply nth_In; lia). split; auto. }
  rewrite EC in VX. pose proof (internal_F n _ M M' lu g pi b X D1 D2 D3 D4 NU VX r Hr) as Q. rewrite <- EC in Q.
  unfold rmul. rewrite of_ent_get by auto.
  rewrite (Rsum_ext n _ (fun j => ent (mvalues m) r j * nth j (values (nth c res [])) 0)).
  2:{ intros j Hj. f_equal. unfold ent, mvalues. change (@nil R) with (values (@nil fl)). now rewrite map_nth. }
  replace (delta r c) with (B2R (vget b r)); [exact Q|]. unfold b, delta.
  destruct (line_upd n (v_zero n) _ c (cst 1 : fl) (line_zero n) Hc) as [_ LV]. rewrite LV by auto.
  destruct (Nat.eqb r c); [exact C1|]. apply F_cst0.
Qed.
Lemma residual_pos : forall n M X, 0 <= M -> 0 <= X -> 0 <= residual_bound prec emax n M X.
Proof.
  intros n M X H HX. destruct (u_tiny prec ltac:(assumption)) as (U0 & U1). destruct (eta_tiny prec emax ltac:(assumption)) as (E0 & E1).
  unfold residual_bound. assert (0 <= INR n) by apply pos_INR. assert (0 <= 2 ^ n) by (apply pow_le; lra). assert (0 <= INR n ^ 3) by (apply pow_le; lra). assert (0 <= INR n ^ 2) by (apply pow_le; lra).
  apply Rplus_le_le_0_compat; repeat apply Rmult_le_pos; try lra. assert (0 <= u * X) by (apply Rmult_le_pos; lra). lra.
Qed.
Lemma invert_near : forall n M X (m res : list (list fl)), square_up_to n M m -> 2 ^ n * M < Om -> INR n ^ 2 * u <= / 100 ->
  m_invert n m = (true, res) -> square_up_to n X res -> INR n * residual_bound prec emax n M X < 1 ->
  exists B, is_mat n n B /\ inverse n (mvalues m) B /\
    forall r c, (r < n)%nat -> (c < n)%nat -> Rabs (ent (mvalues res) r c - ent B r c) <= INR n * residual_bound prec emax n M X / (1 - INR n * residual_bound prec emax n M X) * X.
Proof.
  intros n M X m res HS HM NU E HX Hn. destruct n as [|n].
  - exists []. split; [repeat constructor|]. split; [split; reflexivity|]. intros; lia.
  - destruct (square_get (S n) M m 0 0 HS ltac:(lia) ltac:(lia)) as [_ P1]. destruct (square_get (S n) X res 0 0 HX ltac:(lia) ltac:(lia)) as [_ P2].
    pose proof (Rabs_pos (B2R (mget m 0 0))). pose proof (Rabs_pos (B2R (mget res 0 0))).
    apply near_inverse; [| | | | | |exact Hn].
    + apply mvalues_shape. apply HS.
    + apply mvalues_shape. apply HX.
    + apply residual_pos; lra.
    + lra.
    + intros r c Hr Hc. rewrite (ent_values (S n)) by (auto; apply HX). now apply (square_get (S n)).
    + intros r c Hr Hc. now apply invert_residual.
Qed.
Lemma solve_near : forall n M X K (m : list (list fl)) b x C, square_up_to n M m -> length b = n -> 2 ^ n * M < Om -> INR n ^ 2 * u <= / 100 ->
  lup_solve n m b = (true, x) -> vector_up_to n X x -> is_mat n n C -> inverse n (mvalues m) C ->
  (forall r c, (r < n)%nat -> (c < n)%nat -> Rabs (ent C r c) <= K) ->
  forall i, (i < n)%nat -> Rabs (nth i (values x) 0 - nth i (rmulv n n C (values b)) 0) <= INR n * K * residual_bound prec emax n M X.
Proof.
  intros n M X K m b x C HS Hb HM NU E HX HC [_ HI] HK i Hi. assert (Lx : length (values x) = n) by (unfold values; rewrite map_length; apply HX).
  pose proof (solve_F n M X m b x HS Hb HM NU E HX) as R. set (rho := residual_bound prec emax n M X) in *.
  assert (E1 : values x = rmulv n n C (rmulv n n (mvalues m) (values x))) by (rewrite <- rmulv_mul, HI; symmetry; now apply rmulv_id).
  rewrite E1 at 1. rewrite !rmulv_nth by auto. rewrite <- Rsum_sub.
  rewrite (Rsum_ext n _ (fun j => ent C i j * (nth j (rmulv n n (mvalues m) (values x)) 0 - nth j (values b) 0))) by (intros; ring).
  rewrite Rmult_assoc. apply Rsum_abs_le. intros j Hj. rewrite Rabs_mult. apply Rmult_le_compat; auto using Rabs_pos.
Qed.
Lemma failure_F : forall n M (m : list (list fl)), square_up_to n M m -> 2 ^ n * M < Om -> lup_find_decomposition n m = None ->
  exists B, is_mat n n B /\ singular n B /\ forall r c, (r < n)%nat -> (c < n)%nat -> Rabs (ent (mvalues m) r c - ent B r c) < failure_bound prec n M.
Proof.
  intros n M m HS HM E. destruct n as [|n]; [discriminate|]. pose proof (decomposition_F (S n) M m HS HM ltac:(lia)) as D. now rewrite E in D.
Qed.
Lemma solve_failure_F : forall n M (m : list (list fl)) b x, square_up_to n M m -> 2 ^ n * M < Om -> lup_solve n m b = (false, x) ->
  x = repeat (cst 0) n /\ exists B, is_mat n n B /\ singular n B /\ forall r c, (r < n)%nat -> (c < n)%nat -> Rabs (ent (mvalues m) r c - ent B r c) < failure_bound prec n M.
Proof.
  intros n M m b x HS HM. unfold lup_solve. destruct (lup_find_decomposition n m) as [[lu pi]|] eqn:E; [discriminate|]. intros Q. injection Q as <-. split; [reflexivity|]. now apply failure_F.
Qed.
Lemma invert_failure_F : forall n M (m res : list (list fl)), square_up_to n M m -> 2 ^ n * M < Om -> m_invert n m = (false, res) ->
  res = m_identity n n /\ exists B, is_mat n n B /\ singular n B /\ forall r c, (r < n)%nat -> (c < n)%nat -> Rabs (ent (mvalues m) r c - ent B r c) < failure_bound prec n M.
Proof.
  intros n M m res HS HM. unfold m_invert. destruct (lup_find_decomposition n m) as [[lu pi]|] eqn:E; [discriminate|]. intros Q. injection Q as <-. split; [reflexivity|]. now apply failure_F.
Qed.
Lemma success_F : forall n M K (m : list (list fl)) C, square_up_to n M m -> 2 ^ n * M < Om -> is_mat n n C -> inverse n (mvalues m) C ->
  (forall r c, (r < n)%nat -> (c < n)%nat -> Rabs (ent C r c) <= K) -> INR n * INR n * K * failure_bound prec n M < 1 ->
  fst (m_invert n m) = true /\ forall b, fst (lup_solve n m b) = true.
Proof.
  intros n M K m C HS HM HC [_ HI] HK Hn. unfold m_invert, lup_solve.
  destruct (lup_find_decomposition n m) as [[lu pi]|] eqn:E; [split; auto|]. exfalso.
  destruct n as [|n]; [discriminate|]. destruct (u_tiny prec ltac:(assumption)) as (U0 & U1).
  assert (K0 : 0 <= K) by (specialize (HK 0%nat 0%nat ltac:(lia) ltac:(lia)); pose proof (Rabs_pos (ent C 0 0)); lra).
  destruct (square_get (S n) M m 0 0 HS ltac:(lia) ltac:(lia)) as [_ P1]. pose proof (Rabs_pos (B2R (mget m 0 0))).
  assert (P0 : 0 < failure_bound prec (S n) M).
  { unfold failure_bound. assert (0 < / 10 ^ 15) by (apply Rinv_0_lt_compat, pow_lt; lra). assert (0 <= 2 ^ S n) by (apply pow_le; lra).
    assert (0 <= 2 ^ S n * (u * M)) by (apply Rmult_le_pos; [lra|apply Rmult_le_pos; lra]). unfold Rdiv. lra. }
  apply (not_near_singular_eps (S n) (mvalues m) C K (failure_bound prec (S n) M) K0 P0 HI HK Hn). now apply failure_F.
Qed.
End FP.
