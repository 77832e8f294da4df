(** Final forms of the statements about matrices. *)
From Coq Require Import ZArith Reals List Bool Lra Lia Arith Permutation.
From Flocq Require Import Core.
From Verif Require Import Ops M_scalar M_vec M_mat Inst_XR P_xr S_vec S_mat S_rot P_vec P_vec2 P_mat P_mat2 P_lup P_ldet P_det S_det.
Import ListNotations.
Local Open Scope R_scope.

(** ** C27 *)
Lemma mat_ring : forall nr nc A B C k l, is_mat nr nc A -> is_mat nr nc B -> is_mat nr nc C ->
  let a := mS A in let b := mS B in let c := mS C in
  m_add a b = m_add b a /\ m_add a (m_add b c) = m_add (m_add a b) c
  /\ m_add a (m_zero nr nc) = a /\ m_add a (m_neg a) = m_zero nr nc
  /\ m_sub a b = m_add a (m_neg b)
  /\ m_scale (m_add a b) (Some k) = m_add (m_scale a (Some k)) (m_scale b (Some k))
  /\ m_scale a (Some (k + l)) = m_add (m_scale a (Some k)) (m_scale a (Some l))
  /\ m_scale a (Some (k * l)) = m_scale (m_scale a (Some l)) (Some k)
  /\ m_scale a (Some 1) = a /\ m_scale_l (Some k) a = m_scale a (Some k)
  /\ (k <> 0 -> m_div_s a (Some k) = m_scale a (Some (/ k))).
Proof.
  intros nr nc A B C k l HA HB HC a b c. subst a b c.
  assert (Z : m_zero nr nc = mS (of_ent nr nc (fun _ _ => 0))).
  { unfold m_zero, m_fill. rewrite <- mk_mS. reflexivity. }
  rewrite Z.
  rewrite !(X_m_add nr nc) by auto using of_ent_shape.
  rewrite !(X_m_neg nr nc) by auto. rewrite !(X_m_sub nr nc) by auto.
  unfold m_scale_l.
  rewrite !(X_m_scale nr nc) by auto using of_ent_shape.
  rewrite !(X_m_add nr nc) by auto using of_ent_shape.
  repeat split.
  all: try (intros Hk; rewrite !(X_m_div_s nr nc) by auto).
  all: apply (f_equal (map (map (@Some R)))); try (apply of_ent_ext; intros r c Hr Hc; rewrite ?of_ent_get by auto; ring).
  - etransitivity; [|symmetry; apply (ent_eta nr nc A); auto].
    apply of_ent_ext; intros r c Hr Hc; rewrite ?of_ent_get by auto; ring.
  - etransitivity; [|symmetry; apply (ent_eta nr nc A); auto].
    apply of_ent_ext; intros r c Hr Hc; rewrite ?of_ent_get by auto; ring.
  - apply of_ent_ext; intros r c Hr Hc. field. auto.
Qed.
Lemma mat_entries : forall nr nc A B k, is_mat nr nc A -> is_mat nr nc B ->
  m_add (mS A) (mS B) = mS (of_ent nr nc (fun r c => ent A r c + ent B r c))
  /\ m_sub (mS A) (mS B) = mS (of_ent nr nc (fun r c => ent A r c - ent B r c))
  /\ m_neg (mS A) = mS (of_ent nr nc (fun r c => - ent A r c))
  /\ m_scale (mS A) (Some k) = mS (of_ent nr nc (fun r c => k * ent A r c)).
Proof.
  intros. repeat split; auto using X_m_add, X_m_sub, X_m_neg, X_m_scale.
Qed.
Lemma mat_mul_entries : forall nr n nc A B r c, (r < nr)%nat -> (c < nc)%nat ->
  nth r (nth c (m_mul nr n nc (mS A) (mS B)) []) None = Some (Rsum n (fun i => ent A r i * ent B i c)).
Proof.
  intros. rewrite X_m_mul. unfold rmul, of_ent. rewrite map_map.
  rewrite nth_map_seq by auto. rewrite map_map. now rewrite nth_map_seq.
Qed.
Lemma mat_mul_shape : forall nr n nc (A B : list (list XR)), is_mat nr nc (m_mul nr n nc A B).
Proof. intros. apply mk_shape. Qed.
Lemma mat_mul_assoc : forall n1 n2 n3 n4 A B C,
  m_mul n1 n3 n4 (m_mul n1 n2 n3 (mS A) (mS B)) (mS C) = m_mul n1 n2 n4 (mS A) (m_mul n2 n3 n4 (mS B) (mS C)).
Proof. intros. rewrite !X_m_mul. f_equal. apply rmul_assoc. Qed.
Lemma mat_mul_id : forall nr nc A, is_mat nr nc A ->
  m_mul nr nr nc (m_identity nr nr) (mS A) = mS A /\ m_mul nr nc nc (mS A) (m_identity nc nc) = mS A.
Proof.
  intros nr nc A H. rewrite !X_m_identity, !X_m_mul. rewrite rmul_id_l, rmul_id_r by auto. auto.
Qed.
Lemma mat_mul_distr : forall n1 n2 n3 A B C k, is_mat n1 n2 A -> is_mat n2 n3 B -> is_mat n2 n3 C ->
  m_mul n1 n2 n3 (mS A) (m_add (mS B) (mS C)) = m_add (m_mul n1 n2 n3 (mS A) (mS B)) (m_mul n1 n2 n3 (mS A) (mS C))
  /\ m_mul n1 n2 n3 (m_scale (mS A) (Some k)) (mS B) = m_scale (m_mul n1 n2 n3 (mS A) (mS B)) (Some k).
Proof.
  intros n1 n2 n3 A B C k HA HB HC. split.
  - rewrite (X_m_add n2 n3) by auto. rewrite !X_m_mul. rewrite (X_m_add n1 n3) by apply of_ent_shape.
    f_equal. apply of_ent_ext. intros r c Hr Hc. unfold rmul. rewrite !of_ent_get by auto.
    rewrite <- Rsum_add. apply Rsum_ext. intros i Hi. rewrite of_ent_get by auto. ring.
  - rewrite (X_m_scale n1 n2) by auto. rewrite !X_m_mul. rewrite (X_m_scale n1 n3) by apply of_ent_shape.
    f_equal. apply of_ent_ext. intros r c Hr Hc. unfold rmul. rewrite !of_ent_get by auto.
    rewrite <- Rsum_mul_l. apply Rsum_ext. intros i Hi. rewrite of_ent_get by auto. ring.
Qed.
Lemma mat_mul_distr_r : forall n1 n2 n3 A B C, is_mat n1 n2 A -> is_mat n1 n2 B -> is_mat n2 n3 C ->
  m_mul n1 n2 n3 (m_add (mS A) (mS B)) (mS C) = m_add (m_mul n1 n2 n3 (mS A) (mS C)) (m_mul n1 n2 n3 (mS B) (mS C)).
Proof.
  intros n1 n2 n3 A B C HA HB HC.
  rewrite (X_m_add n1 n2) by auto. rewrite !X_m_mul. rewrite (X_m_add n1 n3) by apply of_ent_shape.
  f_equal. apply of_ent_ext. intros r c Hr Hc. unfold rmul. rewrite !of_ent_get by auto.
  rewrite <- Rsum_add. apply Rsum_ext. intros i Hi. rewrite of_ent_get by auto. ring.
Qed.
Lemma rmul_shape : forall n1 n2 n3 A B, is_mat n1 n3 (rmul n1 n2 n3 A B).
Proof. intros. apply of_ent_shape. Qed.
Lemma mat_vec_laws : forall n A B v, is_mat n n A -> is_mat n n B -> length v = n ->
  let a := mS A in let b := mS B in
  (forall r, (r < n)%nat -> nth r (m_mul_v n a (vS v)) None = Some (Rsum n (fun c => ent A r c * nth c v 0)))
  /\ m_mul_v n (m_mul n n n a b) (vS v) = m_mul_v n a (m_mul_v n b (vS v))
  /\ v_mul_m n n (vS v) (m_mul n n n a b) = (do u <- v_mul_m n n (vS v) a; v_mul_m n n u b)
  /\ m_mul_v n (m_identity n n) (vS v) = vS v
  /\ v_mul_m n n (vS v) (m_identity n n) = Ret (vS v)
  /\ v_mul_m n n (vS v) a = Ret (m_mul_v n (m_transpose n a) (vS v)).
Proof.
  intros n A B v HA HB Hv a b. subst a b. repeat split.
  - intros r Hr. rewrite X_m_mul_v. unfold rmulv. rewrite map_map. now rewrite nth_map_seq.
  - rewrite X_m_mul, !X_m_mul_v. f_equal. apply rmulv_mul.
  - rewrite X_m_mul. rewrite X_v_mul_m by (auto using rmul_shape). rewrite X_v_mul_m by auto. simpl.
    rewrite X_v_mul_m by (auto using rvmul_length). f_equal. f_equal. apply rvmul_mul.
  - rewrite X_m_identity, X_m_mul_v. now rewrite rmulv_id.
  - rewrite X_m_identity, X_v_mul_m by (auto; apply of_ent_shape). now rewrite rvmul_id.
  - rewrite X_v_mul_m, X_transpose, X_m_mul_v by auto. f_equal. f_equal.
    unfold rvmul, rmulv. apply map_ext_in. intros c Hc. apply in_seq in Hc. apply Rsum_ext. intros r Hr.
    unfold rtrans. rewrite of_ent_get by lia. ring.
Qed.
Lemma mat_transpose_mul : forall n A B, is_mat n n A -> is_mat n n B ->
  m_transpose n (m_mul n n n (mS A) (mS B)) = m_mul n n n (m_transpose n (mS B)) (m_transpose n (mS A)).
Proof.
  intros n A B HA HB. rewrite X_m_mul, !X_transpose by auto using rmul_shape. rewrite X_m_mul. f_equal.
  apply rtrans_mul.
Qed.
(** The vector times a matrix with more columns than rows. *)
Lemma vec_mul_wide : forall T (o : ops T) r c (v : list T) m, (r < c)%nat -> v_mul_m r c v m = UB.
Proof. intros. unfold v_mul_m. destruct (Nat.leb_spec c r); auto. lia. Qed.

(** ** C28 *)
Lemma mget_nth : forall T (o : ops T) R C (m : list (list T)) c r d, is_mat R C m -> (c < C)%nat -> (r < R)%nat ->
  nth r (nth c m []) d = mget m c r.
Proof.
  intros T o nr nc m c r d H H0 H1. unfold mget, vget, mcol. apply nth_indep. fold (mcol m c). rewrite (shape_col nr nc); auto.
Qed.
Lemma transpose_entries : forall T (o : ops T) n (m : list (list T)) d, is_mat n n m ->
  is_mat n n (m_transpose n m)
  /\ (forall c r, (c < n)%nat -> (r < n)%nat ->
       nth r (nth c (m_transpose n m) []) d = nth c (nth r m []) d)
  /\ m_transpose n (m_transpose n m) = m.
Proof.
  intros T o n m d H. destruct (transpose_get n m H) as [H1 H2]. split; [auto|]. split.
  - intros c r Hc Hr. rewrite !(mget_nth T o n n) by auto. auto.
  - now apply transpose_twice.
Qed.
Lemma minor_entries : forall T (o : ops T) R C (m : list (list T)) row col d, is_mat R C m ->
  m_extract_minor R C m row col = (if (row <? R) && (col <? C) then Ret (m_minor R C m row col) else Assert)%nat
  /\ ((row < R)%nat -> (col < C)%nat -> is_mat (R - 1) (C - 1) (m_minor R C m row col) /\
    forall c r, (c < C - 1)%nat -> (r < R - 1)%nat ->
      nth r (nth c (m_minor R C m row col) []) d
      = nth (if r <? row then r else r + 1)%nat (nth (if c <? col then c else c + 1)%nat m []) d).
Proof.
  intros T o R C m row col d H. split.
  - unfold m_extract_minor, require. now destruct (_ && _)%bool.
  - intros Hr Hc. rewrite minor_mk by auto. split; [apply mk_shape|].
    intros c r Hc' Hr'. rewrite (mget_nth T o (R - 1) (C - 1)) by (auto; apply mk_shape).
    rewrite mk_get by auto. unfold skip.
    symmetry. replace (c + 1)%nat with (S c) by lia. replace (r + 1)%nat with (S r) by lia.
    apply (mget_nth T o R C); auto.
    + destruct (Nat.ltb_spec c col); lia.
    + destruct (Nat.ltb_spec r row); lia.
Qed.
Lemma slice_entries : forall T (o : ops T) RR RC R C (m : list (list T)) r0 c0 d, is_mat R C m -> (RR <= R)%nat ->
  match m_slice RR RC R C m r0 c0 with
  | Ret s => (r0 + RR <= R)%nat /\ (c0 + RC <= C)%nat /\ is_mat RR RC s /\
      forall c r, (c < RC)%nat -> (r < RR)%nat -> nth r (nth c s []) d = nth (r0 + r) (nth (c0 + c) m []) d
  | Assert => ~ ((r0 + RR <= R)%nat /\ (c0 + RC <= C)%nat)
  | _ => False
  end.
Proof.
  intros T o RR RC R C m r0 c0 d H HR. unfold m_slice, require.
  destruct (Nat.leb_spec r0 (R - RR)), (Nat.leb_spec (c0 + RC) C); simpl; try lia.
  repeat split; try lia; try apply mk_shape.
  intros c r Hc Hr. rewrite (mget_nth T o RR RC) by (auto; apply mk_shape). rewrite mk_get by auto.
  rewrite (Nat.add_comm c), (Nat.add_comm r). symmetry. apply (mget_nth T o R C); auto; lia.
Qed.
Lemma set_entries : forall T (o : ops T) R C (m : list (list T)) r0 c0 v d, is_mat R C m ->
  match m_set R C m r0 c0 v with
  | Ret s => (r0 < R)%nat /\ (c0 < C)%nat /\ is_mat R C s /\
      forall c r, (c < C)%nat -> (r < R)%nat ->
        nth r (nth c s []) d = if (r =? r0)%nat && (c =? c0)%nat then v else nth r (nth c m []) d
  | Assert => ~ ((r0 < R)%nat /\ (c0 < C)%nat)
  | _ => False
  end.
Proof.
  intros T o R C m r0 c0 v d H. unfold m_set, require.
  destruct (Nat.ltb_spec r0 R), (Nat.ltb_spec c0 C); simpl; try lia.
  assert (S1 : is_mat R C (mput m c0 r0 v)) by now apply mput_shape.
  repeat split; auto; try apply S1.
  intros c r Hc Hr. rewrite !(mget_nth T o R C) by auto. rewrite (mput_get R C) by auto.
  now rewrite andb_comm.
Qed.

(** ** C29, C30 *)
Lemma det_leibniz : forall n A, is_mat (S n) (S n) A -> m_det (S n) (mS A) = Some (leibniz (S n) (ent A)).
Proof. intros n A HA. rewrite X_det by auto. f_equal. apply ldet_leibniz. Qed.
Lemma det_mul : forall n A B, is_mat (S n) (S n) A -> is_mat (S n) (S n) B ->
  m_det (S n) (m_mul (S n) (S n) (S n) (mS A) (mS B)) = o_mul (m_det (S n) (mS A)) (m_det (S n) (mS B)).
Proof.
  intros n A B HA HB. rewrite X_m_mul. rewrite !X_det by auto using rmul_shape.
  cbn [o_mul XRops X2]. f_equal. apply ldet_mul.
Qed.
Lemma det_transpose : forall n A, is_mat (S n) (S n) A ->
  m_det (S n) (m_transpose (S n) (mS A)) = m_det (S n) (mS A).
Proof.
  intros n A HA. rewrite X_transpose by auto. rewrite !X_det by (auto; apply of_ent_shape). f_equal. apply ldet_trans.
Qed.
Lemma det_identity : forall n, m_det (S n) (m_identity (S n) (S n)) = Some 1.
Proof. intros. rewrite X_m_identity, X_det by apply of_ent_shape. f_equal. apply ldet_id. Qed.
Lemma det_zero_singular : forall n A, is_mat (S n) (S n) A ->
  (m_det (S n) (mS A) = Some 0 <-> singular (S n) A).
Proof.
  intros n A HA. rewrite X_det by auto. rewrite <- (ldet_singular HA).
  split; [intros E; now injection E|now intros ->].
Qed.
Lemma adjugate_law : forall n A, is_mat (S (S n)) (S (S n)) A ->
  let s := S (S n) in
  m_mul s s s (mS A) (m_adjugate s (mS A)) = m_scale_l (m_det s (mS A)) (m_identity s s)
  /\ m_mul s s s (m_adjugate s (mS A)) (mS A) = m_scale_l (m_det s (mS A)) (m_identity s s).
Proof.
  intros n A HA s. subst s. destruct (adj_mul HA) as [E1 E2].
  rewrite X_adjugate by auto. fold (adjl (S n) A). rewrite X_m_identity.
  rewrite X_det by auto. unfold m_scale_l. rewrite (X_m_scale (S (S n)) (S (S n))) by apply of_ent_shape.
  rewrite !X_m_mul, E1, E2.
  split; f_equal; apply of_ent_ext; intros r c Hr Hc; unfold rid; now rewrite of_ent_get.
Qed.

(** ** C31 *)
Lemma decomposition_spec : forall n A, is_mat n n A ->
  match lup_find_decomposition n (mS A) with
  | Some (lu, pi) => exists g, rep n lu g /\ lupinv n n (ent A) g pi
  | None => lupfail n (ent A)
  end.
Proof.
  intros n A H. unfold lup_find_decomposition.
  apply (loop_spec n n 0 (mS A) (ent A) (seq 0 n) (ent A)); auto using rep_mS, inv_start.
Qed.
Lemma rep_list : forall n m g, rep n m g -> m = mS (of_ent n n g).
Proof.
  intros n m g [H1 H2]. rewrite <- mk_mS. apply (mat_ext n n); auto using mk_shape.
  intros. rewrite mk_get by auto. auto.
Qed.
Lemma lup_factors : forall n A lu pi, is_mat n n A ->
  lup_find_decomposition n (mS A) = Some (lu, pi) ->
  exists LU, lu = mS LU /\ is_mat n n LU /\ Permutation pi (seq 0 n) /\
    (forall i, (i < n)%nat -> ent LU i i <> 0) /\
    forall i j, (i < n)%nat -> (j < n)%nat ->
      ent A (nth i pi 0%nat) j
      = Rsum n (fun t => (if (t <? i)%nat then ent LU i t else if (t =? i)%nat then 1 else 0)
                         * (if (t <=? j)%nat then ent LU t j else 0)).
Proof.
  intros n A lu pi HA E. pose proof (decomposition_spec n A HA) as H. rewrite E in H.
  destruct H as (g & Hg & Hi). destruct (Hi) as (HP & Hd & _).
  exists (of_ent n n g). split; [now apply rep_list|]. split; [apply of_ent_shape|]. split; auto. split.
  - intros i Hi'. rewrite of_ent_get; auto.
  - intros i j Hi' Hj. rewrite (lupinv_final n _ g pi Hi) by auto. apply Rsum_ext. intros t Ht.
    unfold lo_, up_, delta. rewrite !of_ent_get by auto. now rewrite (Nat.eqb_sym t i).
Qed.
Lemma rmulv_list : forall n A x b, length b = n ->
  (forall r, (r < n)%nat -> Rsum n (fun j => ent A r j * x j) = nth r b 0) ->
  rmulv n n A (map x (seq 0 n)) = b.
Proof.
  intros n A x b Hb H. apply nth_ext with (d := 0) (d' := 0).
  - now rewrite rmulv_length.
  - intros i. rewrite rmulv_length. intros Hi. rewrite rmulv_nth by auto. rewrite <- H by auto.
    apply Rsum_ext. intros. now rewrite nth_map_seq.
Qed.
Lemma inj_list : forall n A g pi x y, lupinv n n (ent A) g pi -> length x = n -> length y = n ->
  rmulv n n A x = rmulv n n A y -> x = y.
Proof.
  intros n A g pi x y H Hx Hy E. apply nth_ext with (d := 0) (d' := 0); [lia|].
  intros i Hi. rewrite Hx in Hi.
  assert (D : (fun j => nth j x 0 - nth j y 0) i = 0).
  { apply (lu_inj n (ent A) g pi (fun j => nth j x 0 - nth j y 0)); auto. intros r Hr.
    rewrite (Rsum_ext n _ (fun j => ent A r j * nth j x 0 - ent A r j * nth j y 0)) by (intros; ring).
    rewrite Rsum_sub. rewrite <- (rmulv_nth n n A x r), <- (rmulv_nth n n A y r) by auto. rewrite E. ring. }
  simpl in D. lra.
Qed.
Lemma solve_correct : forall n A b res, is_mat n n A -> length b = n ->
  lup_solve n (mS A) (vS b) = (true, res) ->
  exists x, res = vS x /\ length x = n /\ rmulv n n A x = b
    /\ forall y, length y = n -> rmulv n n A y = b -> y = x.
Proof.
  intros n A b res HA Hb. unfold lup_solve. pose proof (decomposition_spec n A HA) as H.
  destruct (lup_find_decomposition n (mS A)) as [[lu pi]|]; [|discriminate].
  destruct H as (g & Hg & Hi). intros E. injection E as <-.
  destruct (solve_spec n lu g pi (ent A) b Hg Hi) as (x & Hx & Ex).
  exists (map x (seq 0 n)). split; [now apply vrep_vS|].
  assert (L : length (map x (seq 0 n)) = n) by now rewrite map_length, seq_length.
  assert (S : rmulv n n A (map x (seq 0 n)) = b) by now apply rmulv_list.
  repeat split; auto. intros y Hy Ey. apply (inj_list n A g pi); auto. congruence.
Qed.
Lemma near_singular : forall n A, lupfail n (ent A) ->
  exists B, is_mat n n B /\ singular n B /\
    forall r c, (r < n)%nat -> (c < n)%nat -> Rabs (ent A r c - ent B r c) < 1 / 10 ^ 15.
Proof.
  intros n A H. destruct (fail_near n (ent A) H) as (B & x & HB & (i & Hi & Hx) & H0).
  exists (of_ent n n B). split; [apply of_ent_shape|]. split.
  - exists (map x (seq 0 n)). split; [now rewrite map_length, seq_length|]. split.
    + intros E. apply Hx. rewrite <- (nth_map_seq x n i 0) by auto. rewrite E. apply nth_repeat.
    + apply rmulv_list; [apply repeat_length|]. intros r Hr. rewrite nth_repeat.
      rewrite <- (H0 r Hr). apply Rsum_ext. intros. now rewrite of_ent_get.
  - intros r c Hr Hc. rewrite of_ent_get by auto.
    replace (10 ^ 15) with 1000000000000000 by (simpl; ring). auto.
Qed.
Lemma solve_failure : forall n A b res, is_mat n n A ->
  lup_solve n (mS A) (vS b) = (false, res) -> res = v_zero n /\
  exists B, is_mat n n B /\ singular n B /\
    forall r c, (r < n)%nat -> (c < n)%nat -> Rabs (ent A r c - ent B r c) < 1 / 10 ^ 15.
Proof.
  intros n A b res HA. unfold lup_solve. pose proof (decomposition_spec n A HA) as H.
  destruct (lup_find_decomposition n (mS A)) as [[lu pi]|]; [discriminate|].
  intros E. injection E as <-. split; auto. now apply near_singular.
Qed.

(** ** C32 *)
Lemma unit_vec : forall n i, (i < n)%nat -> upd (v_zero n) i (cst 1 : XR) = vS (map (fun j => delta j i) (seq 0 n)).
Proof.
  intros n i Hi. apply vrep_vS. eapply vrep_ext; [|apply (vrep_upd n _ _ i 1 (vrep_zero n) Hi)].
  intros j Hj. reflexivity.
Qed.
Lemma invert_correct : forall n A res, is_mat n n A -> m_invert n (mS A) = (true, res) ->
  exists B, res = mS B /\ is_mat n n B /\ inverse n A B.
Proof.
  intros n A res HA. unfold m_invert. pose proof (decomposition_spec n A HA) as H.
  destruct (lup_find_decomposition n (mS A)) as [[lu pi]|]; [|discriminate].
  destruct H as (g & Hg & Hi). intros E. injection E as <-.
  assert (X : exists B, is_mat n n B /\ map (fun i => lup_solve_internal n lu pi (upd (v_zero n) i (cst 1))) (seq 0 n) = mS B
      /\ forall r c, (r < n)%nat -> (c < n)%nat -> Rsum n (fun j => ent A r j * ent B j c) = delta r c).
  { assert (G : forall l, (forall i, In i l -> (i < n)%nat) -> exists B : list (list R),
       length B = length l /\ Forall (fun col => length col = n) B /\
       map (fun i => lup_solve_internal n lu pi (upd (v_zero n) i (cst 1))) l = mS B /\
       forall k r, (k < length l)%nat -> (r < n)%nat ->
         Rsum n (fun j => ent A r j * ent B j k) = delta r (nth k l 0%nat)).
    { induction l as [|i l IH]; intros Hl.
      - exists []. repeat split; auto. intros; simpl in *; lia.
      - destruct IH as (B & B1 & B2 & B3 & B4); [intros; apply Hl; now right|].
        destruct (solve_spec n lu g pi (ent A) (map (fun j => delta j i) (seq 0 n)) Hg Hi) as (x & Hx & Ex).
        exists (map x (seq 0 n) :: B). cbn [map length]. repeat split; auto.
        + constructor; auto. now rewrite map_length, seq_length.
        + rewrite B3. f_equal. rewrite unit_vec by (apply Hl; now left). now apply vrep_vS.
        + intros [|k] r Hk Hr; simpl.
          * rewrite <- (nth_map_seq (fun j => delta j i) n r 0) by auto. rewrite <- Ex by auto.
            apply Rsum_ext. intros j Hj. unfold ent at 2. simpl. now rewrite nth_map_seq.
          * apply (B4 k r); auto. lia. }
    destruct (G (seq 0 n)) as (B & B1 & B2 & B3 & B4).
    { intros i Hin. apply in_seq in Hin. lia. }
    rewrite seq_length in B1, B4. exists B. repeat split; auto.
    intros r c Hr Hc. rewrite (B4 c r) by auto. now rewrite seq_nth. }
  destruct X as (B & HB & EB & Inv). exists B. split; [exact EB|]. split; auto.
  assert (R1 : rmul n n n A B = rid n).
  { apply of_ent_ext. intros. now apply Inv. }
  split; auto.
  apply (ent_ext n n); try apply of_ent_shape.
  assert (C : forall c, (c < n)%nat -> nth c (rmul n n n B A) [] = nth c (rid n) []).
  { intros c Hc. apply (inj_list n A g pi); auto.
    - apply (nth_rows n n); auto. apply of_ent_shape.
    - apply (nth_rows n n); auto. apply of_ent_shape.
    - assert (Col : forall M, rmulv n n A (nth c M []) = map (fun r => Rsum n (fun i => ent A r i * ent M i c)) (seq 0 n)) by reflexivity.
      rewrite !Col. apply map_ext_in. intros r Hr. apply in_seq in Hr.
      assert (E1 : Rsum n (fun i => ent A r i * ent (rmul n n n B A) i c) = ent (rmul n n n A (rmul n n n B A)) r c).
      { unfold rmul at 2. rewrite of_ent_get by lia. reflexivity. }
      rewrite E1, <- rmul_assoc, R1, rmul_id_l by auto.
      rewrite <- (Rsum_delta_r n c (fun i => ent A r i)) by auto. symmetry. apply Rsum_ext. intros i Hi'.
      unfold rid. now rewrite of_ent_get. }
  intros r c Hr Hc. unfold ent. now rewrite C.
Qed.
Lemma inverse_not_singular : forall n A B, is_mat n n A -> inverse n A B -> ~ singular n A.
Proof.
  intros n A B HA [_ H] (v & Hl & Hn & H0). apply Hn.
  rewrite <- (rmulv_id n v) by auto. rewrite <- H, rmulv_mul, H0.
  apply nth_ext with (d := 0) (d' := 0).
  - now rewrite rmulv_length, repeat_length.
  - intros i. rewrite rmulv_length. intros Hi. rewrite rmulv_nth by auto. rewrite nth_repeat.
    apply Rsum_zero. intros j Hj. rewrite nth_repeat. ring.
Qed.
Lemma invert_singular : forall n A, is_mat n n A -> singular n A -> m_invert n (mS A) = (false, m_identity n n).
Proof.
  intros n A HA HS. destruct (m_invert n (mS A)) as [[] res] eqn:E.
  - exfalso. destruct (invert_correct n A res HA E) as (B & _ & _ & HI).
    now apply (inverse_not_singular n A B).
  - unfold m_invert in E. destruct (lup_find_decomposition n (mS A)) as [[lu pi]|]; congruence.
Qed.
Lemma invert_failure : forall n A res, is_mat n n A -> m_invert n (mS A) = (false, res) ->
  res = m_identity n n /\
  exists B, is_mat n n B /\ singular n B /\
    forall r c, (r < n)%nat -> (c < n)%nat -> Rabs (ent A r c - ent B r c) < 1 / 10 ^ 15.
Proof.
  intros n A res HA. unfold m_invert. pose proof (decomposition_spec n A HA) as H.
  destruct (lup_find_decomposition n (mS A)) as [[lu pi]|]; [discriminate|].
  intros E. injection E as <-. split; auto. now apply near_singular.
Qed.
Lemma lit_small : lit 1 1000000000000000 = Some (1 / 10 ^ 15).
Proof. rewrite X_lit by discriminate. f_equal. simpl. field. Qed.
Lemma invert_refuted : exists A B, is_mat 1 1 A /\ inverse 1 A B /\ fst (m_invert 1 (mS A)) = false.
Proof.
  exists [[/ 10 ^ 16]], [[10 ^ 16]]. split; [repeat constructor|]. split.
  - split; unfold rmul, rid, of_ent, ent, delta; simpl; repeat f_equal; field.
  - unfold m_invert, lup_find_decomposition, lup_loop.
    assert (E : lup_pivot 1 0 (mS [[/ 10 ^ 16]]) = (Some (/ 10 ^ 16), 0%nat)).
    { unfold lup_pivot. cbn [Nat.sub for_loop]. rewrite mS_get. unfold ent. cbn [nth]. rewrite X_abs.
      assert (P : 0 < / 10 ^ 16) by (apply Rinv_0_lt_compat, pow_lt; lra).
      rewrite Rabs_pos_eq by lra. cbn [fst o_lt XRops Xcmp cst o_of_Z].
      rewrite Rlt_bool_true by exact P. reflexivity. }
    rewrite E. cbn [fst snd]. rewrite lit_small. cbn [o_lt XRops Xcmp].
    rewrite Rlt_bool_true; [reflexivity|]. simpl. lra.
Qed.

(** ** C33 *)
Lemma X_m_ints : forall l, m_ints (T := XR) l = mS (of_ent 4 4 (fun r c => IZR (nth (c + 4 * r) l 0%Z))).
Proof.
  intros l. unfold m_ints, m_of_rows. rewrite <- mk_mS. apply mk_ext. intros c r Hc Hr.
  change (cst 0 : XR) with ((fun z => cst z : XR) 0%Z). rewrite map_nth. reflexivity.
Qed.
Lemma X_m_mul_p3 : forall M x y z, length (rmulv 4 4 M [x; y; z; 1]) = 4%nat ->
  nth 3 (rmulv 4 4 M [x; y; z; 1]) 0 = 1 ->
  m_mul_p 4 (mS M) (vS [x; y; z]) = vS (firstn 3 (rmulv 4 4 M [x; y; z; 1])).
Proof.
  intros M x y z Hl H. unfold m_mul_p.
  change (v_to_homogeneous (vS [x; y; z])) with (vS [x; y; z; 1]).
  rewrite X_m_mul_v. remember (rmulv 4 4 M [x; y; z; 1]) as u eqn:E. clear E.
  destruct u as [|a [|b [|c [|d [|]]]]]; try discriminate. simpl in H. subst d.
  change [a; b; c; 1] with ([a; b; c] ++ [1]). rewrite X_cartesian by lra.
  simpl. repeat f_equal; field.
Qed.
Ltac mat4 := repeat rewrite X_m_ints.
Lemma const_act : forall l f,
  (forall x y z, rmulv 4 4 (of_ent 4 4 (fun r c => IZR (nth (c + 4 * r) l 0%Z))) [x; y; z; 1] = f [x; y; z] ++ [1] /\ length (f [x;y;z]) = 3%nat) ->
  const_acts (m_ints l) f.
Proof.
  intros l f H x y z. rewrite X_m_ints. destruct (H x y z) as [E L].
  rewrite X_m_mul_p3; rewrite E.
  - now rewrite firstn_app, L, firstn_all2, app_nil_r by lia.
  - rewrite app_length, L. reflexivity.
  - rewrite app_nth2, L by lia. reflexivity.
Qed.
Lemma trig_mpi2 : cos (- (PI / 2)) = 0 /\ sin (- (PI / 2)) = -1.
Proof. rewrite cos_neg, sin_neg, cos_PI2, sin_PI2. lra. Qed.
Ltac rotate := apply const_act; intros x y z; split; [|reflexivity];
  unfold rrot, rmulv, of_ent, ent; cbn -[IZR cos sin PI Rinv Rdiv];
  rewrite ?cos_PI2, ?sin_PI2, ?cos_PI, ?sin_PI, ?(proj1 trig_mpi2), ?(proj2 trig_mpi2); ringlist.
Lemma rotations_act :
  const_acts rot_90_x_ccw (rrot [1; 0; 0] (PI / 2)) /\ const_acts rot_90_x_cw (rrot [1; 0; 0] (- (PI / 2)))
  /\ const_acts rot_90_y_ccw (rrot [0; 1; 0] (PI / 2)) /\ const_acts rot_90_y_cw (rrot [0; 1; 0] (- (PI / 2)))
  /\ const_acts rot_90_z_ccw (rrot [0; 0; 1] (PI / 2)) /\ const_acts rot_90_z_cw (rrot [0; 0; 1] (- (PI / 2)))
  /\ const_acts rot_180_x (rrot [1; 0; 0] PI) /\ const_acts rot_180_y (rrot [0; 1; 0] PI)
  /\ const_acts rot_180_z (rrot [0; 0; 1] PI).
Proof. repeat split; rotate. Qed.
Lemma mirrors_act :
  const_acts mirror_x (fun p => [- nth 0 p 0; nth 1 p 0; nth 2 p 0])
  /\ const_acts mirror_y (fun p => [nth 0 p 0; - nth 1 p 0; nth 2 p 0])
  /\ const_acts mirror_z (fun p => [nth 0 p 0; nth 1 p 0; - nth 2 p 0]).
Proof.
  repeat split; apply const_act; intros x y z; (split; [|reflexivity]);
    unfold rmulv, of_ent, ent; cbn -[IZR]; ringlist.
Qed.
Notation mmul4 := (@m_mul XR XRops 4 4 4).
Ltac prod4 := unfold rot_90_x_cw, rot_90_y_cw, rot_90_z_cw, rot_90_x_ccw, rot_90_y_ccw, rot_90_z_ccw,
    rot_180_x, rot_180_y, rot_180_z, mirror_x, mirror_y, mirror_z; rewrite ?X_m_identity; mat4; rewrite ?X_m_mul;
  apply (f_equal (map (map (@Some R)))); unfold rmul, rid, of_ent, ent, delta;
  cbn -[IZR]; ringlist.
Lemma constants_compose :
  let I4 := m_identity 4 4 in
  mmul4 rot_90_x_cw rot_90_x_ccw = I4 /\ mmul4 rot_90_x_ccw rot_90_x_cw = I4
  /\ mmul4 rot_90_y_cw rot_90_y_ccw = I4 /\ mmul4 rot_90_y_ccw rot_90_y_cw = I4
  /\ mmul4 rot_90_z_cw rot_90_z_ccw = I4 /\ mmul4 rot_90_z_ccw rot_90_z_cw = I4
  /\ mmul4 rot_90_x_cw rot_90_x_cw = rot_180_x /\ mmul4 rot_90_x_ccw rot_90_x_ccw = rot_180_x
  /\ mmul4 rot_90_y_cw rot_90_y_cw = rot_180_y /\ mmul4 rot_90_y_ccw rot_90_y_ccw = rot_180_y
  /\ mmul4 rot_90_z_cw rot_90_z_cw = rot_180_z /\ mmul4 rot_90_z_ccw rot_90_z_ccw = rot_180_z
  /\ mmul4 rot_180_x rot_180_x = I4 /\ mmul4 rot_180_y rot_180_y = I4 /\ mmul4 rot_180_z rot_180_z = I4
  /\ mmul4 mirror_x mirror_x = I4 /\ mmul4 mirror_y mirror_y = I4 /\ mmul4 mirror_z mirror_z = I4.
Proof. cbv zeta. repeat split; prod4. Qed.
Lemma m_ints_shape : forall l, is_mat 4 4 (m_ints (T := XR) l).
Proof. intros. apply mk_shape. Qed.
Lemma constants_orthogonal : forall m : list (list XR),
  In m [rot_90_x_cw; rot_90_y_cw; rot_90_z_cw; rot_90_x_ccw; rot_90_y_ccw; rot_90_z_ccw;
        rot_180_x; rot_180_y; rot_180_z; mirror_x; mirror_y; mirror_z] ->
  m_mul 4 4 4 m (m_transpose 4 m) = m_identity 4 4.
Proof.
  intros m H. simpl in H.
  repeat (destruct H as [<- |H]); [..|contradiction].
  all: unfold rot_90_x_cw, rot_90_y_cw, rot_90_z_cw, rot_90_x_ccw, rot_90_y_ccw, rot_90_z_ccw,
    rot_180_x, rot_180_y, rot_180_z, mirror_x, mirror_y, mirror_z; rewrite X_m_ints;
    rewrite X_transpose by apply of_ent_shape; rewrite X_m_identity, X_m_mul;
    apply (f_equal (map (map (@Some R)))); unfold rmul, rtrans, rid, of_ent, ent, delta; cbn -[IZR]; ringlist.
Qed.
Lemma zero_out_acts : forall n e v, (e < n)%nat -> length v = n ->
  exists m, m_zero_out n e = Ret m /\
    forall i, (i < n)%nat -> nth i (m_mul_v n m (vS v)) None = Some (if (i =? e)%nat then 0 else nth i v 0).
Proof.
  intros n e v He Hv. unfold m_zero_out, m_set, require.
  destruct (Nat.ltb_spec e n); [|lia]. simpl. eexists. split; [reflexivity|].
  intros i Hi. unfold m_mul_v. rewrite nth_map_seq by auto.
  rewrite X_m_identity.
  assert (G : rep n (mput (mS (rid n)) e e (Some 0)) (fun r c => if (r =? e)%nat && (c =? e)%nat then 0 else ent (rid n) r c)).
  { apply rep_put; auto. apply rep_mS, of_ent_shape. }
  change (cst 0) with (Some 0).
  rewrite (acc_sum_ext _ _ _ (fun c => Some (delta i c * (if (c =? e)%nat then 0 else nth c v 0)))).
  - rewrite acc_sum_S. f_equal. cbn [Nat.add]. rewrite Rsum_delta by auto. ring.
  - intros c Hc. rewrite (proj2 G) by lia. rewrite vS_get. cbn [o_mul XRops X2]. f_equal.
    unfold rid. rewrite of_ent_get by lia. unfold delta.
    destruct (Nat.eqb_spec i e), (Nat.eqb_spec c e), (Nat.eqb_spec i c); cbn; subst; try lia; ring.
Qed.

(** ** Cases *)
Definition M22 : list (list R) := [[2; 1]; [1; 3]].
Lemma M22_shape : is_mat 2 2 M22.
Proof. repeat constructor. Qed.
Lemma M22_det : m_det 2 (mS M22) = Some 5.
Proof. simpl. f_equal. ring. Qed.
Lemma M22_invert : fst (m_invert 2 (mS M22)) = true.
Proof.
  destruct (m_invert 2 (mS M22)) as [[] res] eqn:E; auto. exfalso.
  destruct (invert_failure 2 M22 res M22_shape E) as (_ & B & HB & HS & Hclose).
  apply (ldet_singular HB) in HS.
  assert (P : (10 ^ 15 = 1000000000000000)) by (simpl; ring). rewrite P in Hclose.
  pose proof (Hclose 0%nat 0%nat ltac:(lia) ltac:(lia)) as H00.
  pose proof (Hclose 0%nat 1%nat ltac:(lia) ltac:(lia)) as H01.
  pose proof (Hclose 1%nat 0%nat ltac:(lia) ltac:(lia)) as H10.
  pose proof (Hclose 1%nat 1%nat ltac:(lia) ltac:(lia)) as H11.
  unfold M22 in *. change (ent [[2;1];[1;3]] 0 0) with 2 in H00. change (ent [[2;1];[1;3]] 0 1) with 1 in H01.
  change (ent [[2;1];[1;3]] 1 0) with 1 in H10. change (ent [[2;1];[1;3]] 1 1) with 3 in H11.
  apply Rabs_def2 in H00, H01, H10, H11.
  simpl in HS. unfold sgn, skip in HS. simpl in HS.
  set (a := ent B 0 0) in *. set (b := ent B 0 1) in *. set (c := ent B 1 0) in *. set (d := ent B 1 1) in *.
  assert (3 < a * d) by nra. assert (b * c < 2) by nra. lra.
Qed.
