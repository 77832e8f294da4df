(** Proofs about affine matrices of any size: mat_ext.h translation, scaling, list products. *)
From Coq Require Import ZArith Reals List Bool Lra Lia Arith.
From Flocq Require Import Core.
From Verif Require Import Ops M_scalar M_vec M_mat M_bbox M_quat M_matext Inst_XR P_xr S_vec S_mat S_affine S_rot P_vec P_vec2 P_mat P_mat2 P_mat3.
Import ListNotations.
Local Open Scope R_scope.

(** ** Loops that write one entry per row *)
Section Gen.
Context {T : Type} {o : ops T}.
Lemma put_loop : forall R C (m : list (list T)) (kc : nat -> nat) (g : nat -> T) n, is_mat R C m ->
  (n <= R)%nat -> (forall i, (i < n)%nat -> (kc i < C)%nat) ->
  is_mat R C (for_loop n 0 (fun i m => mput m (kc i) i (g i)) m) /\
  forall c r, mget (for_loop n 0 (fun i m => mput m (kc i) i (g i)) m) c r
    = if (r <? n)%nat && (c =? kc r)%nat then g r else mget m c r.
Proof.
  intros R C m kc g n Hm Hn Hk.
  apply (for_ind (fun k m' => is_mat R C m' /\ forall c r, mget m' c r = if (r <? k)%nat && (c =? kc r)%nat then g r else mget m c r)).
  - split; auto.
  - intros i s Hi [Hs Hg]. split.
    + apply mput_shape; auto. apply Hk. lia.
    + intros c r. rewrite (mput_get R C) by (auto; try apply Hk; lia). rewrite Hg.
      destruct (Nat.eqb_spec r i) as [->|].
      * rewrite andb_true_r. destruct (Nat.ltb_spec i (S i)); [|lia]. destruct (Nat.ltb_spec i i); [lia|]. cbn.
        now destruct (Nat.eqb c (kc i)).
      * rewrite andb_false_r. destruct (Nat.ltb_spec r i), (Nat.ltb_spec r (S i)); auto; lia.
Qed.
End Gen.

(** ** Affine action *)
Lemma raffine_length : forall n M p, length (raffine n M p) = n.
Proof. intros. unfold raffine. now rewrite map_length, seq_length. Qed.
Lemma rmulv_affine : forall n M p, affine n M -> length p = n ->
  rmulv (S n) (S n) M (p ++ [1]) = raffine n M p ++ [1].
Proof.
  intros n M p [HM HL] Hp. unfold rmulv, raffine. rewrite seq_S, map_app. f_equal.
  - apply map_ext_in. intros r Hr. cbn [Rsum]. rewrite app_nth2 by lia. replace (n - length p)%nat with 0%nat by lia.
    cbn [nth]. rewrite Rmult_1_r. f_equal. apply Rsum_ext. intros i Hi. rewrite app_nth1 by lia. auto.
  - cbn [map]. f_equal. cbn [Rsum plus]. rewrite app_nth2 by lia. replace (n - length p)%nat with 0%nat by lia.
    cbn [nth]. rewrite Rsum_zero.
    + rewrite HL by lia. unfold delta. rewrite Nat.eqb_refl. ring.
    + intros i Hi. rewrite HL by lia. unfold delta. destruct (Nat.eqb_spec n i); [lia|]. ring.
Qed.
Lemma X_affine : forall n M p, affine n M -> length p = n -> m_mul_p (S n) (mS M) (vS p) = vS (raffine n M p).
Proof.
  intros n M p HM Hp. unfold m_mul_p.
  replace (v_to_homogeneous (vS p)) with (vS (p ++ [1])).
  2: { unfold v_to_homogeneous, v_extend. rewrite map_id, map_app. reflexivity. }
  rewrite X_m_mul_v, rmulv_affine by auto. rewrite X_cartesian by lra. f_equal.
  rewrite Rinv_1. apply rscale_1.
Qed.
Lemma affine_mul : forall n A B, affine n A -> affine n B -> affine n (rmul (S n) (S n) (S n) A B).
Proof.
  intros n A B [HA LA] [HB LB]. split; [apply of_ent_shape|]. intros c Hc.
  unfold rmul. rewrite of_ent_get by lia. rewrite <- (LB c Hc).
  etransitivity; [|apply (Rsum_delta (S n) n (fun i => ent B i c)); lia].
  apply Rsum_ext. intros i Hi. rewrite LA by lia. reflexivity.
Qed.
Lemma affine_id : forall n, affine n (rid (S n)).
Proof. intros n. split; [apply of_ent_shape|]. intros c Hc. unfold rid. now rewrite of_ent_get by lia. Qed.
Lemma raffine_mul : forall n A B p, affine n A -> affine n B -> length p = n ->
  raffine n (rmul (S n) (S n) (S n) A B) p = raffine n A (raffine n B p).
Proof.
  intros n A B p HA HB Hp.
  assert (E : raffine n (rmul (S n) (S n) (S n) A B) p ++ [1] = raffine n A (raffine n B p) ++ [1]).
  { rewrite <- !rmulv_affine by (auto using affine_mul, raffine_length). rewrite rmulv_mul.
    now rewrite rmulv_affine. }
  now apply app_inj_tail in E.
Qed.
Lemma affine_compose : forall n A B p, affine n A -> affine n B -> length p = n ->
  m_mul_p (S n) (m_mul (S n) (S n) (S n) (mS A) (mS B)) (vS p)
  = m_mul_p (S n) (mS A) (m_mul_p (S n) (mS B) (vS p)).
Proof.
  intros n A B p HA HB Hp. rewrite X_m_mul, !X_affine by (auto using affine_mul).
  rewrite X_affine by (auto using raffine_length). now rewrite raffine_mul.
Qed.

(** ** Translation and scaling matrices *)
Definition rtransl (d : list R) : list (list R) :=
  let n := length d in of_ent (S n) (S n) (fun r c => if (r <? n)%nat && (c =? n)%nat then nth r d 0 else delta r c).
Definition rscaling (d : list R) : list (list R) :=
  let n := length d in of_ent (S n) (S n) (fun r c => if (r <? n)%nat && (c =? r)%nat then nth r d 0 else delta r c).
Lemma X_translation : forall d, translation_matrix (vS d) = mS (rtransl d).
Proof.
  intros d. unfold translation_matrix, rtransl. rewrite map_length. set (n := length d).
  replace (n + 1)%nat with (S n) by lia. rewrite X_m_identity.
  destruct (put_loop (S n) (S n) (mS (rid (S n))) (fun _ => n) (fun i => vget (vS d) i) n
    ltac:(apply mS_shape, of_ent_shape) ltac:(lia) ltac:(intros; lia)) as [H1 H2].
  apply (mat_ext (S n) (S n)); auto. { apply mS_shape, of_ent_shape. }
  intros c r Hc Hr. rewrite H2. rewrite !mS_get, vS_get. unfold rid. rewrite !of_ent_get by auto.
  now destruct (_ && _)%bool.
Qed.
Lemma X_scaling : forall d, scaling_matrix (vS d) = mS (rscaling d).
Proof.
  intros d. unfold scaling_matrix, rscaling. rewrite map_length. set (n := length d).
  replace (n + 1)%nat with (S n) by lia. rewrite X_m_identity.
  destruct (put_loop (S n) (S n) (mS (rid (S n))) (fun i => i) (fun i => vget (vS d) i) n
    ltac:(apply mS_shape, of_ent_shape) ltac:(lia) ltac:(intros; lia)) as [H1 H2].
  apply (mat_ext (S n) (S n)); auto. { apply mS_shape, of_ent_shape. }
  intros c r Hc Hr. rewrite H2. rewrite !mS_get, vS_get. unfold rid. rewrite !of_ent_get by auto.
  now destruct (_ && _)%bool.
Qed.
Lemma transl_affine : forall d, affine (length d) (rtransl d).
Proof.
  intros d. split; [apply of_ent_shape|]. intros c Hc. unfold rtransl. rewrite of_ent_get by lia.
  destruct (Nat.ltb_spec (length d) (length d)); [lia|]. reflexivity.
Qed.
Lemma scaling_affine : forall d, affine (length d) (rscaling d).
Proof.
  intros d. split; [apply of_ent_shape|]. intros c Hc. unfold rscaling. rewrite of_ent_get by lia.
  destruct (Nat.ltb_spec (length d) (length d)); [lia|]. reflexivity.
Qed.
Lemma nth_radd : forall a b i, length a = length b -> (i < length a)%nat -> nth i (radd a b) 0 = nth i a 0 + nth i b 0.
Proof. intros. now apply nth_zip_lt. Qed.
Lemma raffine_transl : forall d p, length p = length d -> raffine (length d) (rtransl d) p = radd p d.
Proof.
  intros d p H. apply nth_ext with (d := 0) (d' := 0). { rewrite raffine_length, radd_length; auto. }
  rewrite raffine_length. intros i Hi. unfold raffine. rewrite nth_map_seq by auto. rewrite nth_radd by lia.
  f_equal.
  - etransitivity; [|apply (Rsum_delta (length d) i (fun c => nth c p 0)); auto]. apply Rsum_ext. intros c Hc.
    unfold rtransl. rewrite of_ent_get by lia. destruct (Nat.eqb_spec c (length d)); [lia|]. now rewrite andb_false_r.
  - unfold rtransl. rewrite of_ent_get by lia. rewrite Nat.eqb_refl. destruct (Nat.ltb_spec i (length d)); [|lia]. reflexivity.
Qed.
Lemma raffine_scaling : forall d p, length p = length d -> raffine (length d) (rscaling d) p = zip Rmult d p.
Proof.
  intros d p H. apply nth_ext with (d := 0) (d' := 0). { rewrite raffine_length, zip_length; auto. }
  rewrite raffine_length. intros i Hi. unfold raffine. rewrite nth_map_seq by auto. rewrite nth_zip_lt by lia.
  replace (ent (rscaling d) i (length d)) with 0.
  2: { unfold rscaling. rewrite of_ent_get by lia. destruct (Nat.eqb_spec (length d) i); [lia|]. rewrite andb_false_r.
       unfold delta. destruct (Nat.eqb_spec i (length d)); [lia|auto]. }
  rewrite Rplus_0_r. etransitivity; [|apply (Rsum_delta (length d) i (fun c => nth i d 0 * nth c p 0)); auto].
  apply Rsum_ext. intros c Hc. unfold rscaling. rewrite of_ent_get by lia. unfold delta.
  destruct (Nat.ltb_spec i (length d)); [|lia]. destruct (Nat.eqb_spec c i), (Nat.eqb_spec i c); try lia; cbn; ring.
Qed.

(** ** C34 *)
Lemma translation_acts : forall d p, length p = length d ->
  m_mul_p (S (length d)) (translation_matrix (vS d)) (vS p) = vS (radd p d).
Proof. intros d p H. rewrite X_translation, X_affine by (auto using transl_affine). now rewrite raffine_transl. Qed.
Lemma scaling_acts : forall f p, length p = length f ->
  m_mul_p (S (length f)) (scaling_matrix (vS f)) (vS p) = vS (zip Rmult f p).
Proof. intros d p H. rewrite X_scaling, X_affine by (auto using scaling_affine). now rewrite raffine_scaling. Qed.
(** Affine matrices are determined by what they do. *)
Lemma affine_ext : forall n A B, affine n A -> affine n B ->
  (forall p, length p = n -> raffine n A p = raffine n B p) -> A = B.
Proof.
  intros n A B [HA LA] [HB LB] H. apply (ent_ext (S n) (S n)); auto. intros r c Hr Hc.
  destruct (Nat.eq_dec r n) as [->|Nr]. { rewrite LA, LB by lia. auto. }
  assert (E : forall p, length p = n -> Rsum n (fun c => ent A r c * nth c p 0) + ent A r n
     = Rsum n (fun c => ent B r c * nth c p 0) + ent B r n).
  { intros p Hp. specialize (H p Hp). apply (f_equal (fun l => nth r l 0)) in H. unfold raffine in H.
    rewrite !nth_map_seq in H by lia. auto. }
  assert (E0 : ent A r n = ent B r n).
  { specialize (E (repeat 0 n) (repeat_length _ _)).
    rewrite !Rsum_zero in E; [lra| |]; intros; rewrite nth_repeat; ring. }
  destruct (Nat.eq_dec c n) as [->|Nc]; auto.
  specialize (E (map (fun i => delta i c) (seq 0 n)) ltac:(now rewrite map_length, seq_length)).
  rewrite E0 in E. assert (D : forall M, Rsum n (fun c0 => ent M r c0 * nth c0 (map (fun i => delta i c) (seq 0 n)) 0) = ent M r c).
  { intros M. rewrite <- (Rsum_delta_r n c (fun i => ent M r i)) by lia. apply Rsum_ext. intros i Hi.
    now rewrite nth_map_seq. }
  rewrite !D in E. lra.
Qed.
Lemma transl_mul : forall a b, length a = length b ->
  rmul (S (length a)) (S (length a)) (S (length a)) (rtransl a) (rtransl b) = rtransl (radd a b).
Proof.
  intros a b H. pose proof (transl_affine a). pose proof (transl_affine b). rewrite <- H in H1.
  pose proof (transl_affine (radd a b)). rewrite radd_length in H2 by auto.
  apply (affine_ext (length a)); auto using affine_mul. intros p Hp. rewrite raffine_mul by auto.
  assert (TR : forall d n q, length d = n -> length q = n -> raffine n (rtransl d) q = radd q d).
  { intros d n q <- Hq. now apply raffine_transl. }
  rewrite !TR by (rewrite ?raffine_length, ?radd_length by congruence; congruence).
  rewrite <- radd_assoc. f_equal. apply radd_comm.
Qed.
Lemma translations_compose : forall a b, length a = length b ->
  let n := S (length a) in
  m_mul n n n (translation_matrix (vS a)) (translation_matrix (vS b)) = translation_matrix (v_add (vS a) (vS b))
  /\ m_mul n n n (translation_matrix (vS a)) (translation_matrix (v_neg (vS a))) = m_identity n n
  /\ m_mul n n n (translation_matrix (v_neg (vS a))) (translation_matrix (vS a)) = m_identity n n.
Proof.
  intros a b H n. rewrite X_add, X_neg, !X_translation, !X_m_mul, X_m_identity. unfold n.
  assert (Z : rtransl (rzero (length a)) = rid (S (length a))).
  { unfold rtransl, rid, rzero. rewrite repeat_length. apply of_ent_ext. intros r c Hr Hc. rewrite nth_repeat.
    destruct (Nat.ltb_spec r (length a)), (Nat.eqb_spec c (length a)); cbn; auto. unfold delta.
    destruct (Nat.eqb_spec r c); auto. lia. }
  repeat split; f_equal.
  - now apply transl_mul.
  - rewrite transl_mul by (now rewrite rneg_length). now rewrite radd_neg.
  - rewrite <- (rneg_length a) at 1 2 3. rewrite transl_mul by (now rewrite rneg_length). now rewrite radd_comm, radd_neg.
Qed.
Lemma translation_entries : forall T (o : ops T) n (m : list (list T)) d, is_mat (S n) (S n) m ->
  is_mat (S n) (S n) (strip_translation (S n) m) /\ is_mat (S n) (S n) (translation_of (S n) m) /\
  forall r c, (r <= n)%nat -> (c <= n)%nat ->
    nth r (nth c (strip_translation (S n) m) []) d
    = (if (r <? n)%nat && (c =? n)%nat then cst 0 else nth r (nth c m []) d)
    /\ nth r (nth c (translation_of (S n) m) []) d
    = (if (r <? n)%nat && (c =? n)%nat then nth r (nth c m []) d else if (r =? c)%nat then cst 1 else cst 0).
Proof.
  intros T o n m d Hm. unfold strip_translation, translation_of. replace (S n - 1)%nat with n by lia.
  destruct (put_loop (S n) (S n) m (fun _ => n) (fun i => cst 0) n Hm ltac:(lia) ltac:(intros; lia)) as [H1 H2].
  destruct (put_loop (S n) (S n) (m_identity (S n) (S n)) (fun _ => n) (fun i => mget m n i) n
     ltac:(apply mk_shape) ltac:(lia) ltac:(intros; lia)) as [H3 H4].
  split; auto. split; auto. intros r c Hr Hc.
  rewrite !(mget_nth T o (S n) (S n)) by (auto; lia). rewrite H2, H4. split; auto.
  unfold m_identity. rewrite mk_get by lia. rewrite (Nat.eqb_sym r c).
  destruct (Nat.eqb_spec c n) as [->|]; auto. now rewrite !andb_false_r.
Qed.
Definition rstrip (n : nat) (M : list (list R)) : list (list R) :=
  of_ent (S n) (S n) (fun r c => if (r <? n)%nat && (c =? n)%nat then 0 else ent M r c).
Definition rlast (n : nat) (M : list (list R)) : list R := map (fun r => ent M r n) (seq 0 n).
Lemma X_strip : forall n M, is_mat (S n) (S n) M -> strip_translation (S n) (mS M) = mS (rstrip n M).
Proof.
  intros n M HM. destruct (translation_entries XR _ n (mS M) (Some 0) (mS_shape _ _ _ HM)) as (H1 & _ & H2).
  apply (mat_ext (S n) (S n)); auto. { apply mS_shape, of_ent_shape. }
  intros c r Hc Hr. destruct (H2 r c ltac:(lia) ltac:(lia)) as [E _].
  rewrite !(mget_nth XR _ (S n) (S n)) in E by (auto; now apply mS_shape). rewrite E.
  unfold rstrip. rewrite !mS_get, of_ent_get by auto. now destruct (_ && _)%bool.
Qed.
Lemma X_translation_of : forall n M, is_mat (S n) (S n) M -> translation_of (S n) (mS M) = mS (rtransl (rlast n M)).
Proof.
  intros n M HM. destruct (translation_entries XR _ n (mS M) (Some 0) (mS_shape _ _ _ HM)) as (_ & H1 & H2).
  assert (L : length (rlast n M) = n) by (unfold rlast; now rewrite map_length, seq_length).
  apply (mat_ext (S n) (S n)); auto. { unfold rtransl. rewrite L. apply mS_shape, of_ent_shape. }
  intros c r Hc Hr. destruct (H2 r c ltac:(lia) ltac:(lia)) as [_ E].
  rewrite !(mget_nth XR _ (S n) (S n)) in E by (auto; now apply mS_shape). rewrite E.
  unfold rtransl. rewrite L. rewrite !mS_get, of_ent_get by auto.
  destruct (Nat.ltb_spec r n); cbn [andb]; auto.
  - destruct (Nat.eqb_spec c n) as [->|]. { unfold rlast. rewrite nth_map_seq by auto. auto. }
    unfold delta. now destruct (Nat.eqb r c).
  - unfold delta. now destruct (Nat.eqb r c).
Qed.
Lemma strip_affine : forall n M, affine n M -> affine n (rstrip n M).
Proof.
  intros n M [HM HL]. split; [apply of_ent_shape|]. intros c Hc. unfold rstrip. rewrite of_ent_get by lia.
  destruct (Nat.ltb_spec n n); [lia|]. cbn [andb]. auto.
Qed.
Lemma raffine_strip : forall n M p, affine n M -> length p = n ->
  raffine n (rstrip n M) p = rsub (raffine n M p) (raffine n M (rzero n)).
Proof.
  intros n M p HM Hp. apply nth_ext with (d := 0) (d' := 0).
  { rewrite rsub_length, !raffine_length; auto. now rewrite !raffine_length. }
  rewrite raffine_length. intros i Hi. unfold rsub. rewrite nth_zip_lt by (rewrite ?raffine_length; auto).
  unfold raffine. rewrite !nth_map_seq by auto. unfold rstrip at 2. rewrite of_ent_get by lia.
  rewrite Nat.eqb_refl. destruct (Nat.ltb_spec i n); [|lia]. cbn [andb].
  rewrite (Rsum_zero n (fun c => ent M i c * nth c (rzero n) 0)).
  2: { intros. unfold rzero. rewrite nth_repeat. ring. }
  ring_simplify. apply Rsum_ext. intros c Hc. unfold rstrip. rewrite of_ent_get by lia.
  destruct (Nat.eqb_spec c n); [lia|]. now rewrite andb_false_r.
Qed.
Lemma strip_laws : forall n M p, affine n M -> length p = n ->
  let m := mS M in let N := S n in
  m_mul N N N (translation_of N m) (strip_translation N m) = m
  /\ m_mul_p N (strip_translation N m) (vS p) = v_sub (m_mul_p N m (vS p)) (m_mul_p N m (v_zero n))
  /\ m_mul_p N (translation_of N m) (vS p) = v_add (vS p) (m_mul_p N m (v_zero n)).
Proof.
  intros n M p HM Hp m N. subst m N. pose proof (proj1 HM) as HS.
  assert (Z : v_zero n = vS (rzero n)). { unfold v_zero, v_fill, rzero. clear. induction n as [|k IH]; cbn [repeat map]; [reflexivity|]. now rewrite IH. }
  rewrite Z. rewrite X_strip, X_translation_of by auto.
  assert (L : length (rlast n M) = n) by (unfold rlast; now rewrite map_length, seq_length).
  pose proof (transl_affine (rlast n M)) as TA. rewrite L in TA.
  assert (Lz : length (rzero n) = n) by (unfold rzero; apply repeat_length).
  assert (E0 : raffine n M (rzero n) = rlast n M).
  { unfold raffine, rlast. apply map_ext_in. intros r Hr. rewrite Rsum_zero; [ring|]. intros.
    unfold rzero. rewrite nth_repeat. ring. }
  assert (TR : forall q, length q = n -> raffine n (rtransl (rlast n M)) q = radd q (rlast n M)).
  { intros q Hq. rewrite <- L at 1. rewrite raffine_transl by congruence. auto. }
  rewrite X_m_mul, !X_affine by (auto using strip_affine). rewrite X_sub, X_add. repeat split; f_equal.
  - apply (affine_ext n); auto using affine_mul, strip_affine. intros q Hq. rewrite raffine_mul by (auto using strip_affine).
    rewrite TR by apply raffine_length. rewrite raffine_strip, E0 by auto. rewrite radd_comm.
    apply radd_sub. now rewrite raffine_length.
  - now apply raffine_strip.
  - rewrite TR, E0 by auto. auto.
Qed.

(** ** C68 *)
Lemma push_loop_map : forall A B (f : A -> B) l, push_loop f l = map f l.
Proof.
  intros A B f l. unfold push_loop. assert (G : forall acc, fold_left (fun r v => r ++ [f v]) l acc = acc ++ map f l).
  { induction l as [|x l IH]; intros; simpl; [now rewrite app_nil_r|]. rewrite IH, <- app_assoc. reflexivity. }
  apply (G []).
Qed.
Lemma array_loop_map : forall A B (dA : A) (dB : B) f l, array_loop dA dB (length l) f l = map f l.
Proof.
  intros A B dA dB f l. unfold array_loop.
  assert (G : length (for_loop (length l) 0 (fun i r => upd r i (f (nth i l dA))) (repeat dB (length l))) = length l /\
    forall j, (j < length l)%nat -> nth j (for_loop (length l) 0 (fun i r => upd r i (f (nth i l dA))) (repeat dB (length l))) dB = f (nth j l dA)).
  { apply (for_ind (fun k r => length r = length l /\ forall j, (j < k)%nat -> nth j r dB = f (nth j l dA))).
    - rewrite repeat_length. split; auto. lia.
    - intros i r Hi [Hl Hj]. split; [now rewrite upd_length|]. intros j Hj'. rewrite upd_nth by lia.
      destruct (Nat.eqb_spec j i) as [->|]; auto. apply Hj. lia. }
  destruct G as [G1 G2]. apply nth_ext with (d := dB) (d' := f dA); rewrite ?map_length; auto.
  intros j Hj. rewrite G1 in Hj. rewrite map_nth. auto.
Qed.
Lemma push_loopM_map : forall A B (f : A -> outcome B) l acc, push_loopM f l acc = do r <- mapM f l; Ret (acc ++ r).
Proof.
  intros A B f l. induction l as [|x l IH]; intros; cbn [push_loopM mapM].
  - simpl. now rewrite app_nil_r.
  - destruct (f x); cbn [bind]; auto. rewrite IH. destruct (mapM f l); cbn [bind]; auto.
    now rewrite <- app_assoc.
Qed.
Lemma array_loopM_map : forall A B (dA : A) (f : A -> outcome B) l2 l1 (r1 r2 : list B), length l1 = length r1 -> length l2 = length r2 ->
  array_loopM dA (length l2) (length l1) f (l1 ++ l2) (r1 ++ r2) = do r <- mapM f l2; Ret (r1 ++ r).
Proof.
  intros A B dA f l2. induction l2 as [|x l2 IH]; intros l1 r1 r2 H1 H2; cbn [array_loopM mapM length].
  - destruct r2; try discriminate. reflexivity.
  - destruct r2 as [|y r2]; try discriminate. rewrite app_nth2, Nat.sub_diag by lia. cbn [nth].
    destruct (f x) as [z| | |]; cbn [bind]; auto.
    replace (upd (r1 ++ y :: r2) (length l1) z) with ((r1 ++ [z]) ++ r2).
    2: { rewrite H1. clear. induction r1 as [|w r1 IH]; simpl; auto. now rewrite IH. }
    replace (l1 ++ x :: l2) with ((l1 ++ [x]) ++ l2) by now rewrite <- app_assoc.
    replace (S (length l1)) with (length (l1 ++ [x])) by (rewrite app_length; simpl; lia).
    rewrite IH; auto. 2: { rewrite !app_length. simpl. lia. }
    destruct (mapM f l2); cbn [bind]; auto. now rewrite <- app_assoc.
Qed.
Lemma array_loopM_all : forall A B (dA : A) (dB : B) (f : A -> outcome B) l,
  array_loopM dA (length l) 0 f l (repeat dB (length l)) = mapM f l.
Proof.
  intros A B dA dB f l. pose proof (array_loopM_map A B dA f l [] [] (repeat dB (length l)) eq_refl) as H.
  simpl app in H. cbn [length] in H. rewrite H by now rewrite repeat_length. destruct (mapM f l); reflexivity.
Qed.
