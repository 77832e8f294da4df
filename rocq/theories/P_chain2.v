(** Chains of quaternion products and rotations, and rotations about an axis (C109). *)
From Coq Require Import ZArith Reals List Lia Lra Bool Psatz.
From Flocq Require Import Core BinarySingleNaN.
From Verif Require Import Ops M_scalar M_vec M_quat Inst_F S_vec S_rnd S_hit S_rot S_quat S_ft S_chain P_ord P_ieee P_vec P_fp P_fp2 P_fp3 P_fp4 P_fp5 P_hit P_hit2 P_hit3 P_quat P_ft P_ft2 P_ft3 P_ft4 P_chain.
Import ListNotations.
Local Open Scope R_scope.

(** Growth *)
Lemma growth : forall n h, 0 <= h -> INR n * h <= / 100 -> 1 <= (1 + h) ^ n <= 100 / 99.
Proof.
  intros n h H0 H. split; [apply pow_R1_Rle; lra|].
  assert (K : forall k, (k <= n)%nat -> (1 + h) ^ k * (1 - INR k * h) <= 1).
  { induction k as [|k IH]; intros L; [simpl; lra|]. specialize (IH ltac:(lia)). rewrite S_INR. cbn [pow].
    assert (KN : INR k * h <= / 100) by (apply Rle_trans with (INR n * h); [apply Rmult_le_compat_r; [lra|apply le_INR; lia]|exact H]).
    assert (P : 1 <= (1 + h) ^ k) by (apply pow_R1_Rle; lra). set (p := (1 + h) ^ k) in *. assert (I0 := pos_INR k). set (i := INR k) in *. clearbody p i.
    replace ((1 + h) * p * (1 - (i + 1) * h)) with (p * (1 - i * h) - p * (h * h * (i + 1))) by ring.
    assert (0 <= p * (h * h * (i + 1))) by (apply Rmult_le_pos; [lra|]; apply Rmult_le_pos; nra). lra. }
  specialize (K n (le_n n)). assert (P : 1 <= (1 + h) ^ n) by (apply pow_R1_Rle; lra). nra.
Qed.

Section FP.
Variables prec emax : Z.
Context {Hprec : Prec_gt_0 prec} {Hmax : Prec_lt_emax prec emax}.
Notation fl := (binary_float prec emax).
Notation u := (unit_roundoff prec).
Notation eta := (underflow_error prec emax).
Notation Om := (bpow radix2 emax).
Hypothesis U20 : (20 <= prec)%Z.
Hypothesis E20 : (20 <= emax)%Z.

Definition turns (l : list (quat fl)) (v : list fl) : list fl := fold_left (fun w q => q_rotate q w) l v.

Lemma rotate_grow : forall d (q : quat fl) v, 0 <= d -> unit_quat d q -> length v = 3%nat -> rnorm (rq_rotate (quat_values q) v) <= (1 + d) * (1 + d) * rnorm v.
Proof.
  intros d q v D0 (Fq & Hq) Lv. rewrite rotate_norm by (auto; now apply fin_quat). apply Rabs_le_inv in Hq. assert (P := length_pos (quat_values q)). apply Rmult_le_compat_r; [apply rnorm_nonneg|]. nra.
Qed.
Lemma rotate_far : forall d (q : quat fl) v w, 0 <= d -> unit_quat d q -> length v = 3%nat -> length w = 3%nat -> rdist (rq_rotate (quat_values q) v) (rq_rotate (quat_values q) w) <= (1 + d) * (1 + d) * rdist v w.
Proof.
  intros d q v w D0 (Fq & Hq) Lv Lw. rewrite rotate_dist by (auto; now apply fin_quat). apply Rabs_le_inv in Hq. assert (P := length_pos (quat_values q)). apply Rmult_le_compat_r; [apply rnorm_nonneg|]. nra.
Qed.
Lemma unit_quat_le : forall d e (q : quat fl), d <= e -> unit_quat d q -> unit_quat e q.
Proof. intros d e q H (F & Q). split; [exact F|lra]. Qed.
Lemma val_length : forall v : list fl, length (values v) = length v. Proof. intros. apply map_length. Qed.
Lemma norm_dist : forall a b, length a = length b -> rnorm a <= rnorm b + rdist a b.
Proof.
  intros a b H. assert (E : forall x, rdist x (rzero (length x)) = rnorm x).
  { intros x. unfold rdist. f_equal. unfold rsub, rzero. induction x as [|y x IH]; [reflexivity|]. cbn [length repeat zip]. f_equal; [lra|exact IH]. }
  rewrite <- (E a), <- (E b), H. rewrite Rplus_comm. apply rdist_triangle; [exact H|]. unfold rzero. rewrite repeat_length. reflexivity.
Qed.

(** One vector turned again and again *)
Lemma turn_error : forall d (l : list (quat fl)) (v : list fl), 0 <= d -> Forall (unit_quat d) l -> length v = 3%nat -> all_finite v -> rnorm (values v) <= Om / 10 ->
  INR (length l) * (2 * d + d * d + 25 * u) <= / 100 ->
  length (turns l v) = 3%nat /\ all_finite (turns l v)
  /\ rdist (values (turns l v)) (rq_turn (values v) (map quat_values l)) <= 26 * INR (length l) * (u * rnorm (values v) + eta)
  /\ rnorm (rq_turn (values v) (map quat_values l)) <= (1 + (2 * d + d * d)) ^ length l * rnorm (values v) /\ length (rq_turn (values v) (map quat_values l)) = 3%nat.
Proof.
  intros d l v D0 HL Lv Fv HO HN. destruct (u_small prec ltac:(assumption)) as (U0 & U1). destruct (eta_small prec emax ltac:(assumption)) as (E0 & E1). assert (OB := om_big emax ltac:(assumption)).
  set (V := rnorm (values v)) in *. assert (V0 : 0 <= V) by apply rnorm_nonneg. assert (DD : 0 <= 2 * d + d * d) by nra. set (a := 2 * d + d * d) in *. set (h := a + 25 * u) in *. set (w := u * V + eta) in *.
  assert (W0 : 0 <= w) by (unfold w; nra). assert (H0 : 0 <= h) by (unfold h; lra).
  assert (G : forall k, (k <= length l)%nat -> 1 <= (1 + h) ^ k <= 100 / 99) by (intros k Hk; apply growth; [exact H0|]; apply Rle_trans with (INR (length l) * h); [apply Rmult_le_compat_r; [exact H0|apply le_INR; lia]|exact HN]).
  assert (K : length (turns l v) = 3%nat /\ all_finite (turns l v) /\ length (rq_turn (values v) (map quat_values l)) = 3%nat
    /\ rdist (values (turns l v)) (rq_turn (values v) (map quat_values l)) <= 25 * INR (length l) * ((1 + h) ^ length l * w) /\ rnorm (rq_turn (values v) (map quat_values l)) <= (1 + a) ^ length l * V).
  { revert HL G HN. induction l as [|q l IH] using rev_ind; intros HL G HN.
    - unfold turns, rq_turn. cbn [fold_left map length INR pow]. split; [exact Lv|]. split; [exact Fv|]. split; [now rewrite val_length|].
      split; [|fold V; lra]. replace (rdist (values v) (values v)) with 0; [lra|]. symmetry. unfold rdist. replace (rsub (values v) (values v)) with (rzero (length (values v))); [apply rnorm_rzero|].
      generalize (values v). intros x. unfold rsub, rzero. induction x as [|y x IH]; [reflexivity|]. cbn [length repeat zip]. f_equal; [lra|exact IH].
    - apply Forall_app in HL. destruct HL as (HL & Hq). inversion Hq as [|? ? Uq _]; subst. rewrite app_length in *. cbn [length] in *.
      destruct IH as (L1 & F1 & L2 & D1 & N1); [exact HL|intros k Hk; apply G; lia|rewrite plus_INR in HN; change (INR 1) with 1 in HN; lra|].
      assert (TS : turns (l ++ [q]) v = q_rotate q (turns l v)) by (unfold turns; rewrite fold_left_app; reflexivity).
      assert (RS : rq_turn (values v) (map quat_values (l ++ [q])) = rq_rotate (quat_values q) (rq_turn (values v) (map quat_values l))) by (unfold rq_turn; rewrite map_app, fold_left_app; reflexivity).
      rewrite TS, RS. clear TS RS. set (m := turns l v) in *. set (x := rq_turn (values v) (map quat_values l)) in *. clearbody m x.
      set (n := length l) in *. destruct (G n ltac:(lia)) as (G1 & G2). destruct (G (n + 1)%nat ltac:(lia)) as (G3 & G4). replace ((1 + h) ^ (n + 1)) with ((1 + h) ^ n * (1 + h)) in * by (rewrite pow_add; simpl; ring).
      replace ((1 + a) ^ (n + 1)) with ((1 + a) ^ n * (1 + a)) by (rewrite pow_add; simpl; ring). rewrite plus_INR. change (INR 1) with 1.
      assert (PA : 1 <= (1 + a) ^ n <= (1 + h) ^ n) by (split; [apply pow_R1_Rle; lra|apply pow_incr; unfold h; lra]).
      rewrite plus_INR in HN. change (INR 1) with 1 in HN. assert (I0 := pos_INR n). set (i := INR n) in *. set (P := (1 + h) ^ n) in *. set (A := (1 + a) ^ n) in *. clearbody P A i. 
      set (D := rdist (values m) x) in *. assert (D0' : 0 <= D) by apply rnorm_nonneg. assert (IA : 0 <= i * a) by (apply Rmult_le_pos; assumption). assert (IU : 0 <= i * u) by (apply Rmult_le_pos; lra).
      assert (HN' : i * a + 25 * (i * u) + a + 25 * u <= / 100) by (unfold h in HN; lra). assert (D1' : d <= / 100) by (unfold a in *; nra).
      assert (NM := norm_dist (values m) x ltac:(rewrite val_length; congruence)). fold D in NM.
      assert (PW : 0 <= P * w <= 100 / 99 * w) by (split; [apply Rmult_le_pos; lra|apply Rmult_le_compat_r; lra]).
      assert (AV : A * V <= P * V) by (apply Rmult_le_compat_r; lra). assert (PV : P * V <= 100 / 99 * V) by (apply Rmult_le_compat_r; lra).
      assert (IW : i * w <= / 2500 * V + / 2500) by (unfold w; assert (i * u * V <= / 2500 * V) by (apply Rmult_le_compat_r; lra); assert (i * eta <= i * u) by (apply Rmult_le_compat_l; lra); lra).
      assert (IPW : 25 * i * (P * w) <= 25 * (100 / 99 * (/ 2500 * V + / 2500))).
      { replace (25 * i * (P * w)) with (25 * (P * (i * w))) by ring. apply Rmult_le_compat_l; [lra|]. apply Rmult_le_compat; try lra. apply Rmult_le_pos; lra. }
      destruct (rotate_error prec emax U20 E20 q m (unit_quat_le d (/ 50) q ltac:(lra) Uq) L1 F1) as (L3 & F3 & D3); [lra|].
      assert (RG := rotate_grow d q x D0 Uq L2). assert (RF := rotate_far d q (values m) x D0 Uq ltac:(now rewrite val_length) L2). fold D in RF.
      replace ((1 + d) * (1 + d)) with (1 + a) in RG, RF by (unfold a; ring).
      split; [exact L3|]. split; [exact F3|]. split; [apply rotate_length; [exact (fin_quat prec emax q (proj1 Uq))|exact L2]|]. split.
      + assert (QQ := fin_quat prec emax q (proj1 Uq)). assert (Lm : length (values m) = 3%nat) by now rewrite val_length. assert (La := rotate_length (quat_values q) (values m) QQ Lm). assert (Lb := rotate_length (quat_values q) x QQ L2).
        assert (Lc : length (values (q_rotate q m)) = 3%nat) by now rewrite val_length.
        eapply Rle_trans; [apply (rdist_triangle _ (rq_rotate (quat_values q) (values m))); congruence|].
        assert (UM : u * rnorm (values m) <= u * (A * V) + u * D) by (rewrite <- Rmult_plus_distr_l; apply Rmult_le_compat_l; lra).
        assert (UA : u * (A * V) <= P * (u * V)) by (replace (u * (A * V)) with (A * (u * V)) by ring; apply Rmult_le_compat_r; [apply Rmult_le_pos; lra|lra]).
        assert (EP : eta <= P * eta) by (rewrite <- (Rmult_1_l eta) at 1; apply Rmult_le_compat_r; lra).
        assert (HD : (1 + h) * D <= (1 + h) * (25 * i * (P * w))) by (apply Rmult_le_compat_l; lra). assert (HP : 0 <= h * (P * w)) by (apply Rmult_le_pos; lra).
        assert (Pw : P * w = P * (u * V) + P * eta) by (unfold w; ring). assert (EH : (1 + h) * D = (1 + a) * D + 25 * (u * D)) by (unfold h; ring).
        replace (25 * (i + 1) * (P * (1 + h) * w)) with ((1 + h) * (25 * i * (P * w)) + 25 * (P * w) + 25 * (h * (P * w))) by ring. lra.
      + eapply Rle_trans; [exact RG|]. replace (A * (1 + a) * V) with ((1 + a) * (A * V)) by ring. apply Rmult_le_compat_l; lra. }
  destruct K as (K1 & K2 & K3 & K4 & K5). split; [exact K1|]. split; [exact K2|]. split; [|split; assumption]. eapply Rle_trans; [exact K4|].
  destruct (G (length l) (le_n _)) as (_ & G2). assert (I0 := pos_INR (length l)). assert (X : (1 + h) ^ length l * w <= 100 / 99 * w) by (apply Rmult_le_compat_r; lra). assert (0 <= INR (length l) * w) by (apply Rmult_le_pos; lra). 
  assert (INR (length l) * ((1 + h) ^ length l * w) <= INR (length l) * (100 / 99 * w)) by (apply Rmult_le_compat_l; lra). lra.
Qed.

(** The product of a sequence *)
Lemma product_quat : forall (l : list (quat R)) q, is_quat q -> Forall is_quat l -> is_quat (rq_product q l).
Proof. intros l. induction l as [|p l IH]; intros q Hq Hl; [exact Hq|]. inversion Hl; subst. unfold rq_product. cbn [fold_left]. apply IH; auto using rq_mul_quat. Qed.
Lemma product_error : forall d (l : list (quat fl)) (q : quat fl), 0 <= d -> Forall (unit_quat d) (q :: l) -> INR (length (q :: l)) * (2 * d + d * d + 25 * u) <= / 100 ->
  quat_finite (fold_left q_mul l q) /\ rq_dist (quat_values (fold_left q_mul l q)) (rq_product (quat_values q) (map quat_values l)) <= 13 * INR (length l) * u
  /\ rq_length (rq_product (quat_values q) (map quat_values l)) <= 100 / 99.
Proof.
  intros d l q D0 HL HN. destruct (u_small prec ltac:(assumption)) as (U0 & U1). destruct (eta_small prec emax ltac:(assumption)) as (E0 & E1). assert (OB := om_big emax ltac:(assumption)).
  inversion HL as [|? ? Hq HL']; subst. clear HL. set (h := 2 * d + d * d + 25 * u) in *. assert (H0 : 0 <= h) by (unfold h; nra).
  assert (G : forall k, (k <= S (length l))%nat -> 1 <= (1 + h) ^ k <= 100 / 99) by (intros k Hk; apply growth; [exact H0|]; eapply Rle_trans; [apply Rmult_le_compat_r; [exact H0|apply le_INR; exact Hk]|exact HN]).
  assert (K : quat_finite (fold_left q_mul l q) /\ is_quat (rq_product (quat_values q) (map quat_values l))
    /\ rq_dist (quat_values (fold_left q_mul l q)) (rq_product (quat_values q) (map quat_values l)) <= 12 * INR (length l) * ((1 + h) ^ S (length l) * (u + eta)) /\ rq_length (rq_product (quat_values q) (map quat_values l)) <= (1 + h) ^ S (length l)).
  { revert HL' G HN. induction l as [|p l IH] using rev_ind; intros HL' G HN.
    - unfold rq_product. cbn [fold_left map length INR]. destruct Hq as (Fq & Hq). split; [exact Fq|]. split; [now apply fin_quat|]. split.
      + rewrite dist_sub. unfold rq_sub, rq_length, rq_four, quat_values. cbn [q_r q_v]. replace (rsub (values (q_v q)) (values (q_v q))) with (rzero (length (values (q_v q)))).
        * rewrite Rminus_diag_eq by reflexivity. change (0 :: rzero (length (values (q_v q)))) with (rzero (S (length (values (q_v q))))). rewrite rnorm_rzero. lra.
        * generalize (values (q_v q)). intros x. unfold rsub, rzero. induction x as [|y x IH]; [reflexivity|]. cbn [length repeat zip]. f_equal; [lra|exact IH].
      + rewrite pow_1. apply Rabs_le_inv in Hq. unfold h. nra.
    - apply Forall_app in HL'. destruct HL' as (HL & Hp). inversion Hp as [|? ? Up _]; subst. cbn [length] in *. rewrite app_length in *. cbn [length] in *.
      destruct IH as (F1 & Q1 & D1 & N1); [exact HL|intros k Hk; apply G; lia|rewrite S_INR, plus_INR in *; change (INR 1) with 1 in HN; lra|].
      assert (TS : fold_left q_mul (l ++ [p]) q = q_mul (fold_left q_mul l q) p) by (rewrite fold_left_app; reflexivity).
      assert (RS : rq_product (quat_values q) (map quat_values (l ++ [p])) = rq_mul (rq_product (quat_values q) (map quat_values l)) (quat_values p)) by (unfold rq_product; rewrite map_app, fold_left_app; reflexivity).
      rewrite TS, RS. clear TS RS. set (m := fold_left q_mul l q) in *. set (x := rq_product (quat_values q) (map quat_values l)) in *. clearbody m x.
      set (n := length l) in *. destruct (G (S n) ltac:(lia)) as (G1 & G2). destruct (G (S (n + 1))%nat ltac:(lia)) as (G3 & G4).
      replace (S (n + 1)) with (S n + 1)%nat in * by lia. replace ((1 + h) ^ (S n + 1)) with ((1 + h) ^ S n * (1 + h)) in * by (rewrite pow_add; simpl; ring).
      rewrite plus_INR, S_INR in HN. rewrite plus_INR. change (INR 1) with 1 in *. assert (I0 := pos_INR n). set (i := INR n) in *. set (P := (1 + h) ^ S n) in *. clearbody P i.
      set (D := rq_dist (quat_values m) x) in *. assert (D0' : 0 <= D) by apply rnorm_nonneg. assert (IH0 : 0 <= i * h) by (apply Rmult_le_pos; assumption).
      assert (Qm := fin_quat prec emax m F1). assert (Qp := fin_quat prec emax p (proj1 Up)). assert (NM := length_dist (quat_values m) x Qm Q1). fold D in NM. assert (M0 := length_pos (quat_values m)).
      set (M := rq_length (quat_values m)) in *. assert (LP0 := length_pos (quat_values p)). assert (LP := proj2 Up). apply Rabs_le_inv in LP. set (L := rq_length (quat_values p)) in *.
      set (X := rq_length x) in *. assert (X0 : 0 <= X) by apply length_pos. set (w := u + eta) in *. assert (PW : 0 <= P * w <= 100 / 99 * w) by (unfold w; split; [apply Rmult_le_pos; lra|apply Rmult_le_compat_r; lra]).
      assert (IU : 0 <= i * u <= / 2500) by (split; [apply Rmult_le_pos; lra|]; unfold h in HN; nra).
      assert (IE : i * eta <= i * u) by (apply Rmult_le_compat_l; lra).
      assert (DB : D <= / 50). { eapply Rle_trans; [exact D1|]. replace (12 * i * (P * w)) with (12 * P * (i * u + i * eta)) by (unfold w; ring). assert (P * (i * u + i * eta) <= 100 / 99 * (2 * / 2500)) by (apply Rmult_le_compat; lra || (assert (0 <= i * eta) by (apply Rmult_le_pos; lra); lra)). lra. }
      assert (D1' : d <= / 200) by (unfold h in HN; nra). assert (ML : M * L <= 2 * 2) by (apply Rmult_le_compat; lra).
      destruct (mul_error prec emax U20 E20 m p F1 (proj1 Up)) as (F2 & D2). { fold M L. lra. }
      fold M L in D2. split; [exact F2|]. split; [apply rq_mul_quat; assumption|]. split.
      + eapply Rle_trans; [apply (dist_triangle _ (rq_mul (quat_values m) (quat_values p))); auto using rq_mul_quat|]. { now apply fin_quat. }
        rewrite dist_mul by auto. fold D L.
        assert (DL : D * L <= (1 + d) * D) by (rewrite Rmult_comm; apply Rmult_le_compat_r; lra).
        assert (UM : u * (M * L) <= u * ((P + D) * (1 + d))) by (apply Rmult_le_compat_l; [lra|]; apply Rmult_le_compat; lra).
        assert (HD : (1 + h) * D <= (1 + h) * (12 * i * (P * w))) by (apply Rmult_le_compat_l; lra).
        assert (UD : u * (1 + d) * D <= 2 * u * D) by (apply Rmult_le_compat_r; [exact D0'|]; nra).
        assert (UP : u * (P * (1 + d)) <= u * (P * (1 + h))) by (apply Rmult_le_compat_l; [lra|]; apply Rmult_le_compat_l; [lra|]; unfold h; nra).
        assert (EP : eta <= (P * (1 + h)) * eta) by (rewrite <- (Rmult_1_l eta) at 1; apply Rmult_le_compat_r; lra).
        assert (GD : 12 * (2 * u * D) + (1 + d) * D <= (1 + h) * D) by (unfold h; nra).
        replace (12 * (i + 1) * (P * (1 + h) * w)) with ((1 + h) * (12 * i * (P * w)) + 12 * (u * (P * (1 + h)) + P * (1 + h) * eta)) by (unfold w; ring). nra.
      + rewrite length_mul by auto. fold X L. apply Rmult_le_compat; try lra. unfold h. nra. }
  destruct K as (K1 & K2 & K3 & K4). destruct (G (S (length l)) (le_n _)) as (_ & G2). split; [exact K1|]. split; [|lra]. eapply Rle_trans; [exact K3|]. assert (I0 := pos_INR (length l)).
  assert (X : (1 + h) ^ S (length l) * (u + eta) <= 100 / 99 * (1001 / 1000 * u)) by (apply Rmult_le_compat; lra || (apply Rle_trans with 1; [lra|]; apply G; lia)).
  assert (12 * INR (length l) * ((1 + h) ^ S (length l) * (u + eta)) <= 12 * INR (length l) * (100 / 99 * (1001 / 1000 * u))) by (apply Rmult_le_compat_l; lra). assert (0 <= INR (length l) * u) by (apply Rmult_le_pos; lra). lra.
Qed.
End FP.
