(** Scalar functions in exact arithmetic. *)
From Coq Require Import ZArith Reals List Bool Lra Lia.
From Flocq Require Import Core.
From Verif Require Import Ops M_scalar Inst_XR P_xr P_ieee P_round.
Import ListNotations.
Local Open Scope R_scope.

Notation i64 := (IZR (2 ^ 63)).

Lemma X_trunc : forall x, Rabs x < i64 -> sc_trunc (Some x) = Ret (Some (IZR (Ztrunc x))).
Proof.
  intros x H. unfold sc_trunc. cbn [o_to_i64 XRops Xto_i64].
  apply Rabs_lt_inv in H.
  assert (R : (- 2 ^ 63 <= Ztrunc x < 2 ^ 63)%Z).
  { apply Ztrunc_range; [ lia | ]. lra. }
  replace ((_ <=? _) && (_ <? _))%Z with true; auto.
  symmetry; apply andb_true_iff; rewrite Z.leb_le, Z.ltb_lt; lia.
Qed.

Lemma X_floor : forall x, Rabs x < i64 -> sc_floor (Some x) = Ret (Some (IZR (Zfloor x))).
Proof.
  intros x H. unfold sc_floor. rewrite X_trunc by auto. cbn -[IZR Ztrunc Zfloor Rle_bool Req_bool].
  destruct (Rle_bool_spec 0 x) as [P|N]. { now rewrite Ztrunc_floor. }
  destruct (Req_bool_spec (IZR (Ztrunc x)) x) as [E|E].
  - rewrite <- E at 2. rewrite Zfloor_IZR. now rewrite E.
  - do 2 f_equal. rewrite Ztrunc_ceil by lra. rewrite Zceil_floor_neq.
    + rewrite plus_IZR. ring.
    + intros K. apply E. rewrite <- K at 1. now rewrite Ztrunc_IZR.
Qed.
Lemma X_ceil : forall x, Rabs x < i64 -> sc_ceil (Some x) = Ret (Some (IZR (Zceil x))).
Proof.
  intros x H. unfold sc_ceil. rewrite X_trunc by auto. cbn -[IZR Ztrunc Zceil Rlt_bool Req_bool].
  destruct (Rlt_bool_spec x 0) as [P|N]. { rewrite Ztrunc_ceil; auto. lra. }
  destruct (Req_bool_spec (IZR (Ztrunc x)) x) as [E|E].
  - rewrite <- E at 2. now rewrite Zceil_IZR.
  - do 2 f_equal. rewrite Ztrunc_floor by lra. rewrite Zceil_floor_neq.
    + rewrite plus_IZR. ring.
    + intros K. apply E. rewrite <- K at 1. now rewrite Ztrunc_IZR.
Qed.

Lemma X_round : forall x, Rabs x < i64 - 1 -> sc_round (Some x) = Ret (Some (IZR (Zround_away x))).
Proof.
  intros x H. unfold sc_round, Zround_away. rewrite X_lit by lia.
  cbn -[IZR Zceil Zfloor Rlt_bool sc_floor sc_ceil].
  apply Rabs_lt_inv in H.
  destruct (Rlt_bool_spec 0 x) as [P|N].
  - rewrite X_floor; [ do 4 f_equal; lra | apply Rabs_lt; lra ].
  - rewrite X_ceil; [ do 4 f_equal; lra | apply Rabs_lt; lra ].
Qed.

Lemma X_round_spec : forall x, Rabs x < i64 - 1 ->
  exists z, sc_round (Some x) = Ret (Some (IZR z)) /\ Rabs (x - IZR z) <= / 2
  /\ (forall z' : Z, Rabs (x - IZR z) <= Rabs (x - IZR z'))
  /\ (forall z' : Z, Rabs (x - IZR z) = Rabs (x - IZR z') -> Rabs (IZR z') <= Rabs (IZR z)).
Proof.
  intros x H. destruct (Zround_away_spec x) as (z & E & S). exists z. rewrite X_round by auto.
  rewrite E. auto.
Qed.

Lemma require_true : forall A (k : outcome A), require true k = k.
Proof. reflexivity. Qed.

Lemma X_snap_spec : forall v g, g <> 0 -> Rabs (v / g) < i64 - 1 ->
  exists k : Z, sc_snap (Some v) (Some g) = Ret (Some (g * IZR k))
    /\ Rabs (v - g * IZR k) <= Rabs g / 2
    /\ forall k' : Z, Rabs (v - g * IZR k) <= Rabs (v - g * IZR k').
Proof.
  intros v g Hg H. destruct (X_round_spec (v / g) H) as (z & E & A & B & _).
  exists z. unfold sc_snap.
  rewrite X_div by auto. rewrite E. cbn -[IZR].
  rewrite Req_bool_false by auto. split; [ reflexivity | ].
  assert (D : forall k, Rabs (v - g * IZR k) = Rabs g * Rabs (v / g - IZR k)).
  { intros k. rewrite <- Rabs_mult. f_equal. field. auto. }
  assert (0 < Rabs g) by (now apply Rabs_pos_lt).
  split.
  - rewrite D. nra.
  - intros k'. rewrite !D. apply Rmult_le_compat_l; [ lra | apply B ].
Qed.
Lemma X_round_int : forall z, Rabs (IZR z) < i64 - 1 -> sc_round (Some (IZR z)) = Ret (Some (IZR z)).
Proof.
  intros z H. destruct (X_round_spec (IZR z) H) as (k & E & A & B & _).
  rewrite E. do 3 f_equal. specialize (B z). rewrite Rminus_eq_0, Rabs_R0 in B.
  destruct (Z.eq_dec k z) as [|N]; auto. exfalso.
  rewrite <- minus_IZR, <- abs_IZR in B. apply le_IZR in B. lia.
Qed.
Lemma X_snap_idem : forall v g s, Rabs (v / g) < i64 - 2 ->
  sc_snap (Some v) (Some g) = Ret s -> sc_snap s (Some g) = Ret s.
Proof.
  intros v g s H E. destruct (Req_dec g 0) as [->|Hg].
  { unfold sc_snap in E. cbn -[IZR sc_round] in E. rewrite Req_bool_true in E by auto. discriminate. }
  destruct (X_round_spec (v / g)) as (z & Er & A & _); [ lra | ].
  assert (Es : sc_snap (Some v) (Some g) = Ret (Some (g * IZR z))).
  { unfold sc_snap. rewrite X_div, Er by auto. cbn -[IZR]. now rewrite Req_bool_false. }
  rewrite Es in E. injection E as <-.
  unfold sc_snap. rewrite X_div by auto.
  replace (g * IZR z / g) with (IZR z) by (field; auto).
  rewrite X_round_int.
  - cbn -[IZR]. now rewrite Req_bool_false.
  - revert A H. unfold Rabs. repeat destruct Rcase_abs; lra.
Qed.

(** Rounding away from and towards zero. *)
Lemma X_round_up_spec : forall x, Rabs x < i64 - 1 ->
  exists z, sc_round_up (Some x) = Ret (Some (IZR z)) /\ 0 <= x * IZR z
  /\ Rabs x <= Rabs (IZR z) < Rabs x + 1.
Proof.
  intros x H. unfold sc_round_up. cbn -[IZR sc_floor sc_ceil].
  destruct (Rlt_bool_spec x 0) as [N|P].
  - rewrite X_floor by lra. eexists; split; [ reflexivity | ].
    generalize (Zfloor_lb x) (Zfloor_ub x). intros.
    rewrite !Rabs_left1 by lra. nra.
  - rewrite X_ceil by lra. eexists; split; [ reflexivity | ].
    generalize (Zceil_lb x) (Zceil_ub x). intros.
    rewrite !Rabs_pos_eq by lra. nra.
Qed.
Lemma X_round_down_spec : forall x, Rabs x < i64 - 1 ->
  exists z, sc_round_down (Some x) = Ret (Some (IZR z)) /\ 0 <= x * IZR z
  /\ Rabs (IZR z) <= Rabs x < Rabs (IZR z) + 1.
Proof.
  intros x H. unfold sc_round_down. cbn -[IZR sc_floor sc_ceil].
  destruct (Rlt_bool_spec 0 x) as [P|N].
  - rewrite X_floor by lra. eexists; split; [ reflexivity | ].
    generalize (Zfloor_lb x) (Zfloor_ub x). intros.
    assert (0 <= IZR (Zfloor x)) by (apply (IZR_le 0), Zfloor_lub; lra).
    rewrite !Rabs_pos_eq by lra. nra.
  - rewrite X_ceil by lra. eexists; split; [ reflexivity | ].
    generalize (Zceil_lb x) (Zceil_ub x). intros.
    assert (IZR (Zceil x) <= 0) by (apply (IZR_le _ 0), Zceil_glb; lra).
    rewrite !Rabs_left1 by lra. nra.
Qed.

Lemma X_snap_up_spec : forall v g, 0 < g -> Rabs (v / g) < i64 - 1 ->
  exists k : Z, sc_snap_up (Some v) (Some g) = Ret (Some (g * IZR k))
    /\ 0 <= v * (g * IZR k)
    /\ Rabs v <= Rabs (g * IZR k) < Rabs v + g.
Proof.
  intros v g Hg H. destruct (X_round_up_spec (v / g) H) as (z & E & A & B).
  exists z. unfold sc_snap_up. rewrite X_div by lra. rewrite E. cbn -[IZR].
  rewrite Rlt_bool_true by auto. split; [ reflexivity | ].
  replace (Rabs v) with (g * Rabs (v / g)).
  2: { rewrite <- (Rabs_pos_eq g) at 1 by lra. rewrite <- Rabs_mult. f_equal. field. lra. }
  rewrite (Rabs_mult g), (Rabs_pos_eq g) by lra. 
  replace (v * (g * IZR z)) with (g * g * (v / g * IZR z)) by (field; lra).
  split; [ | nra ]. apply Rmult_le_pos; nra.
Qed.
Lemma X_snap_down_spec : forall v g, 0 < g -> Rabs (v / g) < i64 - 1 ->
  exists k : Z, sc_snap_down (Some v) (Some g) = Ret (Some (g * IZR k))
    /\ 0 <= v * (g * IZR k)
    /\ Rabs (g * IZR k) <= Rabs v < Rabs (g * IZR k) + g.
Proof.
  intros v g Hg H. destruct (X_round_down_spec (v / g) H) as (z & E & A & B).
  exists z. unfold sc_snap_down. rewrite X_div by lra. rewrite E. cbn -[IZR].
  rewrite Rlt_bool_true by auto. split; [ reflexivity | ].
  replace (Rabs v) with (g * Rabs (v / g)).
  2: { rewrite <- (Rabs_pos_eq g) at 1 by lra. rewrite <- Rabs_mult. f_equal. field. lra. }
  rewrite (Rabs_mult g), (Rabs_pos_eq g) by lra. 
  replace (v * (g * IZR z)) with (g * g * (v / g * IZR z)) by (field; lra).
  split; [ | nra ]. apply Rmult_le_pos; nra.
Qed.
(** [snap_up] and [snap_down] fix the multiples of the grid. *)
Lemma int_gap : forall z k : Z, 0 <= IZR z * IZR k ->
  Rabs (IZR z) <= Rabs (IZR k) < Rabs (IZR z) + 1 -> k = z.
Proof.
  intros z k H. rewrite <- mult_IZR in H. rewrite <- !abs_IZR. change 1 with (IZR 1).
  rewrite <- plus_IZR. intros [H1 H2]. apply le_IZR in H, H1. apply lt_IZR in H2. nia.
Qed.
Lemma X_snap_up_idem : forall v g s, Rabs (v / g) < i64 - 2 ->
  sc_snap_up (Some v) (Some g) = Ret s -> sc_snap_up s (Some g) = Ret s.
Proof.
  intros v g s H E. destruct (Rlt_or_le 0 g) as [Hg|Hg].
  2: { unfold sc_snap_up in E. cbn -[IZR sc_round_up] in E. rewrite Rlt_bool_false in E by auto. discriminate. }
  destruct (X_snap_up_spec v g Hg) as (z & Er & A & B); [ lra | ].
  rewrite Er in E. injection E as <-.
  assert (K : Rabs (g * IZR z / g) < i64 - 1).
  { replace (g * IZR z / g) with (IZR z) by (field; lra).
    rewrite Rabs_mult, (Rabs_pos_eq g) in B by lra.
    assert (Rabs v = g * Rabs (v / g)).
    { rewrite <- (Rabs_pos_eq g) at 1 by lra. rewrite <- Rabs_mult. f_equal. field. lra. }
    nra. }
  destruct (X_snap_up_spec (g * IZR z) g Hg K) as (k & Ek & A' & B').
  rewrite Ek. do 3 f_equal. f_equal.
  apply int_gap.
  - apply Rmult_le_reg_l with (g * g); [ nra | ]. lra.
  - rewrite !Rabs_mult, (Rabs_pos_eq g) in B' by lra. nra.
Qed.
Lemma X_snap_down_idem : forall v g s, Rabs (v / g) < i64 - 2 ->
  sc_snap_down (Some v) (Some g) = Ret s -> sc_snap_down s (Some g) = Ret s.
Proof.
  intros v g s H E. destruct (Rlt_or_le 0 g) as [Hg|Hg].
  2: { unfold sc_snap_down in E. cbn -[IZR sc_round_down] in E. rewrite Rlt_bool_false in E by auto. discriminate. }
  destruct (X_snap_down_spec v g Hg) as (z & Er & A & B); [ lra | ].
  rewrite Er in E. injection E as <-.
  assert (K : Rabs (g * IZR z / g) < i64 - 1).
  { replace (g * IZR z / g) with (IZR z) by (field; lra).
    rewrite Rabs_mult, (Rabs_pos_eq g) in B by lra.
    assert (Rabs v = g * Rabs (v / g)).
    { rewrite <- (Rabs_pos_eq g) at 1 by lra. rewrite <- Rabs_mult. f_equal. field. lra. }
    nra. }
  destruct (X_snap_down_spec (g * IZR z) g Hg K) as (k & Ek & A' & B').
  rewrite Ek. do 3 f_equal. f_equal. symmetry.
  apply int_gap.
  - apply Rmult_le_reg_l with (g * g); [ nra | ]. lra.
  - rewrite !Rabs_mult, (Rabs_pos_eq g) in B' by lra. nra.
Qed.

(** ** mod, fract, angles *)
Lemma Ztrunc_spec : forall x, Rabs (x - IZR (Ztrunc x)) < 1 /\ 0 <= (x - IZR (Ztrunc x)) * x
  /\ Rabs (IZR (Ztrunc x)) <= Rabs x.
Proof.
  intros x. destruct (Rle_or_lt 0 x) as [P|N].
  - rewrite Ztrunc_floor by auto. generalize (Zfloor_lb x) (Zfloor_ub x). intros.
    assert (0 <= IZR (Zfloor x)) by (apply (IZR_le 0), Zfloor_lub; lra).
    split; [ apply Rabs_lt; lra | ]. split; [ nra | ]. rewrite !Rabs_pos_eq; lra.
  - rewrite Ztrunc_ceil by lra. generalize (Zceil_lb x) (Zceil_ub x). intros.
    assert (IZR (Zceil x) <= 0) by (apply (IZR_le _ 0), Zceil_glb; lra).
    split; [ apply Rabs_lt; lra | ]. split; [ nra | ]. rewrite !Rabs_left1; lra.
Qed.

Lemma X_mod_spec : forall x y, y <> 0 -> Rabs (x / y) < i64 ->
  exists (r : R) (k : Z), sc_mod (Some x) (Some y) = Ret (Some r)
    /\ x = IZR k * y + r /\ Rabs r < Rabs y /\ 0 <= r * x.
Proof.
  intros x y Hy H. unfold sc_mod. rewrite X_div by auto. rewrite X_trunc by auto. cbn -[IZR Ztrunc].
  destruct (Ztrunc_spec (x / y)) as (A & B & _). set (k := Ztrunc (x / y)) in *.
  exists (x - y * IZR k), k. split; [ reflexivity | ]. split; [ ring | ].
  assert (0 < Rabs y) by (now apply Rabs_pos_lt).
  replace (x - y * IZR k) with (y * (x / y - IZR k)) by (field; auto). split.
  - rewrite Rabs_mult. nra.
  - replace (y * (x / y - IZR k) * x) with (y * y * ((x / y - IZR k) * (x / y))) by (field; auto).
    apply Rmult_le_pos; nra.
Qed.

Lemma X_fract_spec : forall v, Rabs v < i64 ->
  exists (r : R) (z : Z), sc_fract (Some v) = Ret (Some r)
    /\ v = IZR z + r /\ Rabs r < 1 /\ 0 <= r * v.
Proof.
  intros v H. unfold sc_fract. cbn -[IZR sc_floor sc_ceil].
  destruct (Rlt_bool_spec 0 v) as [P|N].
  - rewrite X_floor by auto. cbn -[IZR Zfloor].
    eexists _, (Zfloor v). split; [ reflexivity | ].
    generalize (Zfloor_lb v) (Zfloor_ub v). intros. split; [ ring | ].
    split; [ apply Rabs_lt; lra | nra ].
  - rewrite X_ceil by auto. cbn -[IZR Zceil].
    eexists _, (Zceil v). split; [ reflexivity | ].
    generalize (Zceil_lb v) (Zceil_ub v). intros. split; [ ring | ].
    split; [ apply Rabs_lt; lra | nra ].
Qed.

Lemma X_wrap_up : forall p, 0 < p -> forall n a, - p * INR n <= a ->
  exists k : nat, wrap_up n (Some a) (Some p) = Ret (Some (a + p * INR k))
    /\ 0 <= a + p * INR k /\ (a < 0 -> a + p * INR k < p) /\ (0 <= a -> k = 0%nat).
Proof.
  intros p Hp. induction n as [|n IH]; intros a Ha.
  - simpl in Ha. exists 0%nat. simpl. rewrite Rlt_bool_false by lra.
    rewrite Rmult_0_r, Rplus_0_r. repeat split; auto; lra.
  - rewrite S_INR in Ha. cbn [wrap_up]. cbn -[IZR wrap_up].
    destruct (Rlt_bool_spec a 0) as [L|G].
    + destruct (IH (a + p)) as (k & E & B & U & Z0); [ lra | ].
      exists (S k). rewrite E, S_INR. replace (a + p + p * INR k) with (a + p * (INR k + 1)) in * by ring.
      repeat split; auto; try lra. intros _. destruct (Rlt_or_le (a + p) 0) as [Q|Q]; [ lra | ].
      rewrite (Z0 Q) in *. simpl in *. lra.
    + exists 0%nat. rewrite Rmult_0_r, Rplus_0_r. repeat split; auto; lra.
Qed.

Lemma X_wrap_mono : forall p n m a r, (n <= m)%nat ->
  wrap_up n a p = Ret r -> @wrap_up XR XRops m a p = Ret r.
Proof.
  intros p. induction n as [|n IH]; intros m a r H E.
  - destruct m; simpl in *; [ auto | ]. destruct (Xcmp _ _ _); [ discriminate | auto ].
  - destruct m as [|m]; [ lia | ]. cbn [wrap_up] in *. destruct (o_lt _ _); auto.
    apply IH; auto. lia.
Qed.

Lemma INR_above : forall x, exists n : nat, x < INR n.
Proof.
  intros x. exists (Z.to_nat (up x)). destruct (archimed x) as [H _].
  rewrite INR_IZR_INZ. apply Rlt_le_trans with (1 := H). apply IZR_le. lia.
Qed.

Lemma X_normalize : forall p a, 0 < p -> a < p * i64 ->
  exists (r : R) (k : Z) (n : nat), 0 <= r < p /\ a = IZR k * p + r
    /\ forall fuel, (n <= fuel)%nat ->
       (do a' <- wrap_up fuel (Some a) (Some p); sc_mod a' (Some p)) = Ret (Some r).
Proof.
  intros p a Hp Ha.
  destruct (INR_above (- a / p)) as [n Hn].
  assert (Hn' : - p * INR n <= a).
  { apply Rmult_lt_compat_r with (r := p) in Hn; auto.
    replace (- a / p * p) with (- a) in Hn by (field; lra). lra. }
  destruct (X_wrap_up p Hp n a Hn') as (j & E & B & U & Z0).
  assert (B2 : a + p * INR j < p * i64).
  { destruct (Rlt_or_le a 0) as [Q|Q]. 
    - specialize (U Q). assert (1 <= i64) by (apply IZR_le; lia). nra.
    - rewrite (Z0 Q). simpl INR. lra. }
  destruct (X_mod_spec (a + p * INR j) p) as (r & k & Er & Ek & Br & Bs).
  { lra. }
  { rewrite Rabs_pos_eq.
    - apply Rmult_lt_reg_r with p; auto. unfold Rdiv. rewrite Rmult_assoc, Rinv_l by lra. lra.
    - apply Rmult_le_pos; [ lra | ]. apply Rlt_le, Rinv_0_lt_compat. lra. }
  exists r, (k - Z.of_nat j)%Z, n. rewrite (Rabs_pos_eq p) in Br by lra.
  assert (0 <= r).
  { destruct (Rle_or_lt 0 r) as [|Q]; auto. exfalso.
    assert (a + p * INR j = 0). { nra. }
    assert (IZR k * p = - r) by lra.
    rewrite Rabs_left in Br by auto.
    assert (0 < IZR k < 1). { split; nra. }
    destruct H1 as [K1 K2]. apply (lt_IZR 0) in K1. apply (lt_IZR _ 1) in K2. lia. }
  split; [ split; auto; apply Rabs_lt_inv in Br; lra | ].
  split.
  - rewrite minus_IZR, <- INR_IZR_INZ. lra.
  - intros fuel Hf. rewrite (X_wrap_mono _ n fuel _ _ Hf E). exact Er.
Qed.

(** ** sign, step, mix, smoothstep *)
Lemma X_sign_spec : forall v, sc_sign (Some v) =
  Some (if Rlt_bool v 0 then -1 else if Rlt_bool 0 v then 1 else 0).
Proof. intros. unfold sc_sign. cbn -[IZR]. destruct (Rlt_bool v 0), (Rlt_bool 0 v); auto. Qed.
Lemma X_clamp01 : forall t, sc_clamp (Some t) (cst 0) (cst 1) = Some (Rmax (Rmin t 1) 0).
Proof. intros. unfold sc_clamp. change (cst 0) with (Some 0). change (cst 1) with (Some 1). now rewrite X_min2, X_max2. Qed.

Definition smooth (t : R) : R := t * t * (3 - 2 * t).
Lemma X_smoothstep_eq : forall e0 e1 v, e0 < e1 ->
  sc_smoothstep (Some e0) (Some e1) (Some v) =
  Some (smooth (Rmax (Rmin ((v - e0) / (e1 - e0)) 1) 0)).
Proof.
  intros. unfold sc_smoothstep. cbn [o_sub XRops X2]. rewrite X_div by lra. rewrite X_clamp01. reflexivity.
Qed.
Lemma smooth_bounds : forall t, 0 <= t <= 1 -> 0 <= smooth t <= 1.
Proof.
  intros t H. unfold smooth. assert (0 <= t * t) by nra. assert (0 <= (1 - t) * (1 - t)) by nra.
  assert (0 <= t * t * (3 - 2 * t)) by (apply Rmult_le_pos; lra).
  assert (0 <= (1 - t) * (1 - t) * (1 + 2 * t)) by (apply Rmult_le_pos; lra).
  split; [ lra | ]. replace (t * t * (3 - 2 * t)) with (1 - (1 - t) * (1 - t) * (1 + 2 * t)) by ring. lra.
Qed.
Lemma smooth_mono : forall s t, 0 <= s -> s <= t -> t <= 1 -> smooth s <= smooth t.
Proof.
  intros s t H1 H2 H3. unfold smooth.
  assert (E : t * t * (3 - 2 * t) - s * s * (3 - 2 * s)
    = (t - s) * (3 * (t + s) - 2 * (t * t + t * s + s * s))) by ring.
  assert (0 <= 3 * (t + s) - 2 * (t * t + t * s + s * s)) by nra.
  assert (0 <= (t - s) * (3 * (t + s) - 2 * (t * t + t * s + s * s))) by (apply Rmult_le_pos; lra).
  lra.
Qed.
Lemma X_smoothstep_spec : forall e0 e1, e0 < e1 ->
  exists f, (forall v, sc_smoothstep (Some e0) (Some e1) (Some v) = Some (f v))
    /\ (forall v, v <= e0 -> f v = 0) /\ (forall v, e1 <= v -> f v = 1)
    /\ (forall v, 0 <= f v <= 1) /\ (forall v w, v <= w -> f v <= f w)
    /\ f ((e0 + e1) / 2) = / 2.
Proof.
  intros e0 e1 H.
  exists (fun v => smooth (Rmax (Rmin ((v - e0) / (e1 - e0)) 1) 0)).
  split; [ intros; now apply X_smoothstep_eq | ].
  assert (I : 0 < / (e1 - e0)) by (apply Rinv_0_lt_compat; lra).
  assert (C : forall v, 0 <= Rmax (Rmin ((v - e0) / (e1 - e0)) 1) 0 <= 1).
  { intros v. unfold Rmax, Rmin. repeat destruct Rle_dec; lra. }
  repeat split.
  - intros v Hv. assert ((v - e0) / (e1 - e0) <= 0) by (unfold Rdiv; nra).
    rewrite Rmin_left by lra. rewrite Rmax_right by lra. unfold smooth. ring.
  - intros v Hv. assert (1 <= (v - e0) / (e1 - e0)).
    { apply Rmult_le_reg_r with (e1 - e0); [ lra | ]. unfold Rdiv. rewrite Rmult_assoc, Rinv_l by lra. lra. }
    rewrite Rmin_right by lra. rewrite Rmax_left by lra. unfold smooth. ring.
  - now apply smooth_bounds.
  - now apply smooth_bounds.
  - intros v w Hvw. 
    assert ((v - e0) / (e1 - e0) <= (w - e0) / (e1 - e0)) by (unfold Rdiv; nra).
    destruct (C v), (C w). apply smooth_mono; auto.
    apply Rle_max_compat_r. now apply Rle_min_compat_r.
  - replace (((e0 + e1) / 2 - e0) / (e1 - e0)) with (/ 2) by (field; lra).
    rewrite Rmin_left by lra. rewrite Rmax_left by lra. unfold smooth. field.
Qed.

Lemma X_mix : forall x y a, sc_mix (Some x) (Some y) (Some a) = Some ((1 - a) * x + a * y).
Proof. reflexivity. Qed.

(** ** correct, abs_difference *)
Lemma X_correct0 : forall v eps, Rabs v < i64 - 1 ->
  exists r, sc_correct (Some v) 0 (Some eps) = Ret (Some r)
    /\ (r = v \/ Rabs (v - r) < eps /\ exists z, r = IZR z)
    /\ (forall z, Rabs (v - IZR z) < eps -> (exists z', r = IZR z') /\ Rabs (v - r) <= Rabs (v - IZR z)).
Proof.
  intros v eps H. destruct (X_round_spec v H) as (z & E & A & B & _).
  unfold sc_correct. cbn -[IZR sc_round sc_abs].
  rewrite Rmult_1_r, E. cbn -[IZR sc_abs]. rewrite X_abs. cbn -[IZR].
  destruct (Rlt_bool_spec (Rabs (v - IZR z)) eps) as [L|G].
  - rewrite Req_bool_false by lra. exists (IZR z).
    split; [ do 2 f_equal; field | ].
    split; [ right; eauto | ]. intros z' Hz'. split; eauto.
  - exists v. split; [ reflexivity | ]. split; [ now left | ].
    intros z' Hz'. specialize (B z'). lra.
Qed.
Lemma X_abs_difference_same_sign : forall a b, 0 <= a * b ->
  sc_abs_difference (Some a) (Some b) = Some (Rabs (a - b)).
Proof.
  intros a b H. unfold sc_abs_difference. rewrite !X_abs. cbn [o_sub XRops X2]. rewrite X_abs. f_equal.
  destruct (Rle_or_lt 0 a), (Rle_or_lt 0 b).
  - now rewrite !(Rabs_pos_eq a), !(Rabs_pos_eq b) by auto.
  - assert (a = 0) by nra. subst. rewrite Rabs_R0. unfold Rabs; repeat destruct Rcase_abs; lra.
  - assert (b = 0) by nra. subst. rewrite Rabs_R0. unfold Rabs; repeat destruct Rcase_abs; lra.
  - rewrite (Rabs_left a), (Rabs_left b) by auto. rewrite <- Rabs_Ropp. f_equal. ring.
Qed.
Lemma X_abs_difference : forall a b,
  sc_abs_difference (Some a) (Some b) = Some (Rabs (Rabs a - Rabs b)).
Proof.
  intros a b. unfold sc_abs_difference. rewrite !X_abs. cbn [o_sub XRops X2]. now rewrite X_abs.
Qed.
Lemma X_abs_difference_unsigned : forall a b,
  sc_abs_difference_unsigned (Some a) (Some b) = Some (Rabs (a - b)).
Proof.
  intros a b. unfold sc_abs_difference_unsigned. cbn -[IZR].
  destruct (Rlt_bool_spec b a); f_equal; unfold Rabs; destruct Rcase_abs; lra.
Qed.
