(** Transforming boxes by machine matrices (C111). *)
From Coq Require Import ZArith Reals List Lia Lra Bool Psatz.
From Flocq Require Import Core BinarySingleNaN.
From Verif Require Import Ops M_scalar M_vec M_mat M_matext M_bbox Inst_XR Inst_F S_vec S_mat S_affine S_order S_boxset S_bbox S_grid S_rnd S_hit S_lu S_tbox
  P_ord P_ieee P_vec P_fp P_fp3 P_fp4 P_fp7 P_hit P_hit2 P_ft P_bbox P_bbox2 P_bbox3 P_affine P_tbox.
Import ListNotations.
Local Open Scope R_scope.

Lemma Forall2_left : forall {A B} (P : A -> B -> Prop) l k, Forall2 P l k -> forall a, In a l -> exists b, In b k /\ P a b.
Proof. intros A B P l k F. induction F; intros c []; [subst; eauto using in_eq|]. destruct (IHF c H0) as (d & D1 & D2). eauto using in_cons. Qed.
Lemma Forall2_right : forall {A B} (P : A -> B -> Prop) l k, Forall2 P l k -> forall b, In b k -> exists a, In a l /\ P a b.
Proof. intros A B P l k F. induction F; intros c []; [subst; eauto using in_eq|]. destruct (IHF c H0) as (d & D1 & D2). eauto using in_cons. Qed.
Lemma rcorner_len : forall b s, is_box 3 b -> length s = 3%nat -> length (rcorner b s) = 3%nat.
Proof. intros b s B S. apply bits3 in S as (x & y & z & ->). destruct (box3 b B) as (m0 & m1 & m2 & M0 & M1 & M2 & -> & _). reflexivity. Qed.
Lemma rcorner_in : forall b s, is_box 3 b -> length s = 3%nat -> in_bbox b (rcorner b s).
Proof.
  intros b s B S. apply bits3 in S as (x & y & z & ->). destruct (box3 b B) as (m0 & m1 & m2 & M0 & M1 & M2 & -> & H0 & H1 & H2). unfold in_bbox, rcorner. cbn.
  destruct x, y, z; split; (repeat (apply Forall2_cons; [lra|])); constructor.
Qed.
Lemma upto3 : forall e b p, in_bbox_upto e b p <-> length (bb_min b) = length p /\ length (bb_max b) = length p /\ forall i, (i < length p)%nat -> nth i (bb_min b) 0 - e <= nth i p 0 <= nth i (bb_max b) 0 + e.
Proof.
  intros e [mn mx] p. unfold in_bbox_upto. cbn [bb_min bb_max]. revert mn mx. induction p as [|x p IH]; intros mn mx.
  - split.
    + intros [H1 H2]. inversion H1; inversion H2; subst. repeat split; auto; cbn in *; lia.
    + intros (L1 & L2 & _). destruct mn; [|discriminate]. destruct mx; [|discriminate]. split; constructor.
  - split.
    + intros [H1 H2]. inversion H1 as [|a ? mn' ? A1 A2]; subst. inversion H2 as [|? c ? mx' C1 C2]; subst.
      destruct (proj1 (IH mn' mx') (conj A2 C2)) as (L1 & L2 & H). cbn [length]. repeat split; auto; destruct i; cbn; try lra; apply H; cbn in *; lia.
    + intros (L1 & L2 & H). destruct mn as [|a mn]; [discriminate|]. destruct mx as [|c mx]; [discriminate|].
      destruct (proj2 (IH mn mx)) as [A C]. { cbn in *. repeat split; try lia; apply (H (S i) ltac:(lia)). }
      assert (H0 := H 0%nat ltac:(cbn; lia)). cbn in H0. split; constructor; auto; lra.
Qed.
Lemma nth3_eq : forall (l : list R), length l = 3%nat -> l = [nth 0 l 0; nth 1 l 0; nth 2 l 0].
Proof. intros [|a [|b [|c [|]]]] H; try discriminate. reflexivity. Qed.
Lemma in_bbox_nth : forall b p, length (bb_min b) = 3%nat -> length (bb_max b) = 3%nat -> in_bbox b p -> length p = 3%nat /\ forall i, (i < 3)%nat -> nth i (bb_min b) 0 <= nth i p 0 <= nth i (bb_max b) 0.
Proof.
  intros [mn mx] p L1 L2 [H1 H2]. cbn [bb_min bb_max] in *. destruct mn as [|m0 [|m1 [|m2 [|]]]]; try discriminate. destruct mx as [|x0 [|x1 [|x2 [|]]]]; try discriminate.
  repeat match goal with F : Forall2 _ (_ :: _) _ |- _ => inversion F; clear F; subst | F : Forall2 _ [] _ |- _ => inversion F; clear F; subst end.
  split; [reflexivity|]. intros i Hi. destruct i as [|[|[|]]]; [| | |lia]; cbn; lra.
Qed.

Section FP.
Variables prec emax : Z.
Context {Hprec : Prec_gt_0 prec} {Hmax : Prec_lt_emax prec emax}.
Notation fl := (binary_float prec emax).
Notation u := (unit_roundoff prec).
Notation eta := (underflow_error prec emax).
Notation Om := (bpow radix2 emax).
Hypothesis U20 : (20 <= prec)%Z.
Hypothesis E20 : (20 <= emax)%Z.

Lemma mul_p_len : forall (m : list (list fl)) p, length (m_mul_p 4 m p) = 3%nat.
Proof. intros. unfold m_mul_p, v_to_cartesian, m_mul_v. rewrite map_length, firstn_length, !map_length, !seq_length. reflexivity. Qed.
Lemma list3 : forall v : list fl, length v = 3%nat -> v = [vget v 0; vget v 1; vget v 2].
Proof. intros [|a [|b [|c [|]]]] H; try discriminate. reflexivity. Qed.
Lemma below3 : forall a b : list fl, length a = 3%nat -> length b = 3%nat -> (forall r, (r < 3)%nat -> o_le (vget a r) (vget b r) = true) -> vec_below a b.
Proof.
  intros a b La Lb H. rewrite (list3 a La), (list3 b Lb). unfold vec_below. repeat constructor; apply H; lia.
Qed.
Lemma below3_inv : forall a b : list fl, vec_below a b -> length a = 3%nat -> length b = 3%nat /\ forall r, (r < 3)%nat -> o_le (vget a r) (vget b r) = true.
Proof.
  intros a b H L. destruct a as [|a0 [|a1 [|a2 [|]]]]; try discriminate. unfold vec_below in H.
  repeat match goal with F : Forall2 _ (_ :: _) _ |- _ => inversion F; clear F; subst | F : Forall2 _ [] _ |- _ => inversion F; clear F; subst end.
  split; [reflexivity|]. intros r Hr. destruct r as [|[|[|]]]; [| | |lia]; assumption.
Qed.
Lemma below_lo : forall (a b c : fl) v, vec_below [a; b; c] v -> o_le a (vget v 0) = true /\ o_le b (vget v 1) = true /\ o_le c (vget v 2) = true.
Proof. intros a b c v H. destruct (below3_inv _ _ H eq_refl) as (_ & K). split; [|split]; [exact (K 0%nat ltac:(lia))|exact (K 1%nat ltac:(lia))|exact (K 2%nat ltac:(lia))]. Qed.
Lemma below_hi : forall (a b c : fl) v, vec_below v [a; b; c] -> o_le (vget v 0) a = true /\ o_le (vget v 1) b = true /\ o_le (vget v 2) c = true.
Proof.
  intros a b c v H. assert (L : length v = 3%nat). { unfold vec_below in H. clear - H. repeat match goal with F : Forall2 _ _ (_ :: _) |- _ => inversion F; clear F; subst | F : Forall2 _ _ [] |- _ => inversion F; clear F; subst end. reflexivity. }
  destruct (below3_inv _ _ H L) as (_ & K). split; [|split]; [exact (K 0%nat ltac:(lia))|exact (K 1%nat ltac:(lia))|exact (K 2%nat ltac:(lia))].
Qed.
Lemma fin3 : forall v : list fl, length v = 3%nat -> (forall r, (r < 3)%nat -> is_finite (vget v r) = true) -> all_finite v.
Proof. intros v L H. rewrite (list3 v L). unfold all_finite. repeat constructor; apply H; lia. Qed.
Lemma fin3_inv : forall v : list fl, length v = 3%nat -> all_finite v -> forall r, (r < 3)%nat -> is_finite (vget v r) = true.
Proof. intros v L H r Hr. unfold all_finite in H. rewrite Forall_forall in H. apply H. unfold vget. apply nth_In. lia. Qed.
Lemma point3 : forall v : list fl, length v = 3%nat -> all_finite v -> point_of 3 v.
Proof. intros v L F. split; [exact L|]. eapply Forall_impl; [|exact F]. intros x Fx. now apply (fin_num prec emax). Qed.
Lemma values_get : forall (v : list fl) r, nth r (values v) 0 = B2R (vget v r).
Proof. intros. apply values_nth. Qed.
Lemma nth_map_B2R : forall (v : list fl) r, nth r (map B2R v) 0 = B2R (vget v r).
Proof. exact values_get. Qed.

Lemma is_box_values : forall (b : bbox fl) M, box_of 3 b -> within M (bb_min b) -> within M (bb_max b) -> is_box 3 (box_values b).
Proof.
  intros b M (P1 & P2 & P3) (L1 & F1 & _) (L2 & F2 & _). unfold is_box, box_values. cbn [bb_min bb_max]. rewrite !map_length. split; [exact L1|]. split; [exact L2|].
  destruct (below3_inv _ _ P3 L1) as (_ & H). rewrite (list3 _ L1), (list3 _ L2). cbn [map].
  assert (G : forall r, (r < 3)%nat -> B2R (vget (bb_min b) r) <= B2R (vget (bb_max b) r)) by (intros r Hr; apply (proj1 (le_fin prec emax _ _ (fin3_inv _ L1 F1 r Hr) (fin3_inv _ L2 F2 r Hr))); now apply H).
  apply Forall2_cons; [apply G; lia|]. apply Forall2_cons; [apply G; lia|]. apply Forall2_cons; [apply G; lia|constructor].
Qed.
Lemma box_bound : forall (b : bbox fl) M q, within M (bb_min b) -> within M (bb_max b) -> in_bbox (box_values b) q -> length q = 3%nat /\ Forall (fun y => Rabs y <= M) q.
Proof.
  intros b M q W1 W2 I. destruct b as [mn mx]. cbn [bb_min bb_max] in *. destruct (within3 prec emax M mn W1) as (x0 & x1 & x2 & -> & _ & B0 & B1 & B2). destruct (within3 prec emax M mx W2) as (y0 & y1 & y2 & -> & _ & C0 & C1 & C2).
  destruct (in_bbox_nth (box_values (BB [x0; x1; x2] [y0; y1; y2])) q eq_refl eq_refl I) as (L & H). split; [exact L|]. rewrite (nth3_eq q L). cbn [box_values bb_min bb_max map] in H.
  assert (H0 := H 0%nat ltac:(lia)). assert (H1 := H 1%nat ltac:(lia)). assert (H2 := H 2%nat ltac:(lia)). cbn [nth] in H0, H1, H2.
  apply Rabs_le_inv in B0, B1, B2, C0, C1, C2. (repeat (apply Forall_cons; [apply Rabs_le; lra|])); constructor.
Qed.
Lemma in_set_finite : forall (b : bbox fl) M p, within M (bb_min b) -> within M (bb_max b) -> in_set b p -> all_finite p /\ in_bbox (box_values b) (values p).
Proof.
  intros b M p (L1 & F1 & _) (L2 & F2 & _) [H1 H2]. destruct (below3_inv _ _ H1 L1) as (L & H). destruct (below3_inv _ _ H2 L) as (_ & H').
  assert (G : forall r, (r < 3)%nat -> is_finite (vget p r) = true /\ B2R (vget (bb_min b) r) <= B2R (vget p r) <= B2R (vget (bb_max b) r)).
  { intros r Hr. apply (squeezed prec emax); auto using fin3_inv. }
  split; [apply fin3; [exact L|]; intros; now apply G|]. unfold in_bbox, box_values, values. cbn [bb_min bb_max]. rewrite (list3 _ L1), (list3 _ L2), (list3 _ L). cbn [map].
  split; (repeat (apply Forall2_cons; [apply G; lia|])); constructor.
Qed.

Lemma box_transform : forall (b : bbox fl) m M K T, box_of 3 b -> within M (bb_min b) -> within M (bb_max b) -> affine_up_to K T m ->
  4 * M <= Om -> 2 * (K * M + T + 1) <= Om ->
  let A := mvalues m in let e := image_error prec emax K M T in
  exists c, bb_transform b m = Ret c /\ box_of 3 c /\ all_finite (bb_min c) /\ all_finite (bb_max c)
    /\ (forall p, in_bbox (box_values b) p -> in_bbox_upto e (box_values c) (raffine 3 A p))
    /\ (forall d, is_box 3 d -> (forall p, in_bbox (box_values b) p -> in_bbox d (raffine 3 A p)) -> forall p, in_bbox (box_values c) p -> in_bbox_upto e d p)
    /\ (forall p, in_set b p -> all_finite (m_mul_p 4 m p) /\ in_bbox_upto (2 * e) (box_values c) (values (m_mul_p 4 m p))).
Proof.
  intros b m M K T Bb W1 W2 Am HM HO A e. assert (IB := is_box_values b M Bb W1 W2).
  assert (M0 : 0 <= M). { destruct (within3 prec emax M _ W1) as (x & _ & _ & _ & _ & Bx & _). assert (P := Rabs_pos (B2R x)). lra. }
  destruct (vertices_near prec emax U20 E20 M M0 HM b Bb W1 W2) as (vs & EV & FV).
  assert (IM : forall v s r, length v = 3%nat -> Forall2 (fun x y => near x y (4 * u * M)) v (rcorner (box_values b) s) -> In s corner_bits -> (r < 3)%nat ->
    near (vget (m_mul_p 4 m v) r) (nth r (raffine 3 A (rcorner (box_values b) s)) 0) e).
  { intros v s r Lv Nv Is Hr. apply corner_bits_all in Is. assert (Ls := rcorner_len _ _ IB Is).
    apply (image_near prec emax U20 E20 m v _ K T M r); auto. now apply (box_bound b M _ W1 W2 (rcorner_in _ _ IB Is)). }
  assert (FI : forall v r, In v vs -> (r < 3)%nat -> is_finite (vget (m_mul_p 4 m v) r) = true).
  { intros v r Iv Hr. destruct (Forall2_left _ _ _ FV v Iv) as (s & Is & Lv & Nv). now apply (IM v s r). }
  assert (NE : vs <> []). { intros ->. inversion FV. }
  unfold bb_transform. rewrite EV. cbn [bind].
  destruct (bounds_ok 3 (map (fun v => It_point (m_mul_p 4 m v)) vs)) as (c & EC & C1 & C2 & C3); [lia|intros Q; apply NE; now apply map_eq_nil in Q| |].
  { apply Forall_forall. intros i Ii. apply in_map_iff in Ii as (v & <- & Iv). apply point3; [apply mul_p_len|]. apply fin3; [apply mul_p_len|]. auto. }
  rewrite EC. exists c. split; [reflexivity|]. split; [exact C1|].
  destruct C1 as ((L1 & _) & (L2 & _) & C1).
  assert (IN : forall v r, In v vs -> (r < 3)%nat -> o_le (vget (bb_min c) r) (vget (m_mul_p 4 m v) r) = true /\ o_le (vget (m_mul_p 4 m v) r) (vget (bb_max c) r) = true).
  { intros v r Iv Hr. destruct (C2 (m_mul_p 4 m v)) as [Q1 Q2]. { eexists. split; [apply in_map, Iv|reflexivity]. }
    destruct (below3_inv _ _ Q1 L1) as (Lq & H1). destruct (below3_inv _ _ Q2 Lq) as (_ & H2). auto. }
  assert (LE : forall r, (r < 3)%nat -> exists v, In v vs /\ forall w, In w vs -> o_le (vget (m_mul_p 4 m v) r) (vget (m_mul_p 4 m w) r) = true) by (intros r Hr; apply (least prec emax (fun v => vget (m_mul_p 4 m v) r) vs NE); auto).
  assert (GE : forall r, (r < 3)%nat -> exists v, In v vs /\ forall w, In w vs -> o_le (vget (m_mul_p 4 m w) r) (vget (m_mul_p 4 m v) r) = true) by (intros r Hr; apply (greatest prec emax (fun v => vget (m_mul_p 4 m v) r) vs NE); auto).
  destruct (LE 0%nat ltac:(lia)) as (v0 & V0 & V0'). destruct (LE 1%nat ltac:(lia)) as (v1 & V1 & V1'). destruct (LE 2%nat ltac:(lia)) as (v2 & V2 & V2').
  destruct (GE 0%nat ltac:(lia)) as (w0 & X0 & X0'). destruct (GE 1%nat ltac:(lia)) as (w1 & X1 & X1'). destruct (GE 2%nat ltac:(lia)) as (w2 & X2 & X2').
  set (d := BB [vget (m_mul_p 4 m v0) 0; vget (m_mul_p 4 m v1) 1; vget (m_mul_p 4 m v2) 2] [vget (m_mul_p 4 m w0) 0; vget (m_mul_p 4 m w1) 1; vget (m_mul_p 4 m w2) 2]).
  assert (SUB : forall p, in_set c p -> in_set d p).
  { intros p0 Hp0. refine (C3 d _ _ p0 Hp0); clear p0 Hp0.
    - split; [|split]; [apply point3; [reflexivity|]; repeat constructor; apply FI; auto..|]. unfold vec_below, d; cbn [bb_min bb_max]. apply Forall2_cons; [auto|]. apply Forall2_cons; [auto|]. apply Forall2_cons; [auto|constructor].
    - intros p (i & Ii & Ei). apply in_map_iff in Ii as (v & <- & Iv). cbv beta iota in Ei. subst p.
      rewrite (list3 _ (mul_p_len m v)). split; unfold vec_below, d; cbn [bb_min bb_max]; (apply Forall2_cons; [auto|]); (apply Forall2_cons; [auto|]); (apply Forall2_cons; [auto|constructor]). }
  assert (CM : in_set c (bb_min c) /\ in_set c (bb_max c)).
  { assert (R1 : vec_below (bb_min c) (bb_min c) /\ vec_below (bb_max c) (bb_max c)).
    { destruct (below3_inv _ _ C1 L1) as (_ & H). split; apply below3; auto; intros r Hr; specialize (H r Hr).
      - destruct (is_nan (vget (bb_min c) r)) eqn:N; [rewrite (proj1 (proj2 (nan_l _ _ N))) in H; discriminate|]. rewrite (le_key _ _ N N). apply Rle_bool_true. lra.
      - destruct (is_nan (vget (bb_max c) r)) eqn:N; [rewrite (proj1 (proj2 (nan_r _ _ N))) in H; discriminate|]. rewrite (le_key _ _ N N). apply Rle_bool_true. lra. }
    destruct R1. split; split; auto. }
  destruct CM as [CM1 CM2]. apply SUB in CM1, CM2. destruct CM1 as [CM1 _]. destruct CM2 as [_ CM2]. destruct (below_lo _ _ _ _ CM1) as (LO0 & LO1 & LO2). destruct (below_hi _ _ _ _ CM2) as (HI0 & HI1 & HI2). clear CM1 CM2 SUB.
  assert (MIN : forall r, (r < 3)%nat -> exists v, In v vs /\ is_finite (vget (bb_min c) r) = true /\ B2R (vget (bb_min c) r) = B2R (vget (m_mul_p 4 m v) r)).
  { intros r Hr. destruct r as [|[|[|]]]; [rename LO0 into Lr; exists v0|rename LO1 into Lr; exists v1|rename LO2 into Lr; exists v2|lia]; (split; [assumption|]);
      match goal with |- context [m_mul_p 4 m ?v] => destruct (squeezed prec emax _ _ _ (FI v _ ltac:(assumption) Hr) (FI v _ ltac:(assumption) Hr) Lr (proj1 (IN v _ ltac:(assumption) Hr))) as [Q1 Q2] end; split; auto; lra. }
  assert (MAX : forall r, (r < 3)%nat -> exists v, In v vs /\ is_finite (vget (bb_max c) r) = true /\ B2R (vget (bb_max c) r) = B2R (vget (m_mul_p 4 m v) r)).
  { intros r Hr. destruct r as [|[|[|]]]; [rename HI0 into Lr; exists w0|rename HI1 into Lr; exists w1|rename HI2 into Lr; exists w2|lia]; (split; [assumption|]);
      match goal with |- context [m_mul_p 4 m ?v] => destruct (squeezed prec emax _ _ _ (FI v _ ltac:(assumption) Hr) (FI v _ ltac:(assumption) Hr) (proj2 (IN v _ ltac:(assumption) Hr)) Lr) as [Q1 Q2] end; split; auto; lra. }
  assert (F1 : all_finite (bb_min c)) by (apply fin3; auto; intros r Hr; destruct (MIN r Hr) as (v & _ & F & _); exact F).
  assert (F2 : all_finite (bb_max c)) by (apply fin3; auto; intros r Hr; destruct (MAX r Hr) as (v & _ & F & _); exact F).
  split; [exact F1|]. split; [exact F2|]. clear LE GE v0 V0 V0' v1 V1 V1' v2 V2 V2' w0 X0 X0' w1 X1 X1' w2 X2 X2' d LO0 LO1 LO2 HI0 HI1 HI2.
  assert (P1 : forall p, in_bbox (box_values b) p -> forall r, (r < 3)%nat -> B2R (vget (bb_min c) r) - e <= nth r (raffine 3 A p) 0 <= B2R (vget (bb_max c) r) + e).
  { intros p Ip r Hr. destruct (box_bound b M p W1 W2 Ip) as (Lp & _).
    destruct (affine_extreme (box_values b) p (ent A r 0) (ent A r 1) (ent A r 2) (ent A r 3) IB Ip) as (s & t & S & T' & H).
    assert (Q : forall q, length q = 3%nat -> nth r (raffine 3 A q) 0 = ent A r 0 * nth 0 q 0 + ent A r 1 * nth 1 q 0 + ent A r 2 * nth 2 q 0 + ent A r 3).
    { intros q Lq. rewrite (nth3_eq q Lq) at 1. rewrite raffine3. destruct r as [|[|[|]]]; [| | |lia]; reflexivity. }
    cbv zeta in H. rewrite <- !Q in H by auto using rcorner_len.
    apply corner_bits_all in S, T'. destruct (Forall2_right _ _ _ FV s S) as (v & Iv & Lv & Nv). destruct (Forall2_right _ _ _ FV t T') as (w & Iw & Lw & Nw).
    destruct (IM v s r Lv Nv S Hr) as (Fv & Ev). destruct (IM w t r Lw Nw T' Hr) as (Fw & Ew). apply Rabs_le_inv in Ev, Ew.
    assert (J1 := proj1 (IN v r Iv Hr)). assert (J2 := proj2 (IN w r Iw Hr)). apply (proj1 (le_fin prec emax _ _ (fin3_inv _ L1 F1 r Hr) Fv)) in J1. apply (proj1 (le_fin prec emax _ _ Fw (fin3_inv _ L2 F2 r Hr))) in J2. lra. }
  assert (RL : forall p, length (raffine 3 A p) = 3%nat) by (intros; apply raffine_length).
  assert (ML : length (map B2R (bb_min c)) = 3%nat /\ length (map B2R (bb_max c)) = 3%nat) by (rewrite !map_length; auto).
  split; [|split].
  - intros p Ip. apply upto3. cbn [box_values bb_min bb_max]. rewrite RL. destruct ML. split; [assumption|]. split; [assumption|]. intros r Hr. rewrite !nth_map_B2R. now apply P1.
  - intros d Bd Hd p Ip. destruct Bd as (D1 & D2 & D3). destruct (in_bbox_nth (box_values c) p (proj1 ML) (proj2 ML) Ip) as (Lp & Hp). apply upto3. rewrite D1, D2, Lp. split; [reflexivity|]. split; [reflexivity|].
    intros r Hr. specialize (Hp r Hr). cbn [box_values bb_min bb_max] in Hp. rewrite !nth_map_B2R in Hp.
    destruct (MIN r Hr) as (v & Iv & _ & Ev). destruct (MAX r Hr) as (w & Iw & _ & Ew). rewrite Ev, Ew in Hp.
    destruct (Forall2_left _ _ _ FV v Iv) as (s & Is & Lv & Nv). destruct (Forall2_left _ _ _ FV w Iw) as (t & It & Lw & Nw).
    destruct (IM v s r Lv Nv Is Hr) as (_ & Qv). destruct (IM w t r Lw Nw It Hr) as (_ & Qw). apply Rabs_le_inv in Qv, Qw.
    assert (Hs := Hd _ (rcorner_in _ _ IB (proj1 (proj2 corner_bits_all s) Is))). assert (Ht := Hd _ (rcorner_in _ _ IB (proj1 (proj2 corner_bits_all t) It))).
    apply (in_bbox_nth d _ D1 D2) in Hs, Ht. destruct Hs as (_ & Hs), Ht as (_ & Ht). specialize (Hs r Hr). specialize (Ht r Hr). lra.
  - intros p Ip. destruct (in_set_finite b M p W1 W2 Ip) as (Fp & Vp). destruct (box_bound b M _ W1 W2 Vp) as (Lp & Bp). unfold values in Lp. rewrite map_length in Lp.
    assert (N : forall r, (r < 3)%nat -> near (vget (m_mul_p 4 m p) r) (nth r (raffine 3 A (values p)) 0) e).
    { intros r Hr. apply (image_near prec emax U20 E20 m p _ K T M r); auto; [unfold values; now rewrite map_length|].
      unfold values. clear - Fp M0 U20. induction Fp; cbn [map]; constructor; auto. now apply v_self. }
    split; [apply fin3; [apply mul_p_len|]; intros r Hr; apply (N r Hr)|]. apply upto3. cbn [box_values bb_min bb_max]. unfold values at 1 2 3. rewrite (map_length _ (m_mul_p 4 m p)), mul_p_len. destruct ML. split; [assumption|]. split; [assumption|].
    intros r Hr. rewrite !nth_map_B2R, values_get. assert (Q := P1 _ Vp r Hr). destruct (N r Hr) as (_ & Nr). apply Rabs_le_inv in Nr. lra.
Qed.
Lemma point_transform : forall m (p : list fl) M K T, within M p -> affine_up_to K T m -> 2 * (K * M + T + 1) <= Om ->
  Forall2 (fun x y => near x y (image_error prec emax K M T)) (m_mul_p 4 m p) (raffine 3 (mvalues m) (values p)).
Proof.
  intros m p M K T W Am HO. assert (M0 : 0 <= M). { destruct (within3 prec emax M _ W) as (x & _ & _ & _ & _ & Bx & _). assert (P := Rabs_pos (B2R x)). lra. }
  destruct W as (Lp & Fp & Bp).
  assert (N : forall r, (r < 3)%nat -> near (vget (m_mul_p 4 m p) r) (nth r (raffine 3 (mvalues m) (values p)) 0) (image_error prec emax K M T)).
  { intros r Hr. apply (image_near prec emax U20 E20 m p _ K T M r); auto; [unfold values; now rewrite map_length|].
    unfold values. clear - Fp M0 U20. induction Fp; cbn [map]; constructor; auto. now apply v_self. }
  rewrite (list3 _ (mul_p_len m p)), (nth3_eq (raffine 3 (mvalues m) (values p)) (raffine_length _ _ _)). (repeat (apply Forall2_cons; [apply N; lia|])); constructor.
Qed.
End FP.
