(** Transformation of boxes; translation and expansion in IEEE arithmetic. *)
From Coq Require Import ZArith Reals List Bool Lia Lra Psatz.
From Flocq Require Import Core BinarySingleNaN.
From Verif Require Import Ops M_scalar M_vec M_mat M_bbox Inst_F Inst_XR S_vec S_mat S_affine S_bbox S_order S_boxset.
From Verif Require Import P_ord P_compare P_scalar_ord P_xr P_vec P_vec2 P_affine P_rotmat P_matext P_bbox P_bbox2.
Import ListNotations.
Local Open Scope R_scope.

Lemma raffine3 : forall M x y z, raffine 3 M [x; y; z] =
  [ ent M 0 0 * x + ent M 0 1 * y + ent M 0 2 * z + ent M 0 3;
    ent M 1 0 * x + ent M 1 1 * y + ent M 1 2 * z + ent M 1 3;
    ent M 2 0 * x + ent M 2 1 * y + ent M 2 2 * z + ent M 2 3 ].
Proof. intros. unfold raffine. cbn. repeat (apply (f_equal2 cons); [ ring | ]). reflexivity. Qed.

(** Each component of an affine image is bounded by that of a corner's image. *)
Lemma affine_extreme : forall b p (a0 a1 a2 d : R), is_box 3 b -> in_bbox b p ->
  let f q := a0 * nth 0 q 0 + a1 * nth 1 q 0 + a2 * nth 2 q 0 + d in
  exists s t, length s = 3%nat /\ length t = 3%nat /\ f (rcorner b s) <= f p <= f (rcorner b t).
Proof.
  intros b p a0 a1 a2 d B [P1 P2] f. destruct (box3 b B) as (m0 & m1 & m2 & M0 & M1 & M2 & -> & _).
  cbn [bb_min bb_max] in *.
  destruct p as [|x [|y [|z [|]]]]; repeat match goal with F : Forall2 _ _ _ |- _ => inversion F; clear F; subst end.
  assert (A : forall a m M u, m <= u -> u <= M -> exists s t : bool, a * (if s then M else m) <= a * u <= a * (if t then M else m)).
  { intros a m M u G1 G2. destruct (Rle_lt_dec 0 a).
    - exists false, true. nra.
    - exists true, false. nra. }
  destruct (A a0 m0 M0 x) as (s0 & t0 & A0); auto. destruct (A a1 m1 M1 y) as (s1 & t1 & A1); auto.
  destruct (A a2 m2 M2 z) as (s2 & t2 & A2); auto.
  exists [s0; s1; s2], [t0; t1; t2]. split; [ reflexivity | ]. split; [ reflexivity | ].
  unfold f, rcorner. cbn [bb_min bb_max pick nth]. lra.
Qed.

Lemma transform_ok : forall b M, is_box 3 b -> affine 3 M ->
  exists c, bb_transform (blift b) (mS M) = Ret (blift c) /\ is_box 3 c
    /\ (forall p, in_bbox b p -> in_bbox c (raffine 3 M p))
    /\ (forall c', is_box 3 c' -> (forall s, length s = 3%nat -> in_bbox c' (raffine 3 M (rcorner b s))) ->
        forall p, in_bbox c p -> in_bbox c' p).
Proof.
  intros b M B A. unfold bb_transform. rewrite (vertices_ok b B). cbn [bind].
  assert (E : map (fun v => It_point (m_mul_p 4 (mS M) v)) (map (fun s => vS (rcorner b s)) corner_bits)
    = map (fun s => It_point (vS (raffine 3 M (rcorner b s)))) corner_bits).
  { rewrite map_map. apply map_ext_in. intros s HS. f_equal. change 4%nat with (S 3). apply X_affine; [ exact A | ].
    apply corner_bits_all in HS. apply bits3 in HS as (x & y & z & ->).
    destruct (box3 b B) as (m0 & m1 & m2 & M0 & M1 & M2 & -> & _). reflexivity. }
  rewrite E. clear E.
  destruct (bounds_ok 3 (map (fun s => It_point (vS (raffine 3 M (rcorner b s)))) corner_bits)) as (c & E & C).
  - lia.
  - discriminate.
  - apply Forall_forall. intros i I. apply in_map_iff in I as (s & <- & S). apply X_point. apply raffine_length.
  - rewrite E. destruct C as (C1 & C2 & C3). apply box_X in C1 as (c0 & -> & B0).
    exists c0. split; [ reflexivity | ]. split; [ exact B0 | ].
    assert (K : forall s, length s = 3%nat -> in_bbox c0 (raffine 3 M (rcorner b s))).
    { intros s S. apply X_in. apply C2. eexists. split; [ apply in_map, corner_bits_all, S | reflexivity ]. }
    split.
    + intros p P.
      assert (P3 : exists x y z, p = [x; y; z]).
      { destruct P as [P _]. destruct B as (L & _). apply Forall2_length in P. 
        destruct p as [|x [|y [|z [|]]]]; simpl in P; try lia. eauto. }
      assert (K3 : forall s, length s = 3%nat -> exists x y z, rcorner b s = [x; y; z]).
      { intros s S. apply bits3 in S as (x & y & z & ->).
        destruct (box3 b B) as (m0 & m1 & m2 & M0 & M1 & M2 & -> & _). unfold rcorner. cbn. eauto. }
      assert (Q : forall i, (i < 3)%nat ->
        nth i (bb_min c0) 0 <= nth i (raffine 3 M p) 0 <= nth i (bb_max c0) 0).
      { intros i I. destruct (affine_extreme b p (ent M i 0) (ent M i 1) (ent M i 2) (ent M i 3) B P) as (s & t & S & T & H1 & H2).
        destruct P3 as (x & y & z & ->).
        assert (KS := K s S). assert (KT := K t T). destruct (K3 s S) as (x1 & y1 & z1 & Es). destruct (K3 t T) as (x2 & y2 & z2 & Et).
        rewrite Es in *. rewrite Et in *. cbn [nth] in H1, H2. rewrite raffine3 in *.
        destruct (box3 c0 B0) as (m0 & m1 & m2 & M0 & M1 & M2 & -> & _). destruct KS as [KS _], KT as [_ KT]. cbn [bb_min bb_max] in *.
        repeat match goal with F : Forall2 _ _ _ |- _ => inversion F; clear F; subst end.
        destruct i as [|[|[|i]]]; [ | | | lia ]; cbn [nth]; lra. }
      destruct P3 as (x & y & z & ->). rewrite raffine3 in *.
      destruct (box3 c0 B0) as (m0 & m1 & m2 & M0 & M1 & M2 & -> & _). cbn [bb_min bb_max] in *.
      assert (Q0 := Q 0%nat ltac:(lia)). assert (Q1 := Q 1%nat ltac:(lia)). assert (Q2 := Q 2%nat ltac:(lia)). cbn [nth] in Q0, Q1, Q2.
      split; cbn [bb_min bb_max]; repeat (apply Forall2_cons; [ lra | ]); constructor.
    + intros c' B' H p P. apply X_in. apply X_in in P. apply (C3 (blift c') (X_box 3 c' B')); [ | exact P ].
      intros q (i & I & Q). apply in_map_iff in I as (s & <- & S). subst q. apply X_in. apply H. now apply corner_bits_all.
Qed.

(** A builder that was given something says so. *)
Lemma initialized_ok : forall {T} {o : ops T} {ol : ordlaws o} n (l : list (bb_item T)), (0 < n)%nat -> Forall (item_ok n) l ->
  exists b, bbb_bounds n l = Ret b /\ bbb_initialized b = negb (match l with [] => true | _ => false end).
Proof.
  intros T o ol n l N I. destruct l as [|i l].
  - exists (bbb_init n). split; [ reflexivity | ]. destruct n; [ lia | ]. apply init_invalid.
  - destruct (bounds_ok n (i :: l) N ltac:(discriminate) I) as (b & E & B). exists b. split; [ exact E | ].
    apply (box_valid n). apply B.
Qed.
Lemma is_empty_ok : forall {T} {o : ops T} {ol : ordlaws o} n (b : bbox T), box_of n b ->
  exists r, bb_is_empty b = Ret r
    /\ (r = true <-> exists i, (i < n)%nat /\ o_eq (vget (bb_min b) i) (vget (bb_max b) i) = true).
Proof.
  intros T o ol n b B. unfold bb_is_empty. rewrite (box_valid n b B). eexists. split; [ reflexivity | ].
  destruct b as [mn mx]. destruct B as (B1 & B2 & B3). simpl in *. revert mn mx B1 B2 B3.
  induction n as [|n IH]; intros mn mx B1 B2 B3.
  - apply point_nil in B1, B2. subst. simpl. split; [ discriminate | ]. intros (i & I & _). lia.
  - apply point_inv in B1 as (x & a & -> & N1 & B1). apply point_inv in B2 as (y & c & -> & N2 & B2).
    apply below_cons in B3 as [B0 B3]. specialize (IH a c B1 B2 B3). simpl.
    destruct (o_le y x) eqn:E.
    + split; [ | reflexivity ]. intros _. exists 0%nat. split; [ lia | ]. unfold vget. simpl.
      rewrite le_true in *. rewrite eq_true. intuition lra.
    + rewrite IH. split.
      * intros (i & I & H). exists (S i). split; [ lia | exact H ].
      * intros ([|i] & I & H); [ | exists i; split; [ lia | exact H ] ].
        unfold vget in H. simpl in H. apply eq_true in H. apply le_false in E; try assumption. lra.
Qed.
Lemma corner_ok : forall {T} {o : ops T} {ol : ordlaws o} n (b : bbox T) s, box_of n b -> length s = n ->
  exists p, bb_corner b s = Ret p /\ length p = n
    /\ forall i, (i < n)%nat -> vget p i = match nth i s C_min with C_min => vget (bb_min b) i | C_max => vget (bb_max b) i end.
Proof.
  intros T o ol n b s B L. unfold bb_corner. rewrite (box_valid n b B). eexists. split; [ reflexivity | ].
  destruct b as [mn mx]. destruct B as ([B1 _] & [B2 _] & _). simpl in *. revert s mn mx L B1 B2.
  induction n; intros [|k s] [|x mn] [|y mx] L B1 B2; try discriminate.
  - split; [ reflexivity | intros; lia ].
  - injection L as L. injection B1 as B1. injection B2 as B2. destruct (IHn s mn mx L B1 B2) as [H1 H2].
    simpl. split; [ lia | ]. intros [|i] I.
    + destruct k; reflexivity.
    + unfold vget in *. simpl. rewrite H2 by lia. reflexivity.
Qed.

(** ** IEEE *)
Section F.
Variables prec emax : Z.
Context {Hprec : FLX.Prec_gt_0 prec} {Hmax : Prec_lt_emax prec emax}.
Notation fl := (binary_float prec emax).
Notation F := (generic_format radix2 (SpecFloat.fexp prec emax)).
Notation rnd := (round radix2 (SpecFloat.fexp prec emax) ZnearestE).

(** Saturation at the overflow threshold. *)
Definition sat (r : R) : R := Rmax (- bpow radix2 emax) (Rmin (bpow radix2 emax) r).
Lemma sat_le : forall r s, r <= s -> sat r <= sat s.
Proof. intros r s H. unfold sat. apply Rle_max_compat_l. now apply Rle_min_compat_l. Qed.
Lemma sat_small : forall r, Rabs r < bpow radix2 emax -> sat r = r.
Proof. intros r H. apply Rabs_lt_inv in H. unfold sat. rewrite Rmin_right, Rmax_right; lra. Qed.
Lemma sat_inf : forall (s : bool) r, bpow radix2 emax <= Rabs r -> (if s then r <= 0 else 0 <= r) ->
  sat r = if s then - bpow radix2 emax else bpow radix2 emax.
Proof.
  intros s r H S. assert (B := bpow_gt_0 radix2 emax). unfold sat. destruct s.
  - rewrite Rabs_left1 in H by assumption. rewrite Rmin_right, Rmax_left; lra.
  - rewrite Rabs_pos_eq in H by assumption. rewrite Rmin_left, Rmax_right; lra.
Qed.
Lemma sign_le : forall x : fl, is_finite x = true -> if Bsign x then B2R x <= 0 else 0 <= B2R x.
Proof.
  intros [s|s| |s m e H] Hx; try discriminate; simpl; try (destruct s; lra).
  destruct s; unfold F2R; simpl.
  - rewrite <- (Ropp_involutive 0), Ropp_0. generalize (bpow_ge_0 radix2 e). intros. 
    assert (IZR (Z.neg m) <= 0) by (apply IZR_le; lia). nra.
  - generalize (bpow_ge_0 radix2 e). intros. assert (0 <= IZR (Z.pos m)) by (apply IZR_le; lia). nra.
Qed.
Lemma inf_key : forall (z : fl) s, B2SF z = binary_overflow prec emax mode_NE s ->
  is_nan z = false /\ key z = if s then - bpow radix2 emax else bpow radix2 emax.
Proof.
  intros z s H. unfold binary_overflow, overflow_to_inf in H. destruct z as [s'|s'| |s' m e Q]; try discriminate.
  injection H as ->. split; [ now rewrite F_is_nan | ]. destruct s; reflexivity.
Qed.
Lemma plus_key : forall x y : fl, is_finite x = true -> is_finite y = true ->
  is_nan (o_add x y) = false /\ key (o_add x y) = sat (rnd (B2R x + B2R y)).
Proof.
  intros x y Hx Hy. assert (C := Bplus_correct prec emax _ _ mode_NE x y Hx Hy). change (o_add x y) with (Bplus mode_NE x y).
  cbn [round_mode] in C. destruct (Rlt_bool_spec (Rabs (rnd (B2R x + B2R y))) (bpow radix2 emax)) as [L|L].
  - destruct C as (C1 & C2 & _). split; [ rewrite F_is_nan; now apply finite_not_nan | ].
    change (Fkey prec emax (Bplus mode_NE x y) = sat (rnd (B2R x + B2R y))). rewrite Fkey_finite by assumption. rewrite C1. now rewrite sat_small.
  - destruct C as [C1 C2]. destruct (inf_key _ _ C1) as [N K]. split; [ exact N | ]. rewrite K. symmetry. apply sat_inf; [ exact L | ].
    assert (S1 := sign_le x Hx). assert (S2 := sign_le y Hy). rewrite <- C2 in S2. destruct (Bsign x).
    + rewrite <- (round_0 radix2 (SpecFloat.fexp prec emax) ZnearestE). apply round_le; try typeclasses eauto. lra.
    + rewrite <- (round_0 radix2 (SpecFloat.fexp prec emax) ZnearestE). apply round_le; try typeclasses eauto. lra.
Qed.
Lemma minus_key : forall x y : fl, is_finite x = true -> is_finite y = true ->
  is_nan (o_sub x y) = false /\ key (o_sub x y) = sat (rnd (B2R x - B2R y)).
Proof.
  intros x y Hx Hy. assert (C := Bminus_correct prec emax _ _ mode_NE x y Hx Hy). change (o_sub x y) with (Bminus mode_NE x y).
  cbn [round_mode] in C. destruct (Rlt_bool_spec (Rabs (rnd (B2R x - B2R y))) (bpow radix2 emax)) as [L|L].
  - destruct C as (C1 & C2 & _). split; [ rewrite F_is_nan; now apply finite_not_nan | ].
    change (Fkey prec emax (Bminus mode_NE x y) = sat (rnd (B2R x - B2R y))). rewrite Fkey_finite by assumption. rewrite C1. now rewrite sat_small.
  - destruct C as [C1 C2]. destruct (inf_key _ _ C1) as [N K]. split; [ exact N | ]. rewrite K. symmetry. apply sat_inf; [ exact L | ].
    assert (S1 := sign_le x Hx). assert (S2 := sign_le y Hy). assert (S3 : Bsign y = negb (Bsign x)) by (rewrite C2; now rewrite negb_involutive).
    rewrite S3 in S2. destruct (Bsign x); simpl in S2.
    + rewrite <- (round_0 radix2 (SpecFloat.fexp prec emax) ZnearestE). apply round_le; try typeclasses eauto. lra.
    + rewrite <- (round_0 radix2 (SpecFloat.fexp prec emax) ZnearestE). apply round_le; try typeclasses eauto. lra.
Qed.
Lemma rnd_key : forall x : fl, is_finite x = true -> key x = sat (rnd (B2R x)).
Proof.
  intros x Hx. rewrite round_generic; [ | typeclasses eauto | apply generic_format_B2R ].
  rewrite sat_small by apply abs_B2R_lt_emax. apply (Fkey_finite prec emax x Hx).
Qed.

Lemma finite_le : forall x y : fl, is_finite x = true -> is_finite y = true -> o_le x y = true -> B2R x <= B2R y.
Proof. intros x y Hx Hy H. apply le_true in H as (_ & _ & H). change (Fkey prec emax x <= Fkey prec emax y) in H. now rewrite !Fkey_finite in H. Qed.

Notation finite_vec n a := (length a = n /\ Forall (fun x : fl => is_finite x = true) a).
Lemma F_translate : forall n (b : bbox fl) (d : list fl), box_of n b -> finite_vec n (bb_min b) -> finite_vec n (bb_max b) -> finite_vec n d ->
  exists c, bb_translate b d = Ret c /\ box_of n c /\ bb_min c = v_add (bb_min b) d /\ bb_max c = v_add (bb_max b) d.
Proof.
  intros n b d B [L1 F1] [L2 F2] [L3 F3]. unfold bb_translate. rewrite (box_valid n b B). simpl require.
  destruct b as [mn mx]. simpl in *. destruct B as (_ & _ & B). simpl in B.
  assert (Q : point_of n (v_add mn d) /\ point_of n (v_add mx d) /\ vec_below (v_add mn d) (v_add mx d)).
  { clear - L1 F1 L2 F2 L3 F3 B. revert mn mx d L1 F1 L2 F2 L3 F3 B.
    induction n; intros [|x mn] [|y mx] [|z d] L1 F1 L2 F2 L3 F3 B; try discriminate.
    - repeat split; constructor.
    - injection L1 as L1. injection L2 as L2. injection L3 as L3.
      apply Forall_cons_iff in F1 as [F10 F1]. apply Forall_cons_iff in F2 as [F20 F2]. apply Forall_cons_iff in F3 as [F30 F3].
      apply below_cons in B as [B0 B]. destruct (IHn mn mx d L1 F1 L2 F2 L3 F3 B) as (Q1 & Q2 & Q3).
      change (v_add (x :: mn) (z :: d)) with (o_add x z :: v_add mn d). change (v_add (y :: mx) (z :: d)) with (o_add y z :: v_add mx d).
      rewrite !point_cons, below_cons. destruct (plus_key x z F10 F30) as [N1 K1]. destruct (plus_key y z F20 F30) as [N2 K2].
      repeat split; try assumption; try apply Q1; try apply Q2.
      apply le_true. rewrite K1, K2. repeat split; try assumption. apply sat_le. apply round_le; try typeclasses eauto.
      apply finite_le in B0; try assumption. lra. }
  destruct Q as (Q1 & Q2 & Q3). destruct (make_ok n _ _ Q1 Q2 Q3) as [E C]. rewrite E. eexists. split; [ reflexivity | ]. auto.
Qed.
Lemma F_expand : forall n (b : bbox fl) (f : fl), box_of n b -> finite_vec n (bb_min b) -> finite_vec n (bb_max b) ->
  is_finite f = true -> o_le (cst 0) f = true ->
  exists c, bb_expand b f = Ret c /\ box_of n c /\ (forall p, in_set b p -> in_set c p)
   /\ bb_min c = map (fun x => o_sub x f) (bb_min b) /\ bb_max c = map (fun x => o_add x f) (bb_max b).
Proof.
  intros n b f B [L1 F1] [L2 F2] Ff Pf.
  assert (Pf' : 0 <= B2R f).
  { apply le_true in Pf as (_ & _ & H). rewrite (proj2 (num_cst 0 ltac:(lia))) in H. change (0 <= Fkey prec emax f) in H. now rewrite Fkey_finite in H. }
  clear Pf. unfold bb_expand. rewrite (box_valid n b B). simpl require.
  assert (B' := B). destruct b as [mn mx]. simpl in *. destruct B as (P1 & P2 & B). simpl in P1, P2, B. rewrite L1.
  assert (E1 : v_sub mn (v_fill n f) = map (fun x => o_sub x f) mn).
  { clear - L1. revert n L1. unfold v_sub, v_fill. induction mn; intros [|n] L; try discriminate; simpl; [ reflexivity | ]. f_equal. apply IHmn. now injection L. }
  assert (E2 : v_add mx (v_fill n f) = map (fun x => o_add x f) mx).
  { clear - L2. revert n L2. unfold v_add, v_fill. induction mx; intros [|n] L; try discriminate; simpl; [ reflexivity | ]. f_equal. apply IHmx. now injection L. }
  rewrite E1, E2.
  assert (A1 : point_of n (map (fun x => o_sub x f) mn) /\ vec_below (map (fun x => o_sub x f) mn) mn).
  { clear - L1 F1 Ff Pf'. revert n L1 F1. induction mn as [|x mn IH]; intros [|n] L F1; try discriminate; [ repeat split; constructor | ].
    injection L as L. apply Forall_cons_iff in F1 as [F10 F1]. destruct (IH n L F1) as [I1 I2]. cbn [map]. rewrite point_cons, below_cons.
    destruct (minus_key x f F10 Ff) as [N K]. repeat split; try assumption; try apply I1.
    apply le_true. rewrite K, (rnd_key x F10). split; [ assumption | ]. split; [ rewrite F_is_nan; now apply finite_not_nan | ].
    apply sat_le, round_le; try typeclasses eauto. lra. }
  assert (A2 : point_of n (map (fun x => o_add x f) mx) /\ vec_below mx (map (fun x => o_add x f) mx)).
  { clear - L2 F2 Ff Pf'. revert n L2 F2. induction mx as [|x mx IH]; intros [|n] L F1; try discriminate; [ repeat split; constructor | ].
    injection L as L. apply Forall_cons_iff in F1 as [F10 F1]. destruct (IH n L F1) as [I1 I2]. cbn [map]. rewrite point_cons, below_cons.
    destruct (plus_key x f F10 Ff) as [N K]. repeat split; try assumption; try apply I1.
    apply le_true. rewrite K, (rnd_key x F10). split; [ rewrite F_is_nan; now apply finite_not_nan | ]. split; [ assumption | ].
    apply sat_le, round_le; try typeclasses eauto. lra. }
  destruct A1 as [A1 A3], A2 as [A2 A4].
  destruct (make_ok n _ _ A1 A2) as [E C]. { eapply below_trans; [ exact A3 | ]. eapply below_trans; [ exact B | exact A4 ]. }
  rewrite E. eexists. split; [ reflexivity | ]. split; [ exact C | ]. split; [ | split; reflexivity ].
  apply (subset_iff n); [ exact B' | ]. split; [ exact A3 | exact A4 ].
Qed.
End F.

(** Checking that a given box or point meets the hypotheses. *)
Lemma point_check : forall {T} {o : ops T} {ol : ordlaws o} n (a : list T),
  (Nat.eqb (length a) n && forallb (fun x => negb (is_nan x)) a)%bool = true -> point_of n a.
Proof.
  intros T o ol n a H. apply andb_prop in H as [H1 H2]. split; [ now apply Nat.eqb_eq | ].
  apply nums_iff. apply Forall_forall. intros x X. rewrite forallb_forall in H2. apply H2 in X. now apply negb_true_iff.
Qed.
Lemma box_check : forall {T} {o : ops T} {ol : ordlaws o} n (b : bbox T),
  (Nat.eqb (length (bb_min b)) n && forallb (fun x => negb (is_nan x)) (bb_min b)
   && (Nat.eqb (length (bb_max b)) n && forallb (fun x => negb (is_nan x)) (bb_max b)) && bb_is_valid b)%bool = true -> box_of n b.
Proof.
  intros T o ol n b H. apply andb_prop in H as [H H3]. apply andb_prop in H as [H1 H2].
  apply point_check in H1, H2. split; [ exact H1 | ]. split; [ exact H2 | ]. now apply (valid2_iff n).
Qed.
Definition wit_box : bbox double := BB [D 0 0; D 1 (-60); D 0 0] [D 1 0; D 1 0; D 1 0].
Lemma ret_of : forall {A} (x : outcome (list A)), match x with Ret _ => true | _ => false end = true ->
  x = Ret (match x with Ret l => l | _ => [] end).
Proof. intros A [l| | |]; try discriminate. reflexivity. Qed.
