(** Convex hulls of clusters of grid points: the order of the points does not matter, and the hull of a hull is the hull (C60, C98). *)
From Coq Require Import ZArith Reals List Lia Lra Bool Psatz.
From Flocq Require Import Core BinarySingleNaN.
From Verif Require Import Ops M_scalar M_vec M_mat M_hull Inst_F Inst_XR S_vec S_mat S_polygon S_hull S_rnd S_grid S_hullg.
From Verif Require Import P_ord P_ieee P_xr P_vec P_vec2 P_fp P_grid P_grid2 P_grid3 P_polygon P_hull2d P_hull3 P_hull4 P_hull5 P_hull6 P_hullg P_hullg2 P_hullg3.
Import ListNotations.
Local Open Scope R_scope.

Section Grid.
Variables prec emax : Z.
Context {Hprec : Prec_gt_0 prec} {Hmax : Prec_lt_emax prec emax}.
Notation fl := (binary_float prec emax).
Notation fits := (representable prec emax).
Notation X p := (vS (values p)).
Notation Xs := (map (fun p => X p)).
Variables e K D : Z.
Hypothesis HD : (0 <= D)%Z.
Hypothesis F1 : fits e (K + K).
Hypothesis F4 : fits (4 * e) (18 * D ^ 4).
Hypothesis E1 : is_finite (colinear_epsilon : fl) = true.
Hypothesis E2 : 0 <= B2R (colinear_epsilon : fl) < bpow radix2 (4 * e).
Hypothesis E3 : / 100000 < bpow radix2 (4 * e).
Notation cluster := (grid_cluster e K D).

Lemma small_powers : fits (e + e) (2 * (D * D)) /\ fits (e + e) (3 * (D * D)) /\ fits (e + e + (e + e)) (2 * (3 * (D * D) * (3 * (D * D)))).
Proof.
  assert (EE : (e + e + (e + e) = 4 * e)%Z) by lia.
  assert (M : (2 * (3 * (D * D) * (3 * (D * D))) = 18 * D ^ 4)%Z) by ring.
  assert (B : (3 * (D * D) <= 18 * D ^ 4)%Z).
  { replace (D ^ 4)%Z with (D * D * (D * D))%Z by ring. assert (0 <= D * D)%Z by nia. destruct (Z.eq_dec (D * D) 0); nia. }
  assert (F5 : fits (e + e) (3 * (D * D))) by (unfold representable in *; destruct F1 as [L1 _], F4 as [L4 U4]; lia).
  split; [apply (fits_le prec emax _ _ _ F5); nia|]. split; [exact F5|]. now rewrite EE, M.
Qed.
Lemma exact_run : forall sort (ps : list (list fl)), sorts sort -> cluster ps ->
  exists sortX, sorts sortX /\ orel (pair_in prec emax ps) (convex_hull sort ps) (convex_hull sortX (map vS (map values ps))).
Proof.
  intros sort ps HS C. destruct small_powers as (G2 & G5 & G4).
  assert (EE : (e + e + (e + e) = 4 * e)%Z) by lia.
  rewrite map_map. apply (hull_transfer prec emax e K D HD F1 G2 G4 G5); rewrite ?EE; auto.
Qed.
Lemma near : forall ps (p0 p1 p : list fl), cluster ps -> In p0 ps -> In p1 ps -> In p ps -> spread (values p0) (values p1) (values p) <= / 100000 ->
  collinear (values p0) (values p1) (values p).
Proof.
  intros ps p0 p1 p C P0 P1 P2 W. destruct small_powers as (G2 & G5 & G4).
  assert (EE : (e + e + (e + e) = 4 * e)%Z) by lia.
  destruct (colinear_X' prec emax e K D HD F1 G4 G5 E1 ltac:(now rewrite EE) ltac:(now rewrite EE) ps p0 p1 p C P0 P1 P2) as [Q1 Q2].
  assert (L : forall q, In q ps -> length (values q) = 3%nat) by (intros q Hq; unfold values; rewrite map_length; apply (cluster_ok prec emax e K D _ q C Hq)).
  apply colinear_exact; [rewrite !L by assumption; reflexivity|rewrite !L by assumption; reflexivity|].
  apply colinear_eps; [rewrite !L by assumption; reflexivity|rewrite !L by assumption; reflexivity|lra|].
  fold (spread (values p0) (values p1) (values p)). apply colinear_X in W; auto.
  assert (Z : spread (values p0) (values p1) (values p) = 0) by (apply Q2; etransitivity; [exact Q1|exact W]). rewrite Z. lra.
Qed.
Lemma apart : forall ps (p0 p1 p : list fl), cluster ps -> In p0 ps -> In p1 ps -> In p ps -> ~ collinear (values p0) (values p1) (values p) ->
  / 100000 < spread (values p0) (values p1) (values p).
Proof.
  intros ps p0 p1 p C P0 P1 P2 N. destruct (Rlt_le_dec (/ 100000) (spread (values p0) (values p1) (values p))) as [|W]; auto. exfalso. apply N. now apply (near ps).
Qed.
Lemma flat_spread : forall a b c, length a = 3%nat -> length b = 3%nat -> length c = 3%nat -> collinear a b c -> spread a b c = 0.
Proof.
  intros a b c A B C W. apply colinear_exact in W; [|congruence|congruence]. apply colinear_eps in W; [|congruence|congruence|lra]. fold (spread a b c) in W.
  assert (P : 0 <= spread a b c) by (rewrite spread_cross by assumption; apply rdot_nonneg). lra.
Qed.
Lemma apart_some : forall (p0 p1 : list fl) ps, cluster (p0 :: p1 :: ps) -> Exists (fun p => ~ collinear (values p0) (values p1) (values p)) ps ->
  Exists (fun p => / 100000 < spread (values p0) (values p1) p) (map values ps).
Proof.
  intros p0 p1 ps C EX. apply Exists_exists in EX. destruct EX as (p & Hp & N). apply Exists_exists. exists (values p). split; [now apply in_map|].
  apply (apart (p0 :: p1 :: ps)); auto; [now left|right; now left|right; now right].
Qed.
Lemma grid_hull_set : forall sort1 sort2 n (p0 p1 q0 q1 : list fl) ps qs, sorts sort1 -> sorts sort2 ->
  cluster (p0 :: p1 :: ps) -> cluster (q0 :: q1 :: qs) -> coplanar n (map values (p0 :: p1 :: ps)) ->
  incl (map values (p0 :: p1 :: ps)) (map values (q0 :: q1 :: qs)) -> incl (map values (q0 :: q1 :: qs)) (map values (p0 :: p1 :: ps)) ->
  Exists (fun p => ~ collinear (values p0) (values p1) (values p)) ps -> Exists (fun q => ~ collinear (values q0) (values q1) (values q)) qs ->
  exists h1 h2, convex_hull sort1 (p0 :: p1 :: ps) = Ret h1 /\ convex_hull sort2 (q0 :: q1 :: qs) = Ret h2 /\ map values h1 = map values h2.
Proof.
  intros sort1 sort2 n p0 p1 q0 q1 ps qs H1 H2 C1 C2 CO I J X1 X2.
  destruct (exact_run sort1 _ H1 C1) as (s1 & S1 & O1). destruct (exact_run sort2 _ H2 C2) as (s2 & S2 & O2).
  assert (E := hull_set s1 s2 n _ _ _ _ _ _ S1 S2 CO I J (apart_some _ _ _ C1 X1) (apart_some _ _ _ C2 X2)).
  destruct (hull_main s1 n _ _ _ S1 CO (apart_some _ _ _ C1 X1)) as (h & HE & _). rewrite HE in E. 
  assert (HE1 : convex_hull s1 (map vS (map values (p0 :: p1 :: ps))) = Ret (map vS h)) by exact HE.
  assert (HE2 : convex_hull s2 (map vS (map values (q0 :: q1 :: qs))) = Ret (map vS h)) by (symmetry; exact E). rewrite HE1 in O1. rewrite HE2 in O2.
  destruct (convex_hull sort1 (p0 :: p1 :: ps)) as [h1| | |]; try contradiction. destruct (convex_hull sort2 (q0 :: q1 :: qs)) as [h2| | |]; try contradiction.
  exists h1, h2. split; [reflexivity|]. split; [reflexivity|]. destruct O1 as [O1 _], O2 as [O2 _]. apply values_X in O1, O2. congruence.
Qed.
(** Vertices of a hull are different points. *)
Lemma turn_flat : forall axis a b c, (axis < 3)%nat -> length a = 3%nat -> length b = 3%nat -> length c = 3%nat -> spread a b c = 0 -> turn (along axis) a b c = 0.
Proof.
  intros axis a b c A La Lb Lc S. rewrite spread_cross in S by assumption. rewrite turn_along by assumption.
  assert (Z := cross_axis axis a c b A La Lc Lb). rewrite <- Z.
  assert (W : forall v, rdot v v = 0 -> forall i, nth i v 0 = 0).
  { clear. induction v as [|x v IH]; intros H i; [now destruct i|]. cbn in H. assert (P := rdot_nonneg v). unfold rdot in *. cbn in *. destruct i; [nra|]. apply IH. nra. }
  assert (Q : rdot (rcross (rsub b a) (rsub c a)) (rcross (rsub b a) (rsub c a)) = rdot (rcross (rsub c a) (rsub b a)) (rcross (rsub c a) (rsub b a))).
  { destruct a as [|a0 [|a1 [|a2 [|]]]]; try discriminate. destruct b as [|b0 [|b1 [|b2 [|]]]]; try discriminate. destruct c as [|c0 [|c1 [|c2 [|]]]]; try discriminate. cbn. ring. }
  rewrite S in Q. now apply W.
Qed.
Lemma values_inj : forall (h hull : list (list fl)), NoDup (map values hull) -> incl h hull -> map values h = map values hull -> h = hull.
Proof.
  intros h hull ND I E. assert (W : forall l m : list (list fl), incl l hull -> incl m hull -> map values l = map values m -> l = m).
  { intros l. induction l as [|x l IH]; intros [|y m] Il Im EM; try discriminate; [reflexivity|]. cbn [map] in EM.
    assert (EV : values x = values y) by congruence. assert (ER : map values l = map values m) by congruence. f_equal.
    - assert (Ix := Il x (or_introl eq_refl)). assert (Iy := Im y (or_introl eq_refl)). clear - ND Ix Iy EV. induction hull as [|z hull IHh]; [destruct Ix|].
      cbn [map] in ND. inversion ND as [|? ? N1 N2]; subst. destruct Ix as [->|Ix], Iy as [->|Iy]; auto.
      + exfalso. apply N1. rewrite EV. now apply in_map.
      + exfalso. apply N1. rewrite <- EV. now apply in_map.
    - apply IH; auto; intros z Hz; [apply Il|apply Im]; now right. }
  apply W; auto. apply incl_refl.
Qed.
Lemma grid_hull_again : forall sort sort' n (p0 p1 : list fl) ps hull, sorts sort -> sorts sort' ->
  cluster (p0 :: p1 :: ps) -> coplanar n (map values (p0 :: p1 :: ps)) -> convex_hull sort (p0 :: p1 :: ps) = Ret hull ->
  convex_hull sort' hull = Ret hull.
Proof.
  intros sort sort' n p0 p1 ps hull HS HS' C CO EH.
  destruct (hull_cluster prec emax e K D sort p0 p1 ps HS C HD F1 F4 E1 E2 E3) as (G1 & G2).
  assert (CD : {Forall (fun p => collinear (values p0) (values p1) (values p)) ps} + {Exists (fun p => ~ collinear (values p0) (values p1) (values p)) ps}).
  { assert (L : forall q, In q (p0 :: p1 :: ps) -> length (values q) = 3%nat) by (intros q Hq; unfold values; rewrite map_length; apply (cluster_ok prec emax e K D _ q C Hq)).
    destruct (Forall_Exists_dec (fun p => spread (values p0) (values p1) (values p) <= / 100000) (fun p => Rle_dec _ _) ps) as [F|F]; [left|right].
    - rewrite Forall_forall in F |- *. intros p Hp. apply (near (p0 :: p1 :: ps)); auto; [now left|right; now left|right; now right].
    - apply Exists_exists in F. destruct F as (p & Hp & N). apply Exists_exists. exists p. split; [exact Hp|]. intros W. apply N.
      rewrite flat_spread; [lra|apply L; now left|apply L; right; now left|apply L; right; now right|exact W]. }
  destruct CD as [FA|EX].
  { rewrite (G2 FA) in EH. injection EH as <-. reflexivity. }
  destruct (G1 EX) as (hull' & E' & IH & _ & (axis & AX & (LV & IV & ST & AR))). assert (hull' = hull) by congruence. subst hull'. clear E' G1 G2.
  assert (CH : cluster hull). { destruct C as (A & B). split; [rewrite Forall_forall in A |- *; auto|]. intros p q Hp Hq. apply B; auto. }
  destruct hull as [|h0 [|h1 [|h2 hs]]]; cbn [map length] in LV; try lia.
  assert (L : forall q, In q (h0 :: h1 :: h2 :: hs) -> length (values q) = 3%nat) by (intros q Hq; unfold values; rewrite map_length; apply (cluster_ok prec emax e K D _ q CH Hq)).
  assert (NC : ~ collinear (values h0) (values h1) (values h2)).
  { intros W. assert (T := ST 1%nat 2%nat ltac:(lia) ltac:(cbn [map length]; lia)). unfold vertex in T. rewrite !Nat.mod_small in T by (cbn [map length]; lia). cbn [map nth] in T.
    rewrite turn_flat in T; try apply L; cbn; auto; [lra|]. assert (L0 := L h0 ltac:(cbn; auto)). assert (L1 := L h1 ltac:(cbn; auto)). assert (L2 := L h2 ltac:(cbn; auto)).
    now apply flat_spread. }
  assert (SP := apart _ _ _ _ CH (or_introl eq_refl) (or_intror (or_introl eq_refl)) (or_intror (or_intror (or_introl eq_refl))) NC).
  destruct (exact_run sort _ HS C) as (s1 & S1 & O1). destruct (exact_run sort' _ HS' CH) as (s2 & S2 & O2).
  rewrite EH in O1. destruct (convex_hull s1 (map vS (map values (p0 :: p1 :: ps)))) as [hX| | |] eqn:HX; try contradiction. cbn [orel] in O1. destruct O1 as [O1 _].
  assert (HX' : hX = map vS (map values (h0 :: h1 :: h2 :: hs))) by (rewrite O1, map_map; reflexivity). rewrite HX' in HX.
  assert (AG := hull_again s1 s2 n _ _ _ _ _ _ S1 S2 CO HX (Exists_cons_hd _ _ _ SP)). 
  assert (AG' : convex_hull s2 (map vS (map values (h0 :: h1 :: h2 :: hs))) = Ret (map vS (map values (h0 :: h1 :: h2 :: hs)))) by exact AG. rewrite AG' in O2.
  destruct (convex_hull sort' (h0 :: h1 :: h2 :: hs)) as [h| | |]; try contradiction. destruct O2 as [O2 O3].
  f_equal. apply values_inj.
  - (* different points *)
    assert (G : forall i j, (i < j)%nat -> (j < length (map values (h0 :: h1 :: h2 :: hs)))%nat -> nth i (map values (h0 :: h1 :: h2 :: hs)) [] <> nth j (map values (h0 :: h1 :: h2 :: hs)) []).
    { set (V := map values (h0 :: h1 :: h2 :: hs)) in *. assert (LV3 : (3 <= length V)%nat) by (unfold V; cbn [map length]; lia).
      assert (L' : forall q, In q V -> length q = 3%nat) by (intros q Hq; apply in_map_iff in Hq; destruct Hq as (q' & <- & Hq); now apply L). clearbody V. intros i j Hij Hj EQ.
      assert (VN : forall k, (k < length V)%nat -> vertex V k = nth k V []) by (intros k Hk; unfold vertex; now rewrite Nat.mod_small).
      assert (LN : forall k, length (nth k V []) = 3%nat \/ (length V <= k)%nat) by (intros k; destruct (Nat.lt_ge_cases k (length V)); [left; apply L'; now apply nth_In|now right]).
      assert (L3 : forall k, (k < length V)%nat -> length (nth k V []) = 3%nat) by (intros k Hk; destruct (LN k); [assumption|lia]).
      destruct (Nat.eq_dec i 0) as [->|I0].
      - destruct (Nat.eq_dec j 1) as [->|J1].
        + assert (T := ST 1%nat 2%nat ltac:(lia) ltac:(lia)). rewrite !VN, turn_along in T by (try apply L3; lia). rewrite EQ in T. unfold or3 in T. lra.
        + assert (T := ST 1%nat j ltac:(lia) Hj). rewrite !VN, turn_along in T by (try apply L3; lia). rewrite EQ in T. unfold or3 in T. lra.
      - assert (T := ST i j ltac:(lia) Hj). rewrite !VN, turn_along in T by (try apply L3; lia). rewrite EQ in T. unfold or3 in T. lra. }
    apply (NoDup_nth _ []). intros i j Hi Hj EQ. destruct (Nat.lt_trichotomy i j) as [W|[W|W]]; [exfalso; now apply (G i j)|exact W|exfalso; now apply (G j i)].
  - exact O3.
  - symmetry. apply (values_X prec emax h). exact O2.
Qed.
End Grid.
Lemma hull_set_double : forall e K D sort1 sort2 n (p0 p1 q0 q1 : list double) ps qs, sorts sort1 -> sorts sort2 ->
  grid_cluster e K D (p0 :: p1 :: ps) -> grid_cluster e K D (q0 :: q1 :: qs) ->
  (-4 <= e <= 242)%Z -> (K < 2 ^ 52)%Z -> (0 <= D <= 4729)%Z -> coplanar n (map values (p0 :: p1 :: ps)) ->
  incl (map values (p0 :: p1 :: ps)) (map values (q0 :: q1 :: qs)) -> incl (map values (q0 :: q1 :: qs)) (map values (p0 :: p1 :: ps)) ->
  Exists (fun p => ~ collinear (values p0) (values p1) (values p)) ps -> Exists (fun q => ~ collinear (values q0) (values q1) (values q)) qs ->
  exists h1 h2, convex_hull sort1 (p0 :: p1 :: ps) = Ret h1 /\ convex_hull sort2 (q0 :: q1 :: qs) = Ret h2 /\ map values h1 = map values h2.
Proof.
  intros e K D0 sort1 sort2 n p0 p1 q0 q1 ps qs H1 H2 C1 C2 He HK HD. destruct eps_double as (F & L & U).
  assert (B : bpow radix2 (-16) <= bpow radix2 (4 * e)) by (apply bpow_le; lia).
  apply (grid_hull_set 53 1024 e K D0); auto; try lia.
  - unfold representable. lia.
  - unfold representable. split; [lia|]. replace (18 * D0 ^ 4)%Z with (18 * ((D0 * D0) * (D0 * D0)))%Z by ring. assert (D0 * D0 <= 4729 * 4729)%Z by nia. assert (0 <= D0 * D0)%Z by nia.
    assert (D0 * D0 * (D0 * D0) <= (4729 * 4729) * (4729 * 4729))%Z by nia. lia.
  - split; [exact L|]. now apply Rlt_le_trans with (2 := B).
  - eapply Rlt_le_trans; [|exact B]. cbn. lra.
Qed.
Lemma hull_again_double : forall e K D sort sort' n (p0 p1 : list double) ps hull, sorts sort -> sorts sort' ->
  grid_cluster e K D (p0 :: p1 :: ps) -> (-4 <= e <= 242)%Z -> (K < 2 ^ 52)%Z -> (0 <= D <= 4729)%Z ->
  coplanar n (map values (p0 :: p1 :: ps)) -> convex_hull sort (p0 :: p1 :: ps) = Ret hull ->
  convex_hull sort' hull = Ret hull.
Proof.
  intros e K D0 sort sort' n p0 p1 ps hull HS HS' C He HK HD. destruct eps_double as (F & L & U).
  assert (B : bpow radix2 (-16) <= bpow radix2 (4 * e)) by (apply bpow_le; lia).
  apply (grid_hull_again 53 1024 e K D0); auto; try lia.
  - unfold representable. lia.
  - unfold representable. split; [lia|]. replace (18 * D0 ^ 4)%Z with (18 * ((D0 * D0) * (D0 * D0)))%Z by ring. assert (D0 * D0 <= 4729 * 4729)%Z by nia. assert (0 <= D0 * D0)%Z by nia.
    assert (D0 * D0 * (D0 * D0) <= (4729 * 4729) * (4729 * 4729))%Z by nia. lia.
  - split; [exact L|]. now apply Rlt_le_trans with (2 := B).
  - eapply Rlt_le_trans; [|exact B]. cbn. lra.
Qed.
(** The same points in two orders: one hull is empty. *)
Lemma hull_order : forall sort, sorts sort ->
  convex_hull sort (map vS [[0; 0; 0]; [0; 0; 0]; [8; 0; 0]; [0; 8; 0]]) = Ret []
  /\ exists hull, convex_hull sort (map vS [[0; 0; 0]; [8; 0; 0]; [0; 8; 0]; [0; 0; 0]]) = Ret (map vS hull) /\ (3 <= length hull)%nat.
Proof.
  intros sort HS. split; [apply doubled_point|].
  destruct (hull_main sort [0; 0; 1] [0; 0; 0] [8; 0; 0] [[0; 8; 0]; [0; 0; 0]] HS) as (hull & E & L & _).
  - split; [reflexivity|]. split; [cbn; lra|]. split; [repeat constructor|]. intros p q Hp Hq. cbn in Hp, Hq. intuition; subst; cbn; ring.
  - left. unfold spread. cbn. lra.
  - now exists hull.
Qed.
