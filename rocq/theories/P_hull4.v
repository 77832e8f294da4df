(** Proofs about the convex hull (C60): points in space. *)
From Coq Require Import ZArith Reals List Bool Lia Lra Psatz Arith Sorted Permutation.
From Flocq Require Import Core.
From Verif Require Import Ops M_scalar M_vec M_hull Inst_XR S_vec S_polygon S_hull P_xr P_vec P_vec2 P_sort P_line P_polygon P_hull2d P_hull P_hull3.
Import ListNotations.
Local Open Scope R_scope.

Definition sw (axis : nat) (v : list R) : list R := [across axis v; height axis v; nth axis v 0].
Lemma mapM_swizzle : forall axis ps, (axis < 3)%nat -> Forall (fun p => length p = 3%nat) ps ->
  mapM (fun p => v_swizzle p axis) (map vS ps) = Ret (map vS (map (sw axis) ps)).
Proof.
  intros axis ps A F. induction F as [|p ps L F IH]; [reflexivity|]. cbn [map mapM]. rewrite X_swizzle by assumption. cbn [bind]. rewrite IH. reflexivity.
Qed.
Lemma mapM_unswizzle : forall axis hull, (axis < 3)%nat -> Forall (fun p => length p = 3%nat) hull ->
  mapM (fun p => v_unswizzle p axis) (map vS (map (sw axis) hull)) = Ret (map vS hull).
Proof.
  intros axis ps A F. induction F as [|p ps L F IH]; [reflexivity|]. cbn [map mapM].
  assert (U : v_unswizzle (vS (sw axis p)) axis = Ret (vS p)).
  { destruct p as [|u [|v [|w [|]]]]; try discriminate. destruct axis as [|[|[|]]]; try lia; reflexivity. }
  change (map Some (sw axis p)) with (vS (sw axis p)). rewrite U. cbn [bind]. rewrite IH. reflexivity.
Qed.
Lemma incl_map_inv : forall (A B : Type) (f : A -> B) V l, incl V (map f l) -> exists h, V = map f h /\ incl h l.
Proof.
  intros A B f V l. induction V as [|v V IH]; intros H; [exists []; split; [reflexivity|easy]|].
  destruct IH as (h & E & I); [intros z Hz; apply H; now right|].
  assert (Hv := H v (or_introl eq_refl)). apply in_map_iff in Hv. destruct Hv as (u & E1 & Hu). exists (u :: h). subst. split; [reflexivity|].
  intros z [Hz|Hz]; [now subst|now apply I].
Qed.
Lemma eps_X : colinear_epsilon = Some (/ 100000) :> XR.
Proof. unfold colinear_epsilon. rewrite X_lit by lia. f_equal. lra. Qed.
Lemma colinear_X : forall a b c, length a = 3%nat -> length b = 3%nat -> length c = 3%nat ->
  (v_is_colinear (vS a) (vS b) (vS c) colinear_epsilon = true <-> spread a b c <= / 100000).
Proof. intros a b c A B C. rewrite eps_X. apply colinear_eps; try congruence. lra. Qed.
Lemma find_third : forall p0 p1 rest i, length p0 = 3%nat -> length p1 = 3%nat -> Forall (fun p => length p = 3%nat) rest ->
  let k := find_linearly_independent_point (vS p0) (vS p1) (map vS rest) i in
  (k = (i + length rest)%nat /\ Forall (fun p => spread p0 p1 p <= / 100000) rest)
  \/ exists j, k = (i + j)%nat /\ (j < length rest)%nat /\ / 100000 < spread p0 p1 (nth j rest []).
Proof.
  intros p0 p1 rest i L0 L1 F. revert i. induction F as [|p rest L F IH]; intros i; cbn [map find_linearly_independent_point].
  - left. split; [cbn; lia|constructor].
  - destruct (v_is_colinear (vS p0) (vS p1) (vS p) colinear_epsilon) eqn:E.
    + apply colinear_X in E; auto. destruct (IH (S i)) as [(A & B)|(j & A & B & C)].
      * left. split; [cbn [length]; lia|now constructor].
      * right. exists (S j). cbn [length nth]. split; [lia|]. split; [lia|exact C].
    + right. exists 0%nat. cbn [length nth]. split; [lia|]. split; [lia|].
      destruct (Rlt_le_dec (/ 100000) (spread p0 p1 p)) as [W|W]; [exact W|]. apply colinear_X in W; auto. congruence.
Qed.
(** Lagrange's identity *)
Lemma spread_cross : forall a b c, length a = 3%nat -> length b = 3%nat -> length c = 3%nat ->
  spread a b c = rdot (rcross (rsub c a) (rsub b a)) (rcross (rsub c a) (rsub b a)).
Proof.
  intros [|a0 [|a1 [|a2 [|]]]] [|b0 [|b1 [|b2 [|]]]] [|c0 [|c1 [|c2 [|]]]] A B C; try discriminate. unfold spread. cbn. ring.
Qed.
Lemma cross_axis : forall axis a b c, (axis < 3)%nat -> length a = 3%nat -> length b = 3%nat -> length c = 3%nat ->
  nth axis (rcross (rsub c a) (rsub b a)) 0 = o3 (sw axis a) (sw axis c) (sw axis b).
Proof.
  intros axis [|a0 [|a1 [|a2 [|]]]] [|b0 [|b1 [|b2 [|]]]] [|c0 [|c1 [|c2 [|]]]] X A B C; try discriminate.
  destruct axis as [|[|[|]]]; try lia; cbn; unfold or3, px, py; cbn; ring.
Qed.

Lemma turn_along : forall axis a b c, (axis < 3)%nat -> length a = 3%nat -> length b = 3%nat -> length c = 3%nat ->
  turn (along axis) a b c = o3 (sw axis a) (sw axis b) (sw axis c).
Proof.
  intros axis [|a0 [|a1 [|a2 [|]]]] [|b0 [|b1 [|b2 [|]]]] [|c0 [|c1 [|c2 [|]]]] X A B C; try discriminate.
  destruct axis as [|[|[|]]]; try lia; unfold turn, along, or3, px, py; cbn; ring.
Qed.
Lemma hull_any : forall sort p0 p1 ps, sorts sort -> Forall (fun p => length p = 3%nat) (p0 :: p1 :: ps) ->
  Exists (fun p => / 100000 < spread p0 p1 p) ps ->
  exists axis hull, convex_hull sort (map vS (p0 :: p1 :: ps)) = Ret (map vS hull) /\ (axis < 3)%nat /\ seen_hull axis (p0 :: p1 :: ps) hull
    /\ exists p, In p ps /\ / 100000 < spread p0 p1 p
       /\ (forall j, Rabs (nth j (rcross (rsub p p0) (rsub p1 p0)) 0) <= Rabs (nth axis (rcross (rsub p p0) (rsub p1 p0)) 0)) /\ turn (along axis) p0 p p1 <> 0.
Proof.
  intros sort p0 p1 ps HS F EX. set (pts := p0 :: p1 :: ps) in *.
  inversion F as [|? ? L0 F0]; subst. inversion F0 as [|? ? L1 F1]; subst.
  assert (NE : ps <> []) by (intros E; subst ps; inversion EX).
  unfold convex_hull. destruct ps as [|p2 ps']; [congruence|]. cbn [map pts]. set (ps := p2 :: ps') in *. fold pts.
  change (vS p0 :: vS p1 :: vS p2 :: map vS ps') with (map vS pts).
  change (skipn 2 (map vS pts)) with (map vS ps).
  destruct (find_third p0 p1 ps 2 L0 L1 F1) as [(A & B)|(j & A & B & C)].
  { exfalso. apply Exists_exists in EX. destruct EX as (p & Hp & W). rewrite Forall_forall in B. specialize (B p Hp). lra. }
  rewrite A. rewrite map_length. replace (length pts <=? 2 + j)%nat with false by (symmetry; apply Nat.leb_gt; cbn [pts length]; lia).
  change (@nil XR) with (vS []). rewrite map_nth. change (nth (2 + j) pts []) with (nth j ps []).
  set (p3 := nth j ps []) in *. assert (I3 : In p3 ps) by (apply nth_In; exact B).
  assert (L3 : length p3 = 3%nat) by (rewrite Forall_forall in F1; now apply F1).
  rewrite !X_sub, X_cross3 by len. set (c := rcross (rsub p3 p0) (rsub p1 p0)).
  assert (NC : rdot c c <> 0) by (unfold c; rewrite <- spread_cross by assumption; lra).
  destruct (abs_max_axis c) as (axis & EA & AX & NA & MX); [unfold c; apply rcross_length; len|exact NC|]. rewrite EA. cbn [bind].
  rewrite mapM_swizzle by (assumption || exact F). cbn [bind].
  assert (NA' := NA). unfold c in NA. rewrite cross_axis in NA by assumption.
  destruct (find_anchor_X (map (sw axis) pts)) as (a & rest & E1 & PM & U); [discriminate|]. rewrite E1. cbn [bind].
  assert (NR : rest <> []) by (intros E; subst rest; apply Permutation_length in PM; discriminate).
  destruct (sort_points_X sort a rest HS U NR) as (q1 & ds & E2 & SS & IC & CV). rewrite E2.
  destruct ds as [|q2 ds].
  { exfalso. apply NA.
    assert (G : forall v, In v pts -> exists t, px (sw axis v) = px a + t * (px q1 - px a) /\ py (sw axis v) = py a + t * (py q1 - py a)).
    { intros v Hv. destruct (CV (sw axis v)) as (d & [Hd|[]] & (t & _ & Tx & Ty)).
      - eapply Permutation_in; [exact PM|now apply in_map]. - subst d. exists t. unfold dx, dy in *. lra. }
    destruct (G p0) as (t0 & X0 & Y0); [now left|]. destruct (G p1) as (t1 & X1 & Y1); [right; now left|].
    destruct (G p3) as (t3 & X3 & Y3); [right; now right|]. unfold or3. rewrite X0, Y0, X1, Y1, X3, Y3. ring. }
  rewrite map_length. replace (length (a :: q1 :: q2 :: ds) <=? 2)%nat with false by (symmetry; apply Nat.leb_gt; cbn [length]; lia).
  destruct (build_hull_X a q1 q2 ds (a :: rest) SS CV) as (V & E3 & LV & IV & V0 & ST & AR). rewrite E3. cbn [bind].
  assert (IV' : incl V (map (sw axis) pts)).
  { intros z Hz. apply IV in Hz. eapply Permutation_in; [apply Permutation_sym, PM|]. destruct Hz as [Hz|Hz]; [now left|right; now apply IC]. }
  destruct (incl_map_inv _ _ _ _ _ IV') as (hull & EV & IH). subst V. rewrite map_length in *.
  assert (FH : Forall (fun p => length p = 3%nat) hull) by (apply Forall_forall; intros z Hz; apply IH in Hz; rewrite Forall_forall in F; now apply F).
  rewrite mapM_unswizzle by assumption. exists axis, hull. split; [reflexivity|]. split; [exact AX|].
  assert (TP : forall u v w, In u pts -> In v pts -> In w pts -> turn (along axis) u v w = o3 (sw axis u) (sw axis v) (sw axis w)).
  { intros u v w Hu Hv Hw. rewrite Forall_forall in F. apply turn_along; auto. }
  assert (VI : forall i, In (vertex hull i) hull).
  { intros i. unfold vertex. apply nth_In. apply Nat.mod_upper_bound. lia. }
  assert (NM : forall i, (i < length hull)%nat -> nth i (map (sw axis) hull) [] = sw axis (vertex hull i)).
  { intros i Hi. rewrite (nth_indep _ [] (sw axis [])) by (rewrite map_length; exact Hi). rewrite map_nth. unfold vertex. now rewrite Nat.mod_small. }
  split; [|exists p3; split; [exact I3|split; [exact C|split; [exact MX|]]]].
  2: { rewrite TP; [exact NA|now left|right; now right|right; now left]. }
  split; [exact LV|]. split; [exact IH|]. split.
  - clear j A B C p3 I3 L3 c NC EA NA NA' MX. intros i j Hij Hj. specialize (ST i j Hij Hj). rewrite <- V0, !NM in ST by lia. rewrite TP by (apply IH, VI). exact ST.
  - intros p Hp i.
    set (m := length hull) in *. set (i' := (i mod m)%nat). assert (Hi : (i' < m)%nat) by (apply Nat.mod_upper_bound; lia).
    assert (V1 : vertex hull i = vertex hull i'). { unfold vertex. fold m. f_equal. unfold i'. rewrite Nat.mod_mod by lia. reflexivity. }
    assert (V2 : vertex hull (S i) = vertex hull (S i' mod m)).
    { unfold vertex. fold m. f_equal. unfold i'. rewrite Nat.mod_mod by lia. rewrite <- (Nat.add_1_r (i mod m)), <- (Nat.add_1_r i). now rewrite Nat.add_mod_idemp_l by lia. }
    assert (Ap : around (map (sw axis) hull) (sw axis p)). { apply AR. eapply Permutation_in; [exact PM|now apply in_map]. }
    specialize (Ap i'). rewrite map_length in Ap. fold m in Ap. specialize (Ap Hi). rewrite !NM in Ap by (try exact Hi; apply Nat.mod_upper_bound; lia).
    rewrite V1, V2, TP by (exact Hp || apply IH, VI). exact Ap.
Qed.
Lemma hull_main : forall sort n p0 p1 ps, sorts sort -> coplanar n (p0 :: p1 :: ps) ->
  Exists (fun p => / 100000 < spread p0 p1 p) ps ->
  exists hull, convex_hull sort (map vS (p0 :: p1 :: ps)) = Ret (map vS hull) /\ hull_polygon n (p0 :: p1 :: ps) hull.
Proof.
  intros sort n p0 p1 ps HS (Ln & Nn & F & CO) EX. destruct (hull_any sort p0 p1 ps HS F EX) as (axis & hull & EH & AX & (LV & IH & ST & AR) & (p3 & I3 & _ & _ & NA)).
  exists hull. split; [exact EH|]. set (pts := p0 :: p1 :: ps) in *.
  set (k := nth axis n 0). set (nn := rdot n n) in *.
  assert (TP : forall u v w, In u pts -> In v pts -> In w pts -> turn n u v w * k = turn (along axis) u v w * nn).
  { intros u v w Hu Hv Hw. rewrite Forall_forall in F. unfold k, nn. rewrite turn_projected, turn_along by (auto using F).
    unfold or3, px, py, sw. cbn [nth]. ring. }
  assert (NN : 0 < nn) by (assert (H := rdot_nonneg n); unfold nn in *; lra).
  assert (NK : k <> 0).
  { intros Z. assert (E := TP p0 p3 p1 ltac:(now left) ltac:(right; now right) ltac:(right; now left)). rewrite Z, Rmult_0_r in E. symmetry in E. apply Rmult_integral in E. destruct E; lra. }
  set (s := if Rlt_dec 0 k then 1 else -1).
  assert (SG : forall u v w, In u pts -> In v pts -> In w pts -> s * turn n u v w * Rabs k = turn (along axis) u v w * nn).
  { intros u v w Hu Hv Hw. rewrite <- TP by assumption. unfold s. destruct (Rlt_dec 0 k) as [P|P]; [rewrite Rabs_pos_eq by lra|rewrite Rabs_left by lra]; ring. }
  assert (PK : 0 < Rabs k) by (now apply Rabs_pos_lt).
  assert (VI : forall i, In (vertex hull i) hull).
  { intros i. unfold vertex. apply nth_In. apply Nat.mod_upper_bound. lia. }
  split; [exact LV|]. split; [exact IH|]. exists s. split; [unfold s; destruct (Rlt_dec 0 k); auto|]. split.
  - intros i j Hij Hj. specialize (ST i j Hij Hj).
    assert (E := SG (vertex hull 0) (vertex hull i) (vertex hull j) (IH _ (VI _)) (IH _ (VI _)) (IH _ (VI _))). nra.
  - apply Forall_forall. intros p Hp. split; [rewrite Forall_forall in F; now apply F|]. split; [apply CO; auto|]. intros i. specialize (AR p Hp i).
    assert (E := SG (vertex hull i) (vertex hull (S i)) p (IH _ (VI _)) (IH _ (VI _)) Hp).
    assert (0 <= turn (along axis) (vertex hull i) (vertex hull (S i)) p * nn) by (apply Rmult_le_pos; lra).
    apply (Rmult_le_reg_r (Rabs k)); [exact PK|]. rewrite E. lra.
Qed.

(** ** Empty results *)
Lemma hull_few : forall sort (ps : list (list XR)), (length ps <= 2)%nat -> convex_hull sort ps = Ret [].
Proof. intros sort [|a [|b [|c ps]]] H; try reflexivity. cbn in H. lia. Qed.
Lemma hull_none : forall sort p0 p1 ps, Forall (fun p => length p = 3%nat) (p0 :: p1 :: ps) -> Forall (fun p => spread p0 p1 p <= / 100000) ps ->
  convex_hull sort (map vS (p0 :: p1 :: ps)) = Ret [].
Proof.
  intros sort p0 p1 ps F FS. inversion F as [|? ? L0 F0]; subst. inversion F0 as [|? ? L1 F1]; subst. destruct ps as [|p2 ps]; [reflexivity|].
  unfold convex_hull. cbn [map]. change (skipn 2 (vS p0 :: vS p1 :: vS p2 :: map vS ps)) with (map vS (p2 :: ps)).
  destruct (find_third p0 p1 (p2 :: ps) 2 L0 L1 F1) as [(A & B)|(j & A & B & C)].
  - rewrite A. replace (_ <=? _)%nat with true by (symmetry; apply Nat.leb_le; cbn [length]; rewrite map_length; lia). reflexivity.
  - exfalso. rewrite Forall_forall in FS. specialize (FS (nth j (p2 :: ps) []) (nth_In _ _ B)). lra.
Qed.
Lemma hull_collinear : forall sort ps, Forall (fun p => length p = 3%nat) ps -> all_collinear ps -> convex_hull sort (map vS ps) = Ret [].
Proof.
  intros sort ps F C. destruct ps as [|p0 [|p1 ps]]; [reflexivity|reflexivity|].
  apply hull_none; [exact F|]. apply Forall_forall. intros p Hp. unfold spread.
  assert (W := C p0 p1 p (or_introl eq_refl) (or_intror (or_introl eq_refl)) (or_intror (or_intror Hp))).
  rewrite Forall_forall in F. assert (L0 := F p0 (or_introl eq_refl)). assert (L1 := F p1 (or_intror (or_introl eq_refl))). assert (L2 := F p (or_intror (or_intror Hp))).
  apply colinear_exact in W; [|congruence|congruence]. apply colinear_eps in W; [|congruence|congruence|lra]. lra.
Qed.
(** Starting with the same point twice *)
Lemma hull_coincident : forall sort p ps, Forall (fun p => length p = 3%nat) (p :: ps) -> convex_hull sort (map vS (p :: p :: ps)) = Ret [].
Proof.
  intros sort p ps F. apply hull_none; [inversion F; subst; constructor; assumption|]. apply Forall_forall. intros q Hq.
  rewrite Forall_forall in F. assert (Lp := F p (or_introl eq_refl)). assert (Lq := F q (or_intror Hq)). clear - Lp Lq.
  destruct p as [|a0 [|a1 [|a2 [|]]]]; try discriminate. destruct q as [|b0 [|b1 [|b2 [|]]]]; try discriminate. unfold spread. cbn.
  match goal with |- ?e <= _ => replace e with 0 by ring end. lra.
Qed.
Lemma hull_empty_iff : forall sort p0 p1 ps, sorts sort -> Forall (fun p => length p = 3%nat) (p0 :: p1 :: ps) ->
  (convex_hull sort (map vS (p0 :: p1 :: ps)) = Ret [] <-> Forall (fun p => spread p0 p1 p <= / 100000) ps).
Proof.
  intros sort p0 p1 ps HS C. split.
  - intros E. destruct (Forall_Exists_dec (fun p => spread p0 p1 p <= / 100000) (fun p => Rle_dec _ _) ps) as [F|F]; [exact F|exfalso].
    destruct (hull_any sort p0 p1 ps HS C) as (axis & hull & E1 & _ & (L & _) & _).
    { eapply Exists_impl; [|exact F]. intros p Hp. cbn in Hp. lra. }
    rewrite E in E1. injection E1 as E1. destruct hull; [cbn in L; lia|discriminate].
  - intros F. apply hull_none; [apply C|exact F].
Qed.
Lemma hull_points : forall sort p0 p1 ps, sorts sort -> Forall (fun p => length p = 3%nat) (p0 :: p1 :: ps) ->
  Exists (fun p => / 100000 < spread p0 p1 p) ps ->
  exists axis hull, convex_hull sort (map vS (p0 :: p1 :: ps)) = Ret (map vS hull) /\ (axis < 3)%nat /\ seen_hull axis (p0 :: p1 :: ps) hull
    /\ exists p, In p ps /\ / 100000 < spread p0 p1 p
       /\ forall j, Rabs (nth j (rcross (rsub p p0) (rsub p1 p0)) 0) <= Rabs (nth axis (rcross (rsub p p0) (rsub p1 p0)) 0).
Proof.
  intros sort p0 p1 ps HS F EX. destruct (hull_any sort p0 p1 ps HS F EX) as (axis & hull & A & B & C & (p & P1 & P2 & P3 & _)).
  exists axis, hull. split; [exact A|]. split; [exact B|]. split; [exact C|]. now exists p.
Qed.
