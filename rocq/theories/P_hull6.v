(** The convex hull depends only on the set of the given points, and the hull of a hull is the hull (C60). *)
From Coq Require Import ZArith Reals List Bool Lia Lra Psatz Arith Sorted Permutation.
From Flocq Require Import Core.
From Verif Require Import Ops M_scalar M_vec M_hull Inst_XR S_vec S_polygon S_hull P_xr P_vec P_vec2 P_sort P_line P_polygon P_hull2d P_hull P_hull3 P_hull4 P_grid3 P_hullg.
Import ListNotations.
Local Open Scope R_scope.
Notation vS := (map (@Some R)).

(** ** Sorted lists with the same elements *)
Lemma sorted_unique : forall (A : Type) (R : A -> A -> Prop) l1 l2, (forall x y, R x y -> ~ R y x) ->
  StronglySorted R l1 -> StronglySorted R l2 -> incl l1 l2 -> incl l2 l1 -> l1 = l2.
Proof.
  intros A R l1. induction l1 as [|x l1 IH]; intros l2 AS S1 S2 I1 I2.
  - destruct l2 as [|y l2]; [reflexivity|]. destruct (I2 y (or_introl eq_refl)).
  - destruct l2 as [|y l2]; [destruct (I1 x (or_introl eq_refl))|].
    inversion S1 as [|? ? S1' F1]; subst. inversion S2 as [|? ? S2' F2]; subst. rewrite Forall_forall in F1, F2.
    assert (E : x = y).
    { destruct (I1 x (or_introl eq_refl)) as [E|E]; [now symmetry|]. destruct (I2 y (or_introl eq_refl)) as [E'|E']; [exact E'|]. exfalso. apply (AS x y); auto. }
    subst y. f_equal. apply IH; auto.
    + intros z Hz. destruct (I1 z (or_intror Hz)) as [E|E]; [|exact E]. subst z. exfalso. assert (H := F1 x Hz). now apply (AS x x).
    + intros z Hz. destruct (I2 z (or_intror Hz)) as [E|E]; [|exact E]. subst z. exfalso. assert (H := F2 x Hz). now apply (AS x x).
Qed.
Lemma sorted_nth : forall (A : Type) (R : A -> A -> Prop) l, StronglySorted R l -> forall x y, In x l -> In y l -> x = y \/ R x y \/ R y x.
Proof.
  intros A R l H. induction H as [|z l H IH F]; intros x y Hx Hy; [destruct Hx|]. rewrite Forall_forall in F.
  destruct Hx as [<-|Hx], Hy as [<-|Hy]; auto.
Qed.

(** ** The directions seen from the anchor *)
Section Fan.
Variable a : list R.
Notation o3 := (or3 px py).
Notation cr := (cr px py a).
Definition before (v w : list R) : Prop := 0 < cr v w.
Definition flat (S : list (list R)) : Prop := forall u v, In u S -> In v S -> px u = px v -> py u = py v -> u = v.
Lemma before_asym : forall v w, before v w -> ~ before w v.
Proof. intros v w. unfold before, P_hull2d.cr, or3. lra. Qed.
(** The list of the directions is determined by the points. *)
Definition fan (S L : list (list R)) : Prop :=
  (2 <= length L)%nat /\ StronglySorted before L /\ incl L S /\ forall q, In q S -> exists d, In d L /\ part_of px py a q d.
Lemma fan_apart : forall S L d, fan S L -> In d L -> ~ (dx px a d = 0 /\ dy py a d = 0).
Proof.
  intros S L d (L2 & SS & _ & _) Hd (Z1 & Z2). destruct L as [|u [|v L]]; cbn in L2; try lia.
  assert (W : exists e, In e (u :: v :: L) /\ (before d e \/ before e d)).
  { inversion SS as [|? ? _ F]; subst. rewrite Forall_forall in F. destruct Hd as [<-|Hd].
    - exists v. split; [right; now left|]. left. apply F. now left.
    - exists u. split; [now left|]. right. now apply F. }
  destruct W as (e & _ & W). unfold before, P_hull2d.cr, or3, dx, dy in *. destruct W; nra.
Qed.
Lemma fan_incl : forall S1 S2 L1 L2, incl S1 S2 -> incl S2 S1 -> flat S1 -> fan S1 L1 -> fan S2 L2 -> incl L1 L2.
Proof.
  intros S1 S2 L1 L2 I12 I21 FL F1 F2 d Hd. assert (N := fan_apart S1 L1 d F1 Hd).
  destruct F1 as (_ & SS1 & IL1 & C1). destruct F2 as (_ & SS2 & IL2 & C2).
  assert (H1 := IL1 d Hd). destruct (C2 d (I12 d H1)) as (e & He & (t & Ht & Tx & Ty)).
  assert (H2 := I21 e (IL2 e He)). destruct (C1 e H2) as (d' & Hd' & (s & Hs & Sx & Sy)).
  assert (E : d = d').
  { destruct (sorted_nth _ _ _ SS1 d d' Hd Hd') as [E|[E|E]]; [exact E|exfalso|exfalso]; unfold before, P_hull2d.cr, or3 in E;
      fold (dx px a d) (dx px a d') (dy py a d) (dy py a d') in E; rewrite Tx, Ty, Sx, Sy in E; nra. }
  subst d'. rewrite Sx in Tx. rewrite Sy in Ty.
  assert (TS : t * s = 1).
  { destruct (Req_dec (dx px a d) 0) as [X|X].
    - destruct (Req_dec (dy py a d) 0) as [Y|Y]; [tauto|]. apply (Rmult_eq_reg_r (dy py a d)); [|exact Y]. lra.
    - apply (Rmult_eq_reg_r (dx px a d)); [|exact X]. lra. }
  assert (S1' : s = 1) by nra. subst s. rewrite Rmult_1_l in Sx, Sy. unfold dx, dy in Sx, Sy.
  replace d with e; [exact He|]. apply FL; [exact H2|exact H1|lra|lra].
Qed.
Lemma fan_unique : forall S1 S2 L1 L2, incl S1 S2 -> incl S2 S1 -> flat S1 -> fan S1 L1 -> fan S2 L2 -> L1 = L2.
Proof.
  intros S1 S2 L1 L2 I12 I21 FL F1 F2. apply (sorted_unique _ before).
  - exact before_asym.
  - apply F1.
  - apply F2.
  - now apply (fan_incl S1 S2).
  - apply (fan_incl S2 S1); auto. intros u v Hu Hv. apply FL; auto.
Qed.
End Fan.
Lemma anchor_unique : forall a b, upper px py a b -> upper px py b a -> px a = px b /\ py a = py b.
Proof. intros a b. unfold upper, dx, dy. lra. Qed.

(** ** The axis *)
Lemma axis_scaled : forall c n k, k <> 0 -> length c = 3%nat -> length n = 3%nat -> (forall i, nth i c 0 = k * nth i n 0) ->
  find_abs_max_component (vS c) 0 = find_abs_max_component (vS n) 0.
Proof.
  intros c n k K Lc Ln E. destruct c as [|c0 [|c1 [|c2 [|]]]]; try discriminate. destruct n as [|n0 [|n1 [|n2 [|]]]]; try discriminate.
  assert (E0 := E 0%nat). assert (E1 := E 1%nat). assert (E2 := E 2%nat). cbn [nth] in *. subst.
  set (v := vS [k * n0; k * n1; k * n2]). set (w := vS [n0; n1; n2]).
  unfold find_abs_max_component. replace (0 <? length v)%nat with true by reflexivity. replace (0 <? length w)%nat with true by reflexivity. cbn [require].
  set (RR := fun (p q : XR * nat) => (exists x, fst p = Some (k * x) /\ fst q = Some x) /\ snd p = snd q).
  assert (S := sort_par _ _ RR (fun l r => o_lt (sc_abs (fst l)) (sc_abs (fst r))) (fun l r => o_lt (sc_abs (fst l)) (sc_abs (fst r)))).
  assert (H : forall x y a b, RR x a -> RR y b -> o_lt (sc_abs (fst x)) (sc_abs (fst y)) = o_lt (sc_abs (fst a)) (sc_abs (fst b))).
  { intros x y a b [(r & X1 & X2) _] [(s & Y1 & Y2) _]. rewrite X1, X2, Y1, Y2, !X_abs, !Xlt, !Rabs_mult.
    assert (0 < Rabs k) by now apply Rabs_pos_lt. destruct (Rlt_le_dec (Rabs r) (Rabs s)) as [D|D].
    - rewrite !Rlt_bool_true; auto. now apply Rmult_lt_compat_l.
    - rewrite !Rlt_bool_false; auto. apply Rmult_le_compat_l; lra. }
  assert (CB : Forall2 RR (combine v (seq 0 3)) (combine w (seq 0 3))).
  { cbn. repeat constructor; cbn; eauto. }
  specialize (S H 3%nat 0%nat 3%nat _ _ CB). unfold sort_vector. change (length v) with 3%nat. change (length w) with 3%nat.
  destruct (sort _ 3 0 3 (combine v _)), (sort _ 3 0 3 (combine w _)); try contradiction; try reflexivity. cbn [orel bind] in *.
  assert (G := get_par _ _ RR _ _ (3 - 0 - 1) S). destruct (arr_get a _), (arr_get a0 _); try contradiction; try reflexivity. cbn in *. destruct G as [_ ->]. reflexivity.
Qed.

Lemma normal_multiple : forall n p0 p1 p3 i, coplanar n [p0; p3; p1] ->
  nth i (rcross (rsub p3 p0) (rsub p1 p0)) 0 = turn n p0 p3 p1 / rdot n n * nth i n 0.
Proof.
  intros n p0 p1 p3 i (Ln & Nn & F & CO). inversion F as [|? ? L0 F']; subst. inversion F' as [|? ? L3 F'']; subst. inversion F'' as [|? ? L1 _]; subst.
  destruct (Nat.lt_ge_cases i 3) as [I|I].
  - assert (T := turn_projected n i p0 p3 p1 I Ln L0 L3 L1). rewrite cross_axis by assumption.
    assert (TP : turn n p0 p3 p1 * nth i n 0 = o3 (sw i p0) (sw i p3) (sw i p1) * rdot n n).
    { rewrite T by (apply CO; cbn; auto). unfold or3, px, py, sw. cbn [nth]. ring. }
    replace (turn n p0 p3 p1 / rdot n n * nth i n 0) with (turn n p0 p3 p1 * nth i n 0 / rdot n n) by (field; exact Nn). rewrite TP. field. exact Nn.
  - rewrite !nth_overflow; [ring|lia|rewrite rcross_length; len].
Qed.

(** ** A run of the algorithm on points in a plane *)
Lemma coplanar_sub : forall n ps qs, incl qs ps -> coplanar n ps -> coplanar n qs.
Proof.
  intros n ps qs I (A & B & F & C). split; [exact A|]. split; [exact B|]. split.
  - rewrite Forall_forall in F |- *. auto.
  - intros p q Hp Hq. apply C; auto.
Qed.
Lemma hull_run : forall sort n p0 p1 ps, sorts sort -> coplanar n (p0 :: p1 :: ps) ->
  Exists (fun p => / 100000 < spread p0 p1 p) ps ->
  exists axis a L, find_abs_max_component (vS n) 0 = Ret axis /\ (axis < 3)%nat /\ nth axis n 0 <> 0
    /\ In a (map (sw axis) (p0 :: p1 :: ps)) /\ Forall (upper px py a) (map (sw axis) (p0 :: p1 :: ps))
    /\ fan a (map (sw axis) (p0 :: p1 :: ps)) L
    /\ convex_hull sort (map vS (p0 :: p1 :: ps)) = (do hull <- build_hull (map vS (a :: L)); mapM (fun p => v_unswizzle p axis) hull).
Proof.
  intros sort n p0 p1 ps HS CO EX. assert (F := proj1 (proj2 (proj2 CO))). set (pts := p0 :: p1 :: ps) in *.
  inversion F as [|? ? L0 F0]; subst. inversion F0 as [|? ? L1 F1]; subst.
  assert (NE : ps <> []) by (intros E; subst ps; inversion EX).
  unfold convex_hull. destruct ps as [|p2 ps']; [congruence|]. cbn [map pts]. set (ps := p2 :: ps') in *. fold pts.
  change (vS p0 :: vS p1 :: vS p2 :: map vS ps') with (map vS pts).
  change (skipn 2 (map vS pts)) with (map vS ps).
  destruct (find_third p0 p1 ps 2 L0 L1 F1) as [(A & B)|(j & A & B & C)].
  { exfalso. apply Exists_exists in EX. destruct EX as (p & Hp & W). rewrite Forall_forall in B. specialize (B p Hp). lra. }
  rewrite A. rewrite map_length. replace (length pts <=? 2 + j)%nat with false by (symmetry; apply Nat.leb_gt; cbn [pts length]; lia).
  change (@nil XR) with (vS []). rewrite map_nth. change (nth (2 + j) pts []) with (nth j ps []).
  set (p3 := nth j ps []) in *. assert (I3 : In p3 ps) by (apply nth_In; exact B).
  assert (L3 : length p3 = 3%nat) by (rewrite Forall_forall in F1; now apply F1).
  rewrite !X_sub, X_cross3 by len. set (c := rcross (rsub p3 p0) (rsub p1 p0)).
  assert (NC : rdot c c <> 0) by (unfold c; rewrite <- spread_cross by assumption; lra).
  assert (Lc : length c = 3%nat) by (unfold c; apply rcross_length; len).
  assert (NM : forall i, nth i c 0 = turn n p0 p3 p1 / rdot n n * nth i n 0).
  { intros i. apply normal_multiple. apply (coplanar_sub n pts); [|exact CO]. intros z [<-|[<-|[<-|[]]]]; [now left|right; now right|right; now left]. }
  assert (NK : turn n p0 p3 p1 / rdot n n <> 0).
  { intros Z. rewrite Z in NM. apply NC. destruct c as [|c0 [|c1 [|c2 [|]]]]; try discriminate.
    assert (Z0 := NM 0%nat). assert (Z1 := NM 1%nat). assert (Z2 := NM 2%nat). cbn [nth] in *. cbn. rewrite Z0, Z1, Z2. ring. }
  destruct (abs_max_axis c Lc NC) as (axis & EA & AX & NA & _). rewrite EA. cbn [bind].
  rewrite (axis_scaled c n _ NK Lc (proj1 CO) NM) in EA.
  rewrite mapM_swizzle by (assumption || exact F). cbn [bind].
  assert (NA' := NA). unfold c in NA. rewrite cross_axis in NA by assumption.
  destruct (find_anchor_X (map (sw axis) pts)) as (a & rest & E1 & PM & U); [discriminate|]. rewrite E1. cbn [bind].
  assert (NR : rest <> []) by (intros E; subst rest; apply Permutation_length in PM; discriminate).
  destruct (sort_points_X sort a rest HS U NR) as (q1 & ds & E2 & SS & IC & CV). rewrite E2.
  destruct ds as [|q2 ds].
  { exfalso. apply NA.
    assert (G : forall v, In v pts -> exists t, px (sw axis v) = px a + t * (px q1 - px a) /\ py (sw axis v) = py a + t * (py q1 - py a)).
    { intros v Hv. destruct (CV (sw axis v)) as (d & [Hd|[]] & (t & _ & Tx & Ty)).
      - eapply Permutation_in; [exact PM|now apply in_map]. - subst d. exists t. unfold dx, dy in *. lra. }
    destruct (G p0) as (t0 & X0 & Y0); [now left|]. destruct (G p1) as (t1 & X1 & Y1); [right; now left|].
    destruct (G p3) as (t3 & X3 & Y3); [right; now right|]. unfold or3. rewrite X0, Y0, X1, Y1, X3, Y3. ring. }
  rewrite map_length. replace (length (a :: q1 :: q2 :: ds) <=? 2)%nat with false by (symmetry; apply Nat.leb_gt; cbn [length]; lia).
  exists axis, a, (q1 :: q2 :: ds). split; [exact EA|]. split; [exact AX|]. split; [intros Z; apply NA'; rewrite NM, Z; ring|].
  split; [eapply Permutation_in; [apply Permutation_sym, PM|now left]|].
  split; [eapply Permutation_Forall; [apply Permutation_sym, PM|exact U]|].
  split; [|reflexivity]. split; [cbn; lia|]. split; [exact SS|]. split.
  - intros z Hz. eapply Permutation_in; [apply Permutation_sym, PM|]. right. now apply IC.
  - intros q Hq. apply CV. eapply Permutation_in; [exact PM|exact Hq].
Qed.
(** Points in a plane that is not seen edge-on are determined by what is seen. *)
Lemma flat_seen : forall n ps axis, coplanar n ps -> (axis < 3)%nat -> nth axis n 0 <> 0 -> flat (map (sw axis) ps).
Proof.
  intros n ps axis (Ln & _ & F & C) AX NA u v Hu Hv Ex Ey. apply in_map_iff in Hu, Hv. destruct Hu as (p & <- & Hp), Hv as (q & <- & Hq).
  assert (E := C p q Hp Hq). rewrite Forall_forall in F. assert (Lp := F p Hp). assert (Lq := F q Hq). clear - Ln AX NA Ex Ey E Lp Lq.
  destruct n as [|n0 [|n1 [|n2 [|]]]]; try discriminate. destruct p as [|x [|y [|z [|]]]]; try discriminate. destruct q as [|x' [|y' [|z' [|]]]]; try discriminate.
  destruct axis as [|[|[|]]]; try lia; unfold sw, px, py, across, height in *; cbn in *; subst.
  - assert (x = x') by (apply (Rmult_eq_reg_r n0); [lra|exact NA]). now subst.
  - assert (y = y') by (apply (Rmult_eq_reg_r n1); [lra|exact NA]). now subst.
  - assert (z = z') by (apply (Rmult_eq_reg_r n2); [lra|exact NA]). now subst.
Qed.
Lemma hull_set : forall sort1 sort2 n p0 p1 ps q0 q1 qs, sorts sort1 -> sorts sort2 -> coplanar n (p0 :: p1 :: ps) ->
  incl (p0 :: p1 :: ps) (q0 :: q1 :: qs) -> incl (q0 :: q1 :: qs) (p0 :: p1 :: ps) ->
  Exists (fun p => / 100000 < spread p0 p1 p) ps -> Exists (fun q => / 100000 < spread q0 q1 q) qs ->
  convex_hull sort1 (map vS (p0 :: p1 :: ps)) = convex_hull sort2 (map vS (q0 :: q1 :: qs)).
Proof.
  intros sort1 sort2 n p0 p1 ps q0 q1 qs H1 H2 CO I J E1 E2.
  destruct (hull_run sort1 n p0 p1 ps H1 CO E1) as (axis & a & L & AX & A3 & NA & Ia & Ua & Fa & ->).
  destruct (hull_run sort2 n q0 q1 qs H2 (coplanar_sub _ _ _ J CO) E2) as (axis' & b & M & AX' & _ & _ & Ib & Ub & Fb & ->).
  assert (axis' = axis) by congruence. subst axis'.
  set (S1 := map (sw axis) (p0 :: p1 :: ps)) in *. set (S2 := map (sw axis) (q0 :: q1 :: qs)) in *.
  assert (I' : incl S1 S2) by (now apply incl_map). assert (J' : incl S2 S1) by (now apply incl_map).
  assert (FL : flat S1) by (now apply (flat_seen n)).
  assert (E : a = b).
  { apply FL; auto; rewrite Forall_forall in Ua, Ub; apply (anchor_unique a b); auto. }
  subst b. now rewrite (fan_unique a S1 S2 L M I' J' FL Fa Fb).
Qed.

(** ** The hull of a hull *)
Lemma scan_none : forall rest t2 t1 st, (forall l u v p m, rev (t2 :: t1 :: st) ++ rest = l ++ u :: v :: p :: m -> 0 <= o3 u v p) ->
  fold_left (fun stack p => p :: pop negX stack p) rest (t2 :: t1 :: st) = rev rest ++ t2 :: t1 :: st.
Proof.
  induction rest as [|p rest IH]; intros t2 t1 st H; [reflexivity|]. cbn [fold_left].
  assert (N : negX t1 t2 p = false).
  { destruct (negX t1 t2 p) eqn:E; [|reflexivity]. apply negX_spec in E. specialize (H (rev st) t1 t2 p rest). cbn [rev] in H. rewrite <- !app_assoc in H. specialize (H eq_refl). lra. }
  cbn [pop]. rewrite N. rewrite IH; [cbn [rev]; now rewrite <- app_assoc|]. intros l u v q m E. apply (H l u v q m). rewrite <- E. cbn [rev]. now rewrite <- !app_assoc.
Qed.
Lemma build_convex : forall a w1 W, W <> [] -> (forall p, In p (a :: w1 :: W) -> around (a :: w1 :: W) p) ->
  build_hull (map vS (a :: w1 :: W)) = Ret (map vS (a :: w1 :: W)).
Proof.
  intros a w1 W N AR. unfold build_hull. cbn [map]. change [vS w1; vS a] with (map vS [w1; a]). rewrite fold_X, scan_none.
  - rewrite <- map_rev, rev_app_distr, rev_involutive. cbn [rev app]. destruct W as [|w2 W]; [congruence|]. reflexivity.
  - cbn [rev app]. intros l u v p m E. specialize (AR p). rewrite E in AR. specialize (AR ltac:(apply in_or_app; right; cbn; auto)).
    specialize (AR (length l)). rewrite app_length in AR. cbn [length] in AR. specialize (AR ltac:(lia)). rewrite Nat.mod_small in AR by lia.
    rewrite !app_nth2 in AR by lia. rewrite Nat.sub_diag in AR. replace (S (length l) - length l)%nat with 1%nat in AR by lia. exact AR.
Qed.
Lemma sorted_of_nth : forall (A : Type) (R : A -> A -> Prop) d l, (forall i j, (i < j < length l)%nat -> R (nth i l d) (nth j l d)) -> StronglySorted R l.
Proof.
  intros A R d l. induction l as [|x l IH]; intros H; constructor.
  - apply IH. intros i j Hij. apply (H (S i) (S j)). cbn [length]. lia.
  - apply Forall_forall. intros y Hy. apply In_nth with (d := d) in Hy. destruct Hy as (j & Hj & <-). apply (H 0%nat (S j)). cbn [length]. lia.
Qed.
Lemma vSs_inj : forall l m : list (list R), map vS l = map vS m -> l = m.
Proof.
  assert (I : forall l m : list R, vS l = vS m -> l = m) by (induction l as [|x l IH]; intros [|y m] E; try discriminate; [reflexivity|]; cbn in E; injection E as E1 E2; f_equal; auto).
  induction l as [|x l IH]; intros [|y m] E; try discriminate; [reflexivity|]. cbn [map] in E. f_equal; [apply I; congruence|apply IH; congruence].
Qed.
Lemma hull_again : forall sort sort' n p0 p1 ps h0 h1 hs, sorts sort -> sorts sort' -> coplanar n (p0 :: p1 :: ps) ->
  convex_hull sort (map vS (p0 :: p1 :: ps)) = Ret (map vS (h0 :: h1 :: hs)) -> Exists (fun h => / 100000 < spread h0 h1 h) hs ->
  convex_hull sort' (map vS (h0 :: h1 :: hs)) = Ret (map vS (h0 :: h1 :: hs)).
Proof.
  intros sort sort' n p0 p1 ps h0 h1 hs HS HS' CO EH EX'.
  assert (EX : Exists (fun p => / 100000 < spread p0 p1 p) ps).
  { destruct (Forall_Exists_dec (fun p => spread p0 p1 p <= / 100000) (fun p => Rle_dec _ _) ps) as [F|F].
    - apply (hull_empty_iff sort) in F; [|exact HS|apply CO]. rewrite F in EH. discriminate.
    - eapply Exists_impl; [|exact F]. intros p Hp. cbn in Hp. lra. }
  destruct (hull_run sort n p0 p1 ps HS CO EX) as (axis & a & L & AX & A3 & NA & Ia & Ua & (L2 & SS & IL & CV) & ER).
  set (S1 := map (sw axis) (p0 :: p1 :: ps)) in *. destruct L as [|q1 [|q2 ds]]; cbn in L2; try lia.
  destruct (build_hull_X a q1 q2 ds S1 SS CV) as (V & E3 & LV & IV & V0 & ST & AR).
  rewrite E3 in ER. cbn [bind] in ER.
  assert (IV' : incl V S1). { intros z Hz. apply IV in Hz. destruct Hz as [<-|Hz]; [exact Ia|now apply IL]. }
  destruct (incl_map_inv _ _ _ _ _ IV') as (hull & EV & IH).
  assert (FH : Forall (fun p => length p = 3%nat) hull) by (apply Forall_forall; intros z Hz; apply IH in Hz; destruct CO as (_ & _ & F & _); rewrite Forall_forall in F; now apply F).
  rewrite EV in ER. rewrite mapM_unswizzle in ER by assumption. rewrite ER in EH. assert (EH' : map vS hull = map vS (h0 :: h1 :: hs)) by congruence. clear EH. rename EH' into EH.
  assert (EQ : hull = h0 :: h1 :: hs) by (apply vSs_inj; exact EH).
  subst hull. clear EH ER.
  destruct (hull_run sort' n h0 h1 hs HS' (coplanar_sub _ _ _ IH CO) EX') as (axis' & b & M & AX' & _ & _ & Ib & Ub & Fb & EB).
  assert (axis' = axis) by congruence. subst axis'. rewrite <- EV in Ib, Ub, Fb.
  assert (FL : flat S1) by (now apply (flat_seen n)).
  destruct V as [|v0 W]; [cbn in LV; lia|]. cbn [nth] in V0. subst v0.
  assert (E : b = a).
  { apply FL; auto; rewrite Forall_forall in Ua, Ub; apply (anchor_unique b a); auto; [apply Ub; now left|apply Ub; now left]. }
  subst b. destruct W as [|w1 [|w2 W]]; cbn [length] in LV; try lia.
  assert (FW : fan a (a :: w1 :: w2 :: W) (w1 :: w2 :: W)).
  { split; [cbn; lia|]. split; [|split].
    - apply (sorted_of_nth _ _ []). intros i j Hij. apply (ST (S i) (S j)); cbn [length] in *; lia.
    - intros z Hz. now right.
    - intros q [<-|Hq]; [exists w1; split; [now left|exists 0; unfold dx, dy; lra]|exists q; split; [exact Hq|apply part_refl]]. }
  assert (EM : M = w1 :: w2 :: W).
  { apply (fan_unique a (a :: w1 :: w2 :: W) (a :: w1 :: w2 :: W)); auto; try apply incl_refl. intros u v Hu Hv. apply FL; auto. }
  rewrite EB, EM, build_convex; [|discriminate|].
  - cbn [bind]. rewrite EV. now apply mapM_unswizzle.
  - intros p Hp. apply AR. now apply IV'.
Qed.
