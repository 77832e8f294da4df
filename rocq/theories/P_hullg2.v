(** The convex hull of points on a grid in machine arithmetic is the exact one. *)
From Coq Require Import ZArith Reals List Lia Lra Bool Psatz Sorted Permutation.
From Flocq Require Import Core BinarySingleNaN.
From Verif Require Import Ops M_scalar M_vec M_mat M_hull Inst_F Inst_XR S_vec S_mat S_polygon S_hull S_rnd S_grid.
From Verif Require Import P_ord P_ieee P_xr P_vec P_vec2 P_fp P_fp6 P_grid P_grid2 P_grid3 P_grid4 P_hull P_hull3 P_hull4 P_hull5 P_hullg.
Import ListNotations.
Local Open Scope R_scope.

(** ** A sorting function with a given result *)
Fixpoint sortedb {A} (lt : A -> A -> bool) (l : list A) : bool :=
  match l with
  | [] => true
  | x :: l' => forallb (fun y => negb (lt y x)) l' && sortedb lt l'
  end.
Lemma sortedb_ok : forall A (lt : A -> A -> bool) l, sortedb lt l = true <-> StronglySorted (fun x y => lt y x = false) l.
Proof.
  intros A lt l. induction l as [|x l IH]; cbn [sortedb]; [split; [constructor|reflexivity]|]. rewrite andb_true_iff, IH, forallb_forall. split.
  - intros [H1 H2]. constructor; auto. apply Forall_forall. intros y Hy. apply H1 in Hy. now apply negb_true_iff in Hy.
  - intros H. inversion H as [|? ? H1 H2]; subst. split; auto. rewrite Forall_forall in H2. intros y Hy. apply negb_true_iff. auto.
Qed.
Definition patched {A} (dec : forall x y : A, {x = y} + {x <> y}) (l0 r0 : list A) (lt : A -> A -> bool) (l : list A) : list A :=
  if list_eq_dec dec l l0 then if sortedb lt r0 then r0 else insertion_sort lt l else insertion_sort lt l.
Lemma patched_sorts : forall A dec (l0 r0 : list A), Permutation l0 r0 -> sorts (patched dec l0 r0).
Proof.
  intros A dec l0 r0 P lt l H. unfold patched. destruct (list_eq_dec dec l l0) as [->|]; [|now apply insertion_sorts].
  destruct (sortedb lt r0) eqn:E; [|now apply insertion_sorts]. split; auto. now apply sortedb_ok.
Qed.
Lemma point_dec : forall x y : list XR, {x = y} + {x <> y}.
Proof. apply list_eq_dec. intros [x|] [y|]; try (right; discriminate); [|now left]. destruct (Req_EM_T x y) as [->|N]; [now left|right; intros E; injection E; auto]. Qed.

(** ** The ordering by angle *)
Lemma angle_order : forall a rest, Forall (upper px py a) rest -> strict_weak_order (less_than_by_angle (map (@Some R) a)) (map (map (@Some R)) rest).
Proof.
  intros a rest F1. destruct (angle_swo px py a (ltX a) (ltX_spec a) rest F1) as (A & B & C). split; [|split].
  - intros z Hz. apply in_map_iff in Hz. destruct Hz as (u & <- & Hu). now apply A.
  - intros z1 z2 z3 H1 H2 H3. apply in_map_iff in H1. apply in_map_iff in H2. apply in_map_iff in H3.
    destruct H1 as (u1 & <- & U1), H2 as (u2 & <- & U2), H3 as (u3 & <- & U3). now apply (B u1 u2 u3).
  - intros z1 z2 z3 H1 H2 H3. apply in_map_iff in H1. apply in_map_iff in H2. apply in_map_iff in H3.
    destruct H1 as (u1 & <- & U1), H2 as (u2 & <- & U2), H3 as (u3 & <- & U3). now apply (C u1 u2 u3).
Qed.

Section Grid.
Variables prec emax : Z.
Context {Hprec : Prec_gt_0 prec} {Hmax : Prec_lt_emax prec emax}.
Notation fl := (binary_float prec emax).
Notation fits := (representable prec emax).
Notation rel := (rel prec emax).
Notation vrel := (vrel prec emax).
Notation vS := (map (@Some R)).
Notation X p := (vS (values p)).
Notation Xs := (map (fun p => X p)).

Variables e K D : Z.
Hypothesis HK : (0 <= K)%Z.
Hypothesis HD : (0 <= D)%Z.
Hypothesis F1 : fits e (K + K).
Hypothesis F2 : fits (e + e) (2 * (D * D)).
Hypothesis F4 : fits (e + e + (e + e)) (2 * (3 * (D * D) * (3 * (D * D)))).
Hypothesis F5 : fits (e + e) (3 * (D * D)).
Hypothesis E1 : is_finite (colinear_epsilon : fl) = true.
Hypothesis E2 : 0 <= B2R (colinear_epsilon : fl) < bpow radix2 (e + e + (e + e)).
Hypothesis E3 : / 100000 < bpow radix2 (e + e + (e + e)).
Notation ok := (ok prec emax e K).
Notation close := (close prec emax e D).
Notation cluster := (cluster prec emax e K D).

Lemma third_X : forall ps p0 p1 rest i, cluster ps -> In p0 ps -> In p1 ps -> incl rest ps ->
  find_linearly_independent_point p0 p1 rest i = find_linearly_independent_point (X p0) (X p1) (Xs rest) i.
Proof.
  intros ps p0 p1 rest i C P0 P1. revert i. induction rest as [|p rest IH]; intros i I; [reflexivity|]. cbn [find_linearly_independent_point map].
  rewrite (proj1 (colinear_X' prec emax e K D HD F1 F4 F5 E1 E2 E3 ps p0 p1 p C P0 P1 ltac:(apply I; now left))). rewrite IH; [reflexivity|]. intros z Hz. apply I. now right.
Qed.
(** The axis *)
Lemma axis_rel : forall f B (v : list fl) w k, vrel f B v w -> find_abs_max_component v k = find_abs_max_component w k.
Proof.
  intros f B v w k V. unfold find_abs_max_component. rewrite (vrel_length _ _ _ _ _ _ V). destruct (k <? length w)%nat; [cbn [require]|reflexivity].
  set (RR := fun (p : fl * nat) (q : XR * nat) => rel f B (fst p) (fst q) /\ snd p = snd q).
  assert (S := sort_par _ _ RR (fun l r => o_lt (sc_abs (fst l)) (sc_abs (fst r))) (fun l r => o_lt (sc_abs (fst l)) (sc_abs (fst r)))).
  assert (H : forall x y a b, RR x a -> RR y b -> o_lt (sc_abs (fst x)) (sc_abs (fst y)) = o_lt (sc_abs (fst a)) (sc_abs (fst b))).
  { intros x y a b [X1 _] [Y1 _]. apply (rel_abs prec emax) in X1, Y1. eapply rel_lt; eauto. }
  assert (CB : forall m, Forall2 RR (combine v (seq m (length w))) (combine w (seq m (length w)))).
  { clear - V. induction V as [|x y v w R V IH]; intros m; cbn; constructor; [now split|apply IH]. }
  specialize (S H (length w) 0%nat (length w) _ _ (CB 0%nat)). unfold sort_vector. rewrite (vrel_length _ _ _ _ _ _ V).
  destruct (sort _ (length w) 0 (length w) (combine v _)), (sort _ (length w) 0 (length w) (combine w _)); try contradiction; try reflexivity. cbn [orel bind] in *.
  assert (G := get_par _ _ RR _ _ (length w - k - 1) S). destruct (arr_get a _), (arr_get a0 _); try contradiction; try reflexivity. cbn in *. destruct G as [_ ->]. reflexivity.
Qed.
(** Swizzling *)
Definition swz {T : Type} `{ops T} (axis : nat) (p : list T) : list T := match axis with 0%nat => [vy p; vz p; vx p] | 1%nat => [vz p; vx p; vy p] | _ => p end.
Definition unswz {T : Type} `{ops T} (axis : nat) (p : list T) : list T := match axis with 0%nat => [vz p; vx p; vy p] | 1%nat => [vy p; vz p; vx p] | _ => p end.
Lemma mapM_map : forall (A B : Type) (f : A -> outcome B) g l, (forall x, In x l -> f x = Ret (g x)) -> mapM f l = Ret (map g l).
Proof. intros A B f g l H. induction l as [|x l IH]; [reflexivity|]. cbn [mapM map]. rewrite H by now left. cbn [bind]. rewrite IH; [reflexivity|]. intros y Hy. apply H. now right. Qed.
Lemma swz_X : forall axis p, ok p -> X (swz axis p) = swz axis (X p) /\ X (unswz axis p) = unswz axis (X p) /\ unswz axis (swz axis p) = p.
Proof. intros axis p [L _]. destruct p as [|x [|y [|z [|]]]]; try discriminate. destruct axis as [|[|axis]]; repeat split. Qed.
Lemma swz_cluster : forall axis ps, cluster ps -> cluster (map (swz axis) ps).
Proof.
  intros axis ps [F C]. split.
  - apply Forall_forall. intros q Hq. apply in_map_iff in Hq. destruct Hq as (p & <- & Hp). rewrite Forall_forall in F. specialize (F p Hp). destruct F as [L G].
    destruct p as [|x [|y [|z [|]]]]; try discriminate. inversion G as [|? ? G1 G']; subst. inversion G' as [|? ? G2 G'']; subst. inversion G'' as [|? ? G3 _]; subst.
    destruct axis as [|[|axis]]; (split; [reflexivity|]); repeat (apply Forall_cons; [assumption|]); apply Forall_nil.
  - intros p q I1 I2. apply in_map_iff in I1, I2. destruct I1 as (u & <- & Hu), I2 as (v & <- & Hv). specialize (C u v Hu Hv). rewrite Forall_forall in F.
    destruct (F u Hu) as [Lu _], (F v Hv) as [Lv _]. destruct u as [|x [|y [|z [|]]]]; try discriminate. destruct v as [|x' [|y' [|z' [|]]]]; try discriminate.
    assert (C0 := C 0%nat). assert (C1 := C 1%nat). assert (C2 := C 2%nat). assert (C3 := C 3%nat). cbn in C0, C1, C2, C3.
    destruct axis as [|[|axis]]; intros [|[|[|i]]]; cbn; auto; destruct i; auto.
Qed.
Lemma swizzle_all : forall (T : Type) (o : ops T) axis (ps : list (list T)), (axis <= 3)%nat -> mapM (fun p => v_swizzle p axis) ps = Ret (map (swz axis) ps) /\ mapM (fun p => v_unswizzle p axis) ps = Ret (map (unswz axis) ps).
Proof.
  intros T o axis ps H. split; apply mapM_map; intros p _; unfold v_swizzle, v_unswizzle; (replace (axis <=? 3)%nat with true by (symmetry; apply Nat.leb_le; lia)); cbn [require]; destruct axis as [|[|axis]]; reflexivity.
Qed.
Lemma swizzle_none : forall (T : Type) (o : ops T) axis (p : list T) ps, ~ (axis <= 3)%nat -> mapM (fun p => v_swizzle p axis) (p :: ps) = Assert.
Proof. intros T o axis p ps H. cbn [mapM]. unfold v_swizzle. replace (axis <=? 3)%nat with false by (symmetry; apply Nat.leb_gt; lia). reflexivity. Qed.
(** The anchor *)
Lemma anchored_X : forall ps, cluster ps -> ps <> [] -> exists a rest, find_anchor ps = Ret (a :: rest) /\ find_anchor (Xs ps) = Ret (X a :: Xs rest) /\ incl (a :: rest) ps
  /\ Forall (upper px py (values a)) (map values rest).
Proof.
  intros ps C N. assert (L : (0 < length ps)%nat) by (destruct ps; [congruence|cbn; lia]).
  assert (O : orel (Forall2 (fun p q => q = X p /\ In p ps)) (find_anchor ps) (find_anchor (Xs ps))).
  { assert (FF : Forall2 (fun p q => q = X p /\ In p ps) ps (Xs ps)).
    { assert (G : forall l, incl l ps -> Forall2 (fun p q => q = X p /\ In p ps) l (Xs l)).
      { induction l as [|p l IH]; intros I; constructor; [split; [reflexivity|apply I; now left]|apply IH; intros z Hz; apply I; now right]. }
      apply G. easy. }
    unfold find_anchor. rewrite map_length. rewrite <- (anchor_X prec emax e K ps (length ps - 1) 1 0) by (try apply C; lia).
    destruct (0 <? _)%nat; [now apply swap_par|exact FF]. }
  destruct (find_anchor_X (map values ps)) as (a' & rest' & EA & PM & U); [destruct ps; [congruence|discriminate]|].
  rewrite map_map in EA. rewrite EA in O. destruct (find_anchor ps) as [l| | |]; try contradiction. cbn [orel] in O.
  inversion O as [|a q rest qs [QA IA] O' E0 E1' ]; subst. exists a, rest. rewrite EA. split; [reflexivity|]. cbn [map].
  assert (RX : map vS rest' = Xs rest /\ incl rest ps).
  { clear - O'. remember (map vS rest') as w eqn:W. clear W. induction O' as [|p q l l' [-> I] O IH]; [now split|]. destruct IH as [-> I']. split; [reflexivity|]. intros z [<-|Hz]; auto. }
  destruct RX as [RX RI].
  split; [|split].
  - rewrite RX. now rewrite QA.
  - intros z [<-|Hz]; auto.
  - assert (VA : a' = values a) by (apply map_Some_inj; exact QA). assert (VR : rest' = map values rest).
    { clear - RX. revert rest' RX. induction rest as [|p rest IH]; intros [|q rest'] RX; try discriminate; [reflexivity|]. cbn [map] in RX. injection RX as A B. cbn [map]. f_equal; [now apply map_Some_inj|auto]. }
    rewrite <- VA, <- VR. now inversion U.
Qed.

(** The whole function *)
Definition pair_in (ps : list (list fl)) (h : list (list fl)) (h' : list (list XR)) : Prop := h' = Xs h /\ incl h ps.
Lemma sort_transfer : forall sort ps a rest, sorts sort -> cluster ps -> incl (a :: rest) ps -> Forall (upper px py (values a)) (map values rest) ->
  exists sortX, sorts sortX /\ sort_points sortX (X a :: Xs rest) = Xs (sort_points sort (a :: rest)) /\ incl (sort_points sort (a :: rest)) ps.
Proof.
  intros sort ps a rest HS C I U. assert (IA : In a ps) by (apply I; now left). assert (IR : incl rest ps) by (intros z Hz; apply I; now right).
  assert (LT : forall b c, In b rest -> In c rest -> less_than_by_angle a b c = less_than_by_angle (X a) (X b) (X c)).
  { intros b c B C0. apply (less_X prec emax e K D F1 F2); try (now apply (cluster_ok prec emax e K D ps); auto); apply C; auto. }
  assert (SX := angle_order _ _ U). rewrite map_map in SX.
  assert (SF : strict_weak_order (less_than_by_angle a) rest).
  { destruct SX as (A1 & A2 & A3). assert (M : forall z, In z rest -> In (X z) (Xs rest)) by (intros z Hz; now apply (in_map (fun p => X p))). split; [|split].
    - intros x Hx. rewrite LT by auto. apply A1. auto.
    - intros x y z Hx Hy Hz. rewrite !LT by auto. apply A2; auto.
    - intros x y z Hx Hy Hz. rewrite !LT by auto. apply A3; auto. }
  destruct (HS _ _ SF) as [PM ST]. set (r := sort (less_than_by_angle a) rest) in *.
  exists (patched point_dec (Xs rest) (Xs r)). split; [apply patched_sorts; now apply Permutation_map|].
  assert (IRr : incl r ps) by (intros z Hz; apply IR; eapply Permutation_in; [apply Permutation_sym, PM|exact Hz]).
  assert (ER : patched point_dec (Xs rest) (Xs r) (less_than_by_angle (X a)) (Xs rest) = Xs r).
  { unfold patched. destruct (list_eq_dec point_dec (Xs rest) (Xs rest)) as [_|N]; [|congruence].
    replace (sortedb (less_than_by_angle (X a)) (Xs r)) with true; [reflexivity|]. symmetry. apply sortedb_ok.
    assert (IN : forall z, In z r -> In z rest) by (intros z Hz; eapply Permutation_in; [apply Permutation_sym, PM|exact Hz]).
    clearbody r. clear - ST LT IN. induction ST as [|x r ST IH F]; [constructor|]. cbn [map]. constructor; [apply IH; intros; apply IN; now right|].
    apply Forall_forall. intros q Hq. apply in_map_iff in Hq. destruct Hq as (p & <- & Hp). assert (IX : In x rest) by (apply IN; now left). assert (IP : In p rest) by (apply IN; now right). rewrite <- LT by assumption. rewrite Forall_forall in F. auto. }
  unfold sort_points. fold r. rewrite ER. destruct r as [|p1 rr]; cbn [map].
  - split; [reflexivity|]. intros z [<-|[]]; auto.
  - assert (IP : In p1 ps) by (apply IRr; now left). assert (IRR : incl rr ps) by (intros z Hz; apply IRr; now right).
    rewrite (erase_X prec emax e K D F1 F2 ps a rr p1 C IA IP IRR). split; [reflexivity|]. intros z [<-|Hz]; auto.
    assert (G : forall l p, incl (erase_colinear a p l) (p :: l)).
    { clear. induction l as [|q l IH]; intros p; cbn [erase_colinear]; [easy|]. destruct (is_left a p q =? 0)%Z; intros z Hz.
      - apply IH in Hz. destruct Hz as [<-|Hz]; [now left|right; now right].
      - destruct Hz as [<-|Hz]; [now left|]. right. now apply IH in Hz. }
    apply G in Hz. destruct Hz as [<-|Hz]; auto.
Qed.
Lemma nth_X : forall (ps : list (list fl)) i, nth i (Xs ps) [] = X (nth i ps []).
Proof. intros ps i. change (@nil XR) with (X (@nil fl)). apply (map_nth (fun p => X p)). Qed.
Lemma hull_transfer : forall sort ps, sorts sort -> cluster ps -> exists sortX, sorts sortX /\ orel (pair_in ps) (convex_hull sort ps) (convex_hull sortX (Xs ps)).
Proof.
  intros sort ps HS C. assert (T0 : exists sortX : (list XR -> list XR -> bool) -> list (list XR) -> list (list XR), sorts sortX) by (exists insertion_sort; apply insertion_sorts).
  destruct T0 as [s0 H0]. assert (NIL : pair_in ps [] []) by (split; [reflexivity|easy]).
  destruct ps as [|p0 [|p1 [|p2 rest]]]; try (exists s0; split; [exact H0|exact NIL]).
  unfold convex_hull. set (ps := p0 :: p1 :: p2 :: rest) in *.
  change (Xs ps) with (X p0 :: X p1 :: X p2 :: Xs rest). cbv iota. 
  change (X p0 :: X p1 :: X p2 :: Xs rest) with (Xs ps).
  assert (P0 : In p0 ps) by now left. assert (P1 : In p1 ps) by (right; now left).
  change (skipn 2 ps) with (p2 :: rest). change (skipn 2 (Xs ps)) with (Xs (p2 :: rest)).
  assert (TX := third_X ps p0 p1 (p2 :: rest) 2 C P0 P1 ltac:(intros z Hz; right; now right)). cbn [map] in TX |- *. rewrite <- TX.
  set (third := find_linearly_independent_point p0 p1 (p2 :: rest) 2) in *. rewrite map_length. cbv zeta.
  destruct (Nat.leb_spec (length ps) third) as [LE|LT]; [exists s0; split; [exact H0|exact NIL]|].
  assert (P3 : In (nth third ps []) ps) by (now apply nth_In).
  rewrite nth_X.
  assert (CR : vrel (e + e) (2 * (D * D)) (v_cross (v_sub (nth third ps []) p0) (v_sub p1 p0)) (v_cross (v_sub (X (nth third ps [])) (X p0)) (v_sub (X p1) (X p0)))).
  { assert (SB : forall p q, In p ps -> In q ps -> vrel e D (v_sub p q) (v_sub (X p) (X q))).
    { intros p q Hp Hq. assert (CA := fun i => close_at prec emax e K D F1 p q i (cluster_ok prec emax e K D ps p C Hp) (cluster_ok prec emax e K D ps q C Hq) (proj2 C p q Hp Hq)).
      assert (C0 := CA 0%nat ltac:(lia)). assert (C1 := CA 1%nat ltac:(lia)). assert (C2 := CA 2%nat ltac:(lia)).
      destruct (cluster_ok prec emax e K D ps p C Hp) as [Lp _], (cluster_ok prec emax e K D ps q C Hq) as [Lq _].
      destruct p as [|x [|y [|z [|]]]]; try discriminate. destruct q as [|x' [|y' [|z' [|]]]]; try discriminate. constructor; [exact C0|]. constructor; [exact C1|]. constructor; [exact C2|constructor]. }
    apply rel_cross; auto. }
  rewrite (axis_rel _ _ _ _ 0%nat CR).
  destruct (find_abs_max_component _ 0) as [axis| | |]; try (exists s0; split; [exact H0|exact I]). cbn [bind].
  destruct (le_dec axis 3) as [A3|A3]; [|exists s0; split; [exact H0|]; unfold ps; cbn [map]; rewrite !swizzle_none by exact A3; exact I].
  rewrite (proj1 (swizzle_all _ _ axis ps A3)), (proj1 (swizzle_all _ _ axis (Xs ps) A3)). cbn [bind].
  assert (SX : map (swz axis) (Xs ps) = Xs (map (swz axis) ps)).
  { rewrite !map_map. apply map_ext_in. intros p Hp. symmetry. apply swz_X. now apply (cluster_ok prec emax e K D ps). }
  rewrite SX. assert (CS := swz_cluster axis ps C). 
  destruct (anchored_X (map (swz axis) ps) CS) as (a & l & EA & EX & IN & U); [discriminate|]. rewrite EA, EX. cbn [bind].
  destruct (sort_transfer sort (map (swz axis) ps) a l HS CS IN U) as (sX & HX & ES & IS). exists sX. split; [exact HX|]. rewrite ES, map_length.
  destruct (Nat.leb_spec (length (sort_points sort (a :: l))) 2); [exact NIL|].
  eapply orel_bind; [apply (build_X prec emax e K D F1 F2 (map (swz axis) ps) _ CS IS)|]. intros h h' [-> IH].
  rewrite (proj2 (swizzle_all _ _ axis h A3)), (proj2 (swizzle_all _ _ axis (Xs h) A3)). cbn [orel]. split.
  - rewrite !map_map. apply map_ext_in. intros p Hp. symmetry. apply swz_X. apply IH in Hp. now apply (cluster_ok prec emax e K D (map (swz axis) ps)).
  - intros z Hz. apply in_map_iff in Hz. destruct Hz as (p & <- & Hp). apply IH in Hp. apply in_map_iff in Hp. destruct Hp as (q & <- & Hq).
    now rewrite (proj2 (proj2 (swz_X axis q (cluster_ok prec emax e K D ps q C Hq)))).
Qed.
Lemma values_X : forall (h0 : list (list fl)) h, map (map Some) h = Xs h0 -> h = map values h0.
Proof.
  intros h0 h M. assert (M' : map (map Some) h = map (map (@Some R)) (map values h0)) by (rewrite map_map; exact M). clear M.
  revert h M'. induction h0 as [|x h0 IH]; intros [|y h] M; try discriminate; auto. cbn [map] in *. injection M as M1 M2. f_equal; [now apply map_Some_inj|now apply IH].
Qed.
Theorem hull_grid : forall sort p0 p1 ps, sorts sort -> cluster (p0 :: p1 :: ps) ->
  (Exists (fun p => ~ collinear (values p0) (values p1) (values p)) ps ->
   exists hull, convex_hull sort (p0 :: p1 :: ps) = Ret hull /\ incl hull (p0 :: p1 :: ps)
     /\ (forall n, coplanar n (map values (p0 :: p1 :: ps)) -> hull_polygon n (map values (p0 :: p1 :: ps)) (map values hull))
     /\ exists axis, (axis < 3)%nat /\ seen_hull axis (map values (p0 :: p1 :: ps)) (map values hull))
  /\ (Forall (fun p => collinear (values p0) (values p1) (values p)) ps -> convex_hull sort (p0 :: p1 :: ps) = Ret []).
Proof.
  intros sort p0 p1 ps HS C. destruct (hull_transfer sort (p0 :: p1 :: ps) HS C) as (sX & HX & O).
  assert (P0 : In p0 (p0 :: p1 :: ps)) by now left. assert (P1 : In p1 (p0 :: p1 :: ps)) by (right; now left).
  assert (L : forall q, In q (p0 :: p1 :: ps) -> length (values q) = 3%nat) by (intros q Hq; unfold values; rewrite map_length; apply (cluster_ok prec emax e K D _ q C Hq)).
  assert (LF : Forall (fun q => length q = 3%nat) (map values (p0 :: p1 :: ps))).
  { apply Forall_forall. intros q Hq. apply in_map_iff in Hq. destruct Hq as (q' & <- & Hq). now apply L. }
  assert (SP : forall p, In p ps -> (collinear (values p0) (values p1) (values p) <-> spread (values p0) (values p1) (values p) = 0) /\ (spread (values p0) (values p1) (values p) = 0 \/ / 100000 < spread (values p0) (values p1) (values p))).
  { intros p Hp. assert (P2 : In p (p0 :: p1 :: ps)) by (right; now right).
    destruct (colinear_X' prec emax e K D HD F1 F4 F5 E1 E2 E3 (p0 :: p1 :: ps) p0 p1 p C P0 P1 P2) as [Q1 Q2].
    split.
    - rewrite <- colinear_exact by (rewrite !L by assumption; reflexivity). rewrite (colinear_eps (values p0) (values p1) (values p) 0) by (rewrite ?L by assumption; (reflexivity || lra)).
      fold (spread (values p0) (values p1) (values p)). split; [|lra]. intros W. apply Q2. rewrite Q1. apply colinear_X; auto. lra.
    - destruct (v_is_colinear p0 p1 p colinear_epsilon) eqn:EV; [left; now apply Q2|right].
      symmetry in Q1. destruct (Rlt_le_dec (/ 100000) (spread (values p0) (values p1) (values p))) as [|W]; auto. apply colinear_X in W; auto. exfalso. assert (TF : true = false) by (etransitivity; [symmetry; exact W|exact Q1]). discriminate. }
  assert (EQ : Xs (p0 :: p1 :: ps) = map (map Some) (map values (p0 :: p1 :: ps))) by (rewrite map_map; reflexivity).
  rewrite EQ in O. split.
  - intros EX. assert (EX' : Exists (fun p => / 100000 < spread (values p0) (values p1) p) (map values ps)).
    { apply Exists_exists in EX. destruct EX as (p & Hp & NC). apply Exists_exists. exists (values p). split; [now apply in_map|].
      destruct (SP p Hp) as [S1 [S2|S2]]; auto. now apply S1 in S2. }
    cbn [map] in LF, O. destruct (hull_any sX (values p0) (values p1) (map values ps) HX LF EX') as (axis & h & HE & AX & SH & _).
    cbn [map] in HE. assert (O' := O). rewrite HE in O'. destruct (convex_hull sort (p0 :: p1 :: ps)) as [h0| | |]; try contradiction.
    destruct O' as [O1 O2]. exists h0. split; [reflexivity|]. split; [exact O2|]. apply values_X in O1. cbn [map]. rewrite <- O1. split.
    + intros n CO. destruct (hull_main sX n (values p0) (values p1) (map values ps) HX CO EX') as (h' & HE' & HP).
      cbn [map] in HE'. rewrite HE' in O. destruct O as [O3 _]. apply values_X in O3. congruence.
    + exists axis. now split.
  - intros FA. assert (HE : convex_hull sX (map (map Some) (map values (p0 :: p1 :: ps))) = Ret []).
    { cbn [map] in LF |- *. apply (hull_empty_iff sX); auto. apply Forall_forall. intros q Hq. apply in_map_iff in Hq. destruct Hq as (p & <- & Hp).
      rewrite Forall_forall in FA. destruct (SP p Hp) as [S1 _]. rewrite (proj1 S1 (FA p Hp)). lra. }
    cbn [map] in O, HE. rewrite HE in O. destruct (convex_hull sort (p0 :: p1 :: ps)) as [h0| | |]; try contradiction.
    destruct O as [O1 O2]. destruct h0; [reflexivity|discriminate].
Qed.
End Grid.
