(** When convex_hull returns (C102). *)
From Coq Require Import ZArith List Bool Lia Arith Permutation Sorted.
From Flocq Require Import Core BinarySingleNaN.
From Verif Require Import Ops M_scalar M_vec M_hull Inst_F S_hull S_safe P_ieee P_plane P_fp4 P_sort P_components P_safe P_hull5.
Import ListNotations.

Section Any.
Context {T : Type} {o : ops T}.
Definition sz (axis : nat) (p : list T) : list T := match axis with 0%nat => [vy p; vz p; vx p] | 1%nat => [vz p; vx p; vy p] | _ => p end.
Definition usz (axis : nat) (p : list T) : list T := match axis with 0%nat => [vz p; vx p; vy p] | 1%nat => [vy p; vz p; vx p] | _ => p end.
Lemma usz_sz : forall axis p, length p = 3%nat -> usz axis (sz axis p) = p.
Proof. intros axis p L. destruct p as [|x [|y [|z [|]]]]; try discriminate. destruct axis as [|[|axis]]; reflexivity. Qed.
Lemma mapM_ret : forall (A B : Type) (f : A -> outcome B) g l, (forall x, f x = Ret (g x)) -> mapM f l = Ret (map g l).
Proof. intros A B f g l H. induction l as [|x l IH]; [reflexivity|]. cbn [mapM map]. rewrite H. cbn [bind]. now rewrite IH. Qed.
Lemma swizzle_map : forall axis (ps : list (list T)), (axis <= 3)%nat -> mapM (fun p => v_swizzle p axis) ps = Ret (map (sz axis) ps) /\ mapM (fun p => v_unswizzle p axis) ps = Ret (map (usz axis) ps).
Proof.
  intros axis ps H. split; apply mapM_ret; intros p; unfold v_swizzle, v_unswizzle; rewrite (proj2 (Nat.leb_le axis 3) H); cbn [require]; destruct axis as [|[|axis]]; reflexivity.
Qed.
Lemma anchor_index : forall (ps : list (list T)) n i k, (k < length ps)%nat -> (i + n <= length ps)%nat -> (find_anchor_loop ps n i k < length ps)%nat.
Proof. intros ps. induction n as [|n IH]; intros i k Hk Hn; cbn [find_anchor_loop]; [exact Hk|]. apply IH; [|lia]. destruct (_ || _); lia. Qed.
Lemma anchor_perm : forall ps : list (list T), ps <> [] -> exists a rest, find_anchor ps = Ret (a :: rest) /\ Permutation ps (a :: rest).
Proof.
  intros [|p ps] N; [congruence|]. unfold find_anchor.
  assert (K := anchor_index (p :: ps) (length (p :: ps) - 1) 1 0 ltac:(cbn; lia) ltac:(cbn; lia)).
  set (k := find_anchor_loop (p :: ps) (length (p :: ps) - 1) 1 0) in *. clearbody k. destruct (0 <? k)%nat eqn:E; [|exists p, ps; split; reflexivity].
  apply Nat.ltb_lt in E. destruct k as [|k]; [lia|]. cbn [length] in K.
  destruct (nth_error ps k) as [x|] eqn:Nk; [|apply nth_error_None in Nk; lia].
  apply nth_error_split in Nk. destruct Nk as (l1 & l2 & -> & L1). subst k.
  assert (SW := arr_swap_app [] l1 l2 p x). cbn [app length Nat.add] in SW. rewrite SW. exists x, (l1 ++ p :: l2). split; [reflexivity|].
  etransitivity; [apply perm_skip; apply Permutation_sym, Permutation_middle|]. etransitivity; [apply perm_swap|]. apply perm_skip. apply Permutation_middle.
Qed.
Lemma erase_incl : forall (a : list T) rest p, incl (erase_colinear a p rest) (p :: rest).
Proof.
  intros a. induction rest as [|q rest IH]; intros p; cbn [erase_colinear]; [apply incl_refl|]. destruct (_ =? 0)%Z.
  - intros x Hx. apply IH in Hx. cbn in *. tauto.
  - intros x [<-|Hx]; [now left|]. apply IH in Hx. cbn in *. tauto.
Qed.
Lemma erase_head : forall (a : list T) rest p, exists l, erase_colinear a p rest = p :: l /\ incl l rest.
Proof.
  intros a. induction rest as [|q rest IH]; intros p; cbn [erase_colinear]; [exists []; split; [reflexivity|easy]|]. destruct (_ =? 0)%Z.
  - destruct (IH p) as (l & E & I). exists l. split; [exact E|]. intros x Hx. right. auto.
  - eexists. split; [reflexivity|]. apply erase_incl.
Qed.
Lemma pop_incl : forall (p : list T) stack, incl (pop_stale_points stack p) stack.
Proof.
  intros p. induction stack as [|t s IH]; [apply incl_refl|]. cbn [pop_stale_points]. destruct s as [|t1 s']; [apply incl_refl|].
  destruct (_ <? 0)%Z; [|apply incl_refl]. intros x Hx. right. now apply IH.
Qed.
Lemma fold_incl : forall (rest stack : list (list T)), incl (fold_left (fun stack p => p :: pop_stale_points stack p) rest stack) (rest ++ stack).
Proof.
  induction rest as [|p rest IH]; intros stack; cbn [fold_left app]; [apply incl_refl|]. intros x Hx. apply IH in Hx. apply in_app_or in Hx. destruct Hx as [Hx|[<-|Hx]].
  - right. apply in_or_app. now left.
  - now left.
  - right. apply in_or_app. right. now apply pop_incl in Hx.
Qed.
Lemma build_incl : forall l hull : list (list T), build_hull l = Ret hull -> incl hull l /\ (3 <= length hull)%nat.
Proof.
  intros l hull. unfold build_hull. destruct l as [|p0 [|p1 rest]]; try discriminate. cbv zeta.
  match goal with |- context [require ?b _] => destruct b eqn:E end; [|discriminate]. cbn [require]. intros H. injection H as <-. split; [|apply Nat.ltb_lt in E; lia].
  intros x Hx. apply in_rev in Hx. apply fold_incl in Hx. apply in_app_or in Hx. destruct Hx as [Hx|Hx]; [right; now right|]. destruct Hx as [<-|[<-|[]]]; [right; now left|now left].
Qed.
Lemma sort_points_incl : forall sort ps, permutes sort -> incl (sort_points sort ps) ps.
Proof.
  intros sort [|a rest] H; cbn [sort_points]; [apply incl_refl|]. assert (P := H (less_than_by_angle a) rest). destruct (sort _ rest) as [|p1 rest'].
  - intros x [<-|[]]. now left.
  - intros x [<-|Hx]; [now left|]. right. apply (Permutation_in _ (Permutation_sym P)). now apply erase_incl in Hx.
Qed.

Lemma hull_any_type : forall sort ps, Forall (fun p => length p = 3%nat) ps ->
  (returns (convex_hull sort ps) \/ convex_hull sort ps = Assert)
  /\ (permutes sort -> forall hull, convex_hull sort ps = Ret hull -> incl hull ps /\ (hull = [] \/ (3 <= length hull)%nat)).
Proof.
  intros sort ps F. unfold convex_hull. destruct ps as [|p0 [|p1 [|p2 ps]]];
    try (split; [left; apply returns_ret|intros _ hull H; injection H as <-; split; [easy|now left]]).
  cbv zeta. set (third := find_linearly_independent_point _ _ _ _). destruct (length _ <=? third)%nat;
    [split; [left; apply returns_ret|intros _ hull H; injection H as <-; split; [easy|now left]]|].
  match goal with |- context [find_abs_max_component ?v 0] => destruct (find_abs_max_ret v 0) as (axis & E & Ha) end; [cbn; lia|]. rewrite E. cbn [bind]. cbn [length v_cross] in Ha.
  destruct (swizzle_map axis (p0 :: p1 :: p2 :: ps) ltac:(cbn in Ha; lia)) as (-> & _). cbn [bind].
  destruct (anchor_perm (map (sz axis) (p0 :: p1 :: p2 :: ps)) ltac:(discriminate)) as (a & rest & EA & PA). rewrite EA. cbn [bind].
  destruct (length (sort_points sort (a :: rest)) <=? 2)%nat eqn:L;
    [split; [left; apply returns_ret|intros _ hull H; injection H as <-; split; [easy|now left]]|].
  apply Nat.leb_gt in L. assert (BH := build_incl (sort_points sort (a :: rest))).
  destruct (build_hull (sort_points sort (a :: rest))) as [hull| | |] eqn:EB; cbn [bind].
  - destruct (swizzle_map axis hull ltac:(cbn in Ha; lia)) as (_ & ->). split; [left; apply returns_ret|]. intros P hull' H. injection H as <-.
    destruct (BH hull eq_refl) as (I & L3). split; [|right; now rewrite map_length].
    intros x Hx. apply in_map_iff in Hx. destruct Hx as (y & <- & Hy). apply I in Hy. apply (sort_points_incl sort (a :: rest) P) in Hy.
    apply (Permutation_in _ (Permutation_sym PA)) in Hy. apply in_map_iff in Hy. destruct Hy as (z & <- & Hz). rewrite usz_sz; [exact Hz|]. rewrite Forall_forall in F. now apply F.
  all: try (split; [now right|]; intros _ hull H; discriminate).
  all: exfalso; revert EB L; unfold build_hull; destruct (sort_points sort (a :: rest)) as [|q0 [|q1 l]]; cbn [length]; intros EB L; try lia; unfold require in EB;
    match type of EB with (if ?b then _ else _) = _ => destruct b end; discriminate.
Qed.
End Any.

Section IEEE.
Variables prec emax : Z.
Context {Hprec : Prec_gt_0 prec} {Hmax : Prec_lt_emax prec emax}.
Notation fl := (binary_float prec emax).

Lemma zero_opp : forall x y : fl, opp_of prec emax x y -> o_lt x (cst 0) = o_lt (cst 0) y.
Proof.
  intros x y H. destruct (opp_cases prec emax x y H) as [->|(s & t & -> & ->)].
  - destruct y as [s|s| |s m e B]; try (destruct s; reflexivity); reflexivity.
  - destruct s, t; reflexivity.
Qed.
Lemma left_flip : forall a p q : list fl, is_left a p q = (- is_left a q p)%Z.
Proof.
  intros a p q. unfold is_left. cbv zeta.
  set (X := o_mul (o_sub (vx p) (vx a)) (o_sub (vy q) (vy a))). set (Y := o_mul (o_sub (vx q) (vx a)) (o_sub (vy p) (vy a))).
  rewrite (zero_opp _ _ (opp_swap prec emax X Y)), <- (zero_opp _ _ (opp_swap prec emax Y X)).
  assert (N : forall z : fl, o_lt (cst 0) z = true -> o_lt z (cst 0) = true -> False).
  { intros [[]|[]| |[] m e B]; cbn; discriminate. }
  specialize (N (o_sub Y X)). destruct (o_lt (cst 0) (o_sub Y X)), (o_lt (o_sub Y X) (cst 0)); try reflexivity. now destruct N.
Qed.
Lemma first_kept : forall (a p1 : list fl) stack p, (0 <= is_left a p1 p)%Z -> exists top, pop_stale_points (stack ++ [p1; a]) p = top ++ [p1; a].
Proof.
  intros a p1 stack p H. induction stack as [|t s IH].
  - exists []. cbn. destruct (_ <? 0)%Z eqn:E; [apply Z.ltb_lt in E; lia|reflexivity].
  - cbn [app pop_stale_points]. destruct (s ++ [p1; a]) as [|t1 s'] eqn:Es; [destruct s; discriminate|]. rewrite <- Es in *. destruct (_ <? 0)%Z; [exact IH|]. now exists (t :: s).
Qed.
Lemma fold_kept : forall (a p1 : list fl) rest stack, Forall (fun p => (0 <= is_left a p1 p)%Z) rest ->
  exists top, fold_left (fun stack p => p :: pop_stale_points stack p) rest (stack ++ [p1; a]) = top ++ [p1; a] /\ (rest <> [] -> top <> []).
Proof.
  intros a p1. induction rest as [|p rest IH]; intros stack H; [exists stack; split; [reflexivity|congruence]|].
  inversion_clear H as [|? ? H1 H2]. cbn [fold_left]. destruct (first_kept a p1 stack p H1) as (top & E). rewrite E.
  destruct (IH (p :: top) H2) as (top' & E' & N). exists top'. split; [exact E'|]. intros _. destruct rest as [|q rest]; [|apply N; discriminate].
  cbn in E'. intros ->. apply (f_equal (@length _)) in E'. cbn in E'. rewrite app_length in E'. cbn in E'. lia.
Qed.
Lemma hull_ordered : forall sort (ps : list (list fl)), sorts sort -> Forall (fun p => length p = 3%nat) ps ->
  (forall axis qs a rest, mapM (fun p => v_swizzle p axis) ps = Ret qs -> find_anchor qs = Ret (a :: rest) -> strict_weak_order (less_than_by_angle a) rest) ->
  returns (convex_hull sort ps).
Proof.
  intros sort ps HS F W. destruct (proj1 (hull_any_type sort ps F)) as [R|R]; [exact R|]. exfalso. revert R.
  unfold convex_hull. destruct ps as [|p0 [|p1 [|p2 ps]]]; try discriminate. cbv zeta. set (third := find_linearly_independent_point _ _ _ _).
  destruct (length _ <=? third)%nat; [discriminate|].
  match goal with |- context [find_abs_max_component ?v 0] => destruct (find_abs_max_ret v 0) as (axis & E & Ha) end; [cbn; lia|]. rewrite E. cbn [bind]. cbn [length v_cross] in Ha.
  destruct (swizzle_map axis (p0 :: p1 :: p2 :: ps) ltac:(cbn in Ha; lia)) as (ES & _). specialize (W axis). rewrite ES in W |- *. cbn [bind].
  destruct (anchor_perm (map (sz axis) (p0 :: p1 :: p2 :: ps)) ltac:(discriminate)) as (a & rest & EA & PA). rewrite EA. cbn [bind].
  assert (SW : strict_weak_order (less_than_by_angle a) rest) by exact (W _ a rest eq_refl EA).
  destruct (HS _ _ SW) as (PS & SS). cbn [sort_points].
  destruct (sort (less_than_by_angle a) rest) as [|q1 rest'] eqn:EQ; [discriminate|].
  inversion SS as [|? ? _ FF]; subst. destruct (erase_head a rest' q1) as (l & EE & IE). rewrite EE.
  destruct l as [|q2 l]; [discriminate|]. cbn [length Nat.leb].
  assert (G : Forall (fun p => (0 <= is_left a q1 p)%Z) (q2 :: l)).
  { apply Forall_forall. intros p Hp. rewrite Forall_forall in FF. specialize (FF p (IE p Hp)). unfold less_than_by_angle in FF. cbv zeta in FF. rewrite (left_flip a q1 p).
    destruct (is_left a p q1 >? 0)%Z eqn:Z1; [discriminate|]. rewrite Z.gtb_ltb in Z1. apply Z.ltb_ge in Z1. lia. }
  destruct (fold_kept a q1 (q2 :: l) [] G) as (top & EF & NT). cbn [app] in EF. unfold build_hull. cbv zeta. rewrite EF.
  rewrite rev_length, app_length. cbn [length].
  assert (LT : (1 <= length top)%nat) by (destruct top; [now destruct NT|cbn; lia]).
  rewrite (proj2 (Nat.ltb_lt 2 (length top + 2))) by lia. cbn [require bind].
  destruct (swizzle_map axis (rev (top ++ [q1; a])) ltac:(cbn in Ha; lia)) as (_ & ->). discriminate.
Qed.
End IEEE.

(** In double precision, the comparison by angle is not always an order. *)
Definition narrow : list (list Z) := [[0; 0; 0]; [1958191359; 2227469579; 0]; [988232810; 1124128401; 0]; [1581544549; 1799028657; 0]]%Z.
Lemma not_ordered : exists a : list double, exists l, l = map (map cst) narrow /\ In a l /\ ~ strict_weak_order (less_than_by_angle a) l.
Proof.
  exists (map cst [0; 0; 0]%Z), (map (map cst) narrow). split; [reflexivity|]. split; [now left|]. intros (W1 & W2 & _).
  set (q1 := map cst [988232810; 1124128401; 0]%Z : list double). set (q2 := map cst [1958191359; 2227469579; 0]%Z : list double). set (q3 := map cst [1581544549; 1799028657; 0]%Z : list double).
  assert (I1 : In q1 (map (map cst) narrow)) by (right; right; now left). assert (I2 : In q2 (map (map cst) narrow)) by (right; now left). assert (I3 : In q3 (map (map cst) narrow)) by (right; right; right; now left).
  assert (L1 : less_than_by_angle (map cst [0; 0; 0]%Z) q1 q2 = true) by (vm_compute; reflexivity).
  assert (L2 : less_than_by_angle (map cst [0; 0; 0]%Z) q2 q3 = true) by (vm_compute; reflexivity).
  assert (L3 : less_than_by_angle (map cst [0; 0; 0]%Z) q3 q1 = true) by (vm_compute; reflexivity).
  assert (C := W2 q1 q3 q1 I1 I3 I1 (W2 q1 q2 q3 I1 I2 I3 L1 L2) L3). rewrite (W1 q1 I1) in C. discriminate.
Qed.
Lemma hull_asserts : convex_hull insertion_sort (map (map cst) narrow : list (list double)) = Assert.
Proof. vm_compute. reflexivity. Qed.
