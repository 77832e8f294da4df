(** The convex hull of points on a grid in machine arithmetic: the decisions are those of exact arithmetic. *)
From Coq Require Import ZArith Reals List Lia Lra Bool Psatz Sorted Permutation.
From Flocq Require Import Core BinarySingleNaN.
From Verif Require Import Ops M_scalar M_vec M_mat M_hull Inst_F Inst_XR S_vec S_mat S_polygon S_hull S_rnd S_grid.
From Verif Require Import P_ord P_ieee P_xr P_vec P_vec2 P_fp P_grid P_grid2 P_grid3 P_grid4 P_hull3 P_hull4 P_hull5.
Import ListNotations.
Local Open Scope R_scope.

(** ** Sorting components *)
Section Param.
Variables (A B : Type) (R : A -> B -> Prop) (cmp : A -> A -> bool) (cmp' : B -> B -> bool).
Hypothesis Hcmp : forall x y a b, R x a -> R y b -> cmp x y = cmp' a b.
Lemma get_par : forall l l' i, Forall2 R l l' -> orel R (arr_get l i) (arr_get l' i).
Proof.
  intros l l' i H. unfold arr_get. revert i. induction H as [|x a l l' X H IH]; intros [|i]; cbn [nth_error]; try exact I; auto.
Qed.
Lemma upd_par : forall l l' i x a, Forall2 R l l' -> R x a -> Forall2 R (upd l i x) (upd l' i a).
Proof.
  intros l l' i x a H X. revert i. induction H as [|y b l l' Y H IH]; intros [|i]; cbn; constructor; auto.
Qed.
Lemma swap_par : forall l l' i j, Forall2 R l l' -> orel (Forall2 R) (arr_swap l i j) (arr_swap l' i j).
Proof.
  intros l l' i j H. unfold arr_swap. eapply orel_bind; [now apply get_par|]. intros x a X. eapply orel_bind; [now apply get_par|]. intros y b Y. cbn. auto using upd_par.
Qed.
Lemma partition_par : forall n left mid i l l', Forall2 R l l' ->
  orel (fun p q => fst p = fst q /\ Forall2 R (snd p) (snd q)) (sort_partition cmp n left mid i l) (sort_partition cmp' n left mid i l').
Proof.
  intros n. induction n as [|n IH]; intros left mid i l l' H; cbn [sort_partition].
  - cbn. auto.
  - eapply orel_bind; [now apply get_par|]. intros x a X. eapply orel_bind; [now apply get_par|]. intros y b Y. rewrite (Hcmp x y a b) by auto.
    destruct (cmp' a b); [|now apply IH]. eapply orel_bind; [now apply swap_par|]. intros. now apply IH.
Qed.
Lemma sort_par : forall fuel left right l l', Forall2 R l l' -> orel (Forall2 R) (sort cmp fuel left right l) (sort cmp' fuel left right l').
Proof.
  intros fuel. induction fuel as [|fuel IH]; intros left right l l' H; cbn [sort]; destruct (left <? right)%nat; auto; try exact I.
  eapply orel_bind; [now apply partition_par|]. intros [m k] [m' k'] [E K]. cbn [fst snd] in *. subst m'.
  eapply orel_bind; [now apply swap_par|]. intros u v U. eapply orel_bind; [now apply IH|]. intros. now apply IH.
Qed.
End Param.

Section Grid.
Variables prec emax : Z.
Context {Hprec : Prec_gt_0 prec} {Hmax : Prec_lt_emax prec emax}.
Notation fl := (binary_float prec emax).
Notation fits := (representable prec emax).
Notation rel := (rel prec emax).
Notation vrel := (vrel prec emax).
Notation vS := (map (@Some R)).
Notation X p := (vS (values p)).

Variables e K D : Z.
Hypothesis HK : (0 <= K)%Z.
Hypothesis HD : (0 <= D)%Z.
Hypothesis F1 : fits e (K + K).
Hypothesis F2 : fits (e + e) (2 * (D * D)).

Lemma grid3 : forall p : list fl, length p = 3%nat -> grid_vec e K p -> exists x y z, p = [x; y; z] /\ rel e K x (Some (B2R x)) /\ rel e K y (Some (B2R y)) /\ rel e K z (Some (B2R z)).
Proof.
  intros p L G. destruct p as [|x [|y [|z [|]]]]; try discriminate. inversion G as [|? ? G1 G']; subst. inversion G' as [|? ? G2 G'']; subst. inversion G'' as [|? ? G3 _]; subst.
  exists x, y, z. split; [reflexivity|]. split; [|split]; split; auto.
Qed.
Lemma rel_diff : forall x y : fl, rel e K x (Some (B2R x)) -> rel e K y (Some (B2R y)) -> Rabs (B2R x - B2R y) <= IZR D * bpow radix2 e ->
  rel e D (o_sub x y) (Some (B2R x - B2R y)).
Proof.
  intros x y RX RY H. assert (R := rel_sub prec emax e K K x y _ _ RX RY F1). cbn [o_sub XRops X2] in R. destruct R as [[F (k & V & L)] E]. injection E as E.
  split; [split; [exact F|]|now rewrite E]. exists k. split; [exact V|]. assert (EV : B2R x - B2R y = IZR k * bpow radix2 e) by (rewrite E; exact V). rewrite EV in H. rewrite Rabs_mult, (Rabs_pos_eq (bpow radix2 e)) in H by apply bpow_ge_0.
  apply Rmult_le_reg_r in H; [|apply bpow_gt_0]. rewrite <- abs_IZR in H. now apply le_IZR.
Qed.
Definition close (p q : list fl) : Prop := forall i, Rabs (nth i (values p) 0 - nth i (values q) 0) <= IZR D * bpow radix2 e.
Definition ok (p : list fl) : Prop := length p = 3%nat /\ grid_vec e K p.

Ltac pts := repeat match goal with H : ok ?p |- _ => let x := fresh "x" in let y := fresh "y" in let z := fresh "z" in
  let Hx := fresh "Hx" in let Hy := fresh "Hy" in let Hz := fresh "Hz" in destruct H as [? ?]; destruct (grid3 p) as (x & y & z & -> & Hx & Hy & Hz); [assumption|assumption|] end.
Lemma close_at : forall p q i, ok p -> ok q -> close p q -> (i < 3)%nat -> rel e D (o_sub (vget p i) (vget q i)) (o_sub (vget (X p) i) (vget (X q) i)).
Proof.
  intros p q i P Q C Hi. specialize (C i). pts. destruct i as [|[|[|i]]]; try lia; cbn in C |- *; apply rel_diff; auto.
Qed.
Lemma is_left_X : forall a b c, ok a -> ok b -> ok c -> close b a -> close c a -> is_left a b c = is_left (X a) (X b) (X c).
Proof.
  intros a b c A B C BA CA. unfold is_left, vx, vy. 
  assert (Q : (0 <= D * D)%Z) by nia. assert (F3 : fits (e + e) (D * D)) by (eapply fits_le; eauto; lia).
  assert (R : rel (e + e) (D * D + D * D) (o_sub (o_mul (o_sub (vget b 0) (vget a 0)) (o_sub (vget c 1) (vget a 1))) (o_mul (o_sub (vget c 0) (vget a 0)) (o_sub (vget b 1) (vget a 1))))
    (o_sub (o_mul (o_sub (vget (X b) 0) (vget (X a) 0)) (o_sub (vget (X c) 1) (vget (X a) 1))) (o_mul (o_sub (vget (X c) 0) (vget (X a) 0)) (o_sub (vget (X b) 1) (vget (X a) 1))))).
  { apply rel_sub; [| |apply (fits_le prec emax _ _ _ F2); lia]; apply rel_mul; auto; apply close_at; auto; lia. }
  assert (Z0 : rel (e + e) 0 (cst 0) (cst 0)) by (apply rel_zero; lia). cbv zeta.
  rewrite (rel_lt prec emax _ _ _ _ _ _ _ _ R Z0), (rel_lt prec emax _ _ _ _ _ _ _ _ Z0 R). reflexivity.
Qed.
Lemma rel_eq : forall f A g B (x y : fl) a b, rel f A x a -> rel g B y b -> o_eq x y = o_eq a b.
Proof. intros f A g B x y a b [[Fx _] ->] [[Fy _] ->]. cbn. now apply Beqb_correct. Qed.
Lemma less_X : forall a b c, ok a -> ok b -> ok c -> close b a -> close c a -> less_than_by_angle a b c = less_than_by_angle (X a) (X b) (X c).
Proof.
  intros a b c A B C BA CA. unfold less_than_by_angle. rewrite (is_left_X a b c) by auto. unfold vx, vy.
  assert (R := fun i p (P : ok p) (Q : close p a) (H : (i < 3)%nat) => rel_abs prec emax e D _ _ (close_at p a i P A Q H)).
  rewrite (rel_eq _ _ _ _ _ _ _ _ (R 0%nat b B BA ltac:(lia)) (R 0%nat c C CA ltac:(lia))).
  rewrite (rel_lt prec emax _ _ _ _ _ _ _ _ (R 0%nat c C CA ltac:(lia)) (R 0%nat b B BA ltac:(lia))).
  rewrite (rel_lt prec emax _ _ _ _ _ _ _ _ (R 1%nat c C CA ltac:(lia)) (R 1%nat b B BA ltac:(lia))). reflexivity.
Qed.
Lemma anchor_X : forall pts n i k, Forall ok pts -> (k < length pts)%nat -> (i + n <= length pts)%nat ->
  find_anchor_loop pts n i k = find_anchor_loop (map (fun p => X p) pts) n i k.
Proof.
  intros pts n. induction n as [|n IH]; intros i k F Hk Hi; [reflexivity|]. cbn [find_anchor_loop].
  assert (N : forall j, (j < length pts)%nat -> nth j (map (fun p => X p) pts) [] = X (nth j pts []) /\ ok (nth j pts [])).
  { intros j Hj. split; [|rewrite Forall_forall in F; apply F; now apply nth_In]. change (@nil XR) with (X (@nil fl)). apply (map_nth (fun p => X p)). }
  destruct (N i) as [-> OI]; [lia|]. destruct (N k) as [-> OK]; [lia|].
  assert (G : forall p q j, ok p -> ok q -> (j < 3)%nat -> o_lt (vget p j) (vget q j) = o_lt (vget (X p) j) (vget (X q) j) /\ o_eq (vget p j) (vget q j) = o_eq (vget (X p) j) (vget (X q) j)).
  { intros p q j P Q Hj. pts. destruct j as [|[|[|j]]]; try lia; cbn [vget nth values map]; (split; [eapply rel_lt|eapply rel_eq]); eauto. }
  unfold vx, vy. destruct (G (nth i pts []) (nth k pts []) 1%nat OI OK ltac:(lia)) as [-> ->]. destruct (G (nth k pts []) (nth i pts []) 0%nat OK OI ltac:(lia)) as [-> _].
  apply IH; auto; [|lia]. destruct (_ || _); lia.
Qed.

Definition cluster (ps : list (list fl)) : Prop := Forall ok ps /\ forall p q, In p ps -> In q ps -> close p q.
Lemma cluster_ok : forall ps p, cluster ps -> In p ps -> ok p.
Proof. intros ps p [F _] H. rewrite Forall_forall in F. auto. Qed.
Lemma cluster_incl : forall ps qs, cluster ps -> incl qs ps -> cluster qs.
Proof. intros ps qs [F C] I. split; [|auto]. rewrite Forall_forall in *. auto. Qed.
Lemma left_in : forall ps a b c, cluster ps -> In a ps -> In b ps -> In c ps -> is_left a b c = is_left (X a) (X b) (X c).
Proof. intros ps a b c C A B D0. apply is_left_X; try (now apply (cluster_ok ps)); now apply C. Qed.
Notation Xs := (map (fun p => X p)).
Lemma erase_X : forall ps a rest p, cluster ps -> In a ps -> In p ps -> incl rest ps -> Xs (erase_colinear a p rest) = erase_colinear (X a) (X p) (Xs rest).
Proof.
  intros ps a rest p C A. revert p. induction rest as [|q rest IH]; intros p P I; [reflexivity|]. cbn [erase_colinear map].
  assert (Q : In q ps) by (apply I; now left). assert (I' : incl rest ps) by (intros z Hz; apply I; now right).
  rewrite <- (left_in ps a p q) by auto. destruct (is_left a p q =? 0)%Z; cbn [map]; rewrite IH; auto.
Qed.
Lemma pop_X : forall ps stack p, cluster ps -> incl stack ps -> In p ps -> Xs (pop_stale_points stack p) = pop_stale_points (Xs stack) (X p) /\ incl (pop_stale_points stack p) stack.
Proof.
  intros ps stack p C I P. induction stack as [|t2 below IH]; [split; [reflexivity|easy]|]. cbn [pop_stale_points map]. destruct below as [|t1 below]; [split; [reflexivity|easy]|]. cbn [map].
  rewrite <- (left_in ps t1 t2 p); auto; [|apply I; right; now left|apply I; now left].
  destruct (is_left t1 t2 p <? 0)%Z; [|split; [reflexivity|easy]]. destruct IH as [IH1 IH2]; [intros z Hz; apply I; now right|]. cbn [map] in IH1. split; [exact IH1|]. intros z Hz. right. now apply IH2.
Qed.
Lemma fold_pop_X : forall ps rest stack, cluster ps -> incl stack ps -> incl rest ps ->
  Xs (fold_left (fun stack p => p :: pop_stale_points stack p) rest stack) = fold_left (fun stack p => p :: pop_stale_points stack p) (Xs rest) (Xs stack)
  /\ incl (fold_left (fun stack p => p :: pop_stale_points stack p) rest stack) ps.
Proof.
  intros ps rest. induction rest as [|p rest IH]; intros stack C I IR; [now split|]. cbn [fold_left map].
  assert (P : In p ps) by (apply IR; now left). destruct (pop_X ps stack p C I P) as [E J].
  destruct (IH (p :: pop_stale_points stack p) C) as [E1 E2]; [intros z [<-|Hz]; auto|intros z Hz; apply IR; now right|].
  split; [|exact E2]. rewrite E1. cbn [map]. now rewrite E.
Qed.
Lemma build_X : forall ps l, cluster ps -> incl l ps -> orel (fun h h' => h' = Xs h /\ incl h ps) (build_hull l) (build_hull (Xs l)).
Proof.
  intros ps l C I. destruct l as [|p0 [|p1 rest]]; try exact Logic.I. cbn [build_hull map].
  destruct (fold_pop_X ps rest [p1; p0] C) as [E J]; [intros z [<-|[<-|[]]]; apply I; [right; now left|now left]|intros z Hz; apply I; now right; right|].
  cbn [map] in E. rewrite <- E, <- map_rev, map_length. apply orel_require. cbn. split; [reflexivity|]. intros z Hz. apply J. now apply in_rev.
Qed.
Lemma mapM_par : forall (A B A' B' : Type) (R : A -> B -> Prop) (R' : A' -> B' -> Prop) f g l l', (forall x y, R x y -> orel R' (f x) (g y)) -> Forall2 R l l' -> orel (Forall2 R') (mapM f l) (mapM g l').
Proof.
  intros A B A' B' R0 R' f g l l' H FF. induction FF as [|x y l l' XY FF IH]; cbn [mapM]; [constructor|].
  eapply orel_bind; [now apply H|]. intros a b AB. eapply orel_bind; [exact IH|]. intros u v UV. cbn. now constructor.
Qed.

(** The test for colinear points *)
Hypothesis F4 : fits (e + e + (e + e)) (2 * (3 * (D * D) * (3 * (D * D)))).
Hypothesis F5 : fits (e + e) (3 * (D * D)).
Hypothesis E1 : is_finite (colinear_epsilon : fl) = true.
Hypothesis E2 : 0 <= B2R (colinear_epsilon : fl) < bpow radix2 (e + e + (e + e)).
Hypothesis E3 : / 100000 < bpow radix2 (e + e + (e + e)).
Lemma sum3 : forall x0 y0 x1 y1 x2 y2 a0 b0 a1 b1 a2 b2, rel e D x0 a0 -> rel e D y0 b0 -> rel e D x1 a1 -> rel e D y1 b1 -> rel e D x2 a2 -> rel e D y2 b2 ->
  rel (e + e) (3 * (D * D)) (o_add (o_add (o_add (cst 0) (o_mul x0 y0)) (o_mul x1 y1)) (o_mul x2 y2)) (o_add (o_add (o_add (cst 0) (o_mul a0 b0)) (o_mul a1 b1)) (o_mul a2 b2)).
Proof.
  intros. assert (Q : (0 <= D * D)%Z) by nia. assert (FF : forall k, (k <= 3 * (D * D))%Z -> fits (e + e) k) by (intros k Hk; apply (fits_le prec emax _ _ _ F5); lia).
  replace (3 * (D * D))%Z with (0 + D * D + D * D + D * D)%Z by lia.
  assert (Z0 : rel (e + e) 0 (cst 0) (cst 0)) by (apply rel_zero; lia).
  repeat (apply rel_add; [| |apply FF; lia]); auto; apply rel_mul; auto; apply FF; lia.
Qed.
Lemma colinear_X' : forall ps a b c, cluster ps -> In a ps -> In b ps -> In c ps ->
  v_is_colinear a b c colinear_epsilon = v_is_colinear (X a) (X b) (X c) colinear_epsilon
  /\ (v_is_colinear a b c colinear_epsilon = true <-> spread (values a) (values b) (values c) = 0).
Proof.
  intros ps a b c C A B C0. assert (OA := cluster_ok ps a C A). assert (OB := cluster_ok ps b C B). assert (OC := cluster_ok ps c C C0).
  assert (AC := fun i => close_at a c i OA OC (proj2 C a c A C0)). assert (BA := fun i => close_at b a i OB OA (proj2 C b a B A)).
  assert (AC0 := AC 0%nat ltac:(lia)). assert (AC1 := AC 1%nat ltac:(lia)). assert (AC2 := AC 2%nat ltac:(lia)).
  assert (BA0 := BA 0%nat ltac:(lia)). assert (BA1 := BA 1%nat ltac:(lia)). assert (BA2 := BA 2%nat ltac:(lia)).
  clear AC BA. pts. cbn [vget nth values map] in AC0, AC1, AC2, BA0, BA1, BA2.
  assert (J := sum3 _ _ _ _ _ _ _ _ _ _ _ _ AC0 BA0 AC1 BA1 AC2 BA2). assert (KK := sum3 _ _ _ _ _ _ _ _ _ _ _ _ AC0 AC0 AC1 AC1 AC2 AC2). assert (L := sum3 _ _ _ _ _ _ _ _ _ _ _ _ BA0 BA0 BA1 BA1 BA2 BA2).
  set (M := (3 * (D * D))%Z) in *. assert (0 <= M)%Z by (unfold M; nia). assert (0 <= M * M)%Z by nia.
  assert (FM : fits (e + e + (e + e)) (M * M)) by (apply (fits_le prec emax _ _ _ F4); lia).
  assert (G := rel_sub prec emax _ _ _ _ _ _ _ (rel_mul prec emax _ _ _ _ _ _ _ _ J J FM) (rel_mul prec emax _ _ _ _ _ _ _ _ KK L FM) ltac:(apply (fits_le prec emax _ _ _ F4); lia)).
  destruct G as [G1 G2].
  match type of G1 with on_grid _ _ ?t => set (g := t) in G1, G2 end.
  assert (U : v_is_colinear [x1; y1; z1] [x0; y0; z0] [x; y; z] colinear_epsilon = sc_is_zero g colinear_epsilon) by reflexivity.
  assert (W : v_is_colinear (X [x1; y1; z1]) (X [x0; y0; z0]) (X [x; y; z]) colinear_epsilon = sc_is_zero (Some (B2R g)) colinear_epsilon) by (rewrite <- G2; reflexivity).
  assert (N : sc_is_zero g colinear_epsilon = true <-> B2R g = 0) by (apply (grid_zero prec emax _ _ _ _ G1 E1 E2)).
  assert (N' : sc_is_zero (Some (B2R g)) colinear_epsilon = true <-> B2R g = 0).
  { rewrite eps_X, X_is_zero by lra. rewrite Rle_true. destruct G1 as [_ (k & V & _)]. rewrite V. assert (P := bpow_gt_0 radix2 (e + e + (e + e))). split; intros HZ.
    - destruct (Z.eq_dec k 0) as [->|NZ]; [simpl; ring|exfalso]. rewrite Rabs_mult, (Rabs_pos_eq (bpow radix2 _)), <- abs_IZR in HZ by lra.
      assert (1 <= IZR (Z.abs k)) by (apply IZR_le; lia). nra.
    - rewrite HZ, Rabs_R0. lra. }
  assert (SP : B2R g = - spread (values [x1; y1; z1]) (values [x0; y0; z0]) (values [x; y; z])).
  { apply (f_equal (fun o => match o with Some r => r | None => 0 end)) in G2. rewrite <- G2. unfold spread, values. cbn. ring. }
  rewrite U, W. split.
  - destruct (sc_is_zero g colinear_epsilon) eqn:EA, (sc_is_zero (Some (B2R g)) colinear_epsilon) eqn:EB; auto.
    + assert (HH : B2R g = 0) by (now apply N). apply N' in HH. congruence.
    + assert (HH : B2R g = 0) by (now apply N'). apply N in HH. congruence.
  - rewrite N, SP. lra.
Qed.
End Grid.
