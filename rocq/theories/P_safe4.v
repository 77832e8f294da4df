(** Cases of C102. *)
From Coq Require Import ZArith Reals List Bool Lia Lra Arith Permutation.
From Flocq Require Import Core BinarySingleNaN.
From Verif Require Import Ops M_scalar M_vec M_bbox M_hull Inst_F S_hull S_safe P_safe P_safe2 P_safe3 P_hull5.
Import ListNotations.

Lemma insertion_permutes : forall A, permutes (@insertion_sort A).
Proof. intros A lt. induction l as [|z l IH]; [reflexivity|]. cbn. etransitivity; [apply perm_skip, IH|]. apply insert_perm. Qed.
Lemma hull_fails : exists ps : list (list double),
  ps = map (map cst) [[0; 0; 0]; [1958191359; 2227469579; 0]; [988232810; 1124128401; 0]; [1581544549; 1799028657; 0]]%Z
  /\ (exists a, In a ps /\ ~ strict_weak_order (less_than_by_angle a) ps)
  /\ exists sort, sorts sort /\ permutes sort /\ convex_hull sort ps = Assert.
Proof.
  destruct not_ordered as (a & l & E & I & N). exists l. split; [exact E|]. split; [exists a; auto|]. exists insertion_sort.
  split; [apply insertion_sorts|]. split; [apply insertion_permutes|]. rewrite E. exact hull_asserts.
Qed.
Lemma hull_fails_small : exists sort, sorts sort /\ permutes sort
  /\ convex_hull sort (map (map (fun z => D z (-17))) [[0; 0; 0]; [1958191359; 2227469579; 0]; [988232810; 1124128401; 0]; [1581544549; 1799028657; 0]]%Z) = Assert.
Proof. exists insertion_sort. split; [apply insertion_sorts|]. split; [apply insertion_permutes|]. vm_compute. reflexivity. Qed.
Lemma safe_cases : find_abs_max_component [B754_nan; D 1 0; B754_infinity true] 3 = Assert
  /\ returns (find_abs_max_component [B754_nan; D 1 0; B754_infinity true] 2)
  /\ ~ fits_i64 (B754_infinity false : double) /\ sc_round (B754_infinity false : double) = UB
  /\ returns (bb_translate (BB [D (-1) 0; B754_nan] [D 1 1023; D 0 0]) [D 1 1023; B754_infinity true])
  /\ bb_translate (BB [D 1 0] [D 0 0]) [D 1 0] = Assert.
Proof.
  split; [reflexivity|]. split; [apply components_ok; cbn; lia|]. split; [intros (H & _); discriminate|]. split; [vm_compute; reflexivity|].
  split; [apply translate_ret; vm_compute; reflexivity|vm_compute; reflexivity].
Qed.
Definition square : list (list double) := map (map cst) [[0; 0; 0]; [8; 8; 0]; [8; 0; 0]; [0; 8; 0]; [4; 4; 0]]%Z.
(** Decision of the order *)
Definition swob {A} (lt : A -> A -> bool) (l : list A) : bool :=
  forallb (fun x => negb (lt x x)) l
  && forallb (fun x => forallb (fun y => forallb (fun z =>
       (negb (lt x y && lt y z) || lt x z)
       && (negb (negb (lt x y) && negb (lt y x) && negb (lt y z) && negb (lt z y)) || (negb (lt x z) && negb (lt z x)))) l) l) l.
Lemma swob_ok : forall A (lt : A -> A -> bool) l, swob lt l = true -> strict_weak_order lt l.
Proof.
  intros A lt l H. apply andb_true_iff in H. destruct H as [H1 H2]. rewrite forallb_forall in H1, H2.
  assert (K : forall x y z, In x l -> In y l -> In z l -> (negb (lt x y && lt y z) || lt x z)
       && (negb (negb (lt x y) && negb (lt y x) && negb (lt y z) && negb (lt z y)) || (negb (lt x z) && negb (lt z x))) = true).
  { intros x y z Hx Hy Hz. specialize (H2 x Hx). rewrite forallb_forall in H2. specialize (H2 y Hy). rewrite forallb_forall in H2. now apply H2. }
  split; [|split].
  - intros x Hx. apply negb_true_iff. now apply H1.
  - intros x y z Hx Hy Hz A1 A2. specialize (K x y z Hx Hy Hz). rewrite A1, A2 in K. destruct (lt x z); [reflexivity|discriminate].
  - intros x y z Hx Hy Hz A1 A2 A3 A4. specialize (K x y z Hx Hy Hz). rewrite A1, A2, A3, A4 in K. apply andb_true_iff in K. destruct K as [_ K].
    destruct (lt x z), (lt z x); try discriminate. auto.
Qed.
Lemma ordered_of : forall (T : Type) (o : ops T) (p : list T) ps,
  (forall axis, (axis <= 3)%nat -> match find_anchor (map (sz axis) (p :: ps)) with Ret (a :: rest) => swob (less_than_by_angle a) rest | _ => false end = true) ->
  forall axis qs a rest, mapM (fun p => v_swizzle p axis) (p :: ps) = Ret qs -> find_anchor qs = Ret (a :: rest) -> strict_weak_order (less_than_by_angle a) rest.
Proof.
  intros T o p ps H axis qs a rest E A.
  assert (L : (axis <= 3)%nat).
  { destruct (Nat.leb_spec axis 3) as [L|L]; [exact L|]. exfalso. revert E. cbn [map mapM]. unfold v_swizzle at 1. rewrite (proj2 (Nat.leb_gt axis 3) L). discriminate. }
  specialize (H axis L). destruct (swizzle_map axis (p :: ps) L) as [S _]. rewrite S in E. injection E as <-. apply swob_ok. cbn [map] in H. rewrite A in H. exact H.
Qed.
Lemma square_ordered : (forall axis qs a rest, mapM (fun p => v_swizzle p axis) square = Ret qs -> find_anchor qs = Ret (a :: rest) -> strict_weak_order (less_than_by_angle a) rest)
  /\ exists hull, convex_hull insertion_sort square = Ret hull /\ length hull = 4%nat.
Proof.
  split.
  - unfold square. cbn [map]. apply ordered_of. intros axis L. destruct axis as [|[|[|[|]]]]; [vm_compute; reflexivity..|lia].
  - assert (Q : match convex_hull insertion_sort square with Ret h => Nat.eqb (length h) 4 | _ => false end = true) by (vm_compute; reflexivity).
    destruct (convex_hull insertion_sort square) as [h| | |]; try discriminate. exists h. split; [reflexivity|]. now apply Nat.eqb_eq.
Qed.
