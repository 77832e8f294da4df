(** A sorting function that meets the specification of std::sort; examples (C60). *)
From Coq Require Import ZArith Reals List Bool Lia Lra Psatz Arith Sorted Permutation.
From Flocq Require Import Core.
From Verif Require Import Ops M_scalar M_vec M_hull Inst_XR Inst_F S_vec S_polygon S_hull P_xr P_vec P_vec2 P_hull4.
Import ListNotations.
Local Open Scope R_scope.

Fixpoint insert {A} (lt : A -> A -> bool) (z : A) (l : list A) : list A :=
  match l with
  | [] => [z]
  | w :: l' => if lt w z then w :: insert lt z l' else z :: w :: l'
  end.
Definition insertion_sort {A} (lt : A -> A -> bool) (l : list A) : list A := fold_right (insert lt) [] l.
Lemma insert_perm : forall A (lt : A -> A -> bool) z l, Permutation (z :: l) (insert lt z l).
Proof.
  intros A lt z l. induction l as [|w l IH]; [reflexivity|]. cbn [insert]. destruct (lt w z); [|reflexivity].
  etransitivity; [apply perm_swap|]. now apply perm_skip.
Qed.
Lemma insertion_sorts : forall A, sorts (@insertion_sort A).
Proof.
  intros A lt l (I1 & I2 & I3).
  assert (PM : forall l, Permutation l (insertion_sort lt l)).
  { induction l0 as [|z l0 IH]; [reflexivity|]. cbn. etransitivity; [apply perm_skip, IH|]. apply insert_perm. }
  split; [apply PM|].
  assert (AS : forall x y, In x l -> In y l -> lt x y = true -> lt y x = false).
  { intros x y Hx Hy H. destruct (lt y x) eqn:E; [|reflexivity]. rewrite <- (I1 x Hx). symmetry. eapply (I2 x y x); eauto. }
  (* negative transitivity *)
  assert (NT : forall x y z, In x l -> In y l -> In z l -> lt y x = false -> lt z y = false -> lt z x = false).
  { intros x y z Hx Hy Hz A1 A2. destruct (lt z x) eqn:E; [|reflexivity]. destruct (lt x y) eqn:E1.
    - rewrite (I2 z x y) in A2; auto.
    - destruct (lt y z) eqn:E2; [rewrite (I2 y z x) in A1; auto|].
      destruct (I3 x y z Hx Hy Hz) as (_ & W); auto. congruence. }
  assert (G : forall l0, incl l0 l -> StronglySorted (fun x y => lt y x = false) (insertion_sort lt l0)).
  { induction l0 as [|z l0 IH]; intros IC; [constructor|]. cbn.
    assert (IC' : incl (insertion_sort lt l0) l). { intros w Hw. apply IC. right. eapply Permutation_in; [apply Permutation_sym, PM|exact Hw]. }
    assert (Hz : In z l) by (apply IC; now left).
    assert (S0 : StronglySorted (fun x y => lt y x = false) (insertion_sort lt l0)) by (apply IH; intros w Hw; apply IC; now right).
    change (fold_right (insert lt) [] l0) with (insertion_sort lt l0). clear IH. induction S0 as [|w m S1 IH F]; [repeat constructor|]. cbn [insert].
    assert (Hw : In w l) by (apply IC'; now left). destruct (lt w z) eqn:E.
    - constructor; [apply IH; intros v Hv; apply IC'; now right|]. eapply Permutation_Forall; [apply insert_perm|]. constructor; [apply AS; auto|exact F].
    - constructor; [now constructor|]. constructor; [exact E|]. rewrite Forall_forall in F |- *. intros v Hv. apply (NT z w v); auto. apply IC'. now right. }
  apply G, incl_refl.
Qed.

Lemma tiny_triangle : forall sort, convex_hull sort (map vS [[0; 0; 0]; [/ 100; 0; 0]; [0; / 100; 0]]) = Ret []
  /\ ~ collinear [0; 0; 0] [/ 100; 0; 0] [0; / 100; 0].
Proof.
  intros sort. split.
  - apply hull_none; [repeat constructor|]. constructor; [|constructor]. unfold spread. cbn. lra.
  - intros C. apply colinear_exact in C; [|reflexivity|reflexivity]. apply colinear_eps in C; [|reflexivity|reflexivity|lra]. cbn in C. lra.
Qed.
Lemma doubled_point : forall sort, convex_hull sort (map vS [[0; 0; 0]; [0; 0; 0]; [8; 0; 0]; [0; 8; 0]]) = Ret []
  /\ ~ collinear [0; 0; 0] [8; 0; 0] [0; 8; 0].
Proof.
  intros sort. split.
  - apply (hull_coincident sort [0; 0; 0] [[8; 0; 0]; [0; 8; 0]]). repeat constructor.
  - intros C. apply colinear_exact in C; [|reflexivity|reflexivity]. apply colinear_eps in C; [|reflexivity|reflexivity|lra]. cbn in C. lra.
Qed.

