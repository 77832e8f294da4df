(** Examples of coordinates on a grid. *)
From Coq Require Import ZArith Reals List Lia Lra Bool.
From Flocq Require Import Core BinarySingleNaN.
From Verif Require Import Ops M_vec M_mat M_bbox M_geom Inst_F S_vec S_mat S_bbox S_rnd S_grid P_fp P_fp5.
Import ListNotations.
Local Open Scope R_scope.

Lemma ex_on_grid : forall K z, (Z.abs z <= K)%Z -> (K <= 2 ^ 53)%Z -> on_grid 0 K (cst z : double).
Proof. intros K z H L. destruct (cst_double z ltac:(lia)) as [F B]. split; auto. exists z. rewrite B. split; [simpl; ring|lia]. Qed.
Lemma ex_grid_vec : forall K l, (K <= 2 ^ 53)%Z -> Forall (fun z => (Z.abs z <= K)%Z) l -> grid_vec 0 K (map cst l : list double).
Proof. intros K l L H. induction H; constructor; auto. now apply ex_on_grid. Qed.
Lemma ex_grid_mat : forall K l, (K <= 2 ^ 53)%Z -> Forall (Forall (fun z => (Z.abs z <= K)%Z)) l -> grid_mat 0 K (map (map cst) l : list (list double)).
Proof. intros K l L H. induction H; constructor; auto. now apply ex_grid_vec. Qed.
Lemma ex_values : forall l, Forall (fun z => (Z.abs z <= 2 ^ 53)%Z) l -> map B2R (map cst l : list double) = map IZR l.
Proof. intros l H. induction H; cbn [map]; auto. now rewrite IHForall, (proj2 (cst_double x H)). Qed.
Lemma ex_fits : forall e K, (-1074 <= e <= 971)%Z -> (K < 2 ^ 53)%Z -> representable 53 1024 e K.
Proof. intros e K H L. split; [lia|exact L]. Qed.

Definition gbox : bbox double := BB (map cst [-3; 0; 1]%Z) (map cst [5; 2; 8]%Z).
Lemma gbox_ok : is_box 3 (box_values gbox) /\ grid_box 0 8 gbox.
Proof.
  split; [|split; apply ex_grid_vec; try lia; repeat constructor; lia]. unfold box_values, gbox. cbn [bb_min bb_max].
  rewrite !ex_values by (repeat constructor; lia). cbn [map]. split; [reflexivity|]. split; [reflexivity|]. cbn [bb_min bb_max]. repeat constructor; lra.
Qed.
Definition gmat : list (list double) := map (map cst) [[2; 1; 0; 0]; [0; -3; 0; 0]; [1; 0; 1; 0]; [100; -20; 7; 1]]%Z.
Lemma gmat_ok : grid_affine 0 3 0 100 3 gmat.
Proof.
  split; [|split; [|split]].
  - split; [reflexivity|]. repeat constructor.
  - intros r c Hr Hc. destruct c as [|[|[|c]]]; destruct r as [|[|[|r]]]; try lia; apply ex_on_grid; lia.
  - intros r Hr. destruct r as [|[|[|r]]]; try lia; apply ex_on_grid; lia.
  - intros c Hc. destruct c as [|[|[|[|c]]]]; try lia; apply cst_double; lia.
Qed.
