(** Points in polygons in machine arithmetic: cases (C116). *)
From Coq Require Import ZArith Reals List Lia Lra Bool Psatz Arith.
From Flocq Require Import Core BinarySingleNaN.
From Verif Require Import Ops M_scalar M_vec M_geom M_intersect Inst_F S_vec S_rnd S_hit S_polygon S_winding S_polyf P_ieee P_fp5 P_polygon.
Import ListNotations.
Local Open Scope R_scope.

(** Vectors of integers *)
Definition ints (l : list Z) : list double := map cst l.
Lemma ints_ok : forall l, Forall (fun z => (Z.abs z <= 100)%Z) l -> all_finite (ints l) /\ values (ints l) = map IZR l.
Proof.
  induction 1 as [|z l H _ [F V]]; [split; constructor|]. destruct (cst_double z ltac:(lia)) as (G & W). split; [constructor; assumption|]. cbn [ints map values]. unfold ints, values in V |- *. cbn [map]. rewrite W, V. reflexivity.
Qed.
Lemma ints_within : forall x y z, (Z.abs x <= 8)%Z -> (Z.abs y <= 8)%Z -> (Z.abs z <= 8)%Z -> within 8 (ints [x; y; z]) /\ values (ints [x; y; z]) = [IZR x; IZR y; IZR z].
Proof.
  intros x y z X Y Z. destruct (ints_ok [x; y; z]) as (F & V); [repeat constructor; lia|]. split; [|exact V]. split; [reflexivity|]. split; [exact F|]. rewrite V.
  assert (B : forall k, (Z.abs k <= 8)%Z -> Rabs (IZR k) <= 8) by (intros k K; rewrite <- abs_IZR; apply IZR_le; lia). repeat (apply Forall_cons; [auto|]); apply Forall_nil.
Qed.
(** A triangle that is not level, a point over its interior and one beside it *)
Definition tri_d : list (list double) := [ints [0; 0; 5]; ints [4; 0; 6]; ints [0; 4; -3]]%Z.
Definition in_d : list double := ints [1; 1; 7]%Z.
Definition out_d : list double := ints [3; 2; 5]%Z.
Definition tri_r : list (list R) := [[0; 0; 0]; [4; 0; 0]; [0; 4; 0]].
Lemma tri_seen : map (fun v => seen 2 (values v)) tri_d = tri_r /\ seen 2 (values in_d) = [1; 1; 0] /\ seen 2 (values out_d) = [3; 2; 0].
Proof.
  assert (S : forall x y z, (Z.abs x <= 8)%Z -> (Z.abs y <= 8)%Z -> (Z.abs z <= 8)%Z -> seen 2 (values (ints [x; y; z])) = [IZR x; IZR y; 0]).
  { intros x y z X Y Z. rewrite (proj2 (ints_within x y z X Y Z)). reflexivity. }
  unfold tri_d, in_d, out_d, tri_r. cbn [map]. rewrite !S by lia. auto.
Qed.
Lemma tri_r_cases : forall i, (vertex tri_r i = [0; 0; 0] /\ vertex tri_r (S i) = [4; 0; 0])
  \/ (vertex tri_r i = [4; 0; 0] /\ vertex tri_r (S i) = [0; 4; 0]) \/ (vertex tri_r i = [0; 4; 0] /\ vertex tri_r (S i) = [0; 0; 0]).
Proof.
  intros i. unfold vertex. change (length tri_r) with 3%nat.
  assert (L : (i mod 3 < 3)%nat) by (apply Nat.mod_upper_bound; lia).
  assert (M : (S i mod 3 = S (i mod 3) mod 3)%nat). { rewrite <- (Nat.add_1_r (i mod 3)), <- (Nat.add_1_r i). now rewrite Nat.add_mod_idemp_l by lia. }
  rewrite M. destruct (i mod 3)%nat as [|[|[|]]]; try lia; cbn; auto.
Qed.
Lemma tri_clear : forall p, p = [1; 1; 0] \/ p = [3; 2; 0] -> clear_height_by (/ 100) 2 tri_r p /\ clear_boundary_by (/ 100) 2 tri_r p.
Proof.
  assert (R1 : forall x, 0.1 <= x -> / 100 < Rabs x) by (intros x X; rewrite Rabs_pos_eq; lra).
  assert (R2 : forall x, x <= -0.1 -> / 100 < Rabs x) by (intros x X; rewrite Rabs_left; lra).
  intros p HP. split.
  - intros i. cbv zeta. unfold height. destruct HP as [-> | ->]; destruct (tri_r_cases i) as [[-> ->]|[[-> ->]|[-> ->]]]; cbn; (split; [lra|]); right; left; first [apply R1; lra | apply R2; lra].
  - intros q (i & t & T & ->). destruct HP as [-> | ->]; destruct (tri_r_cases i) as [[-> ->]|[[-> ->]|[-> ->]]]; unfold across, height, rlerp; cbn.
    + right. apply R2. lra.
    + destruct (Rle_dec t 0.5); [left; apply R1; lra|right; apply R1; lra].
    + left. apply R2. lra.
    + right. apply R2. lra.
    + destruct (Rle_dec t 0.4); [right; apply R2; lra|left; apply R2; lra].
    + left. apply R2. lra.
Qed.
(** The hypotheses for the triangle *)
Definition hyps (p : list double) : Prop := within 8 p /\ Forall (within 8) tri_d /\ 1 <= 8 /\ 32 * (8 * 8) <= bpow radix2 1024 /\ / 900 + 100 * (unit_roundoff 53 * 8) <= / 100
  /\ clear_height_by (/ 100) 2 (map (fun v => seen 2 (values v)) tri_d) (seen 2 (values p)) /\ clear_boundary_by (/ 100) 2 (map (fun v => seen 2 (values v)) tri_d) (seen 2 (values p)).
Lemma tri_hyps : hyps in_d /\ hyps out_d.
Proof.
  destruct tri_seen as (E1 & E2 & E3). assert (U : unit_roundoff 53 <= / 1000000000). { unfold unit_roundoff. cbn. lra. }
  assert (B : 32 * (8 * 8) <= bpow radix2 1024) by (apply Rle_trans with (bpow radix2 30); [cbn; lra|apply bpow_le; lia]).
  assert (W : forall x y z, (Z.abs x <= 8)%Z -> (Z.abs y <= 8)%Z -> (Z.abs z <= 8)%Z -> within 8 (ints [x; y; z])) by (intros; apply ints_within; assumption).
  assert (T : Forall (within 8) tri_d) by (unfold tri_d; repeat (apply Forall_cons; [apply W; lia|]); apply Forall_nil).
  unfold hyps. rewrite E1, E2, E3. split; (split; [apply W; lia|]); (split; [exact T|]); (split; [lra|]); (split; [exact B|]); (split; [lra|]); apply tri_clear; auto.
Qed.
Definition ret_b (o : outcome bool) (b : bool) : bool := match o with Ret c => Bool.eqb c b | _ => false end.
Lemma ret_b_ok : forall o b, ret_b o b = true -> o = Ret b.
Proof. intros [c| | |] b H; cbn in H; try discriminate. now rewrite (eqb_prop _ _ H). Qed.
Lemma tri_runs : polygon_contains_point in_d 2 tri_d = Ret true /\ polygon_contains_point out_d 2 tri_d = Ret false.
Proof.
  split; apply ret_b_ok; vm_cast_no_check (eq_refl true).
Qed.
(** The centre of a square on its corner is at the height of two corners. *)
Definition dia_d : list (list double) := [ints [1; 0; 0]; ints [0; 1; 0]; ints [-1; 0; 0]; ints [0; -1; 0]]%Z.
Definition lev_d : list double := ints [0; 0; 0]%Z.
Lemma dia_values : map values dia_d = diamond /\ values lev_d = [0; 0; 0].
Proof.
  assert (S : forall x y z, (Z.abs x <= 8)%Z -> (Z.abs y <= 8)%Z -> (Z.abs z <= 8)%Z -> values (ints [x; y; z]) = [IZR x; IZR y; IZR z]) by (intros; apply ints_within; assumption).
  unfold dia_d, lev_d, diamond. cbn [map]. rewrite !S by lia. auto.
Qed.
Lemma dia_run : polygon_contains_point lev_d 2 dia_d = Ret false.
Proof. apply ret_b_ok; vm_cast_no_check (eq_refl true). Qed.
Lemma level_refuted : exists (vs : list (list double)) p, convex_polygon 1 [0; 0; 1] (map values vs) /\ (forall i, 0 < turn [0; 0; 1] (vertex (map values vs) i) (vertex (map values vs) (S i)) (values p))
  /\ polygon_contains_point p 2 vs = Ret false.
Proof.
  exists dia_d, lev_d. destruct dia_values as (-> & ->). split; [exact diamond_convex|]. split; [|exact dia_run].
  intros i. replace (vertex diamond (S i)) with (vertex diamond (S (i mod 4))).
  2: { unfold vertex. change (length diamond) with 4%nat. f_equal. rewrite <- (Nat.add_1_r (i mod 4)), <- (Nat.add_1_r i). now rewrite Nat.add_mod_idemp_l by lia. }
  replace (vertex diamond i) with (vertex diamond (i mod 4)) by (unfold vertex; change (length diamond) with 4%nat; now rewrite Nat.mod_mod by lia).
  assert (L : (i mod 4 < 4)%nat) by (apply Nat.mod_upper_bound; lia). destruct (i mod 4)%nat as [|[|[|[|]]]]; try lia; unfold turn, vertex; cbn; lra.
Qed.
