(** Intersections of rays and polygons in machine arithmetic: cases (C118). *)
From Coq Require Import ZArith Reals List Lia Lra Bool Psatz Arith.
From Flocq Require Import Core BinarySingleNaN.
From Verif Require Import Ops M_scalar M_vec M_geom M_intersect Inst_F S_vec S_geom S_rnd S_hit S_intersect S_raybox S_polygon S_winding S_polyf S_raypoly P_ieee P_fp5 P_polygon P_polyf3.
Import ListNotations.
Local Open Scope R_scope.

Lemma ints_unit : forall z, (Z.abs z = 1)%Z -> nearly_unit (ints [0; 0; z]%Z).
Proof.
  intros z Z. destruct (ints_within 0 0 z ltac:(lia) ltac:(lia) ltac:(lia)) as ((L & F & _) & V). split; [exact L|]. split; [exact F|]. rewrite V. unfold rnorm. replace (rdot [0; 0; IZR z] [0; 0; IZR z]) with 1.
  - rewrite sqrt_1, Rminus_diag_eq, Rabs_R0 by reflexivity. apply Rmult_le_pos; [lra|]. unfold unit_roundoff. apply bpow_ge_0.
  - assert (Q : z = 1%Z \/ z = (-1)%Z) by lia. destruct Q as [-> | ->]; cbn; lra.
Qed.
(** Rays straight down to the plane z = 0 *)
Definition down (x y z : Z) : ray double := Ray (ints [x; y; z]) (ints [0; 0; -1]%Z).
Definition floor_d : plane double := Pl (cst 0) (ints [0; 0; 1]%Z).
(** All hypotheses for the triangle, the size 8, the margin 1/100 and the distance t *)
Definition ray_hyps (r : ray double) (t : R) : Prop :=
  nearly_unit (ray_dir r) /\ nearly_unit (pl_normal floor_d) /\ S_hit.within 8 (ray_origin r) /\ is_finite (pl_dist floor_d) = true /\ Rabs (B2R (pl_dist floor_d)) <= 8 /\ tri_d <> [] /\ Forall (S_hit.within 8) tri_d
  /\ 16384 * (8 * 8) <= bpow radix2 1024 /\ bpow radix2 27 * (unit_roundoff 53 * 8) <= 1 /\ / 900 <= slant r floor_d /\ 0 <= t <= 8 /\ on_plane 3 (plane_values floor_d) (ray_at (ray_values r) t)
  /\ / 900 + 4 * ray_polygon_error 53 8 (slant r floor_d) <= / 100
  /\ find_abs_max_component (pl_normal floor_d) 0 = Ret 2%nat
  /\ clear_height_by (/ 100) 2 (map (fun v => seen 2 (values v)) tri_d) (seen 2 (ray_at (ray_values r) t))
  /\ off_level (ray_polygon_error 53 8 (slant r floor_d)) 2 (map (fun v => seen 2 (values v)) tri_d) (seen 2 (ray_at (ray_values r) t))
  /\ clear_boundary_by (/ 100) 2 (map (fun v => seen 2 (values v)) tri_d) (seen 2 (ray_at (ray_values r) t)).
Definition ret_n (o : outcome nat) (b : nat) : bool := match o with Ret c => Nat.eqb c b | _ => false end.
Lemma ret_n_ok : forall o b, ret_n o b = true -> o = Ret b.
Proof. intros [c| | |] b H; cbn in H; try discriminate. now rewrite (proj1 (Nat.eqb_eq _ _) H). Qed.
Lemma floor_axis : find_abs_max_component (pl_normal floor_d) 0 = Ret 2%nat.
Proof. apply ret_n_ok. vm_cast_no_check (eq_refl true). Qed.
Lemma down_hyps : forall x y z, (Z.abs x <= 8)%Z -> (Z.abs y <= 8)%Z -> (0 <= z <= 8)%Z -> [IZR x; IZR y; 0] = [1; 1; 0] \/ [IZR x; IZR y; 0] = [3; 2; 0] -> ray_hyps (down x y z) (IZR z).
Proof.
  intros x y z X Y Z P. destruct tri_seen as (E1 & _). assert (U : unit_roundoff 53 <= / 1000000000) by (unfold unit_roundoff; cbn; lra). assert (U0 : 0 <= unit_roundoff 53) by (unfold unit_roundoff; apply bpow_ge_0).
  destruct (ints_within x y z X Y ltac:(lia)) as (WO & VO). destruct (ints_within 0 0 (-1) ltac:(lia) ltac:(lia) ltac:(lia)) as (_ & VD). destruct (ints_within 0 0 1 ltac:(lia) ltac:(lia) ltac:(lia)) as (_ & VN). destruct (cst_double 0 ltac:(lia)) as (F0 & V0).
  assert (SL : slant (down x y z) floor_d = 1). { unfold slant, down, floor_d. cbn [ray_dir pl_normal]. rewrite VD, VN. cbn [rdot]. replace (0 * 0 + (0 * 0 + (-1 * 1 + 0))) with (-1) by ring. rewrite Rabs_left; lra. }
  assert (AT : ray_at (ray_values (down x y z)) (IZR z) = [IZR x; IZR y; 0]). { unfold ray_at, ray_values, down, rpoint. cbn [ray_origin ray_dir]. rewrite VO, VD. cbn. f_equal; [ring|]. f_equal; [ring|]. f_equal. ring. }
  assert (W : forall x y z, (Z.abs x <= 8)%Z -> (Z.abs y <= 8)%Z -> (Z.abs z <= 8)%Z -> S_hit.within 8 (ints [x; y; z])) by (intros; apply ints_within; assumption).
  assert (ER : ray_polygon_error 53 8 1 <= / 1000000) by (unfold ray_polygon_error; unfold Rdiv; rewrite Rinv_1; lra).
  unfold ray_hyps. rewrite SL, AT, E1.
  split; [apply ints_unit; reflexivity|]. split; [apply ints_unit; reflexivity|]. split; [exact WO|]. split; [exact F0|]. split; [cbn [pl_dist floor_d]; rewrite V0, Rabs_R0; lra|]. split; [discriminate|].
  split; [unfold tri_d; repeat (apply Forall_cons; [apply W; lia|]); apply Forall_nil|].
  split; [apply Rle_trans with (bpow radix2 30); [cbn; lra|apply bpow_le; lia]|]. split; [unfold unit_roundoff; cbn; lra|]. split; [lra|].
  split; [split; [apply IZR_le; lia|change 8 with (IZR 8); apply IZR_le; lia]|].
  split; [split; [reflexivity|]; unfold plane_values, floor_d; cbn [pl_normal pl_dist]; rewrite VN, V0; cbn [rdot]; ring|]. split; [lra|]. split; [exact floor_axis|].
  change (seen 2 [IZR x; IZR y; 0]) with [IZR x; IZR y; 0]. destruct (tri_clear _ P) as (C1 & C2). split; [exact C1|]. split; [|exact C2].
  intros i. apply Rle_lt_trans with (1 := ER). assert (HY : IZR y = 1 \/ IZR y = 2) by (destruct P as [P|P]; injection P; auto).
  unfold height. destruct (tri_r_cases i) as [[-> _]|[[-> _]|[-> _]]]; cbn; destruct HY as [-> | ->]; unfold Rabs; destruct (Rcase_abs _); lra.
Qed.
Definition is_b (o : outcome double) (b : double -> bool) : bool := match o with Ret x => b x | _ => false end.
Lemma is_b_ok : forall o b, is_b o b = true -> exists x, o = Ret x /\ b x = true.
Proof. intros [x| | |] b H; cbn in H; try discriminate. exists x. auto. Qed.
Lemma down_runs : (exists x, intersect_ray_polygon_plane (down 1 1 5) floor_d tri_d = Ret x /\ o_eq x (cst 5) = true) /\ (exists x, intersect_ray_polygon_plane (down 3 2 5) floor_d tri_d = Ret x /\ BinarySingleNaN.is_nan x = true).
Proof. split; apply (is_b_ok _ (fun x => _)); vm_cast_no_check (eq_refl true). Qed.
(** The centre of the square on its corner is hit at the height of two corners. *)
Lemma level_run : exists x, intersect_ray_polygon_plane (down 0 0 5) floor_d dia_d = Ret x /\ BinarySingleNaN.is_nan x = true.
Proof. apply (is_b_ok _ (fun x => _)); vm_cast_no_check (eq_refl true). Qed.
Lemma ray_level_refuted : exists (r : ray double) (p : plane double) (vs : list (list double)) t, nearly_unit (ray_dir r) /\ nearly_unit (pl_normal p) /\ slant r p = 1 /\ 0 <= t
  /\ convex_polygon 1 (values (pl_normal p)) (map values vs) /\ (forall i, on_plane 3 (plane_values p) (vertex (map values vs) i)) /\ on_plane 3 (plane_values p) (ray_at (ray_values r) t)
  /\ (forall i, 0 < turn (values (pl_normal p)) (vertex (map values vs) i) (vertex (map values vs) (S i)) (ray_at (ray_values r) t))
  /\ exists x, intersect_ray_polygon_plane r p vs = Ret x /\ BinarySingleNaN.is_nan x = true.
Proof.
  destruct (ints_within 0 0 5 ltac:(lia) ltac:(lia) ltac:(lia)) as (_ & VO). destruct (ints_within 0 0 (-1) ltac:(lia) ltac:(lia) ltac:(lia)) as (_ & VD). destruct (ints_within 0 0 1 ltac:(lia) ltac:(lia) ltac:(lia)) as (_ & VN). destruct (cst_double 0 ltac:(lia)) as (_ & V0).
  assert (AT : ray_at (ray_values (down 0 0 5)) 5 = [0; 0; 0]). { unfold ray_at, ray_values, down, rpoint. cbn [ray_origin ray_dir]. rewrite VO, VD. cbn. f_equal; [ring|]. f_equal; [ring|]. f_equal. ring. }
  assert (PV : plane_values floor_d = Pl 0 [0; 0; 1]) by (unfold plane_values, floor_d; cbn [pl_normal pl_dist]; rewrite VN, V0; reflexivity).
  exists (down 0 0 5), floor_d, dia_d, 5. rewrite AT, PV. destruct dia_values as (-> & _). change (pl_normal floor_d) with (ints [0; 0; 1]%Z). rewrite VN.
  split; [apply ints_unit; reflexivity|]. split; [apply ints_unit; reflexivity|].
  split; [unfold slant, down, floor_d; cbn [ray_dir pl_normal]; rewrite VD, VN; cbn [rdot]; replace (0 * 0 + (0 * 0 + (-1 * 1 + 0))) with (-1) by ring; rewrite Rabs_left; lra|]. split; [lra|]. split; [exact diamond_convex|].
  assert (CY : forall i, exists k, (k < 4)%nat /\ vertex diamond i = vertex diamond k /\ vertex diamond (S i) = vertex diamond (S k)).
  { intros i. exists (i mod 4)%nat. split; [apply Nat.mod_upper_bound; lia|]. unfold vertex. change (length diamond) with 4%nat. split; [now rewrite Nat.mod_mod by lia|]. f_equal. rewrite <- (Nat.add_1_r (i mod 4)), <- (Nat.add_1_r i). now rewrite Nat.add_mod_idemp_l by lia. }
  split; [intros i; destruct (CY i) as (k & K & -> & _); destruct k as [|[|[|[|]]]]; try lia; split; try reflexivity; unfold vertex; cbn; ring|].
  split; [split; [reflexivity|]; cbn; ring|].
  split; [intros i; destruct (CY i) as (k & K & -> & ->); destruct k as [|[|[|[|]]]]; try lia; unfold turn, vertex; cbn; lra|exact level_run].
Qed.
