(** Proofs about points in convex polygons (C59). *)
From Coq Require Import ZArith Reals List Bool Lia Lra Psatz Arith.
From Flocq Require Import Core.
From Verif Require Import Ops M_scalar M_vec M_mat M_bbox M_geom M_intersect Inst_XR S_vec S_geom S_intersect S_polygon.
From Verif Require Import P_ord P_components P_xr P_vec P_vec2 P_line P_dist P_plane P_intersect P_poly2d.
Import ListNotations.
Local Open Scope R_scope.

(** ** The loop *)
Section Loop.
Context {T : Type} {o : ops T}.
Fixpoint chain (fv pv : list T) (l : list (list T)) : list (list T * list T) :=
  match l with cv :: l' => (pv, cv) :: chain fv cv l' | [] => [(pv, fv)] end.
Lemma loop_chain : forall l fv pv d,
  let es := map (fun ab => polygon_edge (fst ab) (snd ab)) (chain fv pv l) in
  polygon_loop fv pv d l = if existsb (fun z => (z =? -1)%Z) es then true else negb (Z.rem (d + zsum es) 2 =? 0)%Z.
Proof.
  induction l as [|cv l IH]; intros fv pv d; cbn [chain map polygon_loop existsb zsum fst snd]; cbv zeta.
  - destruct (_ =? -1)%Z; cbn [orb]; [ reflexivity | ]. now rewrite Z.add_0_r.
  - destruct (_ =? -1)%Z; cbn [orb]; [ reflexivity | ]. rewrite IH. cbv zeta. destruct (existsb _ _); [ reflexivity | ]. now rewrite Z.add_assoc.
Qed.
Lemma chain_seq : forall l fv pv k pre, length pre = k ->
  chain fv pv l = map (fun i => (nth i (pre ++ pv :: l ++ [fv]) [], nth (S i) (pre ++ pv :: l ++ [fv]) [])) (seq k (S (length l))).
Proof.
  induction l as [|cv l IH]; intros fv pv k pre L.
  - cbn [chain length seq map app]. rewrite app_nth2, L, Nat.sub_diag by lia. rewrite app_nth2 by lia. rewrite L, <- Nat.add_1_r, Nat.add_comm, Nat.add_sub. reflexivity.
  - cbn [chain length]. rewrite <- cons_seq. cbn [map]. f_equal.
    + rewrite app_nth2, L, Nat.sub_diag by lia. rewrite app_nth2 by lia. rewrite L, <- Nat.add_1_r, Nat.add_comm, Nat.add_sub. reflexivity.
    + rewrite (IH fv cv (S k) (pre ++ [pv])) by (rewrite app_length; cbn; lia). rewrite <- app_assoc. reflexivity.
Qed.
Lemma cycle_nth : forall (L : list (list T)) fv i, (i < length L)%nat -> hd_error L = Some fv -> nth (S i) (L ++ [fv]) [] = nth (S i mod length L) L [].
Proof.
  intros L fv i I H. destruct (Nat.eq_dec (S i) (length L)) as [E|E].
  - rewrite E, Nat.mod_same by lia. rewrite app_nth2, Nat.sub_diag by lia. destruct L; [ discriminate | ]. now injection H as <-.
  - rewrite Nat.mod_small by lia. apply app_nth1. lia.
Qed.
Lemma existsb_map : forall A B (f : A -> B) g l, existsb g (map f l) = existsb (fun a => g (f a)) l.
Proof. induction l; cbn; [ reflexivity | now rewrite IHl ]. Qed.
Lemma loop_cycle : forall fv l, let L := fv :: l in let W i := nth (i mod length L) L [] in
  polygon_loop fv fv 0 l = loop_result (length L) (fun i => polygon_edge (W i) (W (S i))).
Proof.
  intros fv l L W. rewrite loop_chain. cbv zeta. rewrite (chain_seq l fv fv 0 [] eq_refl). cbn [app]. change (fv :: l ++ [fv]) with (L ++ [fv]).
  change (S (length l)) with (length L). rewrite map_map.
  replace (map (fun i => polygon_edge (fst (nth i (L ++ [fv]) [], nth (S i) (L ++ [fv]) [])) (snd (nth i (L ++ [fv]) [], nth (S i) (L ++ [fv]) []))) (seq 0 (length L)))
    with (map (fun i => polygon_edge (W i) (W (S i))) (seq 0 (length L))).
  - rewrite existsb_map. unfold loop_result. now rewrite Z.add_0_l.
  - apply map_ext_in. intros i I. apply in_seq in I. cbn [fst snd]. rewrite cycle_nth by (lia || reflexivity). rewrite app_nth1 by lia. unfold W. now rewrite (Nat.mod_small i) by lia.
Qed.
End Loop.

Lemma loop_result_ext : forall n e e', (forall i, e i = e' i) -> loop_result n e = loop_result n e'.
Proof.
  intros n e e' H. unfold loop_result. rewrite (map_ext _ _ H).
  assert (E : forall l, existsb (fun i => (e i =? -1)%Z) l = existsb (fun i => (e' i =? -1)%Z) l) by (induction l; cbn; [ reflexivity | now rewrite H, IHl ]).
  now rewrite E.
Qed.

(** ** One edge *)
Lemma Xlt : forall a b, o_lt (Some a) (Some b : XR) = Rlt_bool a b.
Proof. reflexivity. Qed.
Lemma edge_spec : forall x0 y0 z0 x1 y1 z1, y0 <> 0 -> y1 <> 0 -> (0 < y0 * y1 \/ / 1000 < Rabs y0 \/ / 1000 < Rabs y1) ->
  let e := polygon_edge (vS [x0; y0; z0]) (vS [x1; y1; z1]) in
  let c := x0 - y0 * (x1 - x0) / (y1 - y0) in let near := Rabs x0 <= / 1000 /\ Rabs y0 <= / 1000 in
  (y0 * y1 < 0 -> (e = 1%Z /\ 0 < c) \/ (e = 0%Z /\ c < 0) \/ (e = (-1)%Z /\ (near \/ Rabs c <= / 1000)))
  /\ (~ y0 * y1 < 0 -> e = 0%Z \/ (e = (-1)%Z /\ near)).
Proof.
  intros x0 y0 z0 x1 y1 z1 N0 N1 S e c near. unfold e, polygon_edge.
  change (vx (vS [x0; y0; z0])) with (Some x0). change (vy (vS [x0; y0; z0])) with (Some y0). change (vx (vS [x1; y1; z1])) with (Some x1). change (vy (vS [x1; y1; z1])) with (Some y1).
  change (cst 0 : XR) with (Some 0). cbn [v_is_zero vS map forallb]. rewrite !X_zero_test, !Xlt.
  destruct (Rle_bool_spec (Rabs x0) (/ 1000)) as [A|A], (Rle_bool_spec (Rabs y0) (/ 1000)) as [B|B]; cbn [andb].
  1: destruct (Rle_bool (Rabs z0) (/ 1000)); cbn [andb]; [ split; intros _; right; [ right | ]; (split; [ reflexivity | unfold near; tauto ]) | ].
  all: split; intros D.
  all: match goal with
    | D : ~ _ < 0 |- _ => assert (P : 0 < y0 * y1) by (destruct (Rtotal_order (y0 * y1) 0) as [Q|[Q|Q]]; [ contradiction | apply Rmult_integral in Q; tauto | exact Q ]); left;
       assert (Q : (0 < y0 /\ 0 < y1) \/ (y0 < 0 /\ y1 < 0)) by (destruct (Rtotal_order y0 0) as [R|[R|R]]; [ right; split; nra | contradiction | left; split; nra ]);
       destruct Q as [[Q1 Q2]|[Q1 Q2]]; [ rewrite (Rlt_bool_true 0 y0), (Rlt_bool_true 0 y1) by assumption | rewrite (Rlt_bool_true y0 0), (Rlt_bool_true y1 0) by assumption ]; cbn [andb]; rewrite ?orb_true_r; reflexivity
    | _ => idtac end.
  all: (assert (F : Rlt_bool 0 y0 && Rlt_bool 0 y1 = false) by (destruct (Rlt_bool_spec 0 y0), (Rlt_bool_spec 0 y1); try reflexivity; nra);
        assert (G : Rlt_bool y0 0 && Rlt_bool y1 0 = false) by (destruct (Rlt_bool_spec y0 0), (Rlt_bool_spec y1 0); try reflexivity; nra)).
  all: rewrite F, G, !orb_false_r; clear F G.
  all: try match goal with |- context [if ?b then 0%Z else if _ then 1%Z else _] => replace b with false by (cbn [andb]; destruct (Rle_bool_spec (Rabs y1) (/ 1000)); try reflexivity; exfalso; destruct S as [S|[S|S]]; lra) end.
  all: assert (DY : y1 - y0 <> 0) by (intros E; assert (y1 = y0) by lra; subst; nra).
  all: assert (CC : c * (y1 - y0) * (y1 - y0) = x0 * (y1 * (y1 - y0)) + x1 * (- y0 * (y1 - y0))) by (unfold c; field; exact DY).
  all: assert (W1 : 0 < y1 * (y1 - y0)) by nra; assert (W2 : 0 < - y0 * (y1 - y0)) by nra; assert (W3 : 0 < (y1 - y0) * (y1 - y0)) by nra.
  all: destruct (Rlt_bool_spec 0 x0) as [G0|G0], (Rlt_bool_spec 0 x1) as [G1|G1]; cbn [andb].
  all: try (left; split; [ reflexivity | ]; assert (0 < x0 * (y1 * (y1 - y0))) by (now apply Rmult_lt_0_compat); assert (0 < x1 * (- y0 * (y1 - y0))) by (now apply Rmult_lt_0_compat); nra).
  all: destruct (Rlt_bool_spec x0 0) as [G2|G2], (Rlt_bool_spec x1 0) as [G3|G3]; cbn [andb]; try lra.
  all: try (right; left; split; [ reflexivity | ]; assert (x0 * (y1 * (y1 - y0)) < 0) by nra; assert (x1 * (- y0 * (y1 - y0)) < 0) by nra; nra).
  all: cbn [o_neg o_mul o_sub XRops X1 X2]; rewrite X_div by exact DY; cbn [o_add XRops X2]; replace (- y0 * (x1 - x0) / (y1 - y0) + x0) with c by (unfold c; field; exact DY).
  all: rewrite X_zero_test, Xlt; destruct (Rle_bool_spec (Rabs c) (/ 1000)) as [C|C]; [ right; right; split; [ reflexivity | now right ] | ].
  all: destruct (Rlt_bool_spec 0 c) as [C1|C1]; [ left; split; [ reflexivity | exact C1 ] | right; left; split; [ reflexivity | ] ].
  all: destruct C1 as [C1|C1]; [ exact C1 | rewrite C1, Rabs_R0 in C; lra ].
Qed.

(** ** Polygons in space *)
Definition relative (axis : nat) (p v : list R) : list R :=
  [across axis v - across axis p; height axis v - height axis p; nth axis v 0 - nth axis p 0].
Lemma X_swizzle : forall axis v, (axis < 3)%nat -> length v = 3%nat -> v_swizzle (vS v) axis = Ret (vS [across axis v; height axis v; nth axis v 0]).
Proof.
  intros axis v A L. destruct v as [|a [|b [|c [|]]]]; try discriminate. destruct axis as [|[|[|]]]; try lia; reflexivity.
Qed.
Lemma contains_loop : forall p axis v vs, (axis < 3)%nat -> length p = 3%nat -> Forall (fun v => length v = 3%nat) (v :: vs) ->
  polygon_contains_point (vS p) axis (map vS (v :: vs)) = Ret (polygon_loop (vS (relative axis p v)) (vS (relative axis p v)) 0 (map (fun v => vS (relative axis p v)) vs)).
Proof.
  intros p axis v vs A L F. unfold polygon_contains_point. rewrite X_swizzle by assumption. cbn [bind].
  assert (M : forall l, Forall (fun v => length v = 3%nat) l ->
    mapM (fun v => do v' <- v_swizzle v axis; Ret (v_sub v' (vS [across axis p; height axis p; nth axis p 0]))) (map vS l) = Ret (map (fun v => vS (relative axis p v)) l)).
  { induction 1 as [|u l U _ IH]; [ reflexivity | ]. change (map vS (u :: l)) with (vS u :: map vS l). cbn [mapM]. rewrite X_swizzle by assumption. cbn [bind]. rewrite IH. cbn [bind]. rewrite X_sub. reflexivity. }
  rewrite M by exact F. reflexivity.
Qed.
Lemma vertex_length : forall vs i, (0 < length vs)%nat -> Forall (fun v => length v = 3%nat) vs -> length (vertex vs i) = 3%nat.
Proof. intros vs i N F. unfold vertex. rewrite Forall_forall in F. apply F, nth_In, Nat.mod_upper_bound. lia. Qed.
Lemma turn_projected : forall n axis a b c, (axis < 3)%nat -> length n = 3%nat -> length a = 3%nat -> length b = 3%nat -> length c = 3%nat ->
  rdot a n = rdot b n -> rdot a n = rdot c n ->
  turn n a b c * nth axis n 0 = ((across axis b - across axis a) * (height axis c - height axis a) - (height axis b - height axis a) * (across axis c - across axis a)) * rdot n n.
Proof.
  intros n axis a b c A Ln La Lb Lc E1 E2.
  assert (U : rdot (rsub b a) n = 0) by (rewrite rdot_sub_l by len; lra). assert (V : rdot (rsub c a) n = 0) by (rewrite rdot_sub_l by len; lra).
  unfold turn. destruct a as [|a0 [|a1 [|a2 [|]]]]; try discriminate. destruct b as [|b0 [|b1 [|b2 [|]]]]; try discriminate. destruct c as [|c0 [|c1 [|c2 [|]]]]; try discriminate.
  destruct n as [|n0 [|n1 [|n2 [|]]]]; try discriminate. clear E1 E2. cbn in U, V. unfold across, height.
  destruct axis as [|[|[|]]]; try lia; cbn; set (u0 := b0 - a0) in *; set (u1 := b1 - a1) in *; set (u2 := b2 - a2) in *; set (v0 := c0 - a0) in *; set (v1 := c1 - a1) in *; set (v2 := c2 - a2) in *.
  all: assert (G : forall x y e1 e2 k1 k2, e1 = 0 -> e2 = 0 -> x = y + k1 * e1 + k2 * e2 -> x = y) by (intros x y e1 e2 k1 k2 -> -> ->; ring).
  - apply (G _ _ _ _ (v1 * n2 - v2 * n1) (u2 * n1 - u1 * n2) U V). ring.
  - apply (G _ _ _ _ (v2 * n0 - v0 * n2) (u0 * n2 - u2 * n0) U V). ring.
  - apply (G _ _ _ _ (v0 * n1 - v1 * n0) (u1 * n0 - u0 * n1) U V). ring.
Qed.
Lemma across_lerp : forall axis a b t, (axis < 3)%nat -> length a = 3%nat -> length b = 3%nat ->
  across axis (rlerp a b t) = across axis a + t * (across axis b - across axis a) /\ height axis (rlerp a b t) = height axis a + t * (height axis b - height axis a).
Proof.
  intros axis a b t A La Lb. destruct a as [|a0 [|a1 [|a2 [|]]]]; try discriminate. destruct b as [|b0 [|b1 [|b2 [|]]]]; try discriminate.
  destruct axis as [|[|[|]]]; try lia; unfold across, height, rlerp; cbn; split; ring.
Qed.

Lemma contains_axis : forall s n vs p axis, length n = 3%nat -> convex_polygon s n vs -> length p = 3%nat -> rdot p n = rdot (vertex vs 0) n ->
  (axis < 3)%nat -> nth axis n 0 <> 0 -> clear_height axis vs p ->
  exists b, polygon_contains_point (vS p) axis (map vS vs) = Ret b
    /\ (in_polygon s n vs p -> b = true)
    /\ (~ in_polygon s n vs p -> clear_boundary axis vs p -> b = false).
Proof.
  intros s n vs p axis Ln (HS & N3 & F & CO & CV) Lp CP AX NZ CH.
  set (k := nth axis n 0) in *. set (nn := rdot n n).
  assert (NN : 0 < nn).
  { unfold nn, k in *. destruct n as [|n0 [|n1 [|n2 [|]]]]; try discriminate. assert (0 <= n0 * n0) by apply Rle_0_sqr. assert (0 <= n1 * n1) by apply Rle_0_sqr. assert (0 <= n2 * n2) by apply Rle_0_sqr.
    destruct axis as [|[|[|]]]; try lia; cbn in *; [ assert (0 < n0 * n0) by nra | assert (0 < n1 * n1) by nra | assert (0 < n2 * n2) by nra ]; lra. }
  set (N := length vs) in *. assert (N0 : (0 < length vs)%nat) by (fold N; lia).
  set (x i := across axis (vertex vs i) - across axis p). set (y i := height axis (vertex vs i) - height axis p).
  assert (VM : forall i, vertex vs i = vertex vs (i mod N)) by (intros i; unfold vertex; fold N; rewrite Nat.mod_mod by lia; reflexivity).
  assert (VL : forall i, length (vertex vs i) = 3%nat) by (intros i; now apply vertex_length).
  (* the sign of the projection *)
  set (s' := if Rlt_bool k 0 then - s else s).
  assert (S1 : s' = 1 \/ s' = -1) by (unfold s'; destruct (Rlt_bool k 0), HS as [-> | ->]; first [ left; lra | right; lra ]).
  assert (SK : s * k = s' * Rabs k) by (unfold s'; destruct (Rlt_bool_spec k 0); [ rewrite Rabs_left by assumption | rewrite Rabs_pos_eq by assumption ]; ring).
  assert (KA : 0 < Rabs k) by (now apply Rabs_pos_lt).
  assert (TO : forall i j l, s * turn n (vertex vs i) (vertex vs j) (vertex vs l) * (Rabs k * Rabs k) = s' * orient x y i j l * (nn * Rabs k))
    by (intros i j l; assert (E := turn_projected n axis (vertex vs i) (vertex vs j) (vertex vs l) AX Ln (VL i) (VL j) (VL l) (CO i j) (CO i l)); fold k nn in E;
        replace (Rabs k * Rabs k) with (k * k) by (rewrite <- Rabs_mult; rewrite Rabs_pos_eq; [ reflexivity | apply Rle_0_sqr ]);
        replace (s * turn n (vertex vs i) (vertex vs j) (vertex vs l) * (k * k)) with (s * k * (turn n (vertex vs i) (vertex vs j) (vertex vs l) * k)) by ring;
        rewrite E, SK; unfold orient, x, y; ring).
  assert (TP : forall i, s * turn n (vertex vs i) (vertex vs (S i)) p * (Rabs k * Rabs k) = s' * cr x y i (S i) * (nn * Rabs k))
    by (intros i; assert (C' : rdot (vertex vs i) n = rdot p n) by (rewrite CP; apply CO);
        assert (E := turn_projected n axis (vertex vs i) (vertex vs (S i)) p AX Ln (VL i) (VL (S i)) Lp (CO i (S i)) C'); fold k nn in E;
        replace (Rabs k * Rabs k) with (k * k) by (rewrite <- Rabs_mult; rewrite Rabs_pos_eq; [ reflexivity | apply Rle_0_sqr ]);
        replace (s * turn n (vertex vs i) (vertex vs (S i)) p * (k * k)) with (s * k * (turn n (vertex vs i) (vertex vs (S i)) p * k)) by ring;
        rewrite E, SK; unfold cr, x, y; ring).
  assert (K2 : 0 < Rabs k * Rabs k) by nra; assert (NK : 0 < nn * Rabs k) by nra.
  assert (PX : forall i, x i = x (i mod N)) by (intros i; unfold x; now rewrite VM).
  assert (PY : forall i, y i = y (i mod N)) by (intros i; unfold y; now rewrite VM).
  assert (Y0 : forall i, y i <> 0) by (intros i; apply CH).
  assert (CONV : forall i l, (i < N)%nat -> (l < N)%nat -> l <> i -> l <> (S i mod N)%nat -> 0 < s' * orient x y i (S i) l)
    by (intros i l I L D1 D2; assert (E := TO i (S i) l); assert (P := CV i l I L D1 D2); assert (0 < s * turn n (vertex vs i) (vertex vs (S i)) (vertex vs l) * (Rabs k * Rabs k)) by (now apply Rmult_lt_0_compat); nra).
  set (W i := vS (relative axis p (vertex vs i))); set (e i := polygon_edge (W i) (W (S i))).
  assert (ES := fun i => edge_spec (x i) (y i) (nth axis (vertex vs i) 0 - nth axis p 0) (x (S i)) (y (S i)) (nth axis (vertex vs (S i)) 0 - nth axis p 0) (Y0 i) (Y0 (S i)) (proj2 (CH i))).
  assert (EC : forall i, (i < N)%nat -> crosses y i -> (e i = 1%Z /\ 0 < icpt x y i) \/ (e i = 0%Z /\ icpt x y i < 0) \/ (e i = (-1)%Z /\ (near x y i \/ Rabs (icpt x y i) <= / 1000))) by (intros i _; apply (ES i)).
  assert (EN : forall i, (i < N)%nat -> ~ crosses y i -> e i = 0%Z \/ (e i = (-1)%Z /\ near x y i)) by (intros i _; apply (ES i)).
  assert (LR : polygon_contains_point (vS p) axis (map vS vs) = Ret (loop_result N e)).
  { unfold N in *. clear - AX Lp F N0. destruct vs as [|v vs']; [ cbn in N0; lia | ]. rewrite contains_loop by assumption. apply f_equal.
    rewrite loop_cycle. cbv zeta. set (L := vS (relative axis p v) :: _).
    assert (EL : L = map (fun v => vS (relative axis p v)) (v :: vs')) by reflexivity. rewrite EL, map_length. clearbody L. clear EL.
    assert (EW : forall i, nth (i mod length (v :: vs')) (map (fun v => vS (relative axis p v)) (v :: vs')) [] = vS (relative axis p (vertex (v :: vs') i))).
    { intros i. unfold vertex. rewrite nth_indep with (d' := vS (relative axis p [])) by (rewrite map_length; apply Nat.mod_upper_bound; cbn; lia).
      now rewrite map_nth with (f := fun v => vS (relative axis p v)). }
    apply loop_result_ext. intros i. rewrite !EW. reflexivity. }
  exists (loop_result N e). split; [ exact LR | ]. split.
  - intros (_ & _ & I). apply (loop_inside N N3 x y PX PY s' S1 Y0 CONV e EC EN).
    intros i. specialize (I i). specialize (TP i). assert (0 <= s * turn n (vertex vs i) (vertex vs (S i)) p * (Rabs k * Rabs k)) by (apply Rmult_le_pos; lra). nra.
  - intros NI CB. apply (loop_outside N N3 x y PX PY s' S1 Y0 CONV e EC EN).
    + intros i _. split.
      * intros [A1 A2]. destruct (CB (vertex vs i)) as [B|B].
        { exists i, 0. split; [ lra | ]. assert (L := VL i). assert (L' := VL (S i)). unfold rlerp. vext. ring. }
        unfold x, y in *. lra. unfold x, y in *. lra.
      * intros C. assert (DY : y (S i) - y i <> 0). { intros E. unfold crosses in C. assert (y (S i) = y i) by lra. rewrite H in C. assert (0 <= y i * y i) by apply Rle_0_sqr. lra. }
        set (t := - y i / (y (S i) - y i)).
        assert (T : 0 <= t <= 1).
        { unfold crosses in C. assert (W2 : 0 < (y (S i) - y i) * (y (S i) - y i)) by nra. assert (E : t * ((y (S i) - y i) * (y (S i) - y i)) = - y i * (y (S i) - y i)) by (unfold t; field; exact DY). 
          assert (0 <= y i * y i) by apply Rle_0_sqr. assert (0 <= y (S i) * y (S i)) by apply Rle_0_sqr. split; nra. }
        destruct (across_lerp axis (vertex vs i) (vertex vs (S i)) t AX (VL i) (VL (S i))) as [Q1 Q2].
        destruct (CB (rlerp (vertex vs i) (vertex vs (S i)) t)) as [B|B].
        { exists i, t. split; [ exact T | reflexivity ]. }
        { rewrite Q1 in B. replace (icpt x y i) with (across axis (vertex vs i) + t * (across axis (vertex vs (S i)) - across axis (vertex vs i)) - across axis p); [ exact B | ].
          unfold icpt, t. replace (x (S i) - x i) with (across axis (vertex vs (S i)) - across axis (vertex vs i)) by (unfold x; ring). unfold x. field. exact DY. }
        { exfalso. rewrite Q2 in B. replace (height axis (vertex vs i) + t * (height axis (vertex vs (S i)) - height axis (vertex vs i)) - height axis p) with 0 in B. { rewrite Rabs_R0 in B. lra. }
          replace (height axis (vertex vs (S i)) - height axis (vertex vs i)) with (y (S i) - y i) by (unfold y; ring). replace (height axis (vertex vs i) + t * (y (S i) - y i) - height axis p) with (y i + t * (y (S i) - y i)) by (unfold y; ring). unfold t. field. exact DY. }
    + assert (D : forall m, (exists i, s * turn n (vertex vs i) (vertex vs (S i)) p < 0) \/ forall i, (i < m)%nat -> 0 <= s * turn n (vertex vs i) (vertex vs (S i)) p).
      { induction m as [|m [IH|IH]]; [ right; lia | now left | ]. destruct (Rlt_le_dec (s * turn n (vertex vs m) (vertex vs (S m)) p) 0) as [H|H]; [ left; eauto | ].
        right. intros i L. destruct (Nat.eq_dec i m) as [->|]; [ exact H | apply IH; lia ]. }
      destruct (D N) as [(i & H)|H].
      * exists i. specialize (TP i). assert (s * turn n (vertex vs i) (vertex vs (S i)) p * (Rabs k * Rabs k) < 0) by nra. nra.
      * exfalso. apply NI. split; [ exact Lp | ]. split; [ exact CP | ]. intros i.
        replace (vertex vs (S i)) with (vertex vs (S (i mod N))). { rewrite VM. apply H, Nat.mod_upper_bound. lia. }
        rewrite VM, (VM (S i)). f_equal. rewrite <- (Nat.add_1_r (i mod N)), <- (Nat.add_1_r i). now rewrite Nat.add_mod_idemp_l by lia.
Qed.

(** ** The other overloads *)
Lemma abs_max_axis : forall n, length n = 3%nat -> rdot n n <> 0 ->
  exists axis, find_abs_max_component (vS n) 0 = Ret axis /\ (axis < 3)%nat /\ nth axis n 0 <> 0 /\ forall j, Rabs (nth j n 0) <= Rabs (nth axis n 0).
Proof.
  intros n L N. destruct (find_abs_max_component_spec (vS n) 0) as (i & E & Li & F & _); [ rewrite map_length; lia | ].
  exists i. split; [ exact E | ]. rewrite map_length, L in Li. split; [ exact Li | ].
  assert (G : forall y, In y n -> Rabs y <= Rabs (nth i n 0)).
  { intros y Hy. rewrite X_get, X_abs in F. destruct (Rle_dec (Rabs y) (Rabs (nth i n 0))) as [|NL]; auto. exfalso.
    assert (I : In (Some y) (filter (fun y0 => o_lt (Some (Rabs (nth i n 0))) (sc_abs y0)) (vS n))).
    { apply filter_In. split; [ now apply in_map | ]. rewrite X_abs. cbn [o_lt XRops Xcmp]. apply Rlt_bool_true. lra. }
    destruct (filter _ _); [ inversion I | simpl in F; lia ]. }
  assert (GJ : forall j, Rabs (nth j n 0) <= Rabs (nth i n 0)).
  { intros j. destruct (Nat.lt_ge_cases j (length n)); [ apply G; now apply nth_In | ]. rewrite nth_overflow by assumption. rewrite Rabs_R0. apply Rabs_pos. }
  split; [ | exact GJ ]. intros Z. apply N. rewrite Z, Rabs_R0 in GJ.
  assert (ZZ : forall j, nth j n 0 = 0). { intros j. specialize (GJ j). destruct (Req_dec (nth j n 0) 0) as [|NE]; auto. apply Rabs_pos_lt in NE. lra. }
  destruct n as [|a [|b [|c [|]]]]; try discriminate. cbn. assert (A := ZZ 0%nat). assert (B := ZZ 1%nat). assert (C := ZZ 2%nat). cbn in A, B, C. subst. ring.
Qed.
Lemma contains_normal : forall s n vs p, length n = 3%nat -> rdot n n <> 0 -> convex_polygon s n vs -> length p = 3%nat -> rdot p n = rdot (vertex vs 0) n ->
  exists axis, (axis < 3)%nat /\ (forall j, Rabs (nth j n 0) <= Rabs (nth axis n 0))
    /\ (clear_height axis vs p -> exists b, polygon_contains_point_n (vS p) (vS n) (map vS vs) = Ret b
         /\ (in_polygon s n vs p -> b = true) /\ (~ in_polygon s n vs p -> clear_boundary axis vs p -> b = false)).
Proof.
  intros s n vs p Ln NN CV Lp CP. destruct (abs_max_axis n Ln NN) as (axis & E & A & N & M). exists axis. split; [ exact A | ]. split; [ exact M | ].
  intros CH. unfold polygon_contains_point_n. rewrite E. cbn [bind]. now apply contains_axis.
Qed.
Lemma contains_three : forall s n v0 v1 v2 l p, let vs := v0 :: v1 :: v2 :: l in length n = 3%nat -> convex_polygon s n vs -> length p = 3%nat -> rdot p n = rdot (vertex vs 0) n ->
  / 100000000 * (rnorm (rsub v2 v0) * rnorm (rsub v1 v0)) <= rnorm (cross_of v0 v1 v2) ->
  exists axis, (axis < 3)%nat /\ nth axis n 0 <> 0
    /\ (clear_height axis vs p -> exists b, polygon_contains (vS p) (map vS vs) = Ret b
         /\ (in_polygon s n vs p -> b = true) /\ (~ in_polygon s n vs p -> clear_boundary axis vs p -> b = false)).
Proof.
  intros s n v0 v1 v2 l p vs Ln CV Lp CP H. assert (CV' := CV). destruct CV' as (HS & N3 & F & CO & TU).
  assert (L0 : length v0 = 3%nat) by (rewrite Forall_forall in F; apply F; cbn; auto). assert (L1 : length v1 = 3%nat) by (rewrite Forall_forall in F; apply F; cbn; auto). assert (L2 : length v2 = 3%nat) by (rewrite Forall_forall in F; apply F; cbn; auto).
  assert (V0 : vertex vs 0 = v0) by (unfold vertex; rewrite Nat.mod_small by lia; reflexivity). assert (V1 : vertex vs 1 = v1) by (unfold vertex; rewrite Nat.mod_small by lia; reflexivity). assert (V2 : vertex vs 2 = v2) by (unfold vertex; rewrite Nat.mod_small by lia; reflexivity).
  assert (T := TU 0%nat 2%nat). rewrite V0, V1, V2 in T. assert (T' : turn n v0 v1 v2 <> 0). { intros Z. rewrite Z in T. assert (0 < s * 0); [ apply T; try lia; rewrite Nat.mod_small; lia | lra ]. } clear T.
  assert (TC : rdot (cross_of v0 v1 v2) n = - turn n v0 v1 v2).
  { unfold turn, cross_of. clear - L0 L1 L2 Ln. destruct v0 as [|a0 [|a1 [|a2 [|]]]]; try discriminate. destruct v1 as [|b0 [|b1 [|b2 [|]]]]; try discriminate. destruct v2 as [|c0 [|c1 [|c2 [|]]]]; try discriminate.
    destruct n as [|n0 [|n1 [|n2 [|]]]]; try discriminate. cbn. ring. }
  assert (C0 : cross_of v0 v1 v2 <> rzero 3). { intros Z. rewrite Z in TC. apply T'. destruct n as [|n0 [|n1 [|n2 [|]]]]; try discriminate. cbn in TC. lra. }
  assert (S0 : rnorm (rsub v2 v0) * rnorm (rsub v1 v0) <> 0).
  { intros Z. apply C0. unfold cross_of. assert (A1 : length (rsub v2 v0) = 3%nat) by len. assert (A2 : length (rsub v1 v0) = 3%nat) by len.
    apply Rmult_integral in Z as [Z|Z]; apply rnorm_zero in Z; rewrite Z, ?A1, ?A2; [ destruct (rsub v1 v0) as [|b0 [|b1 [|b2 [|]]]]; try discriminate | destruct (rsub v2 v0) as [|b0 [|b1 [|b2 [|]]]]; try discriminate ];
    unfold rzero; cbn; repeat (apply f_equal2; [ ring | ]); reflexivity. }
  destruct (from_points_ok v0 v1 v2 L0 L1 L2) as [FP _]. destruct (FP (conj S0 H)) as (pl & E & [LM UM] & _ & _ & _ & k & K & EK). clear FP.
  unfold pl_from_points in E. destruct (plane_normal (vS v0) (vS v1) (vS v2) angle_epsilon) as [valid m] eqn:EP. destruct valid; [ | discriminate ]. cbn [negb] in E.
  assert (EM : m = vS (pl_normal pl)). { exact (f_equal (fun z => pl_normal (snd z)) E). }
  destruct (abs_max_axis (pl_normal pl) LM) as (axis & EA & A & NZ & _). { rewrite UM. lra. }
  assert (NX : nth axis n 0 <> 0).
  { intros Z. assert (TP := turn_projected n axis v0 v1 v2 A Ln L0 L1 L2). assert (CO1 := CO 0%nat 1%nat). assert (CO2 := CO 0%nat 2%nat). rewrite V0, V1 in CO1. rewrite V0, V2 in CO2. specialize (TP CO1 CO2).
    rewrite Z, Rmult_0_r in TP. symmetry in TP. apply Rmult_integral in TP as [TP|TP].
    - assert (CN : nth axis (cross_of v0 v1 v2) 0 = 0).
      { unfold cross_of. clear - TP L0 L1 L2 A. destruct v0 as [|a0 [|a1 [|a2 [|]]]]; try discriminate. destruct v1 as [|b0 [|b1 [|b2 [|]]]]; try discriminate. destruct v2 as [|c0 [|c1 [|c2 [|]]]]; try discriminate.
        unfold across, height in TP. destruct axis as [|[|[|]]]; try lia; cbn in *; lra. }
      rewrite EK, nth_rscale in CN. apply Rmult_integral in CN as [CN|CN]; [ lra | contradiction ].
    - apply T'. unfold turn. clear - TP Ln. destruct n as [|n0 [|n1 [|n2 [|]]]]; try discriminate. cbn in TP.
      assert (0 <= n0 * n0) by apply Rle_0_sqr. assert (0 <= n1 * n1) by apply Rle_0_sqr. assert (0 <= n2 * n2) by apply Rle_0_sqr.
      assert (n0 = 0) by nra. assert (n1 = 0) by nra. assert (n2 = 0) by nra. subst. destruct (rcross _ _) as [|q0 [|q1 [|q2 [|]]]]; cbn; ring. }
  exists axis. split; [ exact A | ]. split; [ exact NX | ]. intros CH. assert (EV : map vS vs = vS v0 :: vS v1 :: vS v2 :: map vS l) by reflexivity.
  unfold polygon_contains. rewrite EV. rewrite EP, EM. unfold require. rewrite EA. cbn [bind]. rewrite <- EV.
  now apply contains_axis.
Qed.

(** ** Rays and polygons *)
Lemma ray_polygon_ok : forall s r pl vs, length (ray_origin r) = 3%nat -> length (ray_dir r) = 3%nat -> is_plane 3 pl ->
  convex_polygon s (pl_normal pl) vs -> on_plane 3 pl (vertex vs 0) ->
  / 1000 < Rabs (rdot (ray_dir r) (pl_normal pl)) -> (forall t, - / 1000 <= t < 0 -> ~ on_plane 3 pl (ray_at r t)) ->
  exists axis, (axis < 3)%nat /\ (forall j, Rabs (nth j (pl_normal pl) 0) <= Rabs (nth axis (pl_normal pl) 0))
    /\ ((forall t, on_plane 3 pl (ray_at r t) -> clear_height axis vs (ray_at r t) /\ clear_boundary axis vs (ray_at r t)) ->
        exists x, intersect_ray_polygon_plane (ray_lift r) (plane_lift pl) (map vS vs) = Ret x
          /\ intersects (in_polygon s (pl_normal pl) vs) r x).
Proof.
  intros s r pl vs L1 L2 HP CV OP C T. assert (HP' := HP). destruct HP' as [LN UN].
  destruct (abs_max_axis (pl_normal pl) LN) as (axis & E & A & N & M). { rewrite UN. lra. }
  exists axis. split; [ exact A | ]. split; [ exact M | ]. intros CL.
  destruct (ray_plane_ok 3 r pl L1 L2 HP) as [_ H]. destruct (H C) as (t & P & TN & TS). clear H.
  assert (IP : forall q, in_polygon s (pl_normal pl) vs q -> on_plane 3 pl q). { intros q (Lq & Eq & _). split; [ exact Lq | ]. rewrite Eq. apply OP. }
  unfold intersect_ray_polygon_plane. destruct (Rlt_le_dec t (- / 1000)) as [H|H].
  - rewrite TN by exact H. cbn. exists None. split; [ reflexivity | ]. intros (t' & T' & I). apply IP, P in I. lra.
  - rewrite TS by exact H. assert (T0 : 0 <= t). { destruct (Rlt_le_dec t 0) as [TT|TT]; [ | exact TT ]. exfalso. apply (T t); [ lra | now apply P ]. }
    rewrite X_nan.
    assert (EQ : al_point_at_distance (ray_origin (ray_lift r)) (ray_dir (ray_lift r)) (Some t) = vS (ray_at r t)).
    { unfold al_point_at_distance, ray_lift, ray_at, rpoint. cbn [ray_origin ray_dir]. now rewrite X_scale, X_add. }
    cbv zeta. rewrite EQ. unfold polygon_contains_point_n. change (pl_normal (plane_lift pl)) with (vS (pl_normal pl)). rewrite E. cbn [bind].
    assert (OT : on_plane 3 pl (ray_at r t)) by (now apply P). destruct (CL t OT) as [C1 C2].
    destruct (contains_axis s (pl_normal pl) vs (ray_at r t) axis LN CV) as (b & EB & B1 & B2); auto.
    { apply OT. } { destruct OT as [_ ->]. destruct OP as [_ ->]. reflexivity. }
    rewrite EB. cbn [bind]. destruct b.
    + exists (Some t). split; [ reflexivity | ]. split; [ exact T0 | ]. split.
      * destruct (Rlt_dec 0 1) as [_|]; [ | lra ]. 
        assert (DEC : in_polygon s (pl_normal pl) vs (ray_at r t) \/ ~ in_polygon s (pl_normal pl) vs (ray_at r t)).
        { destruct CV as (_ & N3 & _). 
          assert (D : forall m, (exists i, ~ 0 <= s * turn (pl_normal pl) (vertex vs i) (vertex vs (S i)) (ray_at r t)) \/ forall i, (i < m)%nat -> 0 <= s * turn (pl_normal pl) (vertex vs i) (vertex vs (S i)) (ray_at r t)).
          { induction m as [|m [IH|IH]]; [ right; lia | now left | ]. destruct (Rle_dec 0 (s * turn (pl_normal pl) (vertex vs m) (vertex vs (S m)) (ray_at r t))) as [Q|Q]; [ | left; eauto ].
            right. intros i L. destruct (Nat.eq_dec i m) as [->|]; [ exact Q | apply IH; lia ]. }
          destruct (D (length vs)) as [(i & Q)|Q].
          - right. intros (_ & _ & I). now apply Q.
          - left. split; [ apply OT | ]. split. { destruct OT as [_ ->]. destruct OP as [_ ->]. reflexivity. }
            intros i. replace (vertex vs i) with (vertex vs (i mod length vs)) by (unfold vertex; now rewrite Nat.mod_mod by lia).
            replace (vertex vs (S i)) with (vertex vs (S (i mod length vs))). { apply Q, Nat.mod_upper_bound. lia. }
            unfold vertex. f_equal. rewrite <- (Nat.add_1_r (i mod length vs)), <- (Nat.add_1_r i). now rewrite Nat.add_mod_idemp_l by lia. }
        destruct DEC as [D|D]; [ exact D | ]. discriminate (B2 D C2).
      * intros t' T' I. apply IP, P in I. lra.
    + exists None. split; [ reflexivity | ]. intros (t' & T' & I). assert (Q := I). apply IP, P in Q. subst t'. discriminate (B1 I).
Qed.
Lemma ray_polygon_three : forall r v0 v1 v2 l pl, pl_from_points (vS v0) (vS v1) (vS v2) = (true, plane_lift pl) ->
  intersect_ray_polygon (ray_lift r) (map vS (v0 :: v1 :: v2 :: l)) = intersect_ray_polygon_plane (ray_lift r) (plane_lift pl) (map vS (v0 :: v1 :: v2 :: l)).
Proof.
  intros r v0 v1 v2 l pl E. unfold intersect_ray_polygon. rewrite from_points_range_ok.
  assert (EV : map vS (v0 :: v1 :: v2 :: l) = vS v0 :: vS v1 :: vS v2 :: map vS l) by reflexivity. rewrite EV, E. reflexivity.
Qed.
Lemma few_points : forall r (l : list (list XR)) , (length l < 3)%nat -> intersect_ray_polygon r l = Ret None.
Proof. intros r l L. unfold intersect_ray_polygon. rewrite from_points_range_ok. destruct l as [|a [|b [|c]]]; try reflexivity. cbn in L. lia. Qed.
(** ** The point level with a vertex *)
Definition diamond : list (list R) := [[1; 0; 0]; [0; 1; 0]; [-1; 0; 0]; [0; -1; 0]].
Lemma diamond_convex : convex_polygon 1 [0; 0; 1] diamond.
Proof.
  split; [ now left | ]. split; [ cbn; lia | ]. split; [ repeat constructor | ]. split.
  - assert (H : forall i, rdot (vertex diamond i) [0; 0; 1] = 0).
    { intros i. unfold vertex. assert (L : (i mod length diamond < 4)%nat) by (apply Nat.mod_upper_bound; cbn; lia). destruct (i mod length diamond) as [|[|[|[|]]]]; try lia; cbn; ring. }
    intros i j. now rewrite !H.
  - intros i k I K D1 D2. change (length diamond) with 4%nat in *. destruct i as [|[|[|[|]]]]; try lia; destruct k as [|[|[|[|]]]]; try lia; try (exfalso; apply D2; reflexivity); unfold turn, vertex; cbn; lra.
Qed.
Lemma edge_value : forall x0 y0 z0 x1 y1 z1 c, (/ 1000 < Rabs x0 \/ / 1000 < Rabs y0) -> (/ 1000 < Rabs y0 \/ / 1000 < Rabs y1) -> y0 * y1 <= 0 -> x0 * x1 <= 0 -> y1 <> y0 ->
  c * (y1 - y0) = x0 * y1 - x1 * y0 -> / 1000 < Rabs c ->
  polygon_edge (vS [x0; y0; z0]) (vS [x1; y1; z1]) = if Rlt_bool 0 c then 1%Z else 0%Z.
Proof.
  intros x0 y0 z0 x1 y1 z1 c H0 HY PY PX N E C. unfold polygon_edge.
  change (vx (vS [x0; y0; z0])) with (Some x0). change (vy (vS [x0; y0; z0])) with (Some y0). change (vx (vS [x1; y1; z1])) with (Some x1). change (vy (vS [x1; y1; z1])) with (Some y1).
  change (cst 0 : XR) with (Some 0). cbn [v_is_zero vS map forallb]. rewrite !X_zero_test, !Xlt.
  assert (A1 : Rle_bool (Rabs x0) (/ 1000) && (Rle_bool (Rabs y0) (/ 1000) && (Rle_bool (Rabs z0) (/ 1000) && true)) = false).
  { destruct H0 as [H0|H0]; [ rewrite Rle_bool_false by exact H0; reflexivity | rewrite (Rle_bool_false (Rabs y0)) by exact H0; apply andb_false_r ]. }
  rewrite A1.
  assert (B : forall a b, a * b <= 0 -> Rlt_bool 0 a && Rlt_bool 0 b = false /\ Rlt_bool a 0 && Rlt_bool b 0 = false).
  { intros a b P. split; [ destruct (Rlt_bool_spec 0 a), (Rlt_bool_spec 0 b) | destruct (Rlt_bool_spec a 0), (Rlt_bool_spec b 0) ]; try reflexivity; nra. }
  destruct (B _ _ PY) as [-> ->]. destruct (B _ _ PX) as [-> ->]. rewrite !orb_false_r.
  replace (Rle_bool (Rabs y0) (/ 1000) && Rle_bool (Rabs y1) (/ 1000)) with false by (destruct HY as [HY|HY]; rewrite (Rle_bool_false _ _ HY); rewrite ?andb_false_r; reflexivity).
  assert (DY : y1 - y0 <> 0) by lra.
  cbn [o_neg o_mul o_sub XRops X1 X2]; rewrite X_div by exact DY; cbn [o_add XRops X2].
  replace (- y0 * (x1 - x0) / (y1 - y0) + x0) with c.
  2: { apply Rmult_eq_reg_r with (y1 - y0); [ | exact DY ]. rewrite E. field. exact DY. }
  rewrite X_zero_test, Xlt, Rle_bool_false by exact C. reflexivity.
Qed.
Lemma polygon_level_refuted : exists vs p, convex_polygon 1 [0; 0; 1] vs /\ in_polygon 1 [0; 0; 1] vs p
  /\ (forall i, 0 < turn [0; 0; 1] (vertex vs i) (vertex vs (S i)) p)
  /\ polygon_contains_point_n (vS p) (vS [0; 0; 1]) (map vS vs) = Ret false.
Proof.
  exists diamond, [0; 0; 0]. split; [ exact diamond_convex | ].
  assert (P : forall i, 0 < turn [0; 0; 1] (vertex diamond i) (vertex diamond (S i)) [0; 0; 0]).
  { intros i. replace (vertex diamond (S i)) with (vertex diamond (S (i mod 4))).
    2: { unfold vertex. change (length diamond) with 4%nat. f_equal. rewrite <- (Nat.add_1_r (i mod 4)), <- (Nat.add_1_r i). now rewrite Nat.add_mod_idemp_l by lia. }
    replace (vertex diamond i) with (vertex diamond (i mod 4)) by (unfold vertex; change (length diamond) with 4%nat; now rewrite Nat.mod_mod by lia).
    assert (L : (i mod 4 < 4)%nat) by (apply Nat.mod_upper_bound; lia). destruct (i mod 4)%nat as [|[|[|[|]]]]; try lia; unfold turn, vertex; cbn; lra. }
  split. { split; [ reflexivity | ]. split; [ unfold vertex; cbn; ring | ]. intros i. specialize (P i). lra. }
  split; [ exact P | ].
  unfold polygon_contains_point_n. destruct (abs_max_axis [0; 0; 1]) as (axis & E & A & N & _); [ reflexivity | cbn; lra | ]. rewrite E. cbn [bind].
  assert (axis = 2%nat) by (destruct axis as [|[|[|]]]; cbn in N; lra || lia). subst axis. unfold diamond. rewrite contains_loop; [ | lia | reflexivity | repeat constructor ].
  apply f_equal. cbn [map]. unfold relative. cbn [across height nth Nat.add Nat.modulo Nat.divmod fst snd Nat.sub].
  assert (A1 : Rabs (1 - 0) = 1) by (rewrite Rabs_pos_eq; lra). assert (A2 : Rabs (-1 - 0) = 1) by (rewrite Rabs_left; lra).
  assert (B1 : Rabs 1 = 1) by apply Rabs_R1. assert (B2 : Rabs (-1) = 1) by (rewrite Rabs_left; lra).
  cbn [polygon_loop].
  rewrite (edge_value _ _ _ _ _ _ 1), (edge_value _ _ _ _ _ _ (-1)), (edge_value _ _ _ _ _ _ (-1)), (edge_value _ _ _ _ _ _ 1); try rewrite ?A1, ?A2, ?B1, ?B2; try lra.
  rewrite (Rlt_bool_true 0 1), (Rlt_bool_false 0 (-1)) by lra. reflexivity.
Qed.
