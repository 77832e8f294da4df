(** Boxes with corners on a grid. *)
From Coq Require Import ZArith Reals List Lia Lra Bool Psatz.
From Flocq Require Import Core BinarySingleNaN.
From Verif Require Import Ops M_scalar M_vec M_mat M_bbox M_geom Inst_F Inst_XR S_vec S_mat S_affine S_bbox S_rnd S_grid.
From Verif Require Import P_ord P_ieee P_xr P_vec P_vec2 P_mat P_mat2 P_affine P_bbox2 P_bbox3 P_fp P_fp6 P_fp7 P_grid P_grid2 P_grid3 P_grid4.
Import ListNotations.
Local Open Scope R_scope.

Section Grid.
Variables prec emax : Z.
Context {Hprec : Prec_gt_0 prec} {Hmax : Prec_lt_emax prec emax}.
Notation fl := (binary_float prec emax).
Notation fits := (representable prec emax).
Notation rel := (rel prec emax).
Notation vrel := (vrel prec emax).
Notation mrel := (mrel prec emax).
Notation vS := (map (@Some R)).
Notation mS := (map (map (@Some R))).

Lemma orel_ret : forall A B (R : A -> B -> Prop) x b, orel R x (Ret b) -> exists a, x = Ret a /\ R a b.
Proof. intros A B R [a| | |] b H; try contradiction. eauto. Qed.
Lemma box_nonneg : forall e K n (b : bbox fl), grid_box e K b -> length (bb_min b) = S n -> (0 <= K)%Z.
Proof. intros e K n [mn mx] [H _] L. cbn [bb_min] in *. destruct mn as [|x mn]; [discriminate|]. inversion H as [|? ? [_ (k & _ & ?)] _]. lia. Qed.
Lemma min_length : forall n (b : bbox fl), is_box n (box_values b) -> length (bb_min b) = n.
Proof. intros n b (H & _). cbn in H. now rewrite map_length in H. Qed.

Lemma grid_measures : forall n e K (b : bbox fl), is_box (S n) (box_values b) -> grid_box e K b -> fits e (2 * K) -> fits (e - 1) (2 * K) -> (2 <= prec)%Z ->
  (exists s, bb_size b = Ret s /\ exact_vec s (rsize (box_values b)))
  /\ exists c, bb_center b = Ret c /\ exact_vec c (rlerp (bb_min (box_values b)) (bb_max (box_values b)) (/ 2)).
Proof.
  intros n e K b B G F F' P. assert (R := brel_values prec emax e K b G). destruct (measures_ok (S n) (box_values b) B) as (E1 & E2 & _); [lia|].
  replace (2 * K)%Z with (K + K)%Z in * by lia. split.
  - assert (Q := size_rel prec emax e K b _ R F). rewrite E1 in Q. destruct (orel_ret _ _ _ _ _ Q) as (s & E & V). exists s. split; auto. eapply vrel_exact; eauto.
  - assert (Q := center_rel prec emax e K b _ R F F' P). rewrite E2 in Q. destruct (orel_ret _ _ _ _ _ Q) as (s & E & V). exists s. split; auto. eapply vrel_exact; eauto.
Qed.
Lemma fold_volume : forall l l' e K k x a, (0 <= K)%Z -> vrel e K l l' -> rel (Z.of_nat k * e) (K ^ Z.of_nat k) x a -> fits (Z.of_nat (k + length l) * e) (K ^ Z.of_nat (k + length l)) -> (0 < k)%nat ->
  rel (Z.of_nat (k + length l) * e) (K ^ Z.of_nat (k + length l)) (fold_left o_mul l x) (fold_left o_mul l' a).
Proof.
  intros l l' e K k x a HK H. revert k x a. induction H as [|y b l l' R H IH]; intros k x a RX F KP.
  - cbn [length] in *. now rewrite Nat.add_0_r.
  - cbn [length fold_left] in *. replace (k + S (length l))%nat with (S k + length l)%nat in * by lia. apply IH; [|exact F|lia].
    assert (L : (K ^ Z.of_nat (S k) <= K ^ Z.of_nat (S k + length l))%Z).
    { destruct (Z.eq_dec K 0) as [->|N]; [rewrite !Z.pow_0_l; lia|]. apply Z.pow_le_mono_r; lia. }
    assert (F1 : fits (Z.of_nat (S k) * e) (K ^ Z.of_nat (S k))) by (eapply fits_down; [exact Hprec|exact Hmax|exact F|lia|exact L]).
    replace (Z.of_nat (S k) * e)%Z with (Z.of_nat k * e + e)%Z in * by lia.
    replace (K ^ Z.of_nat (S k))%Z with (K ^ Z.of_nat k * K)%Z in * by (rewrite Nat2Z.inj_succ, Z.pow_succ_r by lia; ring).
    now apply rel_mul.
Qed.
Lemma grid_volume : forall n e K (b : bbox fl), is_box (S n) (box_values b) -> grid_box e K b -> fits e (2 * K) -> fits (Z.of_nat (S n) * e) ((2 * K) ^ Z.of_nat (S n)) ->
  exists s, bb_volume b = Ret s /\ exactly s (rvolume (box_values b)).
Proof.
  intros n e K b B G F F'. assert (R := brel_values prec emax e K b G). destruct (measures_ok (S n) (box_values b) B) as (E1 & _ & _ & E2); [lia|].
  assert (HK := box_nonneg e K n b G (min_length _ _ B)). replace (2 * K)%Z with (K + K)%Z in * by lia.
  assert (Q : orel (rel (Z.of_nat (S n) * e) ((K + K) ^ Z.of_nat (S n))) (bb_volume b) (bb_volume (blift (box_values b)))).
  { unfold bb_volume. rewrite (is_valid_rel prec emax e K b _ R). apply orel_require. assert (Q := size_rel prec emax e K b _ R F). rewrite E1 in *.
    destruct (orel_ret _ _ _ _ _ Q) as (s & -> & V). cbn [bind orel].
    assert (LV := vrel_length _ _ _ _ _ _ V). rewrite map_length in LV. unfold rsize in LV. rewrite P_vec.rsub_length in LV by (destruct B as (-> & -> & _); auto).
    destruct B as (_ & LB & _). rewrite LB in LV. destruct V as [|x y s t RX V]; [discriminate|]. cbn [tl vget nth]. change (vget (x :: s) 0) with x. change (vget (y :: t) 0) with y.
    cbn [length] in LV. injection LV as LV. rewrite <- LV in *. replace (S (length s)) with (1 + length s)%nat in * by lia.
    apply fold_volume; auto; try lia. eapply rel_to; [exact RX|lia|rewrite Z.pow_1_r; lia]. }
  rewrite E2 in Q. destruct (orel_ret _ _ _ _ _ Q) as (s & E & V). exists s. split; auto. eapply rel_exact; eauto.
Qed.
Lemma grid_translate : forall n e K D (b : bbox fl) d, is_box n (box_values b) -> grid_box e K b -> length d = n -> grid_vec e D d -> fits e (K + D) ->
  exists c, bb_translate b d = Ret c /\ exact_box c (BB (radd (bb_min (box_values b)) (values d)) (radd (bb_max (box_values b)) (values d))).
Proof.
  intros n e K D b d B G L GD F. assert (R := brel_values prec emax e K b G). assert (V := vrel_values prec emax e D d GD).
  assert (Q := translate_rel prec emax e K D b _ d _ R V F).
  destruct (translate_ok n (box_values b) (values d) B) as (c & E & _); [unfold values; now rewrite map_length|].
  assert (Ec : c = BB (radd (bb_min (box_values b)) (values d)) (radd (bb_max (box_values b)) (values d))).
  { revert E. unfold bb_translate, bb_make, require. destruct (bb_is_valid _); [|discriminate]. destruct (bb_valid2 _ _); [|discriminate]. intros E. injection E as E1 E2.
    change (bb_min (blift (box_values b))) with (vS (bb_min (box_values b))) in E1. change (bb_max (blift (box_values b))) with (vS (bb_max (box_values b))) in E2.
    rewrite X_add in E1, E2. destruct c as [c1 c2]. cbn in E1, E2. f_equal; [symmetry in E1; apply map_Some_inj in E1; auto|symmetry in E2; apply map_Some_inj in E2; auto]. }
  rewrite E in Q. destruct (orel_ret _ _ _ _ _ Q) as (s & Es & BS). exists s. split; auto. rewrite <- Ec. eapply brel_exact; eauto.
Qed.
Lemma grid_vertices : forall e K (b : bbox fl), is_box 3 (box_values b) -> grid_box e K b -> fits e (8 * K) ->
  exists vs l, bb_vertices b = Ret vs /\ exact_mat vs (map (rcorner (box_values b)) l) /\ NoDup l /\ forall s, In s l <-> length s = 3%nat.
Proof.
  intros e K b B G F. assert (R := brel_values prec emax e K b G). assert (HK := box_nonneg e K 2 b G (min_length _ _ B)).
  assert (Q := vertices_rel prec emax e K b _ HK R F). destruct (vertices_all _ B) as (l & E & H). rewrite E in Q.
  destruct (orel_ret _ _ _ _ _ Q) as (vs & Ev & M). exists vs, l. split; auto. split; auto. eapply mrel_exact. rewrite map_map. exact M.
Qed.
Lemma grid_edges : forall e K (b : bbox fl), is_box 3 (box_values b) -> grid_box e K b -> fits e (8 * K) ->
  exists es l, bb_edges b = Ret es
    /\ Forall2 (fun x s => exact_vec (fst x) (rcorner (box_values b) (fst s)) /\ exact_vec (snd x) (rcorner (box_values b) (snd s))) es l
    /\ NoDup l /\ (forall s t, In (s, t) l -> ~ In (t, s) l)
    /\ forall s t, In (s, t) l \/ In (t, s) l <-> length s = 3%nat /\ length t = 3%nat /\ one_differs s t.
Proof.
  intros e K b B G F. assert (R := brel_values prec emax e K b G). assert (HK := box_nonneg e K 2 b G (min_length _ _ B)).
  assert (Q := edges_rel prec emax e K b _ HK R F). destruct (edges_all _ B) as (l & E & H). rewrite E in Q.
  destruct (orel_ret _ _ _ _ _ Q) as (vs & Ev & M). exists vs, l. split; auto. split; auto.
  clear E H Q Ev. revert vs M. induction l as [|[s t] l IH]; intros vs M; inversion M as [|x y vs' l' [P1 P2] M']; subst; constructor; auto.
  cbn [fst snd] in *. split; eapply vrel_exact; eauto.
Qed.
Lemma grid_faces : forall e K (b : bbox fl), is_box 3 (box_values b) -> grid_box e K b -> fits e (8 * K) ->
  exists fs l, bb_faces b = Ret fs
    /\ Forall2 (fun x f => exact_mat (fst x) (map (rcorner (box_values b)) (snd f)) /\ exact_vec (snd x) (outward (fst (fst f)) (snd (fst f)))) fs l
    /\ NoDup (map fst l) /\ (forall i s, In (i, s) (map fst l) <-> (i < 3)%nat)
    /\ forall i s vs, In ((i, s), vs) l ->
       length vs = 4%nat /\ NoDup vs /\ (forall t, In t vs <-> length t = 3%nat /\ nth i t false = s)
       /\ forall k, (k < 4)%nat ->
          let p := rcorner (box_values b) (nth k vs []) in let q := rcorner (box_values b) (nth ((k + 1) mod 4) vs []) in
          let r := rcorner (box_values b) (nth ((k + 2) mod 4) vs []) in
          turn p q r (outward i s) <= 0 /\ (Forall (fun x => 0 < x) (rsize (box_values b)) -> turn p q r (outward i s) < 0).
Proof.
  intros e K b B G F. assert (R := brel_values prec emax e K b G). assert (HK := box_nonneg e K 2 b G (min_length _ _ B)).
  assert (Q := faces_rel prec emax e K b _ HK R F). destruct (faces_all _ B) as (l & E & H). rewrite E in Q.
  destruct (orel_ret _ _ _ _ _ Q) as (vs & Ev & M). exists vs, l. split; auto. split; auto.
  clear E H Q Ev. revert vs M. induction l as [|[[i s] t] l IH]; intros vs M; inversion M as [|x y vs' l' [P1 P2] M']; subst; constructor; auto.
  cbn [fst snd] in *. split; [eapply mrel_exact; rewrite map_map; exact P1|eapply vrel_exact; exact P2].
Qed.
(** Transformed boxes *)
Lemma pick_grid : forall e K s (mn mx v : list fl), grid_vec e K mn -> grid_vec e K mx -> exact_vec v (pick s (values mn) (values mx)) -> grid_vec e K v.
Proof.
  intros e K s. induction s as [|k s IH]; intros [|x mn] [|y mx] v G1 G2 V; cbn in V; inversion V as [|z r v' w [FZ BZ] V']; subst; constructor.
  - inversion G1 as [|? ? [F1 (k1 & K1 & L1)] _]. inversion G2 as [|? ? [F2 (k2 & K2 & L2)] _]. subst. split; auto.
    destruct k; [exists k2|exists k1]; split; auto; congruence.
  - inversion G1; inversion G2; subst. apply (IH mn mx); assumption.
Qed.
Lemma exact_values : forall (v : list fl) r, exact_vec v r -> values v = r.
Proof. intros v r H. induction H as [|x y v r [_ B] H IH]; [reflexivity|]. unfold values in *. cbn [map]. now rewrite B, IH. Qed.
Lemma bounds_first : forall e K p q l l', vrel e K p q -> Forall2 (fun i j => exists p q, i = It_point p /\ j = It_point q /\ vrel e K p q) l l' ->
  orel (brel prec emax e K) (bbb_bounds 3 (It_point p :: l)) (bbb_bounds 3 (It_point q :: l')).
Proof.
  intros e K p q l l' V H. unfold bbb_bounds. cbn [bbb_add_all bbb_add].
  assert (I : brel prec emax 0 1 (bbb_init 3) (bbb_init 3)).
  { assert (1 <= 2 ^ prec)%Z by (assert (P := Hprec); unfold Prec_gt_0 in P; assert (0 < 2 ^ prec)%Z by (apply Z.pow_pos_nonneg; lia); lia).
    split; apply fill_rel; [apply (rel_cst prec emax 1); simpl; lia|apply rel_zero; lia]. }
  unfold bbb_add_point, bbb_initialized. rewrite (is_valid_rel prec emax 0 1 _ _ I). 
  assert (NV : bb_is_valid (bbb_init 3 : bbox XR) = false) by (cbn; rewrite Rlt_bool_true by lra; reflexivity).
  rewrite NV. cbn [negb bind]. apply bounds_rel; auto. now split.
Qed.
Lemma items_rel : forall e K (g : list fl -> list fl) (h : list bool -> list XR) vs l, Forall2 (fun v s => vrel e K (g v) (h s)) vs l ->
  Forall2 (fun i j => exists p q, i = It_point p /\ j = It_point q /\ vrel e K p q) (map (fun v => It_point (g v)) vs) (map (fun s => It_point (h s)) l).
Proof. intros e K g h vs l H. induction H as [|v s vs l P PT IH]; cbn [map]; constructor; auto. eexists _, _. split; [reflexivity|]. split; [reflexivity|]. exact P. Qed.
Lemma grid_transform : forall e A f T K m (b : bbox fl), is_box 3 (box_values b) -> grid_box f K b -> grid_affine e A (e + f) T 3 m -> (0 <= A)%Z -> (0 <= T)%Z ->
  fits f (8 * K) -> fits (e + f) (3 * (A * K) + T) ->
  exists c r, bb_transform b m = Ret c /\ exact_box c r /\ is_box 3 r
    /\ (forall p, in_bbox (box_values b) p -> in_bbox r (raffine 3 (map values m) p))
    /\ (forall r', is_box 3 r' -> (forall s, length s = 3%nat -> in_bbox r' (raffine 3 (map values m) (rcorner (box_values b) s))) -> forall p, in_bbox r p -> in_bbox r' p).
Proof.
  intros e A f T K m b B G GM HA HT F F'. assert (R := brel_values prec emax f K b G). assert (HK := box_nonneg f K 2 b G (min_length _ _ B)).
  assert (Q := vertices_rel prec emax f K b _ HK R F). 
  assert (AFF : affine 3 (map values m)).
  { destruct (rel_affine prec emax 3 e A f T 0 m [cst 0; cst 0; cst 0] GM eq_refl) as [H _]; auto; try lia.
    - repeat constructor; try apply F_cst0; exists 0%Z; (split; [|simpl; lia]); rewrite (proj2 (F_cst0 prec emax)); ring.
    - eapply fits_le; eauto. nia. }
  destruct (transform_ok _ _ B AFF) as (r & E & BR & H1 & H2).
  assert (TR : orel (brel prec emax (e + f) (3 * (A * K) + T)) (bb_transform b m) (bb_transform (blift (box_values b)) (mS (map values m)))).
  { unfold bb_transform. rewrite (vertices_ok _ B) in *. destruct (orel_ret _ _ _ _ _ Q) as (vs & -> & M). cbn [bind].
    assert (PT : Forall2 (fun v s => vrel (e + f) (3 * (A * K) + T) (m_mul_p 4 m v) (m_mul_p 4 (mS (map values m)) (vS (rcorner (box_values b) s)))) vs corner_bits).
    { assert (CB : forall s, In s corner_bits -> length s = 3%nat) by (intros s; apply corner_bits_all). clear Q. revert vs M CB. induction corner_bits as [|s l IH]; intros vs M CB; inversion M as [|v w vs' l' V M']; subst; constructor.
      - assert (Ls : length s = 3%nat) by (apply CB; now left). assert (EV := vrel_exact _ _ _ _ _ _ V). assert (VV := exact_values _ _ EV).
        assert (L3 : length v = 3%nat).
        { apply Forall2_length in EV. rewrite EV. destruct (box3 _ B) as (m0 & m1 & m2 & M0 & M1 & M2 & -> & _). destruct s as [|? [|? [|? [|]]]]; try discriminate. reflexivity. }
        change 4%nat with (S 3). rewrite X_affine; [|exact AFF|rewrite <- VV; unfold values; now rewrite map_length]. rewrite <- VV. change 3%Z with (Z.of_nat 3).
        apply rel_affine; auto. eapply pick_grid; [| |exact EV]; apply G.
      - apply IH; auto. intros s' H'. apply CB. now right. }
    unfold corner_bits in *. inversion PT as [|v0 s0 vs0 l0 P0 PT0]; subst. cbn [map]. apply bounds_first; [exact P0|].
    refine (items_rel _ _ _ _ _ _ PT0). }
  rewrite E in TR. destruct (orel_ret _ _ _ _ _ TR) as (c & Ec & BC). exists c, r. split; auto. split; [eapply brel_exact; eauto|]. auto.
Qed.
End Grid.
