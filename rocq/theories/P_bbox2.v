(** Bounding boxes in exact arithmetic. *)
From Coq Require Import ZArith Reals List Bool Lia Lra Psatz.
From Flocq Require Import Core.
From Verif Require Import Ops M_scalar M_vec M_mat M_bbox Inst_XR S_vec S_mat S_affine S_bbox S_order S_boxset.
From Verif Require Import P_ord P_compare P_xr P_vec P_vec2 P_affine P_matext P_bbox.
Import ListNotations.
Local Open Scope R_scope.
Notation vS := (map (@Some R)).
Notation mS := (map (map (@Some R))).

(** ** Bridge between boxes of reals and boxes of the model *)
Lemma X_below : forall a b, vec_below (vS a) (vS b) <-> Forall2 Rle a b.
Proof.
  unfold vec_below. induction a as [|x a IH]; intros [|y b]; cbn [map].
  - split; constructor.
  - split; intros H; inversion H.
  - split; intros H; inversion H.
  - split; intros H; inversion H; subst; constructor; try (apply IH; assumption).
    + cbn in H3. now destruct (Rle_bool_spec x y).
    + cbn. now apply Rle_bool_true.
Qed.
Lemma X_point : forall n a, length a = n -> point_of n (vS a).
Proof.
  intros n a L. split; [ now rewrite map_length | ]. clear L. induction a; constructor; auto.
  unfold NaN. cbn. rewrite Req_bool_true; congruence.
Qed.
Lemma point_X : forall n (a : list XR), point_of n a -> exists r, a = vS r /\ length r = n.
Proof.
  induction n; intros a H.
  - apply point_nil in H. subst. now exists [].
  - apply point_inv in H as (x & a' & -> & N & H). destruct (IHn _ H) as (r & -> & L).
    destruct x as [x|]; [ | discriminate N ]. exists (x :: r). simpl. auto.
Qed.
Lemma X_box : forall n b, is_box n b -> box_of n (blift b).
Proof.
  intros n b (L1 & L2 & H). split; [ | split ]; unfold blift; simpl.
  - now apply X_point.
  - now apply X_point.
  - now apply X_below.
Qed.
Lemma box_X : forall n (b : bbox XR), box_of n b -> exists c, b = blift c /\ is_box n c.
Proof.
  intros n [mn mx] (H1 & H2 & H3). simpl in *. apply point_X in H1 as (a & -> & L1). apply point_X in H2 as (c & -> & L2).
  exists (BB a c). split; [ reflexivity | ]. split; [ exact L1 | ]. split; [ exact L2 | ]. now apply X_below.
Qed.
Lemma X_in : forall b p, in_set (blift b) (vS p) <-> in_bbox b p.
Proof. intros. unfold in_set, in_bbox, blift. simpl. now rewrite !X_below. Qed.

Lemma X_vmin : forall a b, v_min (vS a) (vS b) = vS (zip Rmin a b).
Proof.
  induction a as [|x a IH]; intros [|y b]; try reflexivity. unfold v_min in *. cbn [map map2 zip].
  rewrite IH, X_min2. reflexivity.
Qed.
Lemma X_vmax : forall a b, v_max (vS a) (vS b) = vS (zip Rmax a b).
Proof.
  induction a as [|x a IH]; intros [|y b]; try reflexivity. unfold v_max in *. cbn [map map2 zip].
  rewrite IH, X_max2. reflexivity.
Qed.

(** ** constrain is the nearest point *)
Lemma clamp1 : forall a y r x, a <= y -> a <= r -> r <= y ->
  (x - Rmax a (Rmin y x)) * (x - Rmax a (Rmin y x)) <= (x - r) * (x - r).
Proof.
  intros a y r x H1 H2 H3. destruct (Rle_lt_dec y x) as [H|H].
  - rewrite Rmin_left, Rmax_right by assumption. apply Rmult_le_compat; lra.
  - rewrite Rmin_right by lra. destruct (Rle_lt_dec a x) as [K|K].
    + rewrite Rmax_right by assumption. replace ((x - x) * (x - x)) with 0 by ring. apply Rle_0_sqr.
    + rewrite Rmax_left by lra. replace ((x - a) * (x - a)) with ((a - x) * (a - x)) by ring.
      replace ((x - r) * (x - r)) with ((r - x) * (r - x)) by ring. apply Rmult_le_compat; lra.
Qed.
Lemma clamp_nearest : forall mn mx p r, Forall2 Rle mn mx -> length p = length mn -> Forall2 Rle mn r -> Forall2 Rle r mx ->
  rdot (rsub p (zip Rmax mn (zip Rmin mx p))) (rsub p (zip Rmax mn (zip Rmin mx p))) <= rdot (rsub p r) (rsub p r).
Proof.
  unfold rsub. induction mn as [|a mn IH]; intros mx p r H L H1 H2; inversion H; subst; inversion H1; subst; inversion H2; subst;
    destruct p as [|x p]; try discriminate; cbn [zip rdot]; [ lra | ].
  apply Rplus_le_compat; [ | apply IH; auto; now injection L ].
  now apply clamp1.
Qed.
Lemma clamp_inside : forall mn mx p, Forall2 Rle mn p -> Forall2 Rle p mx -> zip Rmax mn (zip Rmin mx p) = p.
Proof.
  induction mn as [|a mn IH]; intros mx p H1 H2; inversion H1; subst; inversion H2; subst; [ reflexivity | ].
  cbn [zip]. f_equal; [ | now apply IH ]. rewrite Rmin_right by assumption. now apply Rmax_right.
Qed.
Lemma constrain_nearest : forall n b p, is_box n b -> length p = n ->
  exists q, bb_constrain (blift b) (vS p) = Ret (vS q) /\ in_bbox b q
    /\ (forall r, in_bbox b r -> rdist p q <= rdist p r) /\ (in_bbox b p -> q = p).
Proof.
  intros n b p B L. exists (zip Rmax (bb_min b) (zip Rmin (bb_max b) p)).
  assert (E : bb_constrain (blift b) (vS p) = Ret (vS (zip Rmax (bb_min b) (zip Rmin (bb_max b) p)))).
  { unfold bb_constrain. rewrite (blift_valid n) by auto. cbn [require blift bb_min bb_max]. now rewrite X_vmin, X_vmax. }
  split; [ exact E | ]. split; [ | split ].
  - destruct (constrain_ok n (blift b) (vS p) (X_box n b B) (X_point n p L)) as (q & E' & I & _).
    rewrite E in E'. injection E' as <-. now apply X_in.
  - intros r [R1 R2]. unfold rdist, rnorm. apply sqrt_le_1_alt. destruct B as (L1 & L2 & H). apply clamp_nearest; auto. congruence.
  - intros [P1 P2]. now apply clamp_inside.
Qed.

(** ** translate and expand *)
Lemma Forall2_zip_add : forall a b d, length a = length d -> length b = length d ->
  (Forall2 Rle (radd a d) (radd b d) <-> Forall2 Rle a b).
Proof.
  unfold radd. induction a as [|x a IH]; intros [|y b] [|z d] L1 L2; try discriminate; cbn [zip].
  - tauto.
  - specialize (IH b d ltac:(now injection L1) ltac:(now injection L2)).
    split; intros H; inversion H; subst; constructor; try (apply IH; assumption); lra.
Qed.
Lemma translate_ok : forall n b d, is_box n b -> length d = n ->
  exists c, bb_translate (blift b) (vS d) = Ret (blift c) /\ is_box n c
    /\ forall p, length p = n -> (in_bbox c (radd p d) <-> in_bbox b p).
Proof.
  intros n b d B L. exists (BB (radd (bb_min b) d) (radd (bb_max b) d)).
  pose proof B as (L1 & L2 & H).
  assert (B' : is_box n (BB (radd (bb_min b) d) (radd (bb_max b) d))).
  { split; [ | split ]; cbn [bb_min bb_max]; unfold radd.
    - rewrite zip_length; congruence.
    - rewrite zip_length; congruence.
    - apply Forall2_zip_add; congruence. }
  split; [ | split; [ exact B' | ] ].
  - unfold bb_translate. rewrite (blift_valid n) by auto. cbn [require blift bb_min bb_max]. rewrite !X_add.
    destruct B' as (A1 & A2 & A3). cbn [bb_min bb_max] in *.
    unfold bb_make. rewrite (proj2 (X_valid2 _ _ (eq_trans A1 (eq_sym A2))) A3). reflexivity.
  - intros p P. unfold in_bbox. cbn [bb_min bb_max]. rewrite !Forall2_zip_add by congruence. tauto.
Qed.
Lemma X_v_fill : forall n f, v_fill n (Some f) = vS (repeat f n).
Proof. intros. unfold v_fill. induction n; simpl; congruence. Qed.
Lemma zip_repeat : forall (g : R -> R -> R) f a, zip g a (repeat f (length a)) = map (fun x => g x f) a.
Proof. induction a; simpl; congruence. Qed.
Lemma expand_ok : forall n b f, is_box n b ->
  (Forall (fun s => - 2 * f <= s) (rsize b) ->
   exists c, bb_expand (blift b) (Some f) = Ret (blift c) /\ is_box n c
    /\ bb_min c = map (fun x => x - f) (bb_min b) /\ bb_max c = map (fun x => x + f) (bb_max b)
    /\ (0 <= f -> forall p, in_bbox c p <-> exists q, in_bbox b q /\ Forall2 (fun x y => Rabs (x - y) <= f) p q))
  /\ (~ Forall (fun s => - 2 * f <= s) (rsize b) -> bb_expand (blift b) (Some f) = Assert).
Proof.
  intros n b f B. pose proof B as (L1 & L2 & H).
  assert (E : bb_expand (blift b) (Some f) = bb_make (vS (map (fun x => x - f) (bb_min b))) (vS (map (fun x => x + f) (bb_max b)))).
  { unfold bb_expand. rewrite (blift_valid n) by auto. cbn [require blift bb_min bb_max].
    rewrite map_length, X_v_fill, X_add, X_sub. unfold radd, rsub. rewrite zip_repeat, L1, <- L2, zip_repeat. reflexivity. }
  assert (V : Forall2 Rle (map (fun x => x - f) (bb_min b)) (map (fun x => x + f) (bb_max b)) <-> Forall (fun s => - 2 * f <= s) (rsize b)).
  { unfold rsize, rsub. clear - L1 L2. revert n L1 L2. generalize (bb_min b) (bb_max b). 
    induction l as [|x a IH]; intros [|y c] [|n] L1 L2; try discriminate; cbn [map zip].
    - split; constructor.
    - injection L1 as L1. injection L2 as L2. specialize (IH c n L1 L2).
      split; intros H; inversion H; subst; constructor; try (apply IH; assumption); lra. }
  rewrite E. unfold bb_make. rewrite <- V.
  assert (LL : length (map (fun x => x - f) (bb_min b)) = length (map (fun x => x + f) (bb_max b))) by (rewrite !map_length; congruence).
  split.
  - intros Q. rewrite (proj2 (X_valid2 _ _ LL) Q). exists (BB (map (fun x => x - f) (bb_min b)) (map (fun x => x + f) (bb_max b))). split; [ reflexivity | ]. split.
    { split; [ | split ]; cbn [bb_min bb_max]; [ now rewrite map_length | now rewrite map_length | exact Q ]. }
    split; [ reflexivity | ]. split; [ reflexivity | ].
    intros F p. unfold in_bbox. cbn [bb_min bb_max]. clear - H F. revert p.
    induction H as [|x y a c Hxy Hac IH]; intros p; cbn [map].
    + split.
      * intros [P _]. inversion P. exists []. repeat constructor.
      * intros (q & [Q _] & P). inversion Q; subst. inversion P; subst. split; constructor.
    + split.
      * intros [P1 P2]. inversion P1; subst. inversion P2; subst.
        destruct (proj1 (IH l')) as (q & [Q1 Q2] & Q3); [ auto | ].
        exists (Rmax x (Rmin y y0) :: q). split; [ split; constructor; auto | constructor; auto ].
        { apply Rmax_l. }
        { apply Rmax_lub; [ lra | apply Rmin_l ]. }
        unfold Rmax, Rmin. destruct (Rle_dec y y0); match goal with |- context [Rle_dec ?u ?v] => destruct (Rle_dec u v) end;
          apply Rabs_le; lra.
      * intros (q & [Q1 Q2] & P). inversion Q1; subst. inversion Q2; subst. inversion P; subst.
        match goal with A : Rabs _ <= f |- _ => apply Rabs_le_inv in A end.
        match goal with A : Forall2 (fun x y => Rabs (x - y) <= f) ?u ?v |- _ =>
          destruct (proj2 (IH u)) as [I1 I2]; [ exists v; auto | ] end.
        split; constructor; auto; lra.
  - intros Q. destruct (bb_valid2 _ _) eqn:V2; [ | reflexivity ]. apply X_valid2 in V2; [ tauto | exact LL ].
Qed.

(** ** center, size, volume *)
Lemma measures_ok : forall n b, is_box n b -> (0 < n)%nat ->
  bb_size (blift b) = Ret (vS (rsize b))
  /\ bb_center (blift b) = Ret (vS (rlerp (bb_min b) (bb_max b) (/ 2)))
  /\ in_bbox b (rlerp (bb_min b) (bb_max b) (/ 2))
  /\ bb_volume (blift b) = Ret (Some (rvolume b)).
Proof.
  intros n b B N. pose proof B as (L1 & L2 & H). split; [ now apply (X_bb_size n) | ].
  assert (C : v_div_s (v_add (vS (bb_min b)) (vS (bb_max b))) (cst 2) = vS (rlerp (bb_min b) (bb_max b) (/ 2))).
  { rewrite X_add. change (cst 2 : XR) with (Some 2). rewrite X_div_s by lra. apply f_equal. clear. unfold rlerp, rpoint, rscale, radd, rsub.
    generalize (bb_min b) (bb_max b). induction l as [|x a IH]; intros [|y c]; try reflexivity.
    cbn [zip map]. f_equal; [ field | apply IH ]. }
  split; [ | split ].
  - unfold bb_center. rewrite (blift_valid n) by auto. cbn [require blift bb_min bb_max]. now rewrite C.
  - clear C. unfold in_bbox, rlerp, rpoint, rscale, radd, rsub. clear - H.
    induction H as [|x y a c Hxy Hac [IH1 IH2]]; cbn [zip map]; split; constructor; auto; lra.
  - unfold bb_volume. rewrite (blift_valid n) by auto. cbn [require]. rewrite (X_bb_size n) by auto. cbn [bind].
    f_equal. unfold rvolume. assert (L := rsize_length n b B). destruct (rsize b) as [|x l]; [ simpl in L; lia | ].
    change (fold_left o_mul (vS l) (Some x) = Some (fold_right Rmult 1 (x :: l))). clear. revert x.
    induction l as [|y l IH]; intros x.
    + cbn. f_equal. ring.
    + change (fold_left o_mul (vS l) (Some (x * y)) = Some (fold_right Rmult 1 (x :: y :: l))).
      rewrite IH. cbn [fold_right]. f_equal. ring.
Qed.

(** ** vertices, edges, faces *)
Definition corner_bits : list (list bool) :=
  [[true;true;true]; [true;false;true]; [false;false;true]; [false;true;true];
   [false;false;false]; [true;false;false]; [true;true;false]; [false;true;false]].
Lemma box3 : forall b, is_box 3 b -> exists m0 m1 m2 M0 M1 M2, b = BB [m0; m1; m2] [M0; M1; M2] /\ m0 <= M0 /\ m1 <= M1 /\ m2 <= M2.
Proof.
  intros [mn mx] (L1 & L2 & H). simpl in *. 
  destruct mn as [|m0 [|m1 [|m2 [|]]]]; try discriminate. destruct mx as [|M0 [|M1 [|M2 [|]]]]; try discriminate.
  repeat match goal with F : Forall2 _ (_ :: _) _ |- _ => inversion F; clear F; subst end.
  repeat eexists; auto.
Qed.
Lemma bits3 : forall s : list bool, length s = 3%nat -> exists a b c, s = [a; b; c].
Proof. intros [|a [|b [|c [|]]]] H; try discriminate. eauto. Qed.
Lemma corner_bits_all : NoDup corner_bits /\ forall s, In s corner_bits <-> length s = 3%nat.
Proof.
  split.
  - unfold corner_bits. repeat constructor; simpl; intuition discriminate.
  - intros s. split.
    + unfold corner_bits. simpl. intuition (subst; reflexivity).
    + intros H. apply bits3 in H as (a & b & c & ->). destruct a, b, c; simpl; auto 20.
Qed.
Lemma vertices_ok : forall b, is_box 3 b ->
  bb_vertices (blift b) = Ret (map (fun s => vS (rcorner b s)) corner_bits).
Proof.
  intros b B. destruct (box3 b B) as (m0 & m1 & m2 & M0 & M1 & M2 & -> & _).
  unfold bb_vertices, bb_sides. rewrite (X_bb_size 3) by auto.
  cbn [bind]. apply f_equal.
  repeat (refine (f_equal2 cons _ _); [ cbn; repeat (apply (f_equal2 cons); [ f_equal; ring | ]); reflexivity | ]). reflexivity.
Qed.
Lemma vertices_all : forall b, is_box 3 b ->
  exists l, bb_vertices (blift b) = Ret (map (fun s => vS (rcorner b s)) l)
    /\ NoDup l /\ forall s, In s l <-> length s = 3%nat.
Proof. intros b B. exists corner_bits. split; [ now apply vertices_ok | apply corner_bits_all ]. Qed.

Definition edge_bits : list (list bool * list bool) :=
  [([true;true;true], [true;false;true]); ([true;false;true], [false;false;true]);
   ([false;false;true], [false;true;true]); ([false;true;true], [true;true;true]);
   ([false;false;false], [true;false;false]); ([true;false;false], [true;true;false]);
   ([true;true;false], [false;true;false]); ([false;true;false], [false;false;false]);
   ([false;false;false], [false;false;true]); ([false;true;false], [false;true;true]);
   ([true;true;false], [true;true;true]); ([true;false;false], [true;false;true])].
Lemma one_differs3 : forall a b c a' b' c', one_differs [a; b; c] [a'; b'; c'] <->
  (a <> a' /\ b = b' /\ c = c') \/ (a = a' /\ b <> b' /\ c = c') \/ (a = a' /\ b = b' /\ c <> c').
Proof.
  intros. split.
  - intros (u & v & x & y & H1 & H2 & N). destruct u as [|u0 [|u1 [|u2 u]]]; simpl in H1, H2.
    + left. injection H1. injection H2. intros. subst. injection H1. auto.
    + right. left. injection H1. injection H2. intros. subst. injection H1. auto.
    + right. right. injection H1. injection H2. intros. subst. auto.
    + exfalso. destruct u; discriminate H1.
  - intros [(N & -> & ->)|[(-> & N & ->)|(-> & -> & N)]].
    + exists [], [b'; c'], a, a'. auto.
    + exists [a'], [c'], b, b'. auto.
    + exists [a'; b'], [], c, c'. auto.
Qed.
Lemma edges_ok : forall b, is_box 3 b ->
  bb_edges (blift b) = Ret (map (fun e => (vS (rcorner b (fst e)), vS (rcorner b (snd e)))) edge_bits).
Proof.
  intros b B. destruct (box3 b B) as (m0 & m1 & m2 & M0 & M1 & M2 & -> & _).
  unfold bb_edges, bb_sides. rewrite (X_bb_size 3) by auto.
  cbn [bind]. apply f_equal.
  repeat (refine (f_equal2 cons _ _); [ refine (f_equal2 pair _ _); cbn; repeat (apply (f_equal2 cons); [ f_equal; ring | ]); reflexivity | ]). reflexivity.
Qed.
Lemma edges_all : forall b, is_box 3 b ->
  exists l, bb_edges (blift b) = Ret (map (fun e => (vS (rcorner b (fst e)), vS (rcorner b (snd e)))) l)
    /\ NoDup l /\ (forall s t, In (s, t) l -> ~ In (t, s) l)
    /\ forall s t, In (s, t) l \/ In (t, s) l <-> length s = 3%nat /\ length t = 3%nat /\ one_differs s t.
Proof.
  intros b B. exists edge_bits. split; [ now apply edges_ok | ]. split; [ | split ].
  - unfold edge_bits. repeat constructor; simpl; intuition discriminate.
  - unfold edge_bits. simpl. intros s t H. repeat destruct H as [H|H]; try injection H as <- <-; intuition discriminate.
  - intros s t. split.
    + intros H. assert (L : length s = 3%nat /\ length t = 3%nat).
      { unfold edge_bits in H. simpl in H. destruct H as [H|H]; repeat destruct H as [H|H]; try injection H as <- <-; auto; destruct H. }
      destruct L as [L1 L2]. split; [ exact L1 | ]. split; [ exact L2 | ].
      apply bits3 in L1 as (a1 & b1 & c1 & ->). apply bits3 in L2 as (a2 & b2 & c2 & ->). apply one_differs3.
      unfold edge_bits in H. simpl in H. destruct H as [H|H]; repeat destruct H as [H|H]; try injection H; intros; subst;
        try (intuition discriminate).
    + intros (L1 & L2 & H). apply bits3 in L1 as (a1 & b1 & c1 & ->). apply bits3 in L2 as (a2 & b2 & c2 & ->).
      apply one_differs3 in H. unfold edge_bits. simpl.
      destruct a1, b1, c1, a2, b2, c2; try (exfalso; intuition congruence); tauto.
Qed.

Definition face_bits : list ((nat * bool) * list (list bool)) :=
  [((2%nat, true), [[true;true;true]; [true;false;true]; [false;false;true]; [false;true;true]]);
   ((2%nat, false), [[false;false;false]; [true;false;false]; [true;true;false]; [false;true;false]]);
   ((1%nat, false), [[false;false;false]; [false;false;true]; [true;false;true]; [true;false;false]]);
   ((1%nat, true), [[true;true;true]; [false;true;true]; [false;true;false]; [true;true;false]]);
   ((0%nat, false), [[false;false;false]; [false;true;false]; [false;true;true]; [false;false;true]]);
   ((0%nat, true), [[true;true;true]; [true;true;false]; [true;false;false]; [true;false;true]])].
Lemma faces_ok : forall b, is_box 3 b ->
  bb_faces (blift b) = Ret (map (fun f => (map (fun s => vS (rcorner b s)) (snd f), vS (outward (fst (fst f)) (snd (fst f))))) face_bits).
Proof.
  intros b B. destruct (box3 b B) as (m0 & m1 & m2 & M0 & M1 & M2 & -> & _).
  rewrite X_bb_faces by auto.
  apply f_equal.
  repeat (refine (f_equal2 cons _ _);
    [ refine (f_equal2 pair _ _); [ repeat (refine (f_equal2 cons _ _); [ cbn; repeat (apply (f_equal2 cons); [ f_equal; ring | ]); reflexivity | ]); reflexivity | reflexivity ] | ]). reflexivity.
Qed.
Lemma faces_all : forall b, is_box 3 b ->
  exists l, bb_faces (blift b)
            = Ret (map (fun f => (map (fun s => vS (rcorner b s)) (snd f), vS (outward (fst (fst f)) (snd (fst f))))) l)
    /\ NoDup (map fst l) /\ (forall i s, In (i, s) (map fst l) <-> (i < 3)%nat)
    /\ forall i s vs, In ((i, s), vs) l ->
       length vs = 4%nat /\ NoDup vs /\ (forall t, In t vs <-> length t = 3%nat /\ nth i t false = s)
       /\ forall k, (k < 4)%nat ->
          let p := rcorner b (nth k vs []) in
          let q := rcorner b (nth ((k + 1) mod 4) vs []) in
          let r := rcorner b (nth ((k + 2) mod 4) vs []) in
          turn p q r (outward i s) <= 0
          /\ (Forall (fun x => 0 < x) (rsize b) -> turn p q r (outward i s) < 0).
Proof.
  intros b B. exists face_bits. split; [ now apply faces_ok | ]. split; [ | split ].
  - unfold face_bits. repeat constructor; simpl; intuition discriminate.
  - intros i s. split.
    + unfold face_bits. simpl. intros H. repeat destruct H as [H|H]; try injection H as <- <-; try lia; destruct H.
    + intros H. destruct i as [|[|[|i]]]; [ | | | lia ]; destruct s; simpl; tauto.
  - intros i s vs H. 
    assert (L : length vs = 4%nat). { unfold face_bits in H. simpl in H. repeat destruct H as [H|H]; try injection H as <- <- <-; try destruct H; reflexivity. }
    split; [ exact L | ]. clear L. split; [ | split ].
    + unfold face_bits in H. simpl in H. repeat destruct H as [H|H]; try injection H as <- <- <-; try destruct H;
        repeat constructor; simpl; intuition discriminate.
    + intros t. split.
      * intros T. unfold face_bits in H. simpl in H. repeat destruct H as [H|H]; try injection H as <- <- <-; try destruct H;
          simpl in T; repeat destruct T as [T|T]; subst; try destruct T; auto.
      * intros [L N]. apply bits3 in L as (x & y & z & ->).
        unfold face_bits in H. simpl in H. repeat destruct H as [H|H]; try injection H as <- <- <-; try destruct H;
          destruct x, y, z; try discriminate N; simpl; auto 10.
    + intros k K. cbv zeta. destruct (box3 b B) as (m0 & m1 & m2 & M0 & M1 & M2 & -> & H0 & H1 & H2).
      assert (Q : forall u v : R, 0 <= u -> 0 <= v -> 0 <= u * v) by (intros; now apply Rmult_le_pos).
      assert (P := Q (M0 - m0) (M1 - m1) ltac:(lra) ltac:(lra)). assert (P' := Q (M0 - m0) (M2 - m2) ltac:(lra) ltac:(lra)).
      assert (P'' := Q (M1 - m1) (M2 - m2) ltac:(lra) ltac:(lra)). clear Q.
      unfold face_bits in H. simpl in H. 
      repeat destruct H as [H|H]; try injection H as <- <- <-; try destruct H;
      destruct k as [|[|[|[|k]]]]; try lia; cbn [nth Nat.modulo Nat.divmod Nat.add Nat.sub fst snd];
      unfold turn, rcorner, outward; cbn; (split; [ ring_simplify; nra | ]);
      intros S; inversion S; subst; inversion H5; subst; inversion H7; subst;
      assert (P1 := Rmult_lt_0_compat _ _ H4 H6); assert (P2 := Rmult_lt_0_compat _ _ H4 H8); assert (P3 := Rmult_lt_0_compat _ _ H6 H8); nra.
Qed.
