(** Bounding boxes over any scalar type with the order laws. *)
From Coq Require Import ZArith Reals List Bool Lia Lra Permutation.
From Flocq Require Import Core.
From Verif Require Import Ops M_scalar M_vec M_bbox S_order S_boxset.
From Verif Require Import P_ord P_compare P_scalar_ord P_order_final.
Import ListNotations.
Local Open Scope R_scope.

Section S.
Context {T : Type} {o : ops T} {ol : ordlaws o}.
Notation num x := (is_nan x = false).

Lemma nums_iff : forall a : list T, Forall (fun x => ~ NaN x) a <-> Forall (fun x => num x) a.
Proof.
  intros a. split; intros H; eapply Forall_impl; try exact H; intros; now apply not_NaN_is_nan.
Qed.

Lemma le_refl : forall x : T, num x -> o_le x x = true.
Proof. intros. apply le_true. intuition lra. Qed.
Lemma le_trans : forall x y z : T, o_le x y = true -> o_le y z = true -> o_le x z = true.
Proof. intros x y z. rewrite !le_true. intuition lra. Qed.
Lemma le_min : forall x y z : T, num x -> num y ->
  (o_le z (sc_min x [y]) = true <-> o_le z x = true /\ o_le z y = true).
Proof.
  intros x y z Hx Hy. rewrite !le_true, min2_key by assumption.
  generalize (min2_num x y Hx Hy). unfold Rmin. destruct (Rle_dec (key x) (key y)); intuition lra.
Qed.
Lemma max_le : forall x y z : T, num x -> num y ->
  (o_le (sc_max x [y]) z = true <-> o_le x z = true /\ o_le y z = true).
Proof.
  intros x y z Hx Hy. rewrite !le_true, max2_key by assumption.
  generalize (max2_num x y Hx Hy). unfold Rmax. destruct (Rle_dec (key x) (key y)); intuition lra.
Qed.
Lemma le_false_lt : forall x y : T, num x -> num y -> (o_lt y x = false <-> o_le x y = true).
Proof. intros x y Hx Hy. rewrite lt_false, le_true by assumption. intuition. Qed.

Lemma point_cons : forall n x (a : list T), point_of (S n) (x :: a) <-> num x /\ point_of n a.
Proof.
  intros n x a. unfold point_of. rewrite Forall_cons_iff, not_NaN_is_nan. simpl. intuition.
Qed.
Lemma point_inv : forall n (a : list T), point_of (S n) a -> exists x a', a = x :: a' /\ num x /\ point_of n a'.
Proof.
  intros n [|x a] H; [ destruct H; discriminate | ]. apply point_cons in H. eauto.
Qed.
Lemma point_nil : forall (a : list T), point_of 0 a -> a = [].
Proof. intros [|x a] [H _]; [ reflexivity | discriminate ]. Qed.

Lemma below_cons : forall x y (a b : list T), vec_below (x :: a) (y :: b) <-> o_le x y = true /\ vec_below a b.
Proof.
  intros. unfold vec_below. split; intros H.
  - inversion H; auto.
  - constructor; intuition.
Qed.
Lemma sbelow_cons : forall x y (a b : list T),
  vec_strictly_below (x :: a) (y :: b) <-> o_lt x y = true /\ vec_strictly_below a b.
Proof.
  intros. unfold vec_strictly_below. split; intros H.
  - inversion H; auto.
  - constructor; intuition.
Qed.
Lemma below_refl : forall n (a : list T), point_of n a -> vec_below a a.
Proof.
  induction n; intros a H.
  - apply point_nil in H; subst. constructor.
  - apply point_inv in H as (x & a' & -> & Hx & H). apply below_cons. auto using le_refl.
Qed.
Lemma below_trans : forall a b c : list T, vec_below a b -> vec_below b c -> vec_below a c.
Proof.
  induction a as [|x a IH]; intros b c H1 H2; inversion H1; subst; inversion H2; subst; constructor.
  - eauto using le_trans.
  - eapply IH; eassumption.
Qed.
Lemma below_point : forall n (a b : list T), length a = n -> vec_below a b -> point_of n a /\ point_of n b.
Proof.
  induction n; intros a b L H.
  - destruct a; [ | discriminate ]. inversion H; subst. split; split; auto.
  - destruct a as [|x a]; [ discriminate | ]. inversion H; subst. rewrite !point_cons.
    injection L as L. apply le_true in H2. destruct (IHn _ _ L H4). tauto.
Qed.

(** Induction over the components of several points. *)
Ltac comp n :=
  induction n as [|n IH]; intros;
  repeat match reverse goal with
  | H : point_of 0 ?a |- _ => apply point_nil in H; subst a
  | H : point_of (S _) ?a |- _ =>
      let x := fresh "x" in let a' := fresh "r" in let N := fresh "N" in
      apply point_inv in H as (x & a' & -> & N & H)
  end.

Lemma valid2_iff : forall n (a b : list T), point_of n a -> point_of n b ->
  (bb_valid2 a b = true <-> vec_below a b).
Proof.
  comp n.
  - simpl. split; constructor.
  - rewrite below_cons. simpl. rewrite <- (IH r r0) by assumption.
    destruct (o_lt x0 x) eqn:E.
    + split; [ discriminate | ]. intros [H1 _]. apply le_false_lt in H1; try assumption. congruence.
    + apply le_false_lt in E; try assumption. tauto.
Qed.

Lemma point_min : forall n (a b : list T), point_of n a -> point_of n b -> point_of n (v_min a b).
Proof.
  comp n.
  - split; auto. constructor.
  - change (v_min (x :: r) (x0 :: r0)) with (sc_min x [x0] :: v_min r r0). apply point_cons.
    auto using min2_num.
Qed.
Lemma point_max : forall n (a b : list T), point_of n a -> point_of n b -> point_of n (v_max a b).
Proof.
  comp n.
  - split; auto. constructor.
  - change (v_max (x :: r) (x0 :: r0)) with (sc_max x [x0] :: v_max r r0). apply point_cons.
    auto using max2_num.
Qed.
Lemma below_min : forall n (a b c : list T), point_of n a -> point_of n b -> point_of n c ->
  (vec_below c (v_min a b) <-> vec_below c a /\ vec_below c b).
Proof.
  comp n.
  - split; repeat constructor.
  - change (v_min (x :: r) (x0 :: r0)) with (sc_min x [x0] :: v_min r r0).
    rewrite !below_cons, IH, le_min by assumption. tauto.
Qed.
Lemma below_max : forall n (a b c : list T), point_of n a -> point_of n b -> point_of n c ->
  (vec_below (v_max a b) c <-> vec_below a c /\ vec_below b c).
Proof.
  comp n.
  - split; repeat constructor.
  - change (v_max (x :: r) (x0 :: r0)) with (sc_max x [x0] :: v_max r r0).
    rewrite !below_cons, IH, max_le by assumption. tauto.
Qed.

(** ** Sets *)
Lemma in_set_point : forall n (b : bbox T) p, box_of n b -> in_set b p -> point_of n p.
Proof.
  intros n b p ([L _] & _) [H _]. apply (below_point n) in H; auto. tauto.
Qed.
Lemma box_valid : forall n (b : bbox T), box_of n b -> bb_is_valid b = true.
Proof. intros n b (H1 & H2 & H3). apply (valid2_iff n); assumption. Qed.
Lemma min_in : forall n (b : bbox T), box_of n b -> in_set b (bb_min b).
Proof. intros n b (H1 & H2 & H3). split; auto. eapply below_refl; eauto. Qed.
Lemma max_in : forall n (b : bbox T), box_of n b -> in_set b (bb_max b).
Proof. intros n b (H1 & H2 & H3). split; auto. eapply below_refl; eauto. Qed.
Lemma subset_iff : forall n (b c : bbox T), box_of n b ->
  ((forall p, in_set b p -> in_set c p) <-> vec_below (bb_min c) (bb_min b) /\ vec_below (bb_max b) (bb_max c)).
Proof.
  intros n b c B. split.
  - intros H. split; [ apply (H _ (min_in n b B)) | apply (H _ (max_in n b B)) ].
  - intros [H1 H2] p [P1 P2]. split; eauto using below_trans.
Qed.

Lemma make_ok : forall n (a b : list T), point_of n a -> point_of n b -> vec_below a b ->
  bb_make a b = Ret (BB a b) /\ box_of n (BB a b).
Proof.
  intros n a b H1 H2 H3. unfold bb_make. rewrite (proj2 (valid2_iff n a b H1 H2) H3).
  split; [ reflexivity | ]. repeat split; simpl; try assumption; try apply H1; try apply H2.
Qed.

Lemma merge_ok : forall n (b c : bbox T), box_of n b -> box_of n c ->
  exists d, bb_merge b c = Ret d /\ smallest_box n (fun p => in_set b p \/ in_set c p) d.
Proof.
  intros n b c B C. pose proof B as (B1 & B2 & B3). pose proof C as (C1 & C2 & C3).
  assert (M1 := point_min n _ _ B1 C1). assert (M2 := point_max n _ _ B2 C2).
  assert (L1 := proj1 (below_min n _ _ _ B1 C1 M1) (below_refl n _ M1)).
  assert (L2 := proj1 (below_max n _ _ _ B2 C2 M2) (below_refl n _ M2)).
  destruct (make_ok n _ _ M1 M2) as [E D].
  { eapply below_trans; [ exact (proj1 L1) | ]. eapply below_trans; [ exact B3 | apply L2 ]. }
  exists (BB (v_min (bb_min b) (bb_min c)) (v_max (bb_max b) (bb_max c))).
  split; [ exact E | ]. split; [ exact D | ]. split.
  - intros p [[P1 P2]|[P1 P2]]; split; simpl; eapply below_trans; try eassumption; intuition.
  - intros e E1 E2. apply (subset_iff n); [ exact D | ]. simpl. destruct E1 as (E11 & E12 & _).
    destruct (E2 _ (or_introl (min_in n b B))) as [Q1 _].
    destruct (E2 _ (or_introl (max_in n b B))) as [_ Q2].
    destruct (E2 _ (or_intror (min_in n c C))) as [Q3 _].
    destruct (E2 _ (or_intror (max_in n c C))) as [_ Q4].
    split; [ apply (below_min n) | apply (below_max n) ]; auto.
Qed.
Lemma point_box : forall n (p : list T), point_of n p -> box_of n (BB p p).
Proof. intros n p P. repeat split; simpl; try apply P. eapply below_refl; eauto. Qed.
Lemma merge_p_ok : forall n (b : bbox T) p, box_of n b -> point_of n p ->
  exists d, bb_merge_p b p = Ret d /\ smallest_box n (fun q => in_set b q \/ q = p) d.
Proof.
  intros n b p B P. destruct (merge_ok n b (BB p p) B (point_box n p P)) as (d & E & S1 & S2 & S3).
  exists d. split; [ exact E | ]. split; [ exact S1 | ]. split.
  - intros q [H| ->]; apply S2; [ now left | right; apply (min_in n (BB p p) (point_box n p P)) ].
  - intros c C H. apply S3; [ exact C | ]. intros q [Q|Q]; [ apply H; now left | ].
    destruct (H p (or_intror eq_refl)) as [H1 H2]. destruct Q as [Q1 Q2]. simpl in Q1, Q2.
    split; eapply below_trans; eassumption.
Qed.

Lemma smallest_ext : forall n (P Q : list T -> Prop) b, (forall p, P p <-> Q p) -> smallest_box n P b -> smallest_box n Q b.
Proof.
  intros n P Q b H (B1 & B2 & B3). split; [ exact B1 | ]. split.
  - intros p X. apply B2. now apply H.
  - intros c C X. apply B3; auto. intros p Y. apply X. now apply H.
Qed.
(** Adding a set to the smallest box of a set. *)
Lemma smallest_union : forall n (P Q : list T -> Prop) b d, smallest_box n P b ->
  smallest_box n (fun p => in_set b p \/ Q p) d -> smallest_box n (fun p => P p \/ Q p) d.
Proof.
  intros n P Q b d (B1 & B2 & B3) (D1 & D2 & D3). split; [ exact D1 | ]. split.
  - intros p [H|H]; apply D2; auto.
  - intros c C X. apply D3; [ exact C | ]. intros p [Y|Y]; [ apply B3; auto | auto ].
Qed.
Lemma smallest_self : forall n b, box_of n b -> smallest_box n (in_set b) b.
Proof. intros n b B. split; auto. Qed.
Lemma smallest_point : forall n p, point_of n p -> smallest_box n (fun q => q = p) (BB p p).
Proof.
  intros n p P. split; [ now apply point_box | ]. split.
  - intros q ->. split; simpl; eapply below_refl; eauto.
  - intros c C H q [Q1 Q2]. destruct (H p eq_refl). simpl in *. split; eapply below_trans; eassumption.
Qed.

Definition item_set (i : bb_item T) (p : list T) : Prop :=
  match i with It_point q => p = q | It_box b => in_set b p end.

Lemma add_ok : forall n (b : bbox T) i, box_of n b -> item_ok n i ->
  exists d, bbb_add b i = Ret d /\ smallest_box n (fun p => in_set b p \/ item_set i p) d.
Proof.
  intros n b [p|c] B I; simpl in *; unfold bbb_add_point, bbb_add_box, bbb_initialized;
    rewrite (box_valid n b B); simpl.
  - apply merge_p_ok; auto.
  - apply merge_ok; auto.
Qed.
Lemma add_all_ok : forall n l (b : bbox T) P, smallest_box n P b -> Forall (item_ok n) l ->
  exists d, bbb_add_all b l = Ret d /\ smallest_box n (fun p => P p \/ comprises l p) d.
Proof.
  induction l as [|i l IH]; intros b P B I; simpl.
  - exists b. split; [ reflexivity | ]. eapply smallest_ext; [ | exact B ]. intros p. split; auto.
    intros [H|(i & [] & _)]; auto.
  - apply Forall_cons_iff in I as [I1 I2].
    destruct (add_ok n b i (proj1 B) I1) as (d & E & D). rewrite E. simpl.
    destruct (IH d (fun p => P p \/ item_set i p) (smallest_union n P (item_set i) b d B D) I2) as (d' & E' & D').
    exists d'. split; [ exact E' | ]. eapply smallest_ext; [ | exact D' ]. intros p. unfold comprises.
    split.
    + intros [[H|H]|(j & J & H)]; [ now left | right; exists i; split; [ now left | exact H ] | ].
      right. exists j. split; [ now right | exact H ].
    + intros [H|(j & [ ->|J] & H)]; [ tauto | left; now right | right; exists j; auto ].
Qed.

Lemma init_invalid : forall n, bb_is_valid (bbb_init (S n) : bbox T) = false.
Proof.
  intros n. unfold bb_is_valid. simpl.
  assert (H0 := num_cst 0 ltac:(lia)). assert (H1 := num_cst 1 ltac:(lia)).
  replace (o_lt (cst 0) (cst 1)) with true; [ reflexivity | ].
  symmetry. apply lt_true. rewrite (proj2 H0), (proj2 H1). intuition lra.
Qed.

Lemma bounds_ok : forall n (l : list (bb_item T)), (0 < n)%nat -> l <> [] -> Forall (item_ok n) l ->
  exists b, bbb_bounds n l = Ret b /\ smallest_box n (comprises l) b.
Proof.
  intros [|n] [|i l] N NE I; try lia; try easy. unfold bbb_bounds. apply Forall_cons_iff in I as [I1 I2].
  assert (A : exists b, bbb_add (bbb_init (S n)) i = Ret b /\ smallest_box (S n) (item_set i) b).
  { destruct i as [p|c]; simpl in *; unfold bbb_add_point, bbb_add_box, bbb_initialized;
      rewrite init_invalid; simpl; eexists; (split; [ reflexivity | ]).
    - now apply smallest_point.
    - now apply smallest_self. }
  destruct A as (b & E & B). cbn [bbb_add_all]. rewrite E. simpl.
  destruct (add_all_ok (S n) l b _ B I2) as (d & E' & D). exists d. split; [ exact E' | ].
  eapply smallest_ext; [ | exact D ]. intros p. unfold comprises. split.
  - intros [H|(j & J & H)]; [ exists i; split; [ now left | exact H ] | exists j; split; [ now right | exact H ] ].
  - intros (j & [ ->|J] & H); [ now left | right; eauto ].
Qed.
Lemma merge_all_ok : forall n (l : list (list T)), l <> [] -> Forall (point_of n) l ->
  exists b, bb_merge_all l = Ret b /\ smallest_box n (fun p => In p l) b.
Proof.
  intros n [|p l] NE I; [ easy | ]. apply Forall_cons_iff in I as [I1 I2].
  assert (M : forall l (b : bbox T) P, smallest_box n P b -> Forall (point_of n) l ->
    exists d, bb_merge_rest b l = Ret d /\ smallest_box n (fun q => P q \/ In q l) d).
  { clear - ol. induction l as [|p l IH]; intros b P B I; simpl.
    - exists b. split; [ reflexivity | ]. eapply smallest_ext; [ | exact B ]. tauto.
    - apply Forall_cons_iff in I as [I1 I2].
      destruct (merge_p_ok n b p (proj1 B) I1) as (d & E & D). rewrite E. simpl.
      destruct (IH d (fun q => P q \/ q = p) (smallest_union n P _ b d B D) I2) as (d' & E' & D').
      exists d'. split; [ exact E' | ]. eapply smallest_ext; [ | exact D' ].
      intros q. assert (q = p <-> p = q) by (split; congruence). tauto. }
  unfold bb_merge_all. destruct (make_ok n p p I1 I1 (below_refl n p I1)) as [E _]. rewrite E. simpl.
  destruct (M l _ _ (smallest_point n p I1) I2) as (d & E' & D). exists d. split; [ exact E' | ].
  eapply smallest_ext; [ | exact D ]. intros q. assert (q = p <-> p = q) by (split; congruence). tauto.
Qed.

(** Two smallest boxes of the same set are equal. *)
Lemma below_anti : forall n (a b : list T), point_of n a -> point_of n b -> vec_below a b -> vec_below b a -> v_eq a b = true.
Proof.
  intros n r b A B H1 H2. apply Z.eqb_eq. apply v_compare_eq; [ destruct A, B; congruence | ].
  unfold vec_eq. revert r b A B H1 H2. comp n.
  - constructor.
  - apply below_cons in H1 as [H1 H3]. apply below_cons in H2 as [H2 H4]. constructor; [ | apply IH; auto ].
    right. apply le_true in H1, H2. apply eq_true. intuition lra.
Qed.
Lemma smallest_unique : forall n (P Q : list T -> Prop) b c, (forall p, P p <-> Q p) ->
  smallest_box n P b -> smallest_box n Q c -> bb_eq b c = true.
Proof.
  intros n P Q b c H HB HC. apply (smallest_ext n P Q b H) in HB. destruct HB as (B1 & B2 & B3), HC as (C1 & C2 & C3).
  assert (S1 := B3 c C1 C2). assert (S2 := C3 b B1 B2).
  apply (subset_iff n b c B1) in S1. apply (subset_iff n c b C1) in S2.
  destruct B1 as (B11 & B12 & _), C1 as (C11 & C12 & _).
  unfold bb_eq. rewrite !(below_anti n) by intuition. reflexivity.
Qed.
Lemma bounds_order : forall n (l l' : list (bb_item T)), (0 < n)%nat -> l <> [] -> Forall (item_ok n) l ->
  (forall i, In i l <-> In i l') ->
  exists b b', bbb_bounds n l = Ret b /\ bbb_bounds n l' = Ret b' /\ bb_eq b b' = true.
Proof.
  intros n l l' N NE I H.
  assert (NE' : l' <> []). { intros ->. destruct l as [|i l]; [ easy | ]. apply (H i). now left. }
  assert (I' : Forall (item_ok n) l'). { rewrite Forall_forall in *. intros x X. apply I. now apply H. }
  destruct (bounds_ok n l N NE I) as (b & E & B). destruct (bounds_ok n l' N NE' I') as (b' & E' & B').
  exists b, b'. split; [ exact E | ]. split; [ exact E' | ].
  eapply smallest_unique; [ | exact B | exact B' ]. intros p. unfold comprises.
  split; intros (i & X & Y); exists i; (split; [ now apply H | exact Y ]).
Qed.
Lemma merge_all_order : forall n (l l' : list (list T)), l <> [] -> Forall (point_of n) l ->
  (forall i, In i l <-> In i l') ->
  exists b b', bb_merge_all l = Ret b /\ bb_merge_all l' = Ret b' /\ bb_eq b b' = true.
Proof.
  intros n l l' NE I H.
  assert (NE' : l' <> []). { intros ->. destruct l as [|i l]; [ easy | ]. apply (H i). now left. }
  assert (I' : Forall (point_of n) l'). { rewrite Forall_forall in *. intros x X. apply I. now apply H. }
  destruct (merge_all_ok n l NE I) as (b & E & B). destruct (merge_all_ok n l' NE' I') as (b' & E' & B').
  exists b, b'. split; [ exact E | ]. split; [ exact E' | ].
  eapply smallest_unique; [ | exact B | exact B' ]. intros p. apply H.
Qed.

(** ** Predicates *)
Lemma contains3_iff : forall n (mn mx p : list T), point_of n mn -> point_of n mx -> point_of n p ->
  (bb_contains3 mn mx p = true <-> vec_below mn p /\ vec_below p mx).
Proof.
  comp n.
  - split; repeat constructor.
  - rewrite !below_cons. simpl. 
    assert (A := le_false_lt x x1 N N1). assert (B := le_false_lt x1 x0 N1 N0). specialize (IH r r0 r1 H H0 H1).
    destruct (o_lt x1 x), (o_lt x0 x1); simpl; intuition congruence.
Qed.
Lemma contains4_iff : forall n (mn mx bmn bmx : list T), point_of n mn -> point_of n mx -> point_of n bmn -> point_of n bmx ->
  (bb_contains4 mn mx bmn bmx = true <-> vec_below mn bmn /\ vec_below bmx mx).
Proof.
  comp n.
  - split; repeat constructor.
  - rewrite !below_cons. simpl. 
    assert (A := le_false_lt x x1 N N1). assert (B := le_false_lt x2 x0 N2 N0). specialize (IH r r0 r1 r2 H H0 H1 H2).
    destruct (o_lt x1 x), (o_lt x0 x2); simpl; intuition congruence.
Qed.
Lemma lt_false_le : forall x y : T, num x -> num y -> (o_le y x = false <-> o_lt x y = true).
Proof. intros x y Hx Hy. rewrite le_false, lt_true by assumption. intuition. Qed.
Lemma encloses4_iff : forall n (mn mx bmn bmx : list T), point_of n mn -> point_of n mx -> point_of n bmn -> point_of n bmx ->
  (bb_encloses4 mn mx bmn bmx = true <-> vec_strictly_below mn bmn /\ vec_strictly_below bmx mx).
Proof.
  comp n.
  - split; repeat constructor.
  - rewrite !sbelow_cons. simpl. 
    assert (A := lt_false_le x x1 N N1). assert (B := lt_false_le x2 x0 N2 N0). specialize (IH r r0 r1 r2 H H0 H1 H2).
    destruct (o_le x1 x), (o_le x0 x2); simpl; intuition congruence.
Qed.
Lemma intersects4_iff : forall n (mn mx bmn bmx : list T), point_of n mn -> point_of n mx -> point_of n bmn -> point_of n bmx ->
  (bb_intersects4 mn mx bmn bmx = true <-> vec_below mn bmx /\ vec_below bmn mx).
Proof.
  comp n.
  - split; repeat constructor.
  - rewrite !below_cons. simpl. 
    assert (A := le_false_lt x x2 N N2). assert (B := le_false_lt x1 x0 N1 N0). specialize (IH r r0 r1 r2 H H0 H1 H2).
    destruct (o_lt x2 x), (o_lt x0 x1); simpl; intuition congruence.
Qed.
Lemma sbelow_trans1 : forall a b c : list T, vec_strictly_below a b -> vec_below b c -> vec_strictly_below a c.
Proof.
  induction a as [|x a IH]; intros b c H1 H2; inversion H1; subst; inversion H2; subst; constructor.
  - rewrite lt_true in *. rewrite le_true in *. intuition lra.
  - eapply IH; eassumption.
Qed.
Lemma sbelow_trans2 : forall a b c : list T, vec_below a b -> vec_strictly_below b c -> vec_strictly_below a c.
Proof.
  induction a as [|x a IH]; intros b c H1 H2; inversion H1; subst; inversion H2; subst; constructor.
  - rewrite lt_true in *. rewrite le_true in *. intuition lra.
  - eapply IH; eassumption.
Qed.

Lemma contains_p_ok : forall n (b : bbox T) p, box_of n b -> point_of n p ->
  exists r, bb_contains_p b p = Ret r /\ (r = true <-> in_set b p).
Proof.
  intros n b p B P. unfold bb_contains_p. rewrite (box_valid n b B). eexists. split; [ reflexivity | ].
  destruct B as (B1 & B2 & B3). now apply contains3_iff with n.
Qed.
Lemma contains_ok : forall n (b c : bbox T), box_of n b -> box_of n c ->
  exists r, bb_contains b c = Ret r /\ (r = true <-> forall p, in_set c p -> in_set b p).
Proof.
  intros n b c B C. unfold bb_contains. rewrite (box_valid n b B). eexists. split; [ reflexivity | ].
  rewrite (subset_iff n c b C). destruct B as (B1 & B2 & B3), C as (C1 & C2 & C3). now apply contains4_iff with n.
Qed.
Lemma encloses_ok : forall n (b c : bbox T), box_of n b -> box_of n c ->
  exists r, bb_encloses b c = Ret r /\ (r = true <-> forall p, in_set c p -> in_interior b p).
Proof.
  intros n b c B C. unfold bb_encloses. rewrite (box_valid n b B). eexists. split; [ reflexivity | ].
  pose proof B as (B1 & B2 & B3). pose proof C as (C1 & C2 & C3). rewrite (encloses4_iff n) by assumption.
  split.
  - intros [H1 H2] p [P1 P2]. split; [ eapply sbelow_trans1 | eapply sbelow_trans2 ]; eassumption.
  - intros H. split; [ apply (H _ (min_in n c C)) | apply (H _ (max_in n c C)) ].
Qed.
Lemma common_point : forall n (b c : bbox T), box_of n b -> box_of n c ->
  (vec_below (bb_min b) (bb_max c) /\ vec_below (bb_min c) (bb_max b) <->
   vec_below (v_max (bb_min b) (bb_min c)) (v_min (bb_max b) (bb_max c))).
Proof.
  intros n b c (B1 & B2 & B3) (C1 & C2 & C3).
  rewrite (below_min n) by auto using point_max. rewrite !(below_max n) by auto. tauto.
Qed.
Lemma intersects_ok : forall n (b c : bbox T), box_of n b -> box_of n c ->
  (bb_intersects b c = true <-> exists p, in_set b p /\ in_set c p).
Proof.
  intros n b c B C. pose proof B as (B1 & B2 & B3). pose proof C as (C1 & C2 & C3).
  unfold bb_intersects. rewrite (intersects4_iff n) by assumption. split.
  - intros H. apply (common_point n b c B C) in H. exists (v_max (bb_min b) (bb_min c)).
    assert (M := point_max n _ _ B1 C1). 
    assert (Q := proj1 (below_max n _ _ _ B1 C1 M) (below_refl n _ M)).
    apply (below_min n) in H; try assumption. unfold in_set. tauto.
  - intros (p & [H1 H2] & [H3 H4]). split; eapply below_trans; eassumption.
Qed.
Lemma intersect_ok : forall n (b c : bbox T), box_of n b -> box_of n c ->
  exists d, bb_intersect b c = Ret d /\ box_of n d
    /\ ((exists p, in_set b p /\ in_set c p) -> forall p, in_set d p <-> in_set b p /\ in_set c p)
    /\ (~ (exists p, in_set b p /\ in_set c p) -> d = bb_default n).
Proof.
  intros n b c B C. pose proof B as (B1 & B2 & B3). pose proof C as (C1 & C2 & C3).
  assert (M1 := point_max n _ _ B1 C1). assert (M2 := point_min n _ _ B2 C2).
  assert (Q := intersects_ok n b c B C). unfold bb_intersects in Q.
  rewrite (intersects4_iff n), (common_point n b c B C) in Q by assumption. unfold bb_intersect.
  destruct (bb_valid2 (v_max (bb_min b) (bb_min c)) (v_min (bb_max b) (bb_max c))) eqn:E.
  - apply (valid2_iff n) in E; try assumption. destruct (make_ok n _ _ M1 M2 E) as [-> D].
    eexists. split; [ reflexivity | ]. split; [ exact D | ]. split; [ | tauto ].
    intros _ p. unfold in_set at 1. simpl. split.
    + intros [P1 P2]. assert (P : point_of n p) by (apply (below_point n) in P1; [ tauto | apply M1 ]).
      apply (below_max n) in P1; try assumption. apply (below_min n) in P2; try assumption.
      unfold in_set. tauto.
    + intros [[P1 P2] [P3 P4]]. assert (P : point_of n p) by (apply (below_point n) in P1; [ tauto | apply B1 ]).
      rewrite (below_max n), (below_min n) by assumption. tauto.
  - assert (L : length (v_max (bb_min b) (bb_min c)) = n) by apply M1. rewrite L.
    assert (Z : point_of n (v_zero n : list T)).
    { split; [ apply repeat_length | ]. apply nums_iff. apply Forall_forall. intros x X. apply repeat_spec in X. subst.
      apply num_cst. lia. }
    destruct (make_ok n _ _ Z Z (below_refl n _ Z)) as [-> D].
    eexists. split; [ reflexivity | ]. split; [ exact D | ]. split; [ | reflexivity ].
    intros H. apply Q in H. apply (valid2_iff n) in H; try assumption. congruence.
Qed.

(** ** constrain, relative_position, repair *)
Lemma repair_ok : forall n (mn mx : list T), point_of n mn -> point_of n mx ->
  exists b, bb_repair (BB mn mx) = Ret b /\ smallest_box n (fun p => p = mn \/ p = mx) b
    /\ (vec_below mn mx -> bb_eq b (BB mn mx) = true).
Proof.
  intros n mn mx A B. assert (M1 := point_min n _ _ A B). assert (M2 := point_max n _ _ A B).
  assert (L1 := proj1 (below_min n _ _ _ A B M1) (below_refl n _ M1)).
  assert (L2 := proj1 (below_max n _ _ _ A B M2) (below_refl n _ M2)).
  destruct (make_ok n _ _ M1 M2) as [E D]. { exact (below_trans _ _ _ (proj1 L1) (proj1 L2)). }
  exists (BB (v_min mn mx) (v_max mn mx)). split; [ exact E | ].
  assert (S : smallest_box n (fun p => p = mn \/ p = mx) (BB (v_min mn mx) (v_max mn mx))).
  { split; [ exact D | ]. split.
    - intros p [-> | ->]; split; simpl; tauto.
    - intros c (C1 & C2 & C3) H. apply (subset_iff n); [ exact D | ]. simpl.
      destruct (H mn (or_introl eq_refl)), (H mx (or_intror eq_refl)).
      split; [ apply (below_min n) | apply (below_max n) ]; auto. }
  split; [ exact S | ]. intros V.
  assert (V' : box_of n (BB mn mx)) by (repeat split; simpl; try apply A; try apply B; exact V).
  eapply smallest_unique; [ | exact S | ]. { intros p. reflexivity. }
  split; [ exact V' | ]. split.
  - intros p [-> | ->]; [ apply (min_in n _ V') | apply (max_in n _ V') ].
  - intros c C H. apply (subset_iff n _ _ V'). simpl. split; apply H; auto.
Qed.

Lemma point_get : forall n (a : list T) i, point_of n a -> (i < n)%nat -> num (vget a i).
Proof.
  intros n a i [L H] I. apply nums_iff in H. rewrite Forall_forall in H. apply H. apply nth_In. lia.
Qed.
Lemma map2_get : forall (f : T -> T -> T) a b i, length a = length b -> (i < length a)%nat ->
  vget (map2 f a b) i = f (vget a i) (vget b i).
Proof.
  intros f. induction a as [|x a IH]; intros [|y b] i L I; simpl in *; try lia.
  destruct i; [ reflexivity | ]. unfold vget in *. simpl. apply IH; lia.
Qed.
Lemma below_iff : forall (a b : list T), length a = length b ->
  (vec_below a b <-> forall i, (i < length a)%nat -> o_le (vget a i) (vget b i) = true).
Proof.
  induction a as [|x a IH]; intros [|y b] L; simpl in L; try lia.
  - split; [ intros _ i I; simpl in I; lia | constructor ].
  - rewrite below_cons, IH by lia. split.
    + intros [H1 H2] [|i] I; [ exact H1 | ]. apply H2. simpl in I. lia.
    + intros H. split; [ apply (H 0%nat); simpl; lia | ]. intros i I. apply (H (S i)). simpl. lia.
Qed.
Lemma vget_in_set : forall n (b : bbox T) p i, box_of n b -> in_set b p -> (i < n)%nat ->
  o_le (vget (bb_min b) i) (vget p i) = true /\ o_le (vget p i) (vget (bb_max b) i) = true.
Proof.
  intros n b p i B H I. assert (P := in_set_point n b p B H). destruct B as ([L1 _] & [L2 _] & _), H as [H1 H2], P as [L3 _].
  rewrite below_iff in H1, H2 by congruence. rewrite L1 in H1. rewrite L3 in H2. auto.
Qed.

Lemma constrain_ok : forall n (b : bbox T) p, box_of n b -> point_of n p ->
  exists q, bb_constrain b p = Ret q /\ in_set b q
    /\ forall i, (i < n)%nat ->
       (o_lt (vget p i) (vget (bb_min b) i) = true -> o_eq (vget q i) (vget (bb_min b) i) = true)
       /\ (o_lt (vget (bb_max b) i) (vget p i) = true -> o_eq (vget q i) (vget (bb_max b) i) = true)
       /\ (o_le (vget (bb_min b) i) (vget p i) = true -> o_le (vget p i) (vget (bb_max b) i) = true ->
           o_eq (vget q i) (vget p i) = true).
Proof.
  intros n b p B P. unfold bb_constrain. rewrite (box_valid n b B). eexists. split; [ reflexivity | ].
  pose proof B as (B1 & B2 & B3).
  assert (M1 := point_min n _ _ B2 P). assert (M2 := point_max n _ _ B1 M1).
  split.
  - split.
    + apply (below_max n _ _ _ B1 M1 M2). now apply (below_refl n).
    + apply (below_max n); auto. split; auto. apply (below_min n _ _ _ B2 P M1). now apply (below_refl n).
  - intros i I. unfold v_max. rewrite map2_get. 2,3: destruct B1, M1; try congruence; lia.
    unfold v_min. rewrite map2_get. 2,3: destruct B2, P; try congruence; lia.
    assert (N1 := point_get n _ i B1 I). assert (N2 := point_get n _ i B2 I). assert (N3 := point_get n _ i P I).
    assert (N4 := min2_num _ _ N2 N3). assert (N5 := max2_num _ _ N1 N4).
    assert (V := vget_in_set n b _ i B (min_in n b B) I). destruct V as [_ V].
    rewrite le_true in V. rewrite !lt_true, !eq_true, !le_true, max2_key, min2_key by assumption.
    unfold Rmax, Rmin. destruct (Rle_dec (key (vget (bb_max b) i)) (key (vget p i)));
      match goal with |- context [Rle_dec ?u ?v] => destruct (Rle_dec u v) end;
      repeat split; try assumption; intuition lra.
Qed.

Lemma relative_ok : forall n (b : bbox T) p, box_of n b -> point_of n p ->
  exists r, bb_relative_position b p = Ret r /\ length r = n
    /\ forall i, (i < n)%nat ->
       (nth i r R_within = R_less <-> o_lt (vget p i) (vget (bb_min b) i) = true)
       /\ (nth i r R_within = R_greater <-> o_lt (vget (bb_max b) i) (vget p i) = true)
       /\ (nth i r R_within = R_within <->
           o_le (vget (bb_min b) i) (vget p i) = true /\ o_le (vget p i) (vget (bb_max b) i) = true).
Proof.
  intros n b p B P. unfold bb_relative_position. rewrite (box_valid n b B). eexists. split; [ reflexivity | ].
  destruct b as [mn mx]. destruct B as (B1 & B2 & B3). simpl in *. revert mn mx p B1 B2 B3 P. comp n.
  - split; [ reflexivity | ]. intros i I. lia.
  - apply below_cons in B3 as [B0 B3]. destruct (IH r r0 r1 B1 B2 B3 P) as [L H]. simpl. split; [ lia | ].
    intros [|i] I; [ | apply H; lia ]. unfold vget. simpl. clear IH H.
    rewrite le_true in B0. rewrite !le_true.
    destruct (o_lt x1 x) eqn:E1.
    + apply lt_true in E1. destruct (o_lt x0 x1) eqn:E2; [ apply lt_true in E2; lra | ].
      intuition (try easy; try lra).
    + apply lt_false in E1; try assumption.
      destruct (o_lt x0 x1) eqn:E2; [ apply lt_true in E2 | apply lt_false in E2; try assumption ];
      intuition (try easy; try lra).
Qed.
End S.
