(** Coordinates on a grid: boxes, colinearity, planes; the final form of the statements. *)
From Coq Require Import ZArith Reals List Lia Lra Bool Psatz Factorial.
From Flocq Require Import Core BinarySingleNaN.
From Verif Require Import Ops M_scalar M_vec M_mat M_bbox M_geom Inst_F Inst_XR S_vec S_mat S_affine S_bbox S_det S_rnd S_grid.
From Verif Require Import P_ord P_ieee P_xr P_vec P_vec2 P_mat P_mat2 P_mat3 P_affine P_bbox2 P_bbox3 P_fp P_fp6 P_fp7 P_grid P_grid2.
Import ListNotations.
Local Open Scope R_scope.

Section Grid.
Variables prec emax : Z.
Context {Hprec : Prec_gt_0 prec} {Hmax : Prec_lt_emax prec emax}.
Notation fl := (binary_float prec emax).
Notation fits := (representable prec emax).
Notation rel := (rel prec emax).
Notation vrel := (vrel prec emax).
Notation mrel := (mrel prec emax).
Notation vS := (map (@Some R)).
Notation mS := (map (map (@Some R))).

Definition orel {A B} (R : A -> B -> Prop) (x : outcome A) (y : outcome B) : Prop :=
  match x, y with Ret a, Ret b => R a b | Assert, Assert | UB, UB | Fuel, Fuel => True | _, _ => False end.
Definition brel e K (b : bbox fl) (c : bbox XR) : Prop := vrel e K (bb_min b) (bb_min c) /\ vrel e K (bb_max b) (bb_max c).
Lemma orel_require : forall A B (R : A -> B -> Prop) b x y, orel R x y -> orel R (require b x) (require b y).
Proof. intros A B R [|] x y H; [exact H|exact I]. Qed.
Lemma orel_bind : forall A B A' B' (R : A -> B -> Prop) (R' : A' -> B' -> Prop) x y f g, orel R x y -> (forall a b, R a b -> orel R' (f a) (g b)) -> orel R' (bind x f) (bind y g).
Proof. intros A B A' B' R R' [a| | |] [b| | |] f g H G; cbn in *; try contradiction; auto. Qed.
Lemma brel_values : forall e K b, grid_box e K b -> brel e K b (blift (box_values b)).
Proof. intros e K b [H1 H2]. split; now apply vrel_values. Qed.
Lemma brel_exact : forall e K b c, brel e K b (blift c) -> exact_box b c.
Proof. intros e K b c [H1 H2]. split; eapply vrel_exact; eauto. Qed.
Lemma valid_rel : forall e K a b p q, vrel e K a p -> vrel e K b q -> bb_valid2 a b = bb_valid2 p q.
Proof.
  intros e K a b p q HA. revert b q. induction HA as [|x y a p R HA IH]; intros b q HB; [reflexivity|]. destruct HB as [|x' y' b q R' HB]; [reflexivity|].
  cbn [bb_valid2]. rewrite (rel_lt prec emax e K e K x' x y' y R' R). destruct (o_lt y' y); auto.
Qed.
Lemma is_valid_rel : forall e K b c, brel e K b c -> bb_is_valid b = bb_is_valid c.
Proof. intros e K b c [H1 H2]. unfold bb_is_valid. eapply valid_rel; eauto. Qed.
Lemma make_rel : forall e K a b p q, vrel e K a p -> vrel e K b q -> orel (brel e K) (bb_make a b) (bb_make p q).
Proof. intros e K a b p q HA HB. unfold bb_make. rewrite (valid_rel e K a b p q HA HB). apply orel_require. now split. Qed.
Lemma size_rel : forall e K b c, brel e K b c -> fits e (K + K) -> orel (vrel e (K + K)) (bb_size b) (bb_size c).
Proof. intros e K b c B F. unfold bb_size. rewrite (is_valid_rel e K b c B). apply orel_require. destruct B. now apply vrel_sub. Qed.
Lemma center_rel : forall e K b c, brel e K b c -> fits e (K + K) -> fits (e - 1) (K + K) -> (2 <= prec)%Z -> orel (vrel (e - 1) (K + K)) (bb_center b) (bb_center c).
Proof. intros e K b c B F F' P. unfold bb_center. rewrite (is_valid_rel e K b c B). apply orel_require. destruct B. apply vrel_half; auto. now apply vrel_add. Qed.
Lemma translate_rel : forall e K D b c d q, brel e K b c -> vrel e D d q -> fits e (K + D) -> orel (brel e (K + D)) (bb_translate b d) (bb_translate c q).
Proof. intros e K D b c d q B V F. unfold bb_translate. rewrite (is_valid_rel e K b c B). apply orel_require. destruct B. apply make_rel; now apply vrel_add. Qed.
Lemma fill_rel : forall e K x a n, rel e K x a -> vrel e K (v_fill n x) (v_fill n a).
Proof. intros e K x a n R. induction n; constructor; auto. Qed.
Lemma expand_rel : forall e K D b c x a, brel e K b c -> rel e D x a -> fits e (K + D) -> orel (brel e (K + D)) (bb_expand b x) (bb_expand c a).
Proof.
  intros e K D b c x a B V F. unfold bb_expand. rewrite (is_valid_rel e K b c B). apply orel_require. destruct B as [B1 B2].
  rewrite (vrel_length _ _ _ _ _ _ B1). apply make_rel; [apply vrel_sub|apply vrel_add]; auto using fill_rel.
Qed.

Definition srel e K (s : list fl * list fl * list fl) (t : list XR * list XR * list XR) : Prop :=
  vrel e K (fst (fst s)) (fst (fst t)) /\ vrel e K (snd (fst s)) (snd (fst t)) /\ vrel e K (snd s) (snd t).
Lemma sides_rel : forall e K b c, (0 <= K)%Z -> brel e K b c -> fits e (K + K) -> orel (srel e (K + K)) (bb_sides b) (bb_sides c).
Proof.
  intros e K b c HK B F. unfold bb_sides. eapply orel_bind; [apply size_rel; eauto|]. intros s t H. cbn.
  assert (Z0 : rel e (K + K) (cst 0) (cst 0)) by (apply rel_zero; lia). assert (G : forall i, rel e (K + K) (vget s i) (vget t i)) by (intros i; apply vrel_get; auto; lia).
  repeat split; cbn [fst snd]; (constructor; [|constructor; [|constructor; [|constructor]]]); auto; apply G.
Qed.
Definition prel e K (s : list fl * list fl) (t : list XR * list XR) : Prop := vrel e K (fst s) (fst t) /\ vrel e K (snd s) (snd t).
Lemma v_up : forall e K j v w a b, vrel e (j * K) v w -> vrel e (K + K) a b -> (j <= 6)%Z -> (0 <= K)%Z -> fits e (8 * K) -> vrel e ((j + 2) * K) (v_add v a) (v_add w b).
Proof. intros e K j v w a b H1 H2 L HK F. replace ((j + 2) * K)%Z with (j * K + (K + K))%Z by lia. apply vrel_add; auto. eapply fits_le; eauto. nia. Qed.
Lemma v_dn : forall e K j v w a b, vrel e (j * K) v w -> vrel e (K + K) a b -> (j <= 6)%Z -> (0 <= K)%Z -> fits e (8 * K) -> vrel e ((j + 2) * K) (v_sub v a) (v_sub w b).
Proof. intros e K j v w a b H1 H2 L HK F. replace ((j + 2) * K)%Z with (j * K + (K + K))%Z by lia. apply vrel_sub; auto. eapply fits_le; eauto. nia. Qed.
Lemma weak8 : forall e K j v w, (0 <= K)%Z -> (j <= 8)%Z -> vrel e (j * K) v w -> vrel e (8 * K) v w.
Proof. intros e K j v w HK L H. eapply vrel_weak; eauto. nia. Qed.
Ltac vtx := first [ match goal with H : vrel _ (1 * _) ?v _ |- vrel _ (8 * _) ?v _ => apply (weak8 _ _ 1); [lia|lia|exact H] end
  | apply (weak8 _ _ 3); [lia|lia|]; (apply (v_up _ _ 1)||apply (v_dn _ _ 1)); auto; lia
  | apply (weak8 _ _ 5); [lia|lia|]; (apply (v_up _ _ 3)||apply (v_dn _ _ 3)); auto; try lia; (apply (v_up _ _ 1)||apply (v_dn _ _ 1)); auto; lia
  | apply (weak8 _ _ 7); [lia|lia|]; (apply (v_up _ _ 5)||apply (v_dn _ _ 5)); auto; try lia; (apply (v_up _ _ 3)||apply (v_dn _ _ 3)); auto; try lia; (apply (v_up _ _ 1)||apply (v_dn _ _ 1)); auto; lia ].
Lemma vertices_rel : forall e K b c, (0 <= K)%Z -> brel e K b c -> fits e (8 * K) -> orel (mrel e (8 * K)) (bb_vertices b) (bb_vertices c).
Proof.
  intros e K b c HK B F. unfold bb_vertices. eapply orel_bind; [apply sides_rel; eauto; eapply fits_le; eauto; lia|].
  intros [[x y] z] [[x' y'] z'] (Hx & Hy & Hz). cbn [fst snd] in *. destruct B as [B1 B2]. rewrite <- (Z.mul_1_l K) in B1, B2. cbn [orel].
  repeat (constructor; [vtx|]). constructor.
Qed.
Lemma edges_rel : forall e K b c, (0 <= K)%Z -> brel e K b c -> fits e (8 * K) -> orel (Forall2 (prel e (8 * K))) (bb_edges b) (bb_edges c).
Proof.
  intros e K b c HK B F. unfold bb_edges. eapply orel_bind; [apply sides_rel; eauto; eapply fits_le; eauto; lia|].
  intros [[x y] z] [[x' y'] z'] (Hx & Hy & Hz). cbn [fst snd] in *. destruct B as [B1 B2]. rewrite <- (Z.mul_1_l K) in B1, B2. cbn [orel].
  repeat (constructor; [split; cbn [fst snd]; vtx|]). constructor.
Qed.
Definition frel e K (s : list (list fl) * list fl) (t : list (list XR) * list XR) : Prop := mrel e K (fst s) (fst t) /\ vrel 0 1 (snd s) (snd t).
Lemma faces_rel : forall e K b c, (0 <= K)%Z -> brel e K b c -> fits e (8 * K) -> orel (Forall2 (frel e (8 * K))) (bb_faces b) (bb_faces c).
Proof.
  intros e K b c HK B F. unfold bb_faces. eapply orel_bind; [apply sides_rel; eauto; eapply fits_le; eauto; lia|].
  intros [[x y] z] [[x' y'] z'] (Hx & Hy & Hz). cbn [fst snd] in *. destruct B as [B1 B2]. rewrite <- (Z.mul_1_l K) in B1, B2. cbn [orel].
  assert (1 <= 2 ^ prec)%Z by (assert (P := Hprec); unfold Prec_gt_0 in P; assert (0 < 2 ^ prec)%Z by (apply Z.pow_pos_nonneg; lia); lia).
  assert (Z0 : rel 0 1 (cst 0) (cst 0)) by (apply rel_zero; lia). assert (Z1 : rel 0 1 (cst 1) (cst 1)) by (apply (rel_cst prec emax 1); simpl; lia).
  assert (Z2 : rel 0 1 (cst (-1)) (cst (-1))) by (apply (rel_cst prec emax (-1)); simpl; lia).
  repeat (constructor; [split; cbn [fst snd]; [repeat (constructor; [vtx|]); constructor|(constructor; [assumption|constructor; [assumption|constructor; [assumption|constructor]]])]|]). constructor.
Qed.
(** Bounds *)
Lemma add_point_rel : forall e K b c p q, brel e K b c -> vrel e K p q -> orel (brel e K) (bbb_add_point b p) (bbb_add_point c q).
Proof.
  intros e K b c p q B V. unfold bbb_add_point, bbb_initialized. rewrite (is_valid_rel e K b c B). destruct (bb_is_valid c); cbn [negb]; [|now split].
  unfold bb_merge_p. destruct B. apply make_rel; [now apply vrel_min|now apply vrel_max].
Qed.
Lemma bounds_rel : forall e K l l' b c, Forall2 (fun i j => exists p q, i = It_point p /\ j = It_point q /\ vrel e K p q) l l' -> brel e K b c ->
  orel (brel e K) (bbb_add_all b l) (bbb_add_all c l').
Proof.
  intros e K l l' b c H. revert b c. induction H as [|i j l l' (p & q & -> & -> & V) H IH]; intros b c B; [exact B|].
  cbn [bbb_add_all bbb_add]. eapply orel_bind; [apply add_point_rel; eauto|]. intros b' c' B'. now apply IH.
Qed.
End Grid.
