(** The order of integer vectors. *)
From Coq Require Import ZArith Reals List Bool Lia Lra.
From Flocq Require Import Core.
From Verif Require Import Ops M_scalar M_vec M_bbox Inst_I S_order S_boxset S_int P_ord P_compare P_order_final P_components P_scalar_ord P_int.
Import ListNotations.
Local Open Scope Z_scope.

(** Any type of machine integers: [val x z] says that x has the value z. *)
Section Gen.
Context {T : Type} {o : ops T} {ol : ordlaws o} (val : T -> Z -> Prop).
Hypothesis val_nan : forall x z, val x z -> is_nan x = false.
Hypothesis val_key : forall x z, val x z -> key x = IZR z.

Lemma val_lt : forall x y a b, val x a -> val y b -> (o_lt x y = true <-> a < b).
Proof.
  intros x y a b X Y. rewrite lt_true. rewrite (val_key x a X), (val_key y b Y). split.
  - intros (_ & _ & H). now apply lt_IZR.
  - intros H. repeat split; eauto. now apply IZR_lt.
Qed.
Lemma val_le : forall x y a b, val x a -> val y b -> (o_le x y = true <-> a <= b).
Proof.
  intros x y a b X Y. rewrite le_true. rewrite (val_key x a X), (val_key y b Y). split.
  - intros (_ & _ & H). now apply le_IZR.
  - intros H. repeat split; eauto. now apply IZR_le.
Qed.
Lemma val_eq : forall x y a b, val x a -> val y b -> (o_eq x y = true <-> a = b).
Proof.
  intros x y a b X Y. rewrite eq_true. rewrite (val_key x a X), (val_key y b Y). split.
  - intros (_ & _ & H). now apply eq_IZR.
  - intros ->. repeat split; eauto.
Qed.
Lemma val_clt : forall x y a b, val x a -> val y b -> (comp_lt x y <-> a < b).
Proof.
  intros x y a b X Y. rewrite <- (val_lt x y a b X Y). unfold comp_lt. split; [|tauto]. intros [[_ H]|H]; auto.
  apply NaN_is_nan in H. apply val_nan in Y. congruence.
Qed.
Lemma val_ceq : forall x y a b, val x a -> val y b -> (comp_eq x y <-> a = b).
Proof.
  intros x y a b X Y. rewrite <- (val_eq x y a b X Y). unfold comp_eq. split; [|tauto]. intros [[_ H]|H]; auto.
  apply NaN_is_nan in H. apply val_nan in Y. congruence.
Qed.
Lemma lex_rel : forall {A B} (r : A -> B -> Prop) lt eq lt' eq',
  (forall x y a b, r x a -> r y b -> (lt x y <-> lt' a b)) -> (forall x y a b, r x a -> r y b -> (eq x y <-> eq' a b)) ->
  forall v a, Forall2 r v a -> forall u b, Forall2 r u b -> (lex lt eq v u <-> lex lt' eq' a b).
Proof.
  intros A B r lt eq lt' eq' HL HE v a V. induction V as [|x p v a X V IH]; intros u b U; inversion_clear U as [|y q u' b' Y U'].
  - split; intros H; inversion H.
  - split; intros H; constructor.
  - split; intros H; inversion H.
  - split; intros H; inversion_clear H.
    + apply lex_here. now apply (HL x y p q X Y).
    + apply lex_next; [now apply (HE x y p q X Y)|now apply (IH u' b' U')].
    + apply lex_here. now apply (HL x y p q X Y).
    + apply lex_next; [now apply (HE x y p q X Y)|now apply (IH u' b' U')].
Qed.
Lemma vec_lt_z : forall v u a b, Forall2 val v a -> Forall2 val u b -> (vec_lt v u <-> zlex a b).
Proof. intros. unfold vec_lt, zlex. apply (lex_rel val); auto using val_clt, val_ceq. Qed.
Lemma eq_rel : forall {A B} (r : A -> B -> Prop) eq, (forall x y a b, r x a -> r y b -> (eq x y <-> a = b)) ->
  forall v a, Forall2 r v a -> forall u b, Forall2 r u b -> (Forall2 eq v u <-> a = b).
Proof.
  intros A B r eq HE v a V. induction V as [|x p v a X V IH]; intros u b U; inversion_clear U as [|y q u' b' Y U'].
  - split; auto.
  - split; intros H; [inversion H|discriminate].
  - split; intros H; [inversion H|discriminate].
  - split; intros H.
    + inversion_clear H. f_equal; [now apply (HE x y p q X Y)|now apply (IH u' b' U')].
    + injection H as -> ->. constructor; [now apply (HE x y q q X Y)|now apply (IH u' b' U')].
Qed.
Lemma vec_eq_z : forall v u a b, Forall2 val v a -> Forall2 val u b -> (vec_eq v u <-> a = b).
Proof. intros. unfold vec_eq. apply (eq_rel val); auto using val_ceq. Qed.
Lemma len2 : forall {A B} (r : A -> B -> Prop) v a, Forall2 r v a -> length v = length a.
Proof. intros A B r v a H. induction H; simpl; auto. Qed.

Lemma compare_z : forall v u a b, Forall2 val v a -> Forall2 val u b -> length a = length b ->
  (v_compare v u (cst 0) = -1 <-> zlex a b) /\ (v_compare v u (cst 0) = 1 <-> zlex b a) /\ (v_compare v u (cst 0) = 0 <-> a = b)
  /\ (v_compare v u (cst 0) = -1 \/ v_compare v u (cst 0) = 0 \/ v_compare v u (cst 0) = 1).
Proof.
  intros v u a b V U L. assert (L' : length v = length u) by (rewrite (len2 _ _ _ V), (len2 _ _ _ U); auto).
  rewrite <- (vec_lt_z v u a b V U), <- (vec_lt_z u v b a U V), <- (vec_eq_z v u a b V U).
  exact (conj (v_compare_lt v u L') (conj (v_compare_gt v u L') (conj (v_compare_eq v u L') (v_compare_range v u)))).
Qed.
Lemma operators_z : forall v u a b, Forall2 val v a -> Forall2 val u b -> length a = length b ->
  (v_lt v u = true <-> zlex a b) /\ (v_eq v u = true <-> a = b) /\ (v_gt v u = true <-> zlex b a) /\ (v_ne v u = true <-> a <> b)
  /\ (v_le v u = true <-> zlex a b \/ a = b) /\ (v_ge v u = true <-> zlex b a \/ a = b).
Proof.
  intros v u a b V U L. assert (L' : length v = length u) by (rewrite (len2 _ _ _ V), (len2 _ _ _ U); auto).
  rewrite <- (vec_lt_z v u a b V U), <- (vec_lt_z u v b a U V), <- (vec_eq_z v u a b V U). exact (v_ops_spec v u L').
Qed.
Lemma ranges_z : forall n l k p q, Forall2 (Forall2 val) l p -> Forall2 (Forall2 val) k q ->
  Forall (fun a => length a = n) p -> Forall (fun a => length a = n) q ->
  (r_compare l k (cst 0) = -1 <-> lex zlex eq p q) /\ (r_compare l k (cst 0) = 1 <-> lex zlex eq q p) /\ (r_compare l k (cst 0) = 0 <-> p = q).
Proof.
  intros n l k p q L K P Q.
  assert (D : forall l p, Forall2 (Forall2 val) l p -> Forall (fun a => length a = n) p -> Forall (fun v => length v = n) l).
  { clear. intros l p H. induction H as [|v a l p X H IH]; intros F; inversion_clear F; constructor; auto. now rewrite (len2 _ _ _ X). }
  assert (E : forall l p k q, Forall2 (Forall2 val) l p -> Forall2 (Forall2 val) k q -> (seq_lt l k <-> lex zlex eq p q)).
  { clear - val_nan val_key. intros l p k q L K. unfold seq_lt. apply (lex_rel (Forall2 val)); auto using vec_lt_z, vec_eq_z. }
  rewrite <- (E l p k q L K), <- (E k q l p K L).
  assert (E' : seq_eq l k <-> p = q). { unfold seq_eq. apply (eq_rel (Forall2 val)); auto using vec_eq_z. }
  rewrite <- E'. assert (DL := D l p L P). assert (DK := D k q K Q).
  exact (conj (r_compare_lt n l k DL DK) (conj (r_compare_gt n l k DL DK) (r_compare_eq n l k DL DK))).
Qed.
Lemma min_z : forall v u a b, Forall2 val v a -> Forall2 val u b -> Forall2 val (v_min v u) (zzip Z.min a b).
Proof.
  unfold v_min. intros v u a b V. revert u b. induction V as [|x p v a X V IH]; intros u b U; simpl; [constructor|].
  inversion_clear U as [|y q u' b' Y U']; constructor; auto. destruct (o_lt x y) eqn:E.
  - apply (val_lt x y p q X Y) in E. now rewrite Z.min_l by lia.
  - rewrite Z.min_r; auto. apply Z.nlt_ge. intros H. apply (val_lt x y p q X Y) in H. congruence.
Qed.
Lemma max_z : forall v u a b, Forall2 val v a -> Forall2 val u b -> Forall2 val (v_max v u) (zzip Z.max a b).
Proof.
  unfold v_max. intros v u a b V. revert u b. induction V as [|x p v a X V IH]; intros u b U; simpl; [constructor|].
  inversion_clear U as [|y q u' b' Y U']; constructor; auto. destruct (o_lt y x) eqn:E.
  - apply (val_lt y x q p Y X) in E. now rewrite Z.max_l by lia.
  - rewrite Z.max_r; auto. apply Z.nlt_ge. intros H. apply (val_lt y x q p Y X) in H. congruence.
Qed.
Lemma clamp_z : forall v lo hi a l h, Forall2 val v a -> Forall2 val lo l -> Forall2 val hi h -> Forall2 val (v_clamp v lo hi) (zzip Z.min (zzip Z.max a l) h).
Proof. intros. unfold v_clamp. apply min_z; auto. now apply max_z. Qed.
Lemma filter_len : forall (f : T -> bool) (g : Z -> bool) v a, (forall x z, val x z -> f x = g z) -> Forall2 val v a ->
  length (filter f v) = length (filter g a).
Proof.
  intros f g v a H V. induction V as [|x p v a X V IH]; [reflexivity|]. simpl. rewrite (H x p X). destruct (g p); simpl; auto.
Qed.
Lemma ltb_z : forall x y a b, val x a -> val y b -> o_lt x y = (a <? b).
Proof.
  intros x y a b X Y. destruct (o_lt x y) eqn:E; symmetry.
  - apply Z.ltb_lt. now apply (val_lt x y).
  - apply Z.ltb_ge. apply Z.nlt_ge. intros H. apply (val_lt x y a b X Y) in H. congruence.
Qed.
Lemma forall2_nth : forall v a i (d : T), Forall2 val v a -> (i < length v)%nat -> val (nth i v d) (nth i a 0%Z).
Proof. intros v a i d V. revert i. induction V; intros i L; [simpl in L; lia|]. destruct i; simpl; auto. apply IHV. simpl in L. lia. Qed.
Lemma find_max_z : forall v a k, Forall2 val v a -> (k < length a)%nat ->
  exists i, find_max_component v k = Ret i /\ (i < length a)%nat
    /\ (length (filter (fun z => Z.ltb (nth i a 0%Z) z) a) <= k)%nat /\ (length (filter (fun z => Z.ltb z (nth i a 0%Z)) a) <= length a - k - 1)%nat.
Proof.
  intros v a k V K. rewrite <- (len2 _ _ _ V) in K. destruct (find_max_component_spec v k K) as (i & E & L & A & B). exists i. split; [exact E|].
  rewrite (len2 _ _ _ V) in *. assert (N : val (vget v i) (nth i a 0%Z)) by (apply forall2_nth; auto; now rewrite (len2 _ _ _ V)).
  rewrite (filter_len _ (fun z => Z.ltb (nth i a 0%Z) z) v a) in A by (auto; intros; now apply ltb_z).
  rewrite (filter_len _ (fun z => Z.ltb z (nth i a 0%Z)) v a) in B by (auto; intros; now apply ltb_z). auto.
Qed.
Lemma get_max_z : forall v a k, Forall2 val v a -> (k < length a)%nat ->
  exists x z, get_max_component v k = Ret x /\ val x z /\ In z a
    /\ (length (filter (fun y => Z.ltb z y) a) <= k)%nat /\ (length (filter (fun y => Z.ltb y z) a) <= length a - k - 1)%nat.
Proof.
  intros v a k V K. rewrite <- (len2 _ _ _ V) in K. destruct (get_max_component_spec v k K) as (x & E & I & A & B).
  apply (In_nth _ _ (cst 0)) in I. destruct I as (i & L & N). assert (X : val x (nth i a 0%Z)) by (rewrite <- N; now apply forall2_nth).
  exists x, (nth i a 0%Z). split; [exact E|]. split; [exact X|]. rewrite (len2 _ _ _ V) in *. split; [now apply nth_In|].
  rewrite (filter_len _ (fun z => Z.ltb (nth i a 0%Z) z) v a) in A by (auto; intros; now apply ltb_z).
  rewrite (filter_len _ (fun z => Z.ltb z (nth i a 0%Z)) v a) in B by (auto; intros; now apply ltb_z). auto.
Qed.
(** Boxes *)
Lemma below_z : forall v u a b, Forall2 val v a -> Forall2 val u b -> (vec_below v u <-> Forall2 Z.le a b).
Proof.
  intros v u a b V. revert u b. unfold vec_below. induction V as [|x p v a X V IH]; intros u b U; inversion_clear U as [|y q u' b' Y U'].
  - split; constructor.
  - split; intros H; inversion H.
  - split; intros H; inversion H.
  - split; intros H; inversion_clear H; constructor; try (now apply (IH u' b' U')); now apply (val_le x y p q X Y).
Qed.
Lemma point_z : forall v a, Forall2 val v a -> point_of (length a) v.
Proof.
  intros v a V. split; [apply (len2 _ _ _ V)|]. apply Forall_forall. intros x I N. apply NaN_is_nan in N.
  induction V as [|y p v a Y V IH]; [destruct I|]. destruct I as [->|I]; auto. apply val_nan in Y. congruence.
Qed.
End Gen.
Section Gen2.
Context {T : Type} {o : ops T} {ol : ordlaws o} (val : T -> Z -> Prop).
Hypothesis val_nan : forall x z, val x z -> is_nan x = false.
Hypothesis val_key : forall x z, val x z -> key x = IZR z.
Lemma is_equal_z : forall eps e v a, Forall2 val v a -> forall u b, Forall2 val u b -> length a = length b ->
  Forall2 (fun y z => val (o_sub y eps) (z - e) /\ val (o_add y eps) (z + e)) u b ->
  (v_is_equal v u eps = true <-> Forall2 (fun p q => Z.abs (p - q) <= e) a b).
Proof.
  intros eps e v a V. unfold v_is_equal. induction V as [|x p v a X V IH]; intros u b U L B; destruct b as [|q b]; inversion L.
  - split; [constructor|reflexivity].
  - inversion U as [|y q' u' b' Y U']; subst. inversion_clear B as [|? ? ? ? [B1 B2] B']. specialize (IH u' b U' H0 B').
    cbn [v_compare]. assert (NX : o_eq x x = true) by now apply (val_eq val val_nan val_key x x p p).
    assert (NY : o_eq y y = true) by now apply (val_eq val val_nan val_key y y q q). unfold neq in *.
    rewrite NX, NY. cbn [negb andb]. rewrite (ltb_z val val_nan val_key x (o_sub y eps) p (q - e) X B1), (ltb_z val val_nan val_key (o_add y eps) x (q + e) p B2 X).
    destruct (Z.ltb_spec p (q - e)); [|destruct (Z.ltb_spec (q + e) p)].
    + split; [discriminate|]. intros F. inversion_clear F. lia.
    + split; [discriminate|]. intros F. inversion_clear F. lia.
    + rewrite IH. split; intros F; [constructor; auto; lia|now inversion F].
Qed.
End Gen2.
