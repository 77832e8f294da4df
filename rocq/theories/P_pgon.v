(** Proofs about polygon.h. *)
From Coq Require Import ZArith Reals List Bool Arith Lia Lra Permutation.
From Flocq Require Import Core BinarySingleNaN.
From Verif Require Import Ops M_scalar M_vec M_mat M_quat M_bbox M_matext M_polygon Inst_F Inst_conv S_order S_pgon.
From Verif Require Import P_ord P_compare P_order_final.
Import ListNotations.

Lemma rotation_refl : forall A (p : list A), rotation_of p p.
Proof. intros A p. exists [], p. rewrite app_nil_r. split; reflexivity. Qed.
Lemma rotation_sym : forall A (p q : list A), rotation_of p q -> rotation_of q p.
Proof. intros A p q (a & b & -> & ->). exists b, a. split; reflexivity. Qed.
Lemma rotation_trans : forall A (p q r : list A), rotation_of p q -> rotation_of q r -> rotation_of p r.
Proof.
  intros A p q r (a & b & -> & ->) (c & d & E & ->).
  destruct (app_eq_app _ _ _ _ E) as (l & [[-> ->] | [-> ->]]).
  - exists (a ++ c), l. rewrite <- !app_assoc. split; reflexivity.
  - exists l, (d ++ b). rewrite <- !app_assoc. split; reflexivity.
Qed.
Lemma rotation_perm : forall A (p q : list A), rotation_of p q -> Permutation p q.
Proof. intros A p q (a & b & -> & ->). apply Permutation_app_comm. Qed.

Section Pgon.
Context {T : Type} {o : ops T} {L : ordlaws o}.

Notation dim n l := (vertices_of_dim n l).

Lemma v_lt_vec : forall a b : list T, length a = length b -> (v_lt a b = true <-> vec_lt a b).
Proof. intros a b E. apply (v_ops_spec a b E). Qed.
Lemma vlt_trans : forall a b c : list T, length a = length b -> length b = length c -> vec_lt a b -> vec_lt b c -> vec_lt a c.
Proof.
  intros a b c E1 E2 H1 H2. apply v_lt_vec; [ congruence | ]. eapply v_lt_trans; [ exact E1 | exact E2 | | ]; apply v_lt_vec; auto.
Qed.
Lemma vlt_irrefl : forall a : list T, ~ vec_lt a a.
Proof. intros a H. apply v_lt_vec in H; [ | reflexivity ]. now rewrite v_lt_irrefl in H. Qed.
Lemma v_cases : forall a b : list T, length a = length b -> 
  (vec_lt a b /\ ~ vec_eq a b /\ ~ vec_lt b a) \/ (~ vec_lt a b /\ vec_eq a b /\ ~ vec_lt b a) \/ (~ vec_lt a b /\ ~ vec_eq a b /\ vec_lt b a).
Proof.
  intros a b E. destruct (v_ops_spec a b E) as (H1 & H2 & H3 & _).
  rewrite <- H1, <- H2, <- H3. destruct (v_lt_total a b) as [(-> & -> & ->) | [(-> & -> & ->) | (-> & -> & ->)]];
  [ left | right; left | right; right ]; repeat split; discriminate.
Qed.
Lemma vnlt_trans : forall a b c : list T, length a = length b -> length b = length c -> ~ vec_lt b a -> ~ vec_lt c b -> ~ vec_lt c a.
Proof.
  intros a b c E1 E2 H1 H2. rewrite <- (v_compare_lt c a) by congruence.
  rewrite <- (v_compare_lt b a) in H1 by congruence. rewrite <- (v_compare_lt c b) in H2 by congruence.
  assert (R := v_compare_range b a). assert (R2 := v_compare_range c b). 
  rewrite (v_compare_anti a b) in H1, R. rewrite (v_compare_anti b c) in H2, R2. rewrite (v_compare_anti a c).
  destruct (v_compare_trans a b c E1 E2) as [W _]; lia.
Qed.
Lemma veq_sym : forall a b : list T, length a = length b -> vec_eq a b -> vec_eq b a.
Proof. intros a b E H. apply v_compare_eq in H; [ | exact E ]. apply v_compare_eq; [ congruence | ]. rewrite v_compare_anti. lia. Qed.
Lemma veq_len : forall a b : list T, vec_eq a b -> length a = length b.
Proof. intros a b H. induction H; cbn [length]; congruence. Qed.

(** ** rotate_min_to_front *)
Lemma min_element_spec : forall n l pre best k, dim n (pre ++ l) -> (k < length pre)%nat -> nth_error pre k = Some best ->
  (forall v, In v pre -> ~ vec_lt v best) -> 
  let j := min_element best k (length pre) l in
  (j < length (pre ++ l))%nat /\ exists m, nth_error (pre ++ l) j = Some m /\ (forall v, In v (pre ++ l) -> ~ vec_lt v m).
Proof.
  intros n. induction l as [|v l IH]; intros pre best k D K N H j; unfold j; clear j; cbn [min_element].
  - rewrite app_nil_r. split; [ exact K | ]. exists best. auto.
  - assert (Lv : length v = n). { unfold vertices_of_dim in D. rewrite Forall_forall in D. apply D. apply in_or_app. right. now left. }
    assert (DP : forall x, In x pre -> length x = n).
    { intros x I. unfold vertices_of_dim in D. rewrite Forall_forall in D. apply D. apply in_or_app. now left. }
    assert (Lb : length best = n) by (apply DP; eapply nth_error_In; exact N).
    assert (EA : pre ++ v :: l = (pre ++ [v]) ++ l) by now rewrite <- app_assoc.
    assert (EL : S (length pre) = length (pre ++ [v])) by (rewrite app_length; simpl; lia).
    rewrite EA in *. rewrite EL. destruct (v_lt v best) eqn:C.
    + apply v_lt_vec in C; [ | congruence ]. apply IH; [ exact D | rewrite <- EL; lia | | ].
      * rewrite nth_error_app2 by lia. now rewrite Nat.sub_diag.
      * intros x I. apply in_app_or in I. destruct I as [I | [<- | []]]; [ | apply vlt_irrefl ].
        assert (Lx := DP x I). intros C2. apply (H x I). eapply vlt_trans; [ | | exact C2 | exact C ]; congruence.
    + assert (C' : ~ vec_lt v best). { rewrite <- v_lt_vec by congruence. now rewrite C. }
      apply IH; [ exact D | lia | | ].
      * now rewrite nth_error_app1.
      * intros x I. apply in_app_or in I. destruct I as [I | [<- | []]]; auto.
Qed.
Lemma make_least : forall n vs, dim n vs -> rotation_of vs (pg_make vs) /\ (forall m rest, pg_make vs = m :: rest -> forall v, In v vs -> ~ vec_lt v m).
Proof.
  intros n [|v l] D.
  - split; [ apply rotation_refl | ]. intros m rest E. discriminate.
  - destruct (min_element_spec n l [v] v 0 D) as (J & m & M & H).
    + auto.
    + reflexivity.
    + intros x [<- | []]. apply vlt_irrefl.
    + cbn [length app] in *. cbn [pg_make]. set (j := min_element v 0 1 l) in *. split.
      * exists (firstn j (v :: l)), (skipn j (v :: l)). split; [ now rewrite firstn_skipn | reflexivity ].
      * intros m' rest E x I. unfold rotate in E. 
        destruct (nth_error_split _ _ M) as (l1 & l2 & E2 & J2). rewrite E2, <- J2 in E.
        rewrite skipn_app, skipn_all, Nat.sub_diag in E. cbn [skipn app] in E. injection E as <- _. auto.
Qed.
Lemma make_perm : forall n vs, dim n vs -> Permutation vs (pg_make vs).
Proof. intros n vs D. apply rotation_perm. eapply make_least, D. Qed.
Lemma make_dim : forall n vs, dim n vs -> dim n (pg_make vs).
Proof. intros n vs D. eapply Permutation_Forall; [ eapply make_perm; exact D | exact D ]. Qed.
Lemma pg_normal_form : forall n vs, dim n vs -> rotation_of vs (pg_make vs) /\ least_first (pg_make vs).
Proof.
  intros n vs D. destruct (make_least n vs D) as [R H]. split; [ exact R | ].
  unfold least_first. destruct (pg_make vs) as [|m rest] eqn:E; [ exact I | ].
  intros v I. apply (H m rest eq_refl). eapply Permutation_in; [ apply Permutation_sym, rotation_perm; exact R | now right ].
Qed.
Lemma distinct_app : forall a b, distinct (a ++ b) -> distinct a /\ distinct b /\ forall v w, In v a -> In w b -> ~ vec_eq v w.
Proof.
  induction a as [|x a IH]; intros b H; cbn [app] in H.
  - split; [ constructor | split; [ exact H | intros v w [] ] ].
  - inversion H as [|? ? F D E]; subst. rewrite Forall_forall in F. destruct (IH b D) as (A1 & A2 & A3). split; [ | split ].
    + constructor; [ | exact A1 ]. apply Forall_forall. intros y I. apply F, in_or_app. now left.
    + exact A2.
    + intros v w [<- | I] J; [ apply F, in_or_app; now right | now apply A3 ].
Qed.
Lemma app_distinct : forall a b, distinct a -> distinct b -> (forall v w, In v a -> In w b -> ~ vec_eq v w) -> distinct (a ++ b).
Proof.
  induction a as [|x a IH]; intros b A B H; cbn [app]; [ exact B | ].
  inversion A as [|? ? F D E]; subst. rewrite Forall_forall in F. constructor.
  - apply Forall_forall. intros y I. apply in_app_or in I. destruct I as [I | I]; [ now apply F | apply H; [ now left | exact I ] ].
  - apply IH; [ exact D | exact B | ]. intros v w I J. apply H; [ now right | exact J ].
Qed.
Lemma distinct_rotation : forall n p q, dim n p -> rotation_of p q -> distinct p -> distinct q.
Proof.
  intros n p q D (a & b & -> & ->) H. apply distinct_app in H. destruct H as (A & B & C). apply app_distinct; auto.
  intros v w I J E. apply (C w v J I). apply veq_sym; [ | exact E ].
  now apply veq_len.
Qed.
Lemma least_first_unique : forall n p q, dim n p -> distinct p -> rotation_of p q -> least_first p -> least_first q -> p = q.
Proof.
  intros n p q D H (a & b & -> & ->) P Q.
  destruct a as [|x a]; [ now rewrite app_nil_r | ]. destruct b as [|y b]; [ now rewrite app_nil_r | ].
  exfalso. cbn [app least_first] in P, Q.
  assert (NP : ~ vec_lt y x) by (apply P, in_or_app; right; now left).
  assert (NQ : ~ vec_lt x y) by (apply Q, in_or_app; right; now left).
  assert (Lx : length x = length y). { unfold vertices_of_dim in D. rewrite Forall_forall in D. rewrite (D x), (D y); [ reflexivity | apply in_or_app; right; now left | now left ]. }
  apply distinct_app in H. destruct H as (_ & _ & C).
  destruct (v_cases x y Lx) as [(W & _) | [(_ & W & _) | (_ & _ & W)]]; [ tauto | | tauto ].
  apply (C x y); [ now left | now left | exact W ].
Qed.
Lemma pg_rotation_equal : forall n vs ws, dim n vs -> distinct vs -> rotation_of vs ws -> pg_make vs = pg_make ws.
Proof.
  intros n vs ws D H R. assert (Dw : dim n ws) by (eapply Permutation_Forall; [ apply rotation_perm; exact R | exact D ]).
  destruct (pg_normal_form n vs D) as [R1 P1]. destruct (pg_normal_form n ws Dw) as [R2 P2].
  apply (least_first_unique n).
  - now apply make_dim.
  - apply (distinct_rotation n vs); auto.
  - eapply rotation_trans; [ apply rotation_sym; exact R1 | ]. exact (rotation_trans _ _ _ _ R R2).
  - exact P1.
  - exact P2.
Qed.
(** A polygon whose first vertex is least is not rotated. *)
Lemma min_element_stays : forall n l best i, dim n (best :: l) -> (forall v, In v l -> ~ vec_lt v best) -> min_element best 0 i l = 0%nat.
Proof.
  intros n. induction l as [|v l IH]; intros best i D H; [ reflexivity | ]. cbn [min_element].
  inversion D as [|? ? Db D']; subst. inversion D' as [|? ? Dv D'']; subst.
  destruct (v_lt v best) eqn:C.
  - exfalso. apply (H v); [ now left | ]. apply v_lt_vec; [ congruence | exact C ].
  - apply IH; [ constructor; auto | ]. intros w I. apply H. now right.
Qed.
Lemma make_least_id : forall n p, dim n p -> least_first p -> pg_make p = p.
Proof.
  intros n [|v l] D H; [ reflexivity | ]. cbn [pg_make]. rewrite (min_element_stays n); [ | exact D | exact H ].
  unfold rotate. cbn [skipn firstn]. apply app_nil_r.
Qed.
Lemma pg_make_idem : forall n vs, dim n vs -> pg_make (pg_make vs) = pg_make vs.
Proof. intros n vs D. apply (make_least_id n); [ now apply make_dim | now apply (pg_normal_form n) ]. Qed.

(** ** invert *)
Lemma invert_cons : forall n v l, dim n (v :: l) -> least_first (v :: l) -> pg_invert (v :: l) = v :: rev l /\ least_first (v :: rev l).
Proof.
  intros n v l D H. unfold pg_invert.
  assert (LF : least_first (v :: rev l)). { cbn [least_first] in *. intros w I. apply H. now apply in_rev. }
  assert (DR : dim n (v :: rev l)). { inversion D; subst. constructor; [ reflexivity | now apply Forall_rev ]. }
  split; [ | exact LF ]. destruct (1 <? length (v :: l))%nat eqn:C.
  - now apply (make_least_id n).
  - apply Nat.ltb_ge in C. cbn [length] in C. destruct l; [ | cbn [length] in C; lia ]. cbn [rev]. now apply (make_least_id n).
Qed.
Lemma pg_invert_spec : forall n vs, dim n vs -> let p := pg_make vs in
  pg_invert (pg_invert p) = p /\ Permutation (pg_invert p) p /\ least_first (pg_invert p)
  /\ (forall v l, p = v :: l -> pg_invert p = v :: rev l).
Proof.
  intros n vs D p. assert (Dp := make_dim n vs D). destruct (pg_normal_form n vs D) as [_ H]. fold p in Dp, H.
  destruct p as [|v l].
  - repeat split; try reflexivity. discriminate.
  - destruct (invert_cons n v l Dp H) as [E H2]. rewrite E. 
    assert (DR : dim n (v :: rev l)). { inversion Dp; subst. constructor; [ reflexivity | now apply Forall_rev ]. }
    split; [ | split; [ | split ] ].
    + destruct (invert_cons n v (rev l) DR H2) as [-> _]. now rewrite rev_involutive.
    + apply perm_skip, Permutation_sym, Permutation_rev.
    + exact H2.
    + intros w k E2. injection E2 as -> ->. reflexivity.
Qed.

(** ** comparison *)
Lemma pg_ops_spec : forall n p q, dim n p -> dim n q ->
  (pg_lt p q = true <-> seq_lt p q) /\ (pg_eq p q = true <-> seq_eq p q) /\ (pg_gt p q = true <-> seq_lt q p)
  /\ (pg_ne p q = true <-> ~ seq_eq p q)
  /\ (pg_le p q = true <-> seq_lt p q \/ seq_eq p q) /\ (pg_ge p q = true <-> seq_lt q p \/ seq_eq p q).
Proof.
  intros n p q Dp Dq. unfold pg_lt, pg_eq, pg_gt, pg_ne, pg_le, pg_ge, pg_compare.
  rewrite <- (r_compare_lt n p q Dp Dq), <- (r_compare_lt n q p Dq Dp), <- (r_compare_eq n p q Dp Dq).
  rewrite (r_compare_anti p q). assert (R := r_compare_range p q). set (c := r_compare p q (cst 0)) in *. clearbody c.
  destruct R as [-> | [-> | ->]]; cbn; repeat split; intros; try discriminate; try tauto; try lia; try (intros C; discriminate C); auto; exfalso; lia.
Qed.
Lemma pg_total : forall p q,
  (pg_lt p q = true /\ pg_eq p q = false /\ pg_gt p q = false)
  \/ (pg_lt p q = false /\ pg_eq p q = true /\ pg_gt p q = false)
  \/ (pg_lt p q = false /\ pg_eq p q = false /\ pg_gt p q = true).
Proof.
  intros p q. unfold pg_lt, pg_eq, pg_gt, pg_compare. destruct (r_compare_range p q) as [-> | [-> | ->]]; cbn; tauto.
Qed.
Lemma pg_order_trans : forall n p q r, dim n p -> dim n q -> dim n r ->
  (pg_lt p q = true -> pg_lt q r = true -> pg_lt p r = true)
  /\ (pg_eq p q = true -> pg_eq q r = true -> pg_eq p r = true)
  /\ pg_lt p p = false /\ pg_eq p p = true /\ pg_eq q p = pg_eq p q /\ pg_gt q p = pg_lt p q.
Proof.
  intros n p q r Dp Dq Dr. unfold pg_lt, pg_eq, pg_gt, pg_compare.
  assert (Rpp : r_compare p p (cst 0) = 0%Z). { generalize (r_compare_anti p p). lia. }
  rewrite Rpp, (r_compare_anti p q).
  assert (T1 := r_compare_trans n p q r Dp Dq Dr). assert (T2 := r_compare_trans n r q p Dr Dq Dp).
  rewrite (r_compare_anti p r), (r_compare_anti q r), (r_compare_anti p q) in T2.
  assert (R1 := r_compare_range p q). assert (R2 := r_compare_range q r). assert (R3 := r_compare_range p r).
  set (x := r_compare p q (cst 0)) in *. set (y := r_compare q r (cst 0)) in *. set (z := r_compare p r (cst 0)) in *.
  clearbody x y z.
  rewrite !Z.ltb_lt, !Z.eqb_eq. repeat split; intros; try lia.
Qed.

(** ** hasVertex, get_vertices *)
Lemma pg_has_vertex_spec : forall n p v, dim n p -> length v = n -> (pg_has_vertex p v = true <-> exists w, In w p /\ vec_eq w v).
Proof.
  intros n p v D Lv. induction p as [|w p IH]; cbn [pg_has_vertex].
  - split; [ discriminate | intros (w & [] & _) ].
  - inversion D as [|? ? Dw D']; subst. destruct (v_ops_spec w v Dw) as (_ & E & _). destruct (v_eq w v).
    + split; [ intros _; exists w; split; [ now left | now apply E ] | reflexivity ].
    + rewrite (IH D'). split; [ intros (x & I & H); exists x; split; [ now right | exact H ] | ].
      intros (x & [<- | I] & H); [ apply E in H; discriminate | now exists x ].
Qed.
Lemma pg_get_vertices_spec : forall ps : list (list (list T)), pg_get_vertices ps = concat ps.
Proof.
  intros ps. unfold pg_get_vertices.
  assert (A : forall (p out : list (list T)), fold_left (fun out v => out ++ [v]) p out = out ++ p).
  { induction p as [|v p IH]; intros out; cbn [fold_left]; [ now rewrite app_nil_r | ]. rewrite IH, <- app_assoc. reflexivity. }
  assert (B : forall (l : list (list (list T))) out, fold_left (fun out p => fold_left (fun out v => out ++ [v]) p out) l out = out ++ concat l).
  { induction l as [|p l IH]; intros out; cbn [fold_left concat]; [ now rewrite app_nil_r | ]. rewrite IH, A, <- app_assoc. reflexivity. }
  apply B.
Qed.

(** ** compareUnoriented *)
Lemma dim_rev : forall n (p : list (list T)), dim n p -> dim n (rev p).
Proof. intros n p H. now apply Forall_rev. Qed.
Lemma rcmp0 : forall n a b, dim n a -> dim n b -> ((r_compare a b (cst 0) =? 0)%Z = true <-> seq_eq a b).
Proof. intros n a b A B. rewrite Z.eqb_eq. now apply r_compare_eq with (n := n). Qed.
Lemma vcmp0 : forall a b : list T, length a = length b -> ((v_compare a b (cst 0) =? 0)%Z = true <-> vec_eq a b).
Proof. intros a b E. rewrite Z.eqb_eq. now apply v_compare_eq. Qed.
Lemma nth_error_skipn : forall A k (l : list A) x, nth_error l k = Some x -> skipn k l = x :: skipn (S k) l.
Proof. intros A. induction k as [|k IH]; intros [|y l] x E; try discriminate; cbn in *; [ now injection E as -> | now apply IH ]. Qed.
Lemma nth_error_rev : forall A (l : list A) k, (k < length l)%nat -> nth_error (rev l) k = nth_error l (length l - S k).
Proof.
  intros A l k K. destruct l as [|d l']; [ cbn in K; lia | ]. set (l := d :: l') in *.
  rewrite (nth_error_nth' (rev l) d) by now rewrite rev_length.
  rewrite (nth_error_nth' l d) by lia. f_equal. now apply rev_nth.
Qed.
Lemma backward_spec : forall m k c v w l r, length l = c -> length r = c -> (k + m = c)%nat ->
  pg_backward m (S k) (S c) (v :: l) (w :: r) (cst 0) = Ret (r_compare (skipn k l) (skipn k (rev r)) (cst 0) =? 0)%Z.
Proof.
  induction m as [|m IH]; intros k c v w l r Ll Lr K; cbn [pg_backward].
  - rewrite !skipn_all2 by (rewrite ?rev_length; lia). reflexivity.
  - assert (Kl : (k < length l)%nat) by lia. assert (Kr : (k < length (rev r))%nat) by (rewrite rev_length; lia).
    destruct (nth_error l k) as [x|] eqn:Ex; [ | apply nth_error_None in Ex; lia ].
    destruct (nth_error (rev r) k) as [y|] eqn:Ey; [ | apply nth_error_None in Ey; lia ].
    rewrite (nth_error_skipn _ _ _ _ Ex), (nth_error_skipn _ _ _ _ Ey), r_compare_cons.
    rewrite nth_error_rev in Ey by lia. unfold arr_get. cbn [nth_error]. rewrite Ex.
    replace (S c - S k)%nat with (S (length r - S k)) by lia. cbn [nth_error]. rewrite Ey. cbn [bind].
    rewrite (IH (S k) c) by lia. destruct (v_compare_range x y) as [-> | [-> | ->]]; reflexivity.
Qed.
Lemma seq_eq_sym : forall n a b, dim n a -> dim n b -> seq_eq a b -> seq_eq b a.
Proof.
  intros n a b A B H. apply (rcmp0 n) in H; auto. apply (rcmp0 n); auto. rewrite r_compare_anti. apply Z.eqb_eq in H. now rewrite H.
Qed.
Lemma seq_eq_rev : forall a b : list (list T), seq_eq a b -> seq_eq (rev a) (rev b).
Proof.
  induction 1 as [|x y a b H1 H2 IH]; cbn [rev]; [ constructor | ]. apply Forall2_app; [ exact IH | ]. constructor; [ exact H1 | constructor ].
Qed.
Lemma unoriented_value : forall n v l w r, dim n (v :: l) -> dim n (w :: r) -> length l = length r ->
  pg_compare_unoriented (v :: l) (w :: r) (cst 0) = Ret (
    if (v_compare v w (cst 0) =? 0)%Z then
      if (r_compare (firstn 1 l) (firstn 1 r) (cst 0) =? 0)%Z then r_compare (skipn 1 l) (skipn 1 r) (cst 0)
      else if (r_compare l (rev r) (cst 0) =? 0)%Z then 0%Z else r_compare (skipn 1 l) (skipn 1 r) (cst 0)
    else v_compare v w (cst 0)).
Proof.
  intros n v l w r Dl Dr E. unfold pg_compare_unoriented. cbn [length].
  rewrite !(proj2 (Nat.ltb_ge _ _)) by lia. cbn [Nat.eqb]. unfold arr_get. cbn [nth_error bind].
  destruct (v_compare_range v w) as [-> | [-> | ->]]; cbn [Z.ltb Z.eqb Z.compare]; [ reflexivity | | reflexivity ].
  destruct l as [|x l], r as [|y r]; try discriminate; [ reflexivity | ].
  cbn [length Nat.eqb nth_error bind firstn skipn]. rewrite r_compare_cons.
  assert (B := backward_spec (length (x :: l)) 0 (length (x :: l)) v w (x :: l) (y :: r) eq_refl (eq_sym E) eq_refl). cbn [skipn length] in B.
  replace (S (S (length l)) - 1)%nat with (S (length l)) by lia. rewrite B. cbn [bind].
  destruct (v_compare_range x y) as [-> | [-> | ->]]; cbn [Z.eqb]; change (r_compare [] [] (cst 0)) with 0%Z; cbn [Z.eqb];
    destruct (r_compare (x :: l) (rev (y :: r)) (cst 0) =? 0)%Z; reflexivity.
Qed.
Lemma unoriented_lengths : forall p q : list (list T), length p <> length q ->
  pg_compare_unoriented p q (cst 0) = Ret (if (length p <? length q)%nat then (-1)%Z else 1%Z).
Proof.
  intros p q N. unfold pg_compare_unoriented. destruct (Nat.ltb_spec (length p) (length q)); [ reflexivity | ].
  rewrite (proj2 (Nat.ltb_lt _ _)) by lia. reflexivity.
Qed.
Lemma seq_eq_len : forall a b : list (list T), seq_eq a b -> length a = length b.
Proof. intros a b H. induction H; cbn [length]; congruence. Qed.
Lemma unoriented_anti : forall n p q, dim n p -> dim n q ->
  exists z, pg_compare_unoriented p q (cst 0) = Ret z /\ pg_compare_unoriented q p (cst 0) = Ret (- z)%Z
    /\ (z = -1 \/ z = 0 \/ z = 1)%Z.
Proof.
  intros n p q Dp Dq. destruct (Nat.eq_dec (length p) (length q)) as [E|N].
  2:{ rewrite !unoriented_lengths by auto. eexists. split; [ reflexivity | ].
      destruct (Nat.ltb_spec (length p) (length q)), (Nat.ltb_spec (length q) (length p)); try lia; split; auto. }
  destruct p as [|v l], q as [|w r]; try discriminate.
  - exists 0%Z. repeat split; auto.
  - cbn [length] in E. injection E as E. rewrite !(unoriented_value n) by auto. eexists. split; [ reflexivity | ].
    assert (Dl : dim n l) by (inversion Dp; auto). assert (Dr : dim n r) by (inversion Dq; auto).
    rewrite (v_compare_anti v w), (r_compare_anti (skipn 1 l)), (r_compare_anti (firstn 1 l)).
    assert (SY : (r_compare r (rev l) (cst 0) =? 0)%Z = (r_compare l (rev r) (cst 0) =? 0)%Z).
    { apply eq_true_iff_eq. rewrite !(rcmp0 n) by (auto using dim_rev). split; intros H.
      - apply (seq_eq_sym n); auto; [ now apply dim_rev | ]. rewrite <- (rev_involutive l). now apply seq_eq_rev.
      - apply (seq_eq_sym n); auto; [ now apply dim_rev | ]. rewrite <- (rev_involutive r). now apply seq_eq_rev. }
    rewrite SY. 
    destruct (v_compare_range v w) as [-> | [-> | ->]]; cbn [Z.opp Z.eqb]; [ auto | | auto ].
    assert (R2 := r_compare_range (skipn 1 l) (skipn 1 r)).
    destruct (r_compare_range (firstn 1 l) (firstn 1 r)) as [-> | [-> | ->]]; cbn [Z.opp Z.eqb]; auto;
      destruct (r_compare l (rev r) (cst 0) =? 0)%Z; auto.
Qed.
Lemma last_of_rev : forall (x : list T) l r y, seq_eq (x :: l) (rev (y :: r)) -> l <> [] -> exists z, In z l /\ vec_eq z y.
Proof.
  intros x l r y H N. apply seq_eq_rev in H. rewrite rev_involutive in H. cbn [rev] in H.
  destruct (exists_last N) as (l' & z & ->). exists z. split; [ apply in_or_app; right; now left | ].
  rewrite rev_app_distr in H. cbn in H. now inversion H.
Qed.
Lemma unoriented_zero : forall n p q, dim n p -> dim n q -> distinct p ->
  (pg_compare_unoriented p q (cst 0) = Ret 0%Z <-> seq_eq p q \/ reverse_order p q \/ same_except_second p q).
Proof.
  intros n p q Dp Dq H. destruct (Nat.eq_dec (length p) (length q)) as [E|N].
  2:{ rewrite unoriented_lengths by auto. split.
      - intros C. exfalso. destruct (length p <? length q)%nat; discriminate.
      - intros [C | [C | C]]; exfalso; apply N.
        + now apply seq_eq_len.
        + destruct p, q; try contradiction. destruct C as [_ C]. apply seq_eq_len in C. rewrite rev_length in C. cbn [length]. congruence.
        + destruct p as [|? [|? ?]], q as [|? [|? ?]]; try contradiction. destruct C as [_ C]. apply seq_eq_len in C. cbn [length]. congruence. }
  destruct p as [|v l], q as [|w r]; try discriminate.
  { split; [ intros _; left; constructor | reflexivity ]. }
  cbn [length] in E. injection E as E. rewrite (unoriented_value n) by auto.
  assert (Dl : dim n l) by (inversion Dp; auto). assert (Dr : dim n r) by (inversion Dq; auto).
  assert (Evw : length v = length w) by (inversion Dp; inversion Dq; subst; congruence).
  assert (V := vcmp0 v w Evw). destruct (Z.eqb_spec (v_compare v w (cst 0)) 0) as [Z0 | NZ].
  2:{ assert (NV : ~ vec_eq v w) by (intros C; apply V in C; discriminate). split; [ intros C; exfalso; apply NZ; congruence | ].
      intros [C | [C | C]]; exfalso.
      - inversion C; subst; auto.
      - destruct C; auto.
      - destruct l as [|? ?], r as [|? ?]; try contradiction; destruct C; auto. }
  assert (V' := proj1 V eq_refl). clear V.
  destruct l as [|x l], r as [|y r]; try discriminate.
  { cbn. split; [ intros _; left; constructor; [ exact V' | constructor ] | reflexivity ]. }
  cbn [firstn skipn]. 
  assert (Dl' : dim n l) by (inversion Dl; auto). assert (Dr' : dim n r) by (inversion Dr; auto).
  assert (Exy : length x = length y) by (inversion Dl; inversion Dr; subst; congruence).
  assert (XY := vcmp0 x y Exy). rewrite r_compare_cons.
  assert (FW := r_compare_eq n l r Dl' Dr'). assert (BW := rcmp0 n (x :: l) (rev (y :: r)) Dl (Forall_rev Dr)).
  destruct (v_compare_range x y) as [X | [X | X]]; rewrite X in *; cbn [Z.eqb]; change (r_compare [] [] (cst 0)) with 0%Z; cbn [Z.eqb].
  - assert (NX : ~ vec_eq x y) by (intros C; apply XY in C; discriminate).
    destruct (r_compare (x :: l) (rev (y :: r)) (cst 0) =? 0)%Z eqn:B.
    + split; [ intros _; right; left; split; [ exact V' | now apply BW ] | reflexivity ].
    + split; [ intros C; injection C as C; right; right; split; [ exact V' | now apply FW ] | ].
      intros [C | [C | C]].
      * inversion C as [|? ? ? ? _ C2]; subst. inversion C2; subst. contradiction.
      * destruct C as [_ C]. apply BW in C. discriminate.
      * destruct C as [_ C]. apply FW in C. now rewrite C.
  - split; [ intros C; injection C as C; left; constructor; [ exact V' | constructor; [ now apply XY | now apply FW ] ] | ].
    intros [C | [C | C]].
    + inversion C as [|? ? ? ? _ C2]; subst. inversion C2; subst. f_equal. now apply FW.
    + destruct C as [_ C]. destruct l as [|x' l]; [ destruct r; [ reflexivity | discriminate ] | ].
      exfalso. destruct (last_of_rev _ _ _ _ C) as (z & I & Z); [ discriminate | ].
      inversion H as [|? ? _ H2]; subst. inversion H2 as [|? ? F _]; subst. rewrite Forall_forall in F. apply (F z I).
      assert (Lz : length z = length y) by now apply veq_len.
      destruct (v_eq_equiv x y z) as (_ & _ & TR & _); [ congruence | congruence | ].
      apply (v_ops_spec x z); [ congruence | ]. apply TR; [ apply (v_ops_spec x y); [ exact Exy | now apply XY ] | ]. apply (v_ops_spec y z); [ congruence | ].
      now apply veq_sym.
    + destruct C as [_ C]. f_equal. now apply FW.
  - assert (NX : ~ vec_eq x y) by (intros C; apply XY in C; discriminate).
    destruct (r_compare (x :: l) (rev (y :: r)) (cst 0) =? 0)%Z eqn:B.
    + split; [ intros _; right; left; split; [ exact V' | now apply BW ] | reflexivity ].
    + split; [ intros C; injection C as C; right; right; split; [ exact V' | now apply FW ] | ].
      intros [C | [C | C]].
      * inversion C as [|? ? ? ? _ C2]; subst. inversion C2; subst. contradiction.
      * destruct C as [_ C]. apply BW in C. discriminate.
      * destruct C as [_ C]. apply FW in C. now rewrite C.
Qed.
End Pgon.
