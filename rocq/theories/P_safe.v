(** Calls that return, for every type of component (C102). *)
From Coq Require Import ZArith List Bool Lia Arith Permutation.
From Verif Require Import Ops M_scalar M_vec M_mat M_bbox M_geom M_polygon M_intersect M_hull S_safe P_sort P_components.
Import ListNotations.

Lemma returns_ret : forall A (a : A), returns (Ret a). Proof. intros A a. now exists a. Qed.
Lemma returns_bind : forall A B (x : outcome A) (f : A -> outcome B), returns x -> (forall a, x = Ret a -> returns (f a)) -> returns (bind x f).
Proof. intros A B x f (a & E) H. rewrite E. cbn. auto. Qed.
Lemma returns_bind_inv : forall A B (x : outcome A) (f : A -> outcome B), returns (bind x f) -> exists a, x = Ret a /\ returns (f a).
Proof. intros A B x f (b & E). destruct x as [a| | |]; cbn in E; try discriminate. exists a. split; [reflexivity|now exists b]. Qed.
Lemma returns_require : forall A b (x : outcome A), returns (require b x) <-> b = true /\ returns x.
Proof.
  intros A [] x; cbn; split; auto.
  - now intros (_ & H).
  - intros (a & E). discriminate.
  - intros (E & _). discriminate.
Qed.
Lemma returns_mapM : forall A B (f : A -> outcome B) l, returns (mapM f l) <-> Forall (fun x => returns (f x)) l.
Proof.
  intros A B f. induction l as [|x l IH]; cbn [mapM].
  - split; [constructor|intros _; apply returns_ret].
  - split.
    + intros H. apply returns_bind_inv in H. destruct H as (b & E & H). apply returns_bind_inv in H. destruct H as (bs & E' & _).
      constructor; [now exists b|]. apply IH. now exists bs.
    + intros H. inversion_clear H as [|? ? H1 H2]. apply returns_bind; [exact H1|]. intros b _. apply returns_bind; [now apply IH|]. intros; apply returns_ret.
Qed.

Section Any.
Context {T : Type} {o : ops T}.

Lemma arr_get_ok : forall A (l : list A) i, returns (arr_get l i) <-> (i < length l)%nat.
Proof.
  intros A l i. unfold arr_get. rewrite <- nth_error_Some. destruct (nth_error l i) as [x|]; split; try congruence.
  - intros _. apply returns_ret.
  - intros (a & E). discriminate.
Qed.
Lemma sort_vector_perm : forall cmp (v : list T), exists e, sort_vector cmp v = Ret e /\ Permutation (combine v (seq 0 (length v))) e.
Proof.
  intros cmp v. unfold sort_vector. destruct (sort_all (fun l r : T * nat => cmp (fst l) (fst r)) (combine v (seq 0 (length v)))) as (e & E & P & _).
  rewrite combine_length, seq_length, Nat.min_id in E. now exists e.
Qed.
Lemma select_ok : forall cmp (v : list T) k, (k < length v)%nat ->
  exists i, (do e <- sort_vector cmp v; do x <- arr_get e (length v - k - 1); Ret (snd x)) = Ret i /\ (i < length v)%nat.
Proof.
  intros cmp v k H. destruct (sort_vector_perm cmp v) as (e & E & P). rewrite E. cbn.
  assert (L : length e = length v). { rewrite <- (Permutation_length P), combine_length, seq_length. apply Nat.min_id. }
  destruct (proj2 (arr_get_ok _ e (length v - k - 1)) ltac:(lia)) as ([x i] & G). rewrite G. cbn. exists i. split; [reflexivity|].
  unfold arr_get in G. destruct (nth_error e _) eqn:N; [|discriminate]. injection G as ->. apply nth_error_In in N.
  apply (Permutation_in _ (Permutation_sym P)) in N. apply in_combine_r in N. apply in_seq in N. lia.
Qed.
Lemma find_max_ret : forall (v : list T) k, (k < length v)%nat -> exists i, find_max_component v k = Ret i /\ (i < length v)%nat.
Proof. intros v k H. unfold find_max_component. rewrite (proj2 (Nat.ltb_lt _ _) H). cbn [require]. now apply select_ok. Qed.
Lemma find_abs_max_ret : forall (v : list T) k, (k < length v)%nat -> exists i, find_abs_max_component v k = Ret i /\ (i < length v)%nat.
Proof. intros v k H. unfold find_abs_max_component. rewrite (proj2 (Nat.ltb_lt _ _) H). cbn [require]. now apply select_ok. Qed.

Lemma components_ok : forall (v : list T) k,
  (returns (find_max_component v k) <-> (k < length v)%nat)
  /\ (returns (find_abs_max_component v k) <-> (k < length v)%nat)
  /\ (returns (get_max_component v k) <-> (k < length v)%nat)
  /\ (returns (get_abs_max_component v k) <-> (k < length v)%nat)
  /\ (returns (get_abs_max_component_axis v k) <-> (k < length v)%nat).
Proof.
  intros v k. split; [|split; [|split; [|split]]]; split; intros H.
  - apply returns_require in H. now apply Nat.ltb_lt, H.
  - destruct (find_max_ret v k H) as (i & E & _). now exists i.
  - apply returns_require in H. now apply Nat.ltb_lt, H.
  - destruct (find_abs_max_ret v k H) as (i & E & _). now exists i.
  - apply returns_require in H. now apply Nat.ltb_lt, H.
  - unfold get_max_component. rewrite (proj2 (Nat.ltb_lt _ _) H). cbn [require]. destruct (sort_all o_lt v) as (s & E & P & _). rewrite E. cbn [bind].
    apply arr_get_ok. rewrite <- (Permutation_length P). lia.
  - unfold get_abs_max_component in H. apply returns_bind_inv in H. destruct H as (s & _ & H). destruct (k <? length v) eqn:L; [now apply Nat.ltb_lt|].
    destruct H as (a & E). discriminate.
  - unfold get_abs_max_component. destruct (sort_all (fun l r => o_lt (sc_abs l) (sc_abs r)) v) as (s & E & P & _). rewrite E. cbn [bind].
    rewrite (proj2 (Nat.ltb_lt _ _) H). apply arr_get_ok. rewrite <- (Permutation_length P). lia.
  - unfold get_abs_max_component_axis in H. apply returns_bind_inv in H. destruct H as (i & E & _).
    assert (R : returns (find_abs_max_component v k)) by now exists i. apply returns_require in R. now apply Nat.ltb_lt, R.
  - unfold get_abs_max_component_axis. destruct (find_abs_max_ret v k H) as (i & E & L). rewrite E. cbn [bind]. unfold v_axis.
    rewrite (proj2 (Nat.ltb_lt _ _) L). cbn [bind]. apply returns_ret.
Qed.

Lemma cubic_solutions : forall {lm : libm T} a b c d epsilon, (1 <= fst (solve_cubic a b c d epsilon) <= 3)%nat.
Proof. intros lm a b c d epsilon. unfold solve_cubic. cbv zeta. repeat match goal with |- context [if ?x then _ else _] => destruct x end; cbn; lia. Qed.
Lemma quartic_ok : forall {lm : libm T} a b c d e epsilon, exists n s, solve_quartic a b c d e epsilon = Ret (n, s) /\ (n <= 4)%nat /\ length s = 4%nat.
Proof.
  intros lm a b c d e epsilon. unfold solve_quartic. cbv zeta.
  assert (U : forall n (f : T -> T) l, length (upd_first n f l) = length l). { induction n; destruct l; cbn; auto. }
  match goal with |- context [if sc_is_zero ?r epsilon then _ else _] => destruct (sc_is_zero r epsilon) end.
  - match goal with |- context [solve_cubic ?a ?b ?c ?d epsilon] => pose proof (cubic_solutions a b c d epsilon) as K; destruct (solve_cubic a b c d epsilon) as (n & ((s1 & s2) & s3)) end.
    cbn [fst] in K. do 2 eexists. split; [reflexivity|]. split; [lia|]. rewrite U, upd_length. reflexivity.
  - match goal with |- context [solve_cubic ?a ?b ?c ?d epsilon] => pose proof (cubic_solutions a b c d epsilon) as K; destruct (solve_cubic a b c d epsilon) as (n & ((s1 & s2) & s3)) end.
    cbn [fst] in K. rewrite (proj2 (Nat.ltb_lt 0 n)) by lia. cbn [require].
    match goal with |- context [match ?x with Some _ => _ | None => _ end] => destruct x as [u|] end; [|do 2 eexists; split; [reflexivity|split; [lia|reflexivity]]].
    match goal with |- context [match ?x with Some _ => _ | None => _ end] => destruct x as [v|] end; [|do 2 eexists; split; [reflexivity|split; [lia|reflexivity]]].
    assert (Q : forall a b c, (fst (@solve_quadratic T o a b c epsilon) <= 2)%nat).
    { intros a0 b0 c0. unfold solve_quadratic. cbv zeta. repeat match goal with |- context [if ?x then _ else _] => destruct x end; cbn; lia. }
    match goal with |- context [solve_quadratic ?a ?b ?c epsilon] => pose proof (Q a b c) as Q1; destruct (solve_quadratic a b c epsilon) as (n1 & (x1 & x2)) end.
    match goal with |- context [solve_quadratic ?a ?b ?c epsilon] => pose proof (Q a b c) as Q2; destruct (solve_quadratic a b c epsilon) as (n2 & (y1 & y2)) end.
    cbn [fst] in Q1, Q2. do 2 eexists. split; [reflexivity|]. split; [lia|].
    rewrite U. repeat match goal with |- context [if ?x then _ else _] => destruct x end; rewrite ?upd_length; reflexivity.
Qed.
Lemma torus_ok : forall {lm : libm T} r p (mj mn : T), returns (intersect_ray_torus r p mj mn).
Proof.
  intros lm r p mj mn. unfold intersect_ray_torus. destruct (torus_coefficients r p mj mn) as ((((a & b) & c) & d) & e).
  destruct (quartic_ok a b c d e almost_zero) as (n & s & E & _). rewrite E. cbn [bind]. destruct (n =? 0)%nat; apply returns_ret.
Qed.

Lemma backward_ok : forall (lhs rhs : list (list T)) eps n i, (1 <= i)%nat -> (i + n <= length lhs)%nat -> length lhs = length rhs ->
  returns (pg_backward n i (length lhs) lhs rhs eps).
Proof.
  intros lhs rhs eps. induction n as [|n IH]; intros i Hi Hn HL; cbn [pg_backward]; [apply returns_ret|].
  apply returns_bind; [apply arr_get_ok; lia|]. intros x _. apply returns_bind; [apply arr_get_ok; lia|]. intros y _.
  destruct (negb _); [apply returns_ret|]. apply IH; lia.
Qed.
Lemma unoriented_ok : forall (lhs rhs : list (list T)) eps, returns (pg_compare_unoriented lhs rhs eps).
Proof.
  intros lhs rhs eps. unfold pg_compare_unoriented. cbv zeta.
  destruct (length lhs <? length rhs) eqn:L1; [apply returns_ret|]. destruct (length rhs <? length lhs) eqn:L2; [apply returns_ret|].
  apply Nat.ltb_ge in L1, L2. destruct (length lhs =? 0) eqn:L3; [apply returns_ret|]. apply Nat.eqb_neq in L3.
  apply returns_bind; [apply arr_get_ok; lia|]. intros x _. apply returns_bind; [apply arr_get_ok; lia|]. intros y _.
  destruct (_ <? 0)%Z; [apply returns_ret|]. destruct (0 <? _)%Z; [apply returns_ret|]. destruct (length lhs =? 1) eqn:L4; [apply returns_ret|]. apply Nat.eqb_neq in L4.
  apply returns_bind; [apply arr_get_ok; lia|]. intros x' _. apply returns_bind; [apply arr_get_ok; lia|]. intros y' _.
  destruct (_ =? 0)%Z; [apply returns_ret|]. apply returns_bind; [apply backward_ok; lia|]. intros [] _; apply returns_ret.
Qed.

Lemma swizzle_ok : forall (p : list T) axis, (returns (v_swizzle p axis) <-> (axis <= 3)%nat) /\ (returns (v_unswizzle p axis) <-> (axis <= 3)%nat).
Proof.
  intros p axis. unfold v_swizzle, v_unswizzle. rewrite !returns_require, Nat.leb_le. split; split; intros H; try (split; [exact H|]; apply returns_ret); now apply H.
Qed.
Lemma point_in_polygon_ok : forall (p : list T) axis vertices,
  returns (polygon_contains_point p axis vertices) <-> (axis <= 3)%nat /\ vertices <> [].
Proof.
  intros p axis vs. unfold polygon_contains_point. split.
  - intros H. apply returns_bind_inv in H. destruct H as (o' & E & H). split; [apply (proj1 (swizzle_ok p axis)); now exists o'|].
    intros ->. destruct H as (b & E'). discriminate.
  - intros (H & N). apply returns_bind; [now apply swizzle_ok|]. intros o' _.
    destruct vs as [|v vs]; [congruence|]. cbn [mapM].
    destruct (proj2 (proj1 (swizzle_ok v axis)) H) as (v' & E). rewrite E. cbn [bind].
    apply returns_bind.
    { apply returns_bind; [|intros; apply returns_ret]. apply returns_mapM. apply Forall_forall. intros x _. apply returns_bind; [now apply swizzle_ok|]. intros; apply returns_ret. }
    intros l E'.
    destruct l; [|apply returns_ret]. destruct (mapM _ _); cbn in E'; discriminate.
Qed.
Lemma point_in_polygon_n_ok : forall (p n : list T) vertices, length n = 3%nat ->
  returns (polygon_contains_point_n p n vertices) <-> vertices <> [].
Proof.
  intros p n vs L. unfold polygon_contains_point_n. destruct (find_abs_max_ret n 0 ltac:(lia)) as (i & E & Hi). rewrite E. cbn [bind].
  rewrite point_in_polygon_ok. split; [now intros (_ & H)|]. intros H. split; [lia|exact H].
Qed.

Lemma box_ok : forall (b : bbox T) p c b2,
  (returns (bb_is_empty b) <-> bb_is_valid b = true) /\ (returns (bb_center b) <-> bb_is_valid b = true)
  /\ (returns (bb_size b) <-> bb_is_valid b = true) /\ (returns (bb_volume b) <-> bb_is_valid b = true)
  /\ (returns (bb_contains_p b p) <-> bb_is_valid b = true) /\ (returns (bb_contains b b2) <-> bb_is_valid b = true)
  /\ (returns (bb_encloses b b2) <-> bb_is_valid b = true) /\ (returns (bb_constrain b p) <-> bb_is_valid b = true)
  /\ (returns (bb_corner b c) <-> bb_is_valid b = true) /\ (returns (bb_relative_position b p) <-> bb_is_valid b = true)
  /\ (returns (bb_faces b) <-> bb_is_valid b = true) /\ (returns (bb_edges b) <-> bb_is_valid b = true)
  /\ (returns (bb_vertices b) <-> bb_is_valid b = true).
Proof.
  intros b p c b2.
  unfold bb_is_empty, bb_center, bb_volume, bb_contains_p, bb_contains, bb_encloses, bb_constrain, bb_corner, bb_relative_position, bb_faces, bb_edges, bb_vertices, bb_sides, bb_size.
  destruct (bb_is_valid b); cbn [require bind]; repeat (split; [split; [intros (a & E); (reflexivity || discriminate)|intros E; first [discriminate|apply returns_ret]]|]);
    (split; [intros (a & E); (reflexivity || discriminate)|intros E; first [discriminate|apply returns_ret]]).
Qed.
End Any.
