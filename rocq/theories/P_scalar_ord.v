(** Proofs about the order-based scalar and componentwise functions, for every scalar type with
    order laws. *)
From Coq Require Import ZArith Reals List Bool Lra Lia.
From Flocq Require Import Core.
From Verif Require Import Ops M_scalar M_vec S_order P_ord P_compare.
Import ListNotations.
Local Open Scope R_scope.

Section Ord.
Context {T : Type} {o : ops T} {ol : ordlaws o} {nl : neglaws o}.

Notation num x := (is_nan x = false).

Lemma num_cst : forall z, (0 <= z <= 1)%Z -> num (cst z) /\ key (cst z) = IZR z.
Proof. exact num_of_Z. Qed.

Lemma abs_nan : forall x : T, is_nan (sc_abs x) = is_nan x.
Proof.
  intros x. unfold sc_abs. destruct (o_lt x (cst 0)); [ apply num_neg | reflexivity ].
Qed.
Lemma abs_key : forall x : T, num x -> key (sc_abs x) = Rabs (key x).
Proof.
  intros x Hx. unfold sc_abs.
  destruct (num_cst 0) as [N0 K0]; [ simpl; lia | ].
  rewrite lt_key, K0 by assumption.
  destruct (Rlt_bool_spec (key x) 0).
  - rewrite (proj2 (num_neg x)) by assumption. rewrite Rabs_left; lra.
  - rewrite Rabs_pos_eq; lra.
Qed.

Lemma sc_min_key : forall l x, num x -> Forall (fun y => num y) l ->
  In (sc_min x l) (x :: l) /\ (forall y, In y (x :: l) -> key (sc_min x l) <= key y).
Proof.
  induction l as [|z l IH]; intros x Hx Hl; simpl.
  - split; [ auto | ]. intros y [->|[]]. lra.
  - inversion_clear Hl as [|? ? Hz Hl'].
    destruct (o_lt x z) eqn:L.
    + apply lt_true in L. destruct L as (_ & _ & L).
      destruct (IH x Hx Hl') as [I M]. split.
      * destruct I as [I|I]; auto.
      * intros y [->|[->|I']]; [ apply M; simpl; auto | | apply M; simpl; auto ].
        assert (key (sc_min x l) <= key x) by (apply M; simpl; auto). lra.
    + apply lt_false in L; auto.
      destruct (IH z Hz Hl') as [I M]. split.
      * destruct I as [I|I]; auto.
      * intros y [->|[->|I']]; [ | apply M; simpl; auto | apply M; simpl; auto ].
        assert (key (sc_min z l) <= key z) by (apply M; simpl; auto). lra.
Qed.
Lemma sc_max_key : forall l x, num x -> Forall (fun y => num y) l ->
  In (sc_max x l) (x :: l) /\ (forall y, In y (x :: l) -> key y <= key (sc_max x l)).
Proof.
  induction l as [|z l IH]; intros x Hx Hl; simpl.
  - split; [ auto | ]. intros y [->|[]]. lra.
  - inversion_clear Hl as [|? ? Hz Hl'].
    destruct (o_lt z x) eqn:L.
    + apply lt_true in L. destruct L as (_ & _ & L).
      destruct (IH x Hx Hl') as [I M]. split.
      * destruct I as [I|I]; auto.
      * intros y [->|[->|I']]; [ apply M; simpl; auto | | apply M; simpl; auto ].
        assert (key x <= key (sc_max x l)) by (apply M; simpl; auto). lra.
    + apply lt_false in L; auto.
      destruct (IH z Hz Hl') as [I M]. split.
      * destruct I as [I|I]; auto.
      * intros y [->|[->|I']]; [ | apply M; simpl; auto | apply M; simpl; auto ].
        assert (key z <= key (sc_max z l)) by (apply M; simpl; auto). lra.
Qed.
Lemma sc_abs_min_key : forall l x, num x -> Forall (fun y => num y) l ->
  In (sc_abs_min x l) (x :: l) /\ (forall y, In y (x :: l) -> Rabs (key (sc_abs_min x l)) <= Rabs (key y)).
Proof.
  induction l as [|z l IH]; intros x Hx Hl; simpl.
  - split; [ auto | ]. intros y [->|[]]. lra.
  - inversion_clear Hl as [|? ? Hz Hl'].
    destruct (o_lt (sc_abs x) (sc_abs z)) eqn:L.
    + apply lt_true in L. destruct L as (_ & _ & L). rewrite !abs_key in L by assumption.
      destruct (IH x Hx Hl') as [I M]. split.
      * destruct I as [I|I]; auto.
      * intros y [->|[->|I']]; [ apply M; simpl; auto | | apply M; simpl; auto ].
        assert (Rabs (key (sc_abs_min x l)) <= Rabs (key x)) by (apply M; simpl; auto). lra.
    + apply lt_false in L; try (rewrite abs_nan; assumption). rewrite !abs_key in L by assumption.
      destruct (IH z Hz Hl') as [I M]. split.
      * destruct I as [I|I]; auto.
      * intros y [->|[->|I']]; [ | apply M; simpl; auto | apply M; simpl; auto ].
        assert (Rabs (key (sc_abs_min z l)) <= Rabs (key z)) by (apply M; simpl; auto). lra.
Qed.
Lemma sc_abs_max_key : forall l x, num x -> Forall (fun y => num y) l ->
  In (sc_abs_max x l) (x :: l) /\ (forall y, In y (x :: l) -> Rabs (key y) <= Rabs (key (sc_abs_max x l))).
Proof.
  induction l as [|z l IH]; intros x Hx Hl; simpl.
  - split; [ auto | ]. intros y [->|[]]. lra.
  - inversion_clear Hl as [|? ? Hz Hl'].
    destruct (o_lt (sc_abs z) (sc_abs x)) eqn:L.
    + apply lt_true in L. destruct L as (_ & _ & L). rewrite !abs_key in L by assumption.
      destruct (IH x Hx Hl') as [I M]. split.
      * destruct I as [I|I]; auto.
      * intros y [->|[->|I']]; [ apply M; simpl; auto | | apply M; simpl; auto ].
        assert (Rabs (key x) <= Rabs (key (sc_abs_max x l))) by (apply M; simpl; auto). lra.
    + apply lt_false in L; try (rewrite abs_nan; assumption). rewrite !abs_key in L by assumption.
      destruct (IH z Hz Hl') as [I M]. split.
      * destruct I as [I|I]; auto.
      * intros y [->|[->|I']]; [ | apply M; simpl; auto | apply M; simpl; auto ].
        assert (Rabs (key z) <= Rabs (key (sc_abs_max z l))) by (apply M; simpl; auto). lra.
Qed.

(** Order facts stated with the operators. *)
Lemma le_of_key : forall x y : T, num x -> num y -> key x <= key y -> o_le x y = true.
Proof. intros. apply le_true. auto. Qed.

Lemma In_num : forall (l : list T) x y, num x -> Forall (fun y => num y) l -> In y (x :: l) -> num y.
Proof.
  intros l x y Hx Hl [->|I]; auto. rewrite Forall_forall in Hl. auto.
Qed.

Lemma sc_min_least : forall x l, num x -> Forall (fun y => num y) l ->
  In (sc_min x l) (x :: l) /\ (forall y, In y (x :: l) -> o_le (sc_min x l) y = true).
Proof.
  intros x l Hx Hl. destruct (sc_min_key l x Hx Hl) as [I M]. split; auto.
  intros y Hy. apply le_of_key; auto; eapply In_num; eauto.
Qed.
Lemma sc_max_greatest : forall x l, num x -> Forall (fun y => num y) l ->
  In (sc_max x l) (x :: l) /\ (forall y, In y (x :: l) -> o_le y (sc_max x l) = true).
Proof.
  intros x l Hx Hl. destruct (sc_max_key l x Hx Hl) as [I M]. split; auto.
  intros y Hy. apply le_of_key; auto; eapply In_num; eauto.
Qed.
Lemma sc_abs_min_least : forall x l, num x -> Forall (fun y => num y) l ->
  In (sc_abs_min x l) (x :: l) /\
  (forall y, In y (x :: l) -> o_le (sc_abs (sc_abs_min x l)) (sc_abs y) = true).
Proof.
  intros x l Hx Hl. destruct (sc_abs_min_key l x Hx Hl) as [I M]. split; auto.
  intros y Hy. assert (N1 := In_num _ _ _ Hx Hl I). assert (N2 := In_num _ _ _ Hx Hl Hy).
  apply le_of_key; rewrite ?abs_nan, ?abs_key; auto.
Qed.
Lemma sc_abs_max_greatest : forall x l, num x -> Forall (fun y => num y) l ->
  In (sc_abs_max x l) (x :: l) /\
  (forall y, In y (x :: l) -> o_le (sc_abs y) (sc_abs (sc_abs_max x l)) = true).
Proof.
  intros x l Hx Hl. destruct (sc_abs_max_key l x Hx Hl) as [I M]. split; auto.
  intros y Hy. assert (N1 := In_num _ _ _ Hx Hl I). assert (N2 := In_num _ _ _ Hx Hl Hy).
  apply le_of_key; rewrite ?abs_nan, ?abs_key; auto.
Qed.

(** Two arguments *)
Lemma sc_min2 : forall x y : T, sc_min x [y] = if o_lt x y then x else y.
Proof. reflexivity. Qed.
Lemma sc_max2 : forall x y : T, sc_max x [y] = if o_lt y x then x else y.
Proof. reflexivity. Qed.
Lemma min2_num : forall x y : T, num x -> num y -> num (sc_min x [y]).
Proof. intros. rewrite sc_min2. now destruct (o_lt x y). Qed.
Lemma max2_num : forall x y : T, num x -> num y -> num (sc_max x [y]).
Proof. intros. rewrite sc_max2. now destruct (o_lt y x). Qed.
Lemma min2_key : forall x y : T, num x -> num y -> key (sc_min x [y]) = Rmin (key x) (key y).
Proof.
  intros x y Hx Hy. rewrite sc_min2, lt_key by assumption.
  destruct (Rlt_bool_spec (key x) (key y)); [ rewrite Rmin_left | rewrite Rmin_right ]; lra.
Qed.
Lemma max2_key : forall x y : T, num x -> num y -> key (sc_max x [y]) = Rmax (key x) (key y).
Proof.
  intros x y Hx Hy. rewrite sc_max2, lt_key by assumption.
  destruct (Rlt_bool_spec (key y) (key x)); [ rewrite Rmax_left | rewrite Rmax_right ]; lra.
Qed.

Lemma sc_clamp_num : forall v lo hi : T, num v -> num lo -> num hi -> num (sc_clamp v lo hi).
Proof. intros. unfold sc_clamp. apply max2_num; auto. now apply min2_num. Qed.
Lemma sc_clamp_key : forall v lo hi : T, num v -> num lo -> num hi ->
  key (sc_clamp v lo hi) = Rmax (Rmin (key v) (key hi)) (key lo).
Proof.
  intros v lo hi Hv Hl Hh. unfold sc_clamp.
  rewrite max2_key, min2_key; auto. now apply min2_num.
Qed.

Ltac minmax := unfold Rmax, Rmin in *; repeat (match goal with
  |- context [Rle_dec ?a ?b] => destruct (Rle_dec a b) | H : context [Rle_dec ?a ?b] |- _ => destruct (Rle_dec a b) end).

Lemma sc_clamp_spec : forall v lo hi : T, num v -> num lo -> num hi -> o_le lo hi = true ->
  let r := sc_clamp v lo hi in
  (r = v \/ r = lo \/ r = hi)
  /\ o_le lo r = true /\ o_le r hi = true
  /\ (o_le lo v = true -> o_le v hi = true -> o_eq r v = true)
  /\ (o_lt v lo = true -> r = lo) /\ (o_lt hi v = true -> o_eq r hi = true).
Proof.
  intros v lo hi Hv Hl Hh H r. apply le_true in H. destruct H as (_ & _ & H).
  assert (Nr : num r) by (now apply sc_clamp_num).
  assert (Kr : key r = Rmax (Rmin (key v) (key hi)) (key lo)) by (now apply sc_clamp_key).
  split; [ | split; [ | split; [ | split; [ | split ] ] ] ].
  - unfold r, sc_clamp. rewrite sc_max2, sc_min2.
    destruct (o_lt v hi); destruct (o_lt lo _); auto.
  - apply le_of_key; auto. rewrite Kr. minmax; lra.
  - apply le_of_key; auto. rewrite Kr. minmax; lra.
  - rewrite !le_true. intros (_ & _ & A) (_ & _ & B). apply eq_true.
    split; [ | split ]; auto. rewrite Kr. minmax; lra.
  - intros L. apply lt_true in L. destruct L as (_ & _ & L).
    unfold r, sc_clamp. rewrite sc_max2.
    destruct (o_lt lo (sc_min v [hi])) eqn:E; auto.
    apply lt_true in E. rewrite min2_key in E by assumption. minmax; lra.
  - intros L. apply lt_true in L. destruct L as (_ & _ & L). apply eq_true.
    split; [ | split ]; auto. rewrite Kr. minmax; lra.
Qed.

Lemma sc_contains_spec : forall v s e : T, num v -> num s -> num e ->
  (sc_contains v s e = true <->
   (o_le s v = true /\ o_le v e = true) \/ (o_le e v = true /\ o_le v s = true)).
Proof.
  intros v s e Hv Hs He. unfold sc_contains.
  destruct (o_lt s e) eqn:L.
  - apply lt_true in L. destruct L as (_ & _ & L).
    rewrite andb_true_iff. split; [ auto | ]. intros [H|[H1 H2]]; auto.
    apply le_true in H1, H2. destruct H1 as (_ & _ & H1), H2 as (_ & _ & H2). lra.
  - apply lt_false in L; auto.
    rewrite andb_true_iff. split; [ auto | ]. intros [[H1 H2]|H]; auto.
    apply le_true in H1, H2. destruct H1 as (_ & _ & H1), H2 as (_ & _ & H2).
    split; apply le_of_key; auto; lra.
Qed.

(** NaN-ignoring extrema *)
Lemma sc_safe_min_all_nan : forall l x, is_nan x = true -> Forall (fun y => is_nan y = true) l ->
  is_nan (sc_safe_min x l) = true.
Proof.
  induction l as [|z l IH]; intros x Hx Hl; simpl; auto.
  inversion_clear Hl. rewrite Hx. auto.
Qed.
Lemma sc_safe_max_all_nan : forall l x, is_nan x = true -> Forall (fun y => is_nan y = true) l ->
  is_nan (sc_safe_max x l) = true.
Proof.
  induction l as [|z l IH]; intros x Hx Hl; simpl; auto.
  inversion_clear Hl. rewrite Hx. auto.
Qed.
Lemma sc_safe_min_num : forall l x, (exists y, In y (x :: l) /\ num y) ->
  In (sc_safe_min x l) (x :: l) /\ num (sc_safe_min x l)
  /\ (forall y, In y (x :: l) -> num y -> key (sc_safe_min x l) <= key y).
Proof.
  induction l as [|z l IH]; intros x (w & Hw & Nw); simpl.
  - destruct Hw as [->|[]]. split; [ auto | split; auto ]. intros y [->|[]] _. lra.
  - destruct (is_nan x) eqn:Nx.
    { destruct (IH z) as (I & N & M).
      { exists w. destruct Hw as [->|Hw]; [ congruence | auto ]. }
      split; [ simpl in I; tauto | split; auto ].
      intros y [->|Hy] Ny; [ congruence | auto ]. }
    destruct (is_nan z) eqn:Nz.
    { destruct (IH x) as (I & N & M).
      { exists x. simpl. auto. }
      split; [ simpl in I; tauto | split; auto ].
      intros y [->|[->|Hy]] Ny; [ | congruence | ]; apply M; simpl; auto. }
    destruct (o_lt x z) eqn:L.
    + apply lt_true in L. destruct L as (_ & _ & L).
      destruct (IH x) as (I & N & M). { exists x. simpl. auto. }
      split; [ simpl in I; tauto | split; auto ].
      intros y [->|[->|Hy]] Ny; [ | | ]; try (now (apply M; simpl; auto)).
      assert (key (sc_safe_min x l) <= key x) by (apply M; simpl; auto). lra.
    + apply lt_false in L; auto.
      destruct (IH z) as (I & N & M). { exists z. simpl. auto. }
      split; [ simpl in I; tauto | split; auto ].
      intros y [->|[->|Hy]] Ny; [ | | ]; try (now (apply M; simpl; auto)).
      assert (key (sc_safe_min z l) <= key z) by (apply M; simpl; auto). lra.
Qed.
Lemma sc_safe_max_num : forall l x, (exists y, In y (x :: l) /\ num y) ->
  In (sc_safe_max x l) (x :: l) /\ num (sc_safe_max x l)
  /\ (forall y, In y (x :: l) -> num y -> key y <= key (sc_safe_max x l)).
Proof.
  induction l as [|z l IH]; intros x (w & Hw & Nw); simpl.
  - destruct Hw as [->|[]]. split; [ auto | split; auto ]. intros y [->|[]] _. lra.
  - destruct (is_nan x) eqn:Nx.
    { destruct (IH z) as (I & N & M).
      { exists w. destruct Hw as [->|Hw]; [ congruence | auto ]. }
      split; [ simpl in I; tauto | split; auto ].
      intros y [->|Hy] Ny; [ congruence | auto ]. }
    destruct (is_nan z) eqn:Nz.
    { destruct (IH x) as (I & N & M).
      { exists x. simpl. auto. }
      split; [ simpl in I; tauto | split; auto ].
      intros y [->|[->|Hy]] Ny; [ | congruence | ]; apply M; simpl; auto. }
    destruct (o_lt z x) eqn:L.
    + apply lt_true in L. destruct L as (_ & _ & L).
      destruct (IH x) as (I & N & M). { exists x. simpl. auto. }
      split; [ simpl in I; tauto | split; auto ].
      intros y [->|[->|Hy]] Ny; [ | | ]; try (now (apply M; simpl; auto)).
      assert (key x <= key (sc_safe_max x l)) by (apply M; simpl; auto). lra.
    + apply lt_false in L; auto.
      destruct (IH z) as (I & N & M). { exists z. simpl. auto. }
      split; [ simpl in I; tauto | split; auto ].
      intros y [->|[->|Hy]] Ny; [ | | ]; try (now (apply M; simpl; auto)).
      assert (key z <= key (sc_safe_max z l)) by (apply M; simpl; auto). lra.
Qed.
Lemma sc_safe_min_spec : forall x l,
  (NaN (sc_safe_min x l) <-> Forall NaN (x :: l))
  /\ (Exists (fun y => ~ NaN y) (x :: l) ->
      In (sc_safe_min x l) (x :: l) /\
      forall y, In y (x :: l) -> ~ NaN y -> o_le (sc_safe_min x l) y = true).
Proof.
  intros x l. split; [ split | ].
  - intros H. apply Forall_forall. intros y Hy. apply NaN_is_nan.
    destruct (is_nan y) eqn:Ny; auto.
    destruct (sc_safe_min_num l x) as (_ & N & _); [ eauto | ].
    apply NaN_is_nan in H. congruence.
  - intros H. apply NaN_is_nan. inversion_clear H as [|? ? H1 H2].
    apply sc_safe_min_all_nan; [ now apply NaN_is_nan | ].
    revert H2. apply Forall_impl. intros. now apply NaN_is_nan.
  - intros H. apply Exists_exists in H. destruct H as (y & Hy & Ny). apply not_NaN_is_nan in Ny.
    destruct (sc_safe_min_num l x) as (I & N & M); [ eauto | ]. split; auto.
    intros z Hz Nz. apply not_NaN_is_nan in Nz. apply le_of_key; auto.
Qed.
Lemma sc_safe_max_spec : forall x l,
  (NaN (sc_safe_max x l) <-> Forall NaN (x :: l))
  /\ (Exists (fun y => ~ NaN y) (x :: l) ->
      In (sc_safe_max x l) (x :: l) /\
      forall y, In y (x :: l) -> ~ NaN y -> o_le y (sc_safe_max x l) = true).
Proof.
  intros x l. split; [ split | ].
  - intros H. apply Forall_forall. intros y Hy. apply NaN_is_nan.
    destruct (is_nan y) eqn:Ny; auto.
    destruct (sc_safe_max_num l x) as (_ & N & _); [ eauto | ].
    apply NaN_is_nan in H. congruence.
  - intros H. apply NaN_is_nan. inversion_clear H as [|? ? H1 H2].
    apply sc_safe_max_all_nan; [ now apply NaN_is_nan | ].
    revert H2. apply Forall_impl. intros. now apply NaN_is_nan.
  - intros H. apply Exists_exists in H. destruct H as (y & Hy & Ny). apply not_NaN_is_nan in Ny.
    destruct (sc_safe_max_num l x) as (I & N & M); [ eauto | ]. split; auto.
    intros z Hz Nz. apply not_NaN_is_nan in Nz. apply le_of_key; auto.
Qed.
End Ord.
