(** Crossings of a strictly convex polygon with a line (used for C59). *)
From Coq Require Import ZArith Reals List Bool Lia Lra Psatz Arith.
Import ListNotations.
Local Open Scope R_scope.

(** ** Sums with one or two non-zero terms *)
Fixpoint zsum (l : list Z) : Z := match l with [] => 0%Z | z :: l' => (z + zsum l')%Z end.
Lemma zsum_map0 : forall (s : nat -> Z) l, (forall i, In i l -> s i = 0%Z) -> zsum (map s l) = 0%Z.
Proof. induction l; cbn; intros H; [ reflexivity | ]. rewrite H, IHl by auto. reflexivity. Qed.
Lemma zsum_map1 : forall (s : nat -> Z) l i0, NoDup l -> In i0 l -> (forall i, In i l -> i <> i0 -> s i = 0%Z) -> zsum (map s l) = s i0.
Proof.
  induction l as [|a l IH]; intros i0 ND I H; [ destruct I | ]. inversion ND; subst. cbn. destruct I as [->|I].
  - rewrite zsum_map0. lia. intros i J. apply H; [ now right | ]. intros ->. contradiction.
  - rewrite (H a), (IH i0); auto. { intros i J N. apply H; [ now right | exact N ]. } { now left. } { intros ->. contradiction. }
Qed.
Lemma zsum_map2 : forall (s : nat -> Z) l i0 j0, NoDup l -> In i0 l -> In j0 l -> i0 <> j0 ->
  (forall i, In i l -> i <> i0 -> i <> j0 -> s i = 0%Z) -> zsum (map s l) = (s i0 + s j0)%Z.
Proof.
  induction l as [|a l IH]; intros i0 j0 ND I J D H; [ destruct I | ]. inversion ND; subst. cbn. destruct I as [->|I].
  - destruct J as [->|J]; [ contradiction | ]. rewrite (zsum_map1 s l j0); auto.
    intros i K N. apply H; [ now right | intros ->; contradiction | exact N ].
  - destruct J as [->|J].
    + rewrite (zsum_map1 s l i0); auto; [ lia | ]. intros i K N. apply H; [ now right | exact N | intros ->; contradiction ].
    + rewrite (H a), (IH i0 j0); auto. { intros i K N1 N2. apply H; auto. now right. } { now left. } { intros ->; contradiction. } { intros ->; contradiction. }
Qed.

Section Poly.
Variable n : nat.
Hypothesis N3 : (3 <= n)%nat.
Variables x y : nat -> R.
Hypothesis PX : forall i, x i = x (i mod n).
Hypothesis PY : forall i, y i = y (i mod n).
Variable s : R.
Hypothesis S1 : s = 1 \/ s = -1.
Hypothesis Y0 : forall i, y i <> 0.
Definition orient (i j k : nat) : R := (x j - x i) * (y k - y i) - (y j - y i) * (x k - x i).
Hypothesis CONV : forall i k, (i < n)%nat -> (k < n)%nat -> k <> i -> k <> (S i mod n)%nat -> 0 < s * orient i (S i) k.
Definition cr i j := x i * y j - x j * y i.

Lemma mod_lt : forall i, (i mod n < n)%nat.
Proof. intros. apply Nat.mod_upper_bound. lia. Qed.
Lemma mod_S : forall i, (S (i mod n) mod n = S i mod n)%nat.
Proof. intros. rewrite <- (Nat.add_1_r (i mod n)), <- (Nat.add_1_r i). rewrite Nat.add_mod_idemp_l by lia. reflexivity. Qed.
Lemma PSx : forall i, x (S (i mod n)) = x (S i).
Proof. intros. rewrite PX, mod_S, <- PX. reflexivity. Qed.
Lemma PSy : forall i, y (S (i mod n)) = y (S i).
Proof. intros. rewrite PY, mod_S, <- PY. reflexivity. Qed.
Lemma orient_mod : forall i k, orient i (S i) k = orient (i mod n) (S (i mod n)) (k mod n).
Proof. intros. unfold orient. rewrite (PX i), (PX k), (PY i), (PY k), <- PSx, <- PSy. reflexivity. Qed.
Lemma conv_le : forall i k, 0 <= s * orient i (S i) k.
Proof.
  intros. rewrite orient_mod. assert (I := mod_lt i). assert (K := mod_lt k). set (i' := (i mod n)%nat) in *. set (k' := (k mod n)%nat) in *.
  destruct (Nat.eq_dec k' i') as [->|A]. { unfold orient. replace (x i' - x i') with 0 by ring. replace (y i' - y i') with 0 by ring. lra. }
  destruct (Nat.eq_dec k' (S i' mod n)) as [B|B]. { unfold orient. rewrite B, <- PX, <- PY. lra. }
  left. now apply CONV.
Qed.
Lemma conv_lt : forall i j, (i < n)%nat -> (j < n)%nat -> i <> j -> 0 < s * orient i (S i) j \/ 0 < s * orient i (S i) (S j).
Proof.
  intros i j I J D. destruct (Nat.eq_dec j (S i mod n)) as [E|E].
  - right. rewrite orient_mod, (Nat.mod_small i) by exact I. apply CONV; [ exact I | apply mod_lt | | ].
    + rewrite E, mod_S. intros F. destruct (Nat.eq_dec (S i) n) as [G|G].
      * rewrite <- (Nat.mod_small i n) in F at 2 by lia. rewrite <- (Nat.add_1_r (S i)) in F. rewrite <- Nat.add_mod_idemp_l, G, Nat.mod_same in F by lia. 
        rewrite Nat.mod_small in F by lia. rewrite Nat.mod_small in F by lia. lia.
      * destruct (Nat.eq_dec (S (S i)) n) as [H|H]; [ rewrite H, Nat.mod_same in F by lia; lia | rewrite Nat.mod_small in F by lia; lia ].
    + rewrite E, mod_S. intros F. destruct (Nat.eq_dec (S i) n) as [G|G].
      * rewrite G, Nat.mod_same in F by lia. rewrite <- Nat.add_1_r, <- Nat.add_mod_idemp_l, Nat.mod_same in F by lia. rewrite Nat.mod_small in F by lia. lia.
      * rewrite (Nat.mod_small (S i)) in F by lia. destruct (Nat.eq_dec (S (S i)) n) as [H|H]; [ rewrite H, Nat.mod_same in F by lia; lia | rewrite Nat.mod_small in F by lia; lia ].
  - left. now apply CONV; auto.
Qed.

Definition crosses i := y i * y (S i) < 0.
Definition up i := y i < 0 /\ 0 < y (S i).
Definition dn i := 0 < y i /\ y (S i) < 0.
(** where the line through the edge meets the line at height 0 *)
Definition icpt i := x i - y i * (x (S i) - x i) / (y (S i) - y i).
Lemma crosses_cases : forall i, crosses i -> up i \/ dn i.
Proof. intros i C. unfold crosses, up, dn in *. destruct (Rtotal_order (y i) 0) as [H|[H|H]]; [ left | rewrite H in C; lra | right ]; split; nra. Qed.
Lemma up_crosses : forall i, up i -> crosses i.
Proof. unfold up, crosses. intros. nra. Qed.
Lemma dn_crosses : forall i, dn i -> crosses i.
Proof. unfold dn, crosses. intros. nra. Qed.
Lemma icpt_cr : forall i, crosses i -> icpt i * (y (S i) - y i) = cr i (S i).
Proof. intros i C. unfold icpt, cr. field. intros E. unfold crosses in C. assert (y (S i) = y i) by lra. rewrite H in C. assert (0 <= y i * y i) by apply Rle_0_sqr. lra. Qed.

(** The intercept of an edge is a point of the polygon. *)
Lemma icpt_side : forall i j, crosses j -> s * ((y (S i) - y i) * x i - y i * (x (S i) - x i) - (y (S i) - y i) * icpt j) * (y j * y j + y (S j) * y (S j) - 2 * (y j * y (S j)))
  = (y (S j) * (y (S j) - y j)) * (s * orient i (S i) j) + (- y j * (y (S j) - y j)) * (s * orient i (S i) (S j)).
Proof.
  intros i j C. replace (y j * y j + y (S j) * y (S j) - 2 * (y j * y (S j))) with ((y (S j) - y j) * (y (S j) - y j)) by ring.
  unfold icpt, orient. field. intros E. unfold crosses in C. assert (y (S j) = y j) by lra. rewrite H in C. assert (0 <= y j * y j) by apply Rle_0_sqr. lra.
Qed.
Lemma cross_weights : forall j, crosses j -> 0 < y (S j) * (y (S j) - y j) /\ 0 < - y j * (y (S j) - y j) /\ 0 < y j * y j + y (S j) * y (S j) - 2 * (y j * y (S j)).
Proof. intros j C. unfold crosses in C. assert (0 <= y j * y j) by apply Rle_0_sqr. assert (0 <= y (S j) * y (S j)) by apply Rle_0_sqr. 
  assert (y (S j) <> 0) by apply Y0. assert (y j <> 0) by apply Y0. repeat split; try lra; nra. Qed.
Lemma side_le : forall i j, crosses j -> 0 <= s * ((y (S i) - y i) * x i - y i * (x (S i) - x i) - (y (S i) - y i) * icpt j).
Proof.
  intros i j C. destruct (cross_weights j C) as (W1 & W2 & W3). assert (E := icpt_side i j C). assert (A := conv_le i j). assert (B := conv_le i (S j)).
  assert (A' := Rmult_le_pos _ _ (Rlt_le _ _ W1) A). assert (B' := Rmult_le_pos _ _ (Rlt_le _ _ W2) B). nra.
Qed.
Lemma side_lt : forall i j, (i < n)%nat -> (j < n)%nat -> i <> j -> crosses i -> crosses j -> 0 < s * ((y (S i) - y i) * (icpt i - icpt j)).
Proof.
  intros i j I J D C C'. destruct (cross_weights j C') as (W1 & W2 & W3). assert (E := icpt_side i j C').
  assert (F := icpt_cr i C). unfold cr in F.
  assert (A := conv_le i j). assert (B := conv_le i (S j)).
  assert (A' := Rmult_le_pos _ _ (Rlt_le _ _ W1) A). assert (B' := Rmult_le_pos _ _ (Rlt_le _ _ W2) B).
  replace (s * ((y (S i) - y i) * x i - y i * (x (S i) - x i) - (y (S i) - y i) * icpt j)) with (s * ((y (S i) - y i) * (icpt i - icpt j))) in E by (f_equal; lra).
  destruct (conv_lt i j I J D) as [G|G].
  - assert (G' := Rmult_lt_0_compat _ _ W1 G). nra.
  - assert (G' := Rmult_lt_0_compat _ _ W2 G). nra.
Qed.
Lemma up_unique : forall i j, (i < n)%nat -> (j < n)%nat -> up i -> up j -> i = j.
Proof.
  intros i j I J U V. destruct (Nat.eq_dec i j) as [|D]; [ assumption | exfalso ].
  assert (A := side_lt i j I J D (up_crosses i U) (up_crosses j V)). assert (B := side_lt j i J I (not_eq_sym D) (up_crosses j V) (up_crosses i U)).
  unfold up in *. assert (0 < y (S i) - y i) by lra. assert (0 < y (S j) - y j) by lra. destruct S1 as [-> | ->]; nra.
Qed.
Lemma dn_unique : forall i j, (i < n)%nat -> (j < n)%nat -> dn i -> dn j -> i = j.
Proof.
  intros i j I J U V. destruct (Nat.eq_dec i j) as [|D]; [ assumption | exfalso ].
  assert (A := side_lt i j I J D (dn_crosses i U) (dn_crosses j V)). assert (B := side_lt j i J I (not_eq_sym D) (dn_crosses j V) (dn_crosses i U)).
  unfold dn in *. assert (0 < y i - y (S i)) by lra. assert (0 < y j - y (S j)) by lra. destruct S1 as [-> | ->]; nra.
Qed.
Lemma up_dn_order : forall i j, (i < n)%nat -> (j < n)%nat -> up i -> dn j -> i <> j /\ 0 < s * (icpt i - icpt j).
Proof.
  intros i j I J U V. assert (D : i <> j) by (intros ->; unfold up, dn in *; lra). split; [ exact D | ].
  assert (A := side_lt i j I J D (up_crosses i U) (dn_crosses j V)). unfold up in U. assert (0 < y (S i) - y i) by lra. destruct S1 as [-> | ->]; nra.
Qed.

(** If there are vertices on both sides, there are an upward and a downward edge. *)
Lemma ivt_up : forall m k, y k < 0 -> 0 < y (k + m)%nat -> exists i, up i.
Proof.
  induction m; intros k A B; [ rewrite Nat.add_0_r in B; lra | ].
  destruct (Rtotal_order (y (S k)) 0) as [H|[H|H]].
  - apply (IHm (S k) H). replace (S k + m)%nat with (k + S m)%nat by lia. exact B.
  - destruct (Y0 _ H).
  - exists k. now split.
Qed.
Lemma ivt_dn : forall m k, 0 < y k -> y (k + m)%nat < 0 -> exists i, dn i.
Proof.
  induction m; intros k A B; [ rewrite Nat.add_0_r in B; lra | ].
  destruct (Rtotal_order (y (S k)) 0) as [H|[H|H]].
  - exists k. now split.
  - destruct (Y0 _ H).
  - apply (IHm (S k) H). replace (S k + m)%nat with (k + S m)%nat by lia. exact B.
Qed.
Lemma wrap : forall a b, exists m, y (a + m)%nat = y b.
Proof.
  intros a b. exists ((a * n - a) + b)%nat. rewrite PY, (PY b). f_equal. replace (a + (a * n - a + b))%nat with (b + a * n)%nat by nia.
  apply Nat.mod_add. lia.
Qed.
Lemma both_sides : forall k k', y k < 0 -> 0 < y k' -> (exists i, (i < n)%nat /\ up i) /\ (exists j, (j < n)%nat /\ dn j).
Proof.
  intros k k' A B. split.
  - destruct (wrap k k') as (m & E). destruct (ivt_up m k A) as (i & U); [ now rewrite E | ]. exists (i mod n)%nat. split; [ apply mod_lt | ].
    unfold up in *. now rewrite PSy, <- PY.
  - destruct (wrap k' k) as (m & E). destruct (ivt_dn m k' B) as (i & U); [ now rewrite E | ]. exists (i mod n)%nat. split; [ apply mod_lt | ].
    unfold dn in *. now rewrite PSy, <- PY.
Qed.
(** Every line that contains a point of the polygon has vertices on both sides. *)
Lemma same_side_absurd : forall e, (e = 1 \/ e = -1) -> (forall i, 0 < e * y i) -> (forall i, 0 <= s * cr i (S i)) -> False.
Proof.
  intros e E H C. set (w i := s * (x i / y i)).
  assert (D : forall i, w (S i) <= w i).
  { intros i. unfold w. assert (A := H i). assert (B := H (S i)). assert (F := C i). unfold cr in F.
    assert (P : 0 < y i * y (S i)). { replace (y i * y (S i)) with (e * y i * (e * y (S i))). nra. destruct E as [-> | ->]; ring. }
    apply Rmult_le_reg_r with (y i * y (S i)); [ exact P | ].
    replace (s * (x (S i) / y (S i)) * (y i * y (S i))) with (s * (x (S i) * y i)) by (field; apply Y0).
    replace (s * (x i / y i) * (y i * y (S i))) with (s * (x i * y (S i))) by (field; apply Y0). lra. }
  assert (M : forall m i, w (i + m)%nat <= w i).
  { induction m; intros i; [ rewrite Nat.add_0_r; lra | ]. rewrite Nat.add_succ_r. specialize (IHm i). specialize (D (i + m)%nat). lra. }
  assert (W : forall i, (i <= n)%nat -> w i = w 0%nat).
  { intros i L. assert (A := M i 0%nat). cbn in A. assert (B := M (n - i)%nat i). replace (i + (n - i))%nat with n in B by lia.
    assert (Z : w n = w 0%nat). { unfold w. rewrite (PX n), (PY n), Nat.mod_same by lia. reflexivity. } rewrite Z in B. lra. }
  assert (K : forall i, (i <= n)%nat -> x i = (x 0%nat / y 0%nat) * y i).
  { intros i L. specialize (W i L). unfold w in W. assert (x i / y i = x 0%nat / y 0%nat) by (destruct S1 as [-> | ->]; lra). rewrite <- H0. field. apply Y0. }
  assert (O := CONV 0%nat 2%nat). assert (Q : 0 < s * orient 0 1 2). { apply O; try lia. rewrite Nat.mod_small by lia. lia. }
  unfold orient in Q. rewrite (K 1%nat), (K 2%nat) in Q by lia. set (z := x 0%nat / y 0%nat) in *. rewrite (K 0%nat) in Q by lia. 
  replace ((z * y 1%nat - z * y 0%nat) * (y 2%nat - y 0%nat) - (y 1%nat - y 0%nat) * (z * y 2%nat - z * y 0%nat)) with 0 in Q by ring. lra.
Qed.

(** The result of the loop from the results for the edges. *)
Variable e : nat -> Z.
Definition near i : Prop := Rabs (x i) <= / 1000 /\ Rabs (y i) <= / 1000.
Hypothesis EC : forall i, (i < n)%nat -> crosses i ->
  (e i = 1%Z /\ 0 < icpt i) \/ (e i = 0%Z /\ icpt i < 0) \/ (e i = (-1)%Z /\ (near i \/ Rabs (icpt i) <= / 1000)).
Hypothesis EN : forall i, (i < n)%nat -> ~ crosses i -> e i = 0%Z \/ (e i = (-1)%Z /\ near i).
Definition loop_result : bool :=
  if existsb (fun i => (e i =? -1)%Z) (seq 0 n) then true else negb (Z.rem (zsum (map e (seq 0 n))) 2 =? 0)%Z.

Lemma side_dec : (exists k k', y k < 0 /\ 0 < y k') \/ exists d, (d = 1 \/ d = -1) /\ forall i, 0 < d * y i.
Proof.
  assert (D : forall d m, (d = 1 \/ d = -1) -> (exists i, d * y i < 0) \/ forall i, (i < m)%nat -> 0 < d * y i).
  { intros d m E. induction m as [|m IH]; [ right; lia | ]. destruct IH as [IH|IH]; [ now left | ].
    destruct (Rtotal_order (d * y m) 0) as [H|[H|H]].
    - left. eauto.
    - exfalso. apply (Y0 m). destruct E as [-> | ->]; lra.
    - right. intros i L. destruct (Nat.eq_dec i m) as [->|]; [ exact H | apply IH; lia ]. }
  destruct (D 1 n) as [(k & K)|P]; [ now left | | right; exists 1; split; [ now left | intros i; rewrite PY; apply P, mod_lt ] ].
  destruct (D (-1) n) as [(k' & K')|P]; [ now right | | right; exists (-1); split; [ now right | intros i; rewrite PY; apply P, mod_lt ] ].
  left. exists k, k'. lra.
Qed.
Lemma not_minus : existsb (fun i => (e i =? -1)%Z) (seq 0 n) = false -> forall i, (i < n)%nat -> e i <> (-1)%Z.
Proof.
  intros H i I E. assert (existsb (fun i => (e i =? -1)%Z) (seq 0 n) = true). { apply existsb_exists. exists i. split; [ apply in_seq; lia | now rewrite E ]. } congruence.
Qed.
Lemma sum_crossing : (forall i, (i < n)%nat -> e i <> (-1)%Z) -> forall i j, (i < n)%nat -> (j < n)%nat -> up i -> dn j -> zsum (map e (seq 0 n)) = (e i + e j)%Z.
Proof.
  intros H i j I J U V. apply zsum_map2; try (apply in_seq; lia). { apply seq_NoDup. } { now apply up_dn_order. }
  intros k K D1 D2. apply in_seq in K. assert (L : (k < n)%nat) by lia.
  destruct (EN k L) as [|[F _]]; auto.
  - intros C. destruct (crosses_cases k C) as [W|W]; [ apply D1; now apply up_unique | apply D2; now apply dn_unique ].
  - destruct (H k L F).
Qed.
Lemma loop_inside : (forall i, 0 <= s * cr i (S i)) -> loop_result = true.
Proof.
  intros C. unfold loop_result. destruct (existsb _ _) eqn:X; [ reflexivity | ]. assert (M := not_minus X).
  destruct side_dec as [(k & k' & A & B)|(d & D & P)]; [ | destruct (same_side_absurd d D P C) ].
  destruct (both_sides k k' A B) as [(i & I & U) (j & J & V)]. rewrite (sum_crossing M i j I J U V).
  assert (CI := icpt_cr i (up_crosses i U)). assert (CJ := icpt_cr j (dn_crosses j V)). assert (Pi := C i). assert (Pj := C j). rewrite <- CI in Pi. rewrite <- CJ in Pj.
  unfold up in U. unfold dn in V. assert (0 < y (S i) - y i) by lra. assert (0 < y j - y (S j)) by lra.
  assert (SI : 0 <= s * icpt i) by (destruct S1 as [-> | ->]; nra). assert (SJ : s * icpt j <= 0) by (destruct S1 as [-> | ->]; nra).
  destruct (EC i I (up_crosses i U)) as [[E1 E2]|[[E1 E2]|[E1 E2]]]; [ | | destruct (M i I E1) ];
  destruct (EC j J (dn_crosses j V)) as [[F1 F2]|[[F1 F2]|[F1 F2]]]; try (destruct (M j J F1)); rewrite E1, F1; try reflexivity;
  exfalso; destruct S1 as [-> | ->]; lra.
Qed.
Lemma loop_outside : (forall i, (i < n)%nat -> ~ near i /\ (crosses i -> / 1000 < Rabs (icpt i))) -> (exists k, s * cr k (S k) < 0) -> loop_result = false.
Proof.
  intros F (k & K).
  assert (M : forall i, (i < n)%nat -> e i <> (-1)%Z).
  { intros i I E. destruct (F i I) as [F1 F2]. destruct (Rlt_dec (y i * y (S i)) 0) as [C|C].
    - destruct (EC i I C) as [[E1 _]|[[E1 _]|[_ [E1|E1]]]]; try congruence; try contradiction. specialize (F2 C). lra.
    - destruct (EN i I C) as [E1|[_ E1]]; [ congruence | contradiction ]. }
  unfold loop_result. replace (existsb _ _) with false.
  2: { symmetry. apply not_true_iff_false. intros E. apply existsb_exists in E as (i & I & E). apply Z.eqb_eq in E. apply in_seq in I. apply (M i); [ lia | exact E ]. }
  destruct side_dec as [(k0 & k' & A & B)|(d & D & P)].
  - destruct (both_sides k0 k' A B) as [(i & I & U) (j & J & V)]. rewrite (sum_crossing M i j I J U V).
    destruct (up_dn_order i j I J U V) as [_ O]. assert (CI := side_le k i (up_crosses i U)). assert (CJ := side_le k j (dn_crosses j V)).
    assert (Z : ~ (0 < s * icpt i /\ s * icpt j < 0)).
    { intros [Z1 Z2]. unfold cr in K. set (a := icpt i) in *. set (b := icpt j) in *. set (dy := y (S k) - y k) in *.
      set (c := s * (dy * x k - y k * (x (S k) - x k))) in *. assert (CK : c < 0) by (unfold c, dy in *; lra).
      assert (C1 : 0 <= c - dy * (s * a)) by (unfold c; lra). assert (C2 : 0 <= c - dy * (s * b)) by (unfold c; lra).
      destruct (Rle_dec 0 dy) as [G|G]; [ assert (0 <= dy * (s * a)) by nra; lra | assert (0 <= dy * (s * b)) by nra; lra ]. }
    destruct (EC i I (up_crosses i U)) as [[E1 E2]|[[E1 E2]|[E1 E2]]]; [ | | destruct (M i I E1) ];
    destruct (EC j J (dn_crosses j V)) as [[F1 F2]|[[F1 F2]|[F1 F2]]]; try (destruct (M j J F1)); rewrite E1, F1; try reflexivity;
    exfalso; destruct S1 as [-> | ->]; first [ apply Z; lra | lra ].
  - rewrite zsum_map0; [ reflexivity | ]. intros i I. apply in_seq in I. assert (L : (i < n)%nat) by lia. destruct (EN i L) as [|[E _]]; auto; [ | destruct (M i L E) ].
    unfold crosses. assert (Q1 := P i). assert (Q2 := P (S i)). intros C. destruct D as [-> | ->]; nra.
Qed.
End Poly.
