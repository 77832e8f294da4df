(** Proofs about the sort of constexpr_util.h. *)
From Coq Require Import ZArith List Bool Arith Lia Permutation Sorted.
From Verif Require Import Ops M_scalar M_vec.
Import ListNotations.

Section Arr.
Context {A : Type}.
Lemma arr_get_app : forall (a b : list A) x, arr_get (a ++ x :: b) (length a) = Ret x.
Proof.
  intros a b x. unfold arr_get.
  rewrite nth_error_app2 by lia. now rewrite Nat.sub_diag.
Qed.
Lemma upd_app : forall (a b : list A) x y, upd (a ++ x :: b) (length a) y = a ++ y :: b.
Proof. induction a; simpl; intros; [ reflexivity | now rewrite IHa ]. Qed.
Lemma upd_length : forall (l : list A) i x, length (upd l i x) = length l.
Proof. induction l; intros [|i] x; simpl; auto. Qed.

Lemma arr_swap_diag : forall (a b : list A) x, arr_swap (a ++ x :: b) (length a) (length a) = Ret (a ++ x :: b).
Proof.
  intros a b x. unfold arr_swap. rewrite arr_get_app. simpl.
  now rewrite !upd_app.
Qed.
Lemma arr_swap_app : forall (a b c : list A) x y,
  arr_swap (a ++ x :: b ++ y :: c) (length a) (length a + S (length b)) = Ret (a ++ y :: b ++ x :: c).
Proof.
  intros a b c x y. unfold arr_swap. rewrite arr_get_app. simpl bind.
  assert (E : a ++ x :: b ++ y :: c = (a ++ x :: b) ++ y :: c) by (now rewrite <- app_assoc).
  assert (L : forall z, length a + S (length b) = length (a ++ z :: b)) by (intros; now rewrite app_length).
  rewrite E, (L x) at 1. rewrite arr_get_app. simpl bind.
  rewrite upd_app.
  replace (a ++ y :: b ++ y :: c) with ((a ++ y :: b) ++ y :: c) by (now rewrite <- app_assoc).
  rewrite (L y), upd_app. now rewrite <- app_assoc.
Qed.
End Arr.

Section Sort.
Context {A : Type} (cmp : A -> A -> bool).

Lemma sort_partition_spec : forall R a p L G b,
  Forall (fun x => cmp x p = true) L -> Forall (fun x => cmp x p = false) G ->
  exists L' G',
    sort_partition cmp (length R) (length a) (length a + length L)
      (S (length a + length L + length G)) (a ++ p :: L ++ G ++ R ++ b)
    = Ret (length a + length L', a ++ p :: L' ++ G' ++ b)
    /\ Permutation (L' ++ G') (L ++ G ++ R)
    /\ Forall (fun x => cmp x p = true) L' /\ Forall (fun x => cmp x p = false) G'.
Proof.
  induction R as [|x R IH]; intros a p L G b HL HG.
  - exists L, G. simpl. rewrite app_nil_r. auto.
  - simpl length. cbn [sort_partition].
    assert (Ei : a ++ p :: L ++ G ++ (x :: R) ++ b = (a ++ p :: L ++ G) ++ x :: R ++ b).
    { rewrite <- !app_assoc. simpl. now rewrite <- app_assoc. }
    assert (Li : S (length a + length L + length G) = length (a ++ p :: L ++ G)).
    { rewrite app_length. simpl. rewrite app_length. lia. }
    assert (G1 : arr_get (a ++ p :: L ++ G ++ (x :: R) ++ b) (S (length a + length L + length G)) = Ret x)
      by (rewrite Ei, Li; apply arr_get_app).
    rewrite G1. cbn [bind].
    rewrite arr_get_app. cbn [bind].
    destruct (cmp x p) eqn:C.
    + (* swap x to the end of L *)
      destruct G as [|g G].
      * assert (S1 : arr_swap (a ++ p :: L ++ [] ++ (x :: R) ++ b) (S (length a + length L))
                       (S (length a + length L + length (@nil A)))
                     = Ret (a ++ p :: (L ++ [x]) ++ [] ++ R ++ b)).
        { simpl length. rewrite Nat.add_0_r.
          assert (L1 : S (length a + length L) = length (a ++ p :: L)) by (rewrite app_length; simpl; lia).
          rewrite L1.
          replace (a ++ p :: L ++ [] ++ (x :: R) ++ b) with ((a ++ p :: L) ++ x :: R ++ b)
            by (rewrite <- app_assoc; reflexivity).
          rewrite arr_swap_diag. f_equal. rewrite <- !app_assoc. reflexivity. }
        rewrite S1. cbn [bind].
        destruct (IH a p (L ++ [x]) [] b) as (L' & G' & E & P & F1 & F2).
        { apply Forall_app; auto. } { constructor. }
        exists L', G'. split; [ | split; [ | auto ] ].
        -- rewrite <- E. f_equal; rewrite ?app_length; simpl; lia.
        -- rewrite P. rewrite <- app_assoc. reflexivity.
      * assert (S1 : arr_swap (a ++ p :: L ++ (g :: G) ++ (x :: R) ++ b) (S (length a + length L))
                       (S (length a + length L + length (g :: G)))
                     = Ret (a ++ p :: (L ++ [x]) ++ (G ++ [g]) ++ R ++ b)).
        { assert (L1 : S (length a + length L) = length (a ++ p :: L)) by (rewrite app_length; simpl; lia).
          replace (S (length a + length L + length (g :: G))) with (length (a ++ p :: L) + S (length G))
            by (simpl; lia).
          rewrite L1.
          replace (a ++ p :: L ++ (g :: G) ++ (x :: R) ++ b) with ((a ++ p :: L) ++ g :: G ++ x :: R ++ b)
            by (rewrite <- app_assoc; reflexivity).
          rewrite arr_swap_app. f_equal. rewrite <- !app_assoc. reflexivity. }
        rewrite S1. cbn [bind].
        destruct (IH a p (L ++ [x]) (G ++ [g]) b) as (L' & G' & E & P & F1 & F2).
        { apply Forall_app; auto. }
        { inversion_clear HG. apply Forall_app; auto. }
        exists L', G'. split; [ | split; [ | auto ] ].
        -- rewrite <- E. f_equal; rewrite ?app_length; simpl; lia.
        -- rewrite P. rewrite <- !app_assoc. simpl.
           apply Permutation_app_head.
           change (x :: G ++ g :: R) with ((x :: G) ++ g :: R).
           change (g :: G ++ x :: R) with ((g :: G) ++ x :: R).
           rewrite <- (Permutation_middle (x :: G) R g), <- (Permutation_middle (g :: G) R x).
           simpl. constructor 3.
    + destruct (IH a p L (G ++ [x]) b HL) as (L' & G' & E & P & F1 & F2).
      { apply Forall_app; auto. }
      exists L', G'. split; [ | split; [ | auto ] ].
      * rewrite <- E. rewrite app_length. simpl.
        f_equal; [ lia | rewrite <- !app_assoc; reflexivity ].
      * rewrite P. rewrite <- !app_assoc. reflexivity.
Qed.

(** [not_above x y]: y is not less than x *)
Definition not_above (x y : A) : Prop := cmp y x = false.

Hypothesis irrefl : forall x, cmp x x = false.
Hypothesis trans : forall x y z, cmp x y = true -> cmp y z = true -> cmp x z = true.

Lemma asym : forall x y, cmp x y = true -> cmp y x = false.
Proof.
  intros x y H. destruct (cmp y x) eqn:E; auto.
  rewrite <- (irrefl x). symmetry. eauto.
Qed.

Lemma StronglySorted_app : forall (R : A -> A -> Prop) l1 l2,
  StronglySorted R l1 -> StronglySorted R l2 ->
  (forall x y, In x l1 -> In y l2 -> R x y) -> StronglySorted R (l1 ++ l2).
Proof.
  induction l1 as [|x l1 IH]; simpl; intros l2 H1 H2 H; auto.
  inversion_clear H1. constructor.
  - apply IH; auto.
  - apply Forall_app. split; auto. apply Forall_forall. auto.
Qed.
End Sort.

Section Main.
Context {A : Type} (cmp : A -> A -> bool).

(** Termination, memory safety and permutation need nothing of the comparator. *)
Lemma sort_range : forall fuel a m b, length m <= fuel ->
  exists m',
    sort cmp fuel (length a) (length a + length m) (a ++ m ++ b) = Ret (a ++ m' ++ b)
    /\ Permutation m m'
    /\ ((forall x, cmp x x = false) ->
        (forall x y z, cmp x y = true -> cmp y z = true -> cmp x z = true) ->
        StronglySorted (fun x y => cmp y x = false) m').
Proof.
  induction fuel as [|fuel IH]; intros a m b Hf.
  - destruct m; simpl in Hf; [ | lia ]. exists []. simpl. rewrite Nat.add_0_r.
    rewrite Nat.ltb_irrefl. split; [ reflexivity | split; [ auto | intros; constructor ] ].
  - destruct m as [|p R].
    { exists []. simpl. rewrite Nat.add_0_r. rewrite Nat.ltb_irrefl.
      split; [ reflexivity | split; [ auto | intros; constructor ] ]. }
    cbn [sort].
    replace (length a <? length a + length (p :: R)) with true
      by (symmetry; apply Nat.ltb_lt; simpl; lia).
    replace (length a + length (p :: R) - S (length a)) with (length R) by (simpl; lia).
    destruct (sort_partition_spec cmp R a p [] [] b) as (L & G & E & P & F1 & F2); auto.
    simpl app in E. simpl length in E. rewrite !Nat.add_0_r in E.
    simpl app. rewrite E. clear E. cbn [bind fst snd].
    (* swap the pivot in place *)
    assert (exists L2, arr_swap (a ++ p :: L ++ G ++ b) (length a) (length a + length L)
                       = Ret (a ++ L2 ++ (p :: G ++ b)) /\ Permutation L L2) as (L2 & E & P2).
    { destruct L as [|z L1] using rev_ind.
      - exists []. simpl. rewrite Nat.add_0_r, arr_swap_diag. split; [ reflexivity | constructor ].
      - exists (z :: L1). rewrite app_length. simpl.
        replace (length L1 + 1) with (S (length L1)) by lia.
        replace (a ++ p :: (L1 ++ [z]) ++ G ++ b) with (a ++ p :: L1 ++ z :: G ++ b)
          by (rewrite <- app_assoc; reflexivity).
        rewrite arr_swap_app. split; [ reflexivity | ].
        symmetry. apply Permutation_cons_append. }
    rewrite E. clear E. cbn [bind].
    assert (LL : length L = length L2) by (now apply Permutation_length).
    assert (LR : length L + length G = length R).
    { rewrite <- app_length. now apply Permutation_length. }
    simpl in Hf. rewrite LL.
    destruct (IH a L2 (p :: G ++ b)) as (L3 & E3 & P3 & S3); [ lia | ].
    rewrite E3. clear E3. cbn [bind].
    assert (LL3 : length L2 = length L3) by (now apply Permutation_length).
    destruct (IH (a ++ L3 ++ [p]) G b) as (G3 & E4 & P4 & S4); [ lia | ].
    rewrite !app_length in E4. simpl in E4.
    replace (a ++ L3 ++ p :: G ++ b) with ((a ++ L3 ++ [p]) ++ G ++ b)
      by (rewrite <- !app_assoc; reflexivity).
    replace (S (length a + length L2)) with (length a + (length L3 + 1)) by lia.
    replace (length a + length (p :: R)) with (length a + (length L3 + 1) + length G) by (simpl; lia).
    rewrite E4.
    exists (L3 ++ p :: G3). split; [ | split ].
    + now rewrite <- !app_assoc.
    + transitivity (p :: L ++ G); [ constructor; now symmetry | ].
      transitivity (p :: L3 ++ G3); [ constructor; apply Permutation_app; auto; now transitivity L2 | ].
      apply Permutation_middle.
    + intros irr tr.
      assert (F1' : Forall (fun x => cmp x p = true) L3).
      { eapply Permutation_Forall; [ | exact F1 ]. now transitivity L2. }
      assert (F2' : Forall (fun x => cmp x p = false) G3).
      { eapply Permutation_Forall; [ | exact F2 ]. auto. }
      rewrite Forall_forall in F1', F2'.
      apply StronglySorted_app.
      * auto.
      * constructor; auto. now apply Forall_forall.
      * intros x y Hx [<-|Hy].
        -- apply (asym cmp irr tr). auto.
        -- destruct (cmp y x) eqn:C; auto.
           rewrite <- (F2' y Hy). symmetry. apply (tr y x p); auto.
Qed.

Lemma sort_all : forall l,
  exists l', sort cmp (length l) 0 (length l) l = Ret l' /\ Permutation l l'
    /\ ((forall x, cmp x x = false) ->
        (forall x y z, cmp x y = true -> cmp y z = true -> cmp x z = true) ->
        StronglySorted (fun x y => cmp y x = false) l').
Proof.
  intros l. destruct (sort_range (length l) [] l [] (le_n _)) as (m & E & P & S).
  simpl in E. rewrite !app_nil_r in E. exists m. auto.
Qed.
End Main.
