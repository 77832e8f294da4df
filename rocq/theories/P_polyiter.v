(** Proofs: iterating over the vertices of a polygon. *)
From Coq Require Import List Arith Lia.
From Verif Require Import Ops M_vec M_polyiter.
Import ListNotations.

Section Iter.
Context {A : Type}.
Lemma iterate_from : forall n (p q : list A), n = length q ->
  pg_iterate n (p ++ q) (length p) (length (p ++ q)) = Ret q.
Proof.
  intros n; induction n as [|n IH]; intros p q L; destruct q as [|v q]; try discriminate; cbn [pg_iterate].
  - rewrite app_nil_r, Nat.eqb_refl; reflexivity.
  - replace (length p =? length (p ++ v :: q))%nat with false
      by (symmetry; apply Nat.eqb_neq; rewrite app_length; cbn; lia).
    unfold arr_get. rewrite nth_error_app2, Nat.sub_diag by lia; cbn [nth_error bind].
    specialize (IH (p ++ [v]) q ltac:(cbn in L; lia)).
    rewrite <- app_assoc in IH; cbn [app] in IH. rewrite app_length in IH at 1; cbn [length] in IH.
    rewrite Nat.add_1_r in IH. rewrite IH; reflexivity.
Qed.
Lemma iterate_all : forall p : list A, pg_iterate (length p) p 0 (length p) = Ret p.
Proof. intros p; exact (iterate_from (length p) [] p eq_refl). Qed.
Lemma iterate_more : forall n m (p : list A) i j l, pg_iterate n p i j = Ret l -> n <= m -> pg_iterate m p i j = Ret l.
Proof.
  intros n; induction n as [|n IH]; intros m p i j l; cbn [pg_iterate].
  - destruct (i =? j)%nat eqn:E; [|discriminate]. intros H _; destruct m; cbn [pg_iterate]; rewrite E; exact H.
  - destruct (i =? j)%nat eqn:E.
    + intros H _; destruct m; cbn [pg_iterate]; rewrite E; exact H.
    + intros H L. destruct m as [|m]; [lia|]. cbn [pg_iterate]; rewrite E.
      destruct (arr_get p i) as [v| | |]; cbn [bind] in *; try discriminate.
      destruct (pg_iterate n p (S i) j) as [vs| | |] eqn:V; cbn [bind] in H; try discriminate.
      rewrite (IH m p (S i) j vs V) by lia. exact H.
Qed.

Lemma forward : forall n (p : list A), length p <= n -> pg_iterate n p (pg_begin p) (pg_end p) = Ret p.
Proof. intros n p L; exact (iterate_more _ _ _ _ _ _ (iterate_all p) L). Qed.
Lemma reverse : forall n (p : list A), length p <= n -> pg_iterate n p (pg_rbegin p) (pg_rend p) = Ret p.
Proof. intros n p L; exact (iterate_more _ _ _ _ _ _ (iterate_all p) L). Qed.
Lemma reverse_wrong : forall (p : list A) v w q, p = v :: q ++ [w] -> v <> w ->
  forall n l, pg_iterate n p (pg_rbegin p) (pg_rend p) = Ret l -> l <> rev p.
Proof.
  intros p v w q E N n l H R.
  pose proof (iterate_more _ (n + length p) _ _ _ _ H ltac:(lia)) as H1.
  rewrite (reverse (n + length p) p ltac:(lia)) in H1. injection H1 as H1. rewrite R, E in H1.
  cbn [rev] in H1. rewrite rev_app_distr in H1. cbn in H1. congruence.
Qed.
Lemma reverse_same : forall (p : list A), p = rev p -> forall n, length p <= n -> pg_iterate n p (pg_rbegin p) (pg_rend p) = Ret (rev p).
Proof. intros p E n L. rewrite <- E. exact (reverse n p L). Qed.
End Iter.
