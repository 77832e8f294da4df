(** LUP decomposition: loop invariant, correctness of the solver and of inversion, and what a
    reported failure means. *)
From Coq Require Import ZArith Reals List Bool Lra Lia Arith Permutation.
From Flocq Require Import Core.
From Verif Require Import Ops M_scalar M_vec M_mat Inst_XR P_xr S_vec S_mat P_vec P_mat P_mat2.
Import ListNotations.
Local Open Scope R_scope.

(** [m] is the n x n matrix of finite numbers f (row, column). *)
Definition rep (n : nat) (m : list (list XR)) (f : nat -> nat -> R) : Prop :=
  is_mat n n m /\ forall r c, (r < n)%nat -> (c < n)%nat -> mget m c r = Some (f r c).

Lemma rep_mS : forall n A, is_mat n n A -> rep n (mS A) (ent A).
Proof. intros n A H. split; [now apply mS_shape|]. intros. apply mS_get. Qed.
Lemma rep_ext : forall n m f g, (forall r c, (r < n)%nat -> (c < n)%nat -> f r c = g r c) -> rep n m f -> rep n m g.
Proof. intros n m f g H [H1 H2]. split; auto. intros. rewrite <- H; auto. Qed.
Lemma rep_put : forall n m f r c v, rep n m f -> (r < n)%nat -> (c < n)%nat ->
  rep n (mput m c r (Some v)) (fun r' c' => if (Nat.eqb r' r && Nat.eqb c' c)%bool then v else f r' c').
Proof.
  intros n m f r c v [H1 H2] Hr Hc. split.
  - now apply mput_shape.
  - intros r' c' Hr' Hc'. rewrite (mput_get n n) by auto. rewrite andb_comm.
    destruct (Nat.eqb r' r && Nat.eqb c' c)%bool; auto.
Qed.

Ltac natcase := repeat (match goal with
  | |- context [Nat.ltb ?a ?b] => destruct (Nat.ltb_spec a b)
  | |- context [Nat.eqb ?a ?b] => destruct (Nat.eqb_spec a b)
  | |- context [Nat.leb ?a ?b] => destruct (Nat.leb_spec a b)
  end; simpl; try lia).

(** ** Pivot *)
Lemma pivot_spec : forall n k m f, rep n m f -> (k < n)%nat ->
  exists p k', lup_pivot n k m = (Some p, k') /\ 0 <= p /\
    (0 < p -> (k <= k' < n)%nat /\ p = Rabs (f k' k)) /\
    forall i, (k <= i < n)%nat -> Rabs (f i k) <= p.
Proof.
  intros n k m f [_ H] Hk. unfold lup_pivot.
  set (I := fun i (s : XR * nat) => exists p k', s = (Some p, k') /\ 0 <= p /\
    (0 < p -> (k <= k' < n)%nat /\ p = Rabs (f k' k)) /\
    forall j, (k <= j < i)%nat -> Rabs (f j k) <= p).
  assert (HI : I (k + (n - k))%nat (for_loop (n - k) k (fun i pk =>
    if o_lt (fst pk) (sc_abs (mget m k i)) then (sc_abs (mget m k i), i) else pk) (cst 0, 0%nat))).
  { apply for_ind.
    - exists 0, 0%nat. repeat split; try lra. intros; lia.
    - intros i s Hi (p & k' & -> & Hp & Hk' & Hj). rewrite H by lia. rewrite X_abs. simpl.
      destruct (Rlt_bool_spec p (Rabs (f i k))) as [L|L].
      + exists (Rabs (f i k)), i. repeat split; auto; try lra; try lia. intros j Hjj.
        destruct (Nat.eq_dec j i) as [-> |]; [lra|]. apply Rle_trans with p; [apply Hj; lia|lra].
      + exists p, k'. repeat split; auto; try apply Hk'; auto. intros j Hjj.
        destruct (Nat.eq_dec j i) as [-> |]; [lra|]. apply Hj; lia. }
  destruct HI as (p & k' & E & H1 & H2 & H3). exists p, k'. repeat split; auto; try (apply H2; auto).
  intros i Hi. apply H3. lia.
Qed.

(** ** Row swap *)
Definition sw (k k' r : nat) : nat := if Nat.eqb r k then k' else if Nat.eqb r k' then k else r.

Lemma swap_rows_spec : forall n k k' m f, rep n m f -> (k < n)%nat -> (k' < n)%nat ->
  rep n (lup_swap_rows n k k' m) (fun r c => f (sw k k' r) c).
Proof.
  intros n k k' m f H Hk Hk'. unfold lup_swap_rows.
  set (I := fun i (m' : list (list XR)) => rep n m' (fun r c => if Nat.ltb c i then f (sw k k' r) c else f r c)).
  assert (HI : I (0 + n)%nat (for_loop n 0 (fun i a =>
    let x := mget a i k in
    let y := mget a i k' in
    mput (mput a i k y) i k' x) m)).
  { apply for_ind.
    - unfold I. eapply rep_ext; [|exact H]. intros. destruct (Nat.ltb_spec c 0); auto; lia.
    - intros i s Hi Hs. cbv zeta.
      rewrite (proj2 Hs) by lia. rewrite (proj2 Hs) by lia.
      eapply rep_ext.
      2: { apply rep_put; [apply rep_put; [exact Hs|lia|lia]|lia|lia]. }
      intros r c Hr Hc. simpl. unfold sw. natcase; subst; auto; lia. }
  eapply rep_ext; [|exact HI]. intros. simpl. destruct (Nat.ltb_spec c n); auto; lia.
Qed.

(** ** Elimination *)
Definition elim (k : nat) (f : nat -> nat -> R) (r c : nat) : R :=
  if Nat.ltb k r then
    if Nat.eqb c k then f r k / f k k
    else if Nat.ltb k c then f r c - f r k / f k k * f k c
    else f r c
  else f r c.

Lemma eliminate_spec : forall n k m f, rep n m f -> (k < n)%nat -> f k k <> 0 ->
  rep n (lup_eliminate n k m) (elim k f).
Proof.
  intros n k m f H Hk H0. unfold lup_eliminate.
  set (I := fun i (m' : list (list XR)) => rep n m' (fun r c => if Nat.ltb r i then elim k f r c else f r c)).
  match goal with |- rep n ?loop _ => assert (HI : I ((k + 1) + (n - (k + 1)))%nat loop) end.
  { apply for_ind.
    - unfold I. eapply rep_ext; [|exact H]. intros. unfold elim. natcase; auto.
    - intros i s Hi Hs.
      rewrite (proj2 Hs) by lia. rewrite (proj2 Hs) by lia.
      replace (if Nat.ltb i i then elim k f i k else f i k) with (f i k) by (natcase; auto).
      replace (if Nat.ltb k i then elim k f k k else f k k) with (f k k) by (unfold elim; natcase; auto).
      rewrite X_div by auto. cbv zeta.
      pose proof (rep_put n s _ i k (f i k / f k k) Hs ltac:(lia) ltac:(lia)) as Hs1.
      set (s1 := mput s k i (Some (f i k / f k k))) in *. clearbody s1.
      set (J := fun j (m' : list (list XR)) => rep n m' (fun r c =>
        if Nat.ltb r i then elim k f r c
        else if (Nat.eqb r i && Nat.ltb c j)%bool then elim k f r c else f r c)).
      match goal with |- I _ ?loop => assert (HJ : J ((k + 1) + (n - (k + 1)))%nat loop) end.
      { apply for_ind.
        - unfold J. eapply rep_ext; [|exact Hs1]. intros r c Hr Hc. simpl. unfold elim. natcase; subst; auto.
        - intros j s2 Hj Hs2.
          rewrite (proj2 Hs2) by lia. rewrite (proj2 Hs2) by lia. rewrite (proj2 Hs2) by lia.
          replace (o_sub _ _) with (Some (f i j - f i k / f k k * f k j)).
          2: { unfold elim. natcase; simpl; auto. }
          eapply rep_ext; [|apply rep_put; [exact Hs2|lia|lia]].
          intros r c Hr Hc. simpl. unfold elim. natcase; subst; auto; try lia. }
      eapply rep_ext; [|exact HJ]. intros r c Hr Hc. simpl. natcase; subst; auto. }
  eapply rep_ext; [|exact HI]. intros r c Hr Hc. simpl. unfold elim. natcase; auto.
Qed.

(** ** The loop invariant *)
Definition lupinv (n k : nat) (A : nat -> nat -> R) (f : nat -> nat -> R) (pi : list nat) : Prop :=
  Permutation pi (seq 0 n) /\
  (forall t, (t < k)%nat -> f t t <> 0) /\
  forall i j, (i < n)%nat -> (j < n)%nat ->
    A (nth i pi 0%nat) j =
      Rsum (Nat.min k (Nat.min i j)) (fun t => f i t * f t j)
      + (if Nat.ltb j (Nat.min i k) then f i j * f j j else f i j).

Lemma swap_nth_nth : forall (l : list nat) i j r, (i < length l)%nat -> (j < length l)%nat ->
  nth r (swap_nth 0%nat i j l) 0%nat = nth (sw i j r) l 0%nat.
Proof.
  intros l i j r Hi Hj. unfold swap_nth, sw.
  rewrite upd_nth by now rewrite upd_length. rewrite upd_nth by auto.
  destruct (Nat.eqb_spec r j), (Nat.eqb_spec r i); subst; auto.
Qed.
Lemma sw_invol : forall i j r, sw i j (sw i j r) = r.
Proof.
  intros. unfold sw. destruct (Nat.eqb_spec r i), (Nat.eqb_spec r j); natcase; congruence.
Qed.
Lemma swap_nth_perm : forall (l : list nat) i j, (i < length l)%nat -> (j < length l)%nat ->
  Permutation l (swap_nth 0%nat i j l).
Proof.
  intros l i j Hi Hj. assert (Hl : length (swap_nth 0%nat i j l) = length l).
  { unfold swap_nth. now rewrite !upd_length. }
  apply (Permutation_nth l (swap_nth 0%nat i j l) 0%nat). split; auto.
  exists (sw i j). split; [|split].
  - intros x Hx. unfold sw. natcase.
  - intros x y _ _ E. rewrite <- (sw_invol i j x), E. apply sw_invol.
  - intros x Hx. now apply swap_nth_nth.
Qed.

Lemma inv_swap : forall n k k' A f pi, lupinv n k A f pi -> (k <= k' < n)%nat ->
  lupinv n k A (fun r c => f (sw k k' r) c) (swap_nth 0%nat k k' pi).
Proof.
  intros n k k' A f pi (H1 & H2 & H3) Hk.
  assert (Hl : length pi = n) by (rewrite (Permutation_length H1); apply seq_length).
  assert (Hsw : forall t, (t < k)%nat -> sw k k' t = t) by (intros t Ht; unfold sw; natcase).
  split; [|split].
  - rewrite <- H1. symmetry. apply swap_nth_perm; lia.
  - intros t Ht. rewrite Hsw by auto. auto.
  - intros i j Hi Hj. rewrite swap_nth_nth by lia. rewrite H3; auto.
    2: { unfold sw. natcase. }
    assert (E : Nat.min k (Nat.min (sw k k' i) j) = Nat.min k (Nat.min i j)).
    { unfold sw. natcase. }
    rewrite E. f_equal.
    + apply Rsum_ext. intros t Ht. rewrite (Hsw t) by lia. reflexivity.
    + assert (E' : Nat.min (sw k k' i) k = Nat.min i k) by (unfold sw; natcase).
      rewrite E'. destruct (Nat.ltb_spec j (Nat.min i k)); auto. rewrite (Hsw j) by lia. reflexivity.
Qed.

Lemma inv_elim : forall n k A f pi, lupinv n k A f pi -> (k < n)%nat -> f k k <> 0 ->
  lupinv n (S k) A (elim k f) pi.
Proof.
  intros n k A f pi (H1 & H2 & H3) Hk Hf. split; [|split]; auto.
  - intros t Ht. unfold elim. natcase. destruct (Nat.eq_dec t k) as [-> |]; auto. apply H2. lia.
  - intros i j Hi Hj. rewrite H3 by auto.
    destruct (Nat.le_gt_cases i k) as [L|L].
    + replace (Nat.min (S k) (Nat.min i j)) with (Nat.min k (Nat.min i j)) by lia.
      f_equal.
      * apply Rsum_ext. intros t Ht. unfold elim. natcase; auto.
      * unfold elim. natcase; auto.
    + destruct (lt_eq_lt_dec j k) as [[J| ->]|J].
      * replace (Nat.min (S k) (Nat.min i j)) with (Nat.min k (Nat.min i j)) by lia.
        f_equal.
        -- apply Rsum_ext. intros t Ht. unfold elim. natcase; auto.
        -- unfold elim. natcase; auto.
      * replace (Nat.min (S k) (Nat.min i k)) with (Nat.min k (Nat.min i k)) by lia.
        f_equal.
        -- apply Rsum_ext. intros t Ht. unfold elim. natcase; auto.
        -- unfold elim. natcase; auto. field. auto.
      * replace (Nat.min (S k) (Nat.min i j)) with (S k) by lia.
        replace (Nat.min k (Nat.min i j)) with k by lia. simpl Rsum.
        rewrite Rplus_assoc. f_equal.
        -- apply Rsum_ext. intros t Ht. unfold elim. natcase; auto.
        -- unfold elim. natcase; auto. field. auto.
Qed.

Lemma inv_start : forall n A, lupinv n 0 A A (seq 0 n).
Proof.
  intros. split; [|split]; auto.
  - intros; lia.
  - intros i j Hi Hj. rewrite seq_nth by auto. simpl. rewrite Nat.min_0_r. simpl. lra.
Qed.

(** A failed pivot search at step k. *)
Definition lupfail (n : nat) (A : nat -> nat -> R) : Prop :=
  exists k f pi, (k < n)%nat /\ lupinv n k A f pi /\
    forall i, (k <= i < n)%nat -> Rabs (f i k) < 1 / 1000000000000000.

Lemma loop_spec : forall j n k m f pi A, rep n m f -> lupinv n k A f pi -> (k + j = n)%nat ->
  match lup_loop j n k m pi with
  | Some (lu, pi') => exists g, rep n lu g /\ lupinv n n A g pi'
  | None => lupfail n A
  end.
Proof.
  induction j as [|j IH]; intros n k m f pi A Hm Hi Hk; simpl.
  - exists f. split; auto. replace k with n in Hi by lia. auto.
  - destruct (pivot_spec n k m f Hm) as (p & k' & -> & Hp & Hp' & Hmax); [lia|].
    rewrite Req_bool_false by (apply IZR_neq; lia). simpl.
    destruct (Rlt_bool_spec p (1 / 1000000000000000)) as [L|L].
    + exists k, f, pi. split; [lia|]. split; auto. intros i Hi'.
      apply Rle_lt_trans with p; auto.
    + assert (P0 : 0 < p) by lra. destruct (Hp' P0) as [Hk' Ep].
      assert (F0 : f k' k <> 0).
      { intros E. rewrite E, Rabs_R0 in Ep. lra. }
      apply IH with (f := elim k (fun r c => f (sw k k' r) c)); try lia.
      * apply eliminate_spec; try lia.
        -- apply swap_rows_spec; auto; lia.
        -- unfold sw. rewrite Nat.eqb_refl. auto.
      * apply inv_elim; try lia.
        -- now apply inv_swap.
        -- unfold sw. rewrite Nat.eqb_refl. auto.
Qed.

(** ** The factors *)
Definition lo_ (g : nat -> nat -> R) (i t : nat) : R := if Nat.ltb t i then g i t else delta i t.
Definition up_ (g : nat -> nat -> R) (t j : nat) : R := if Nat.leb t j then g t j else 0.

Lemma lupinv_final : forall n A g pi, lupinv n n A g pi -> forall i j, (i < n)%nat -> (j < n)%nat ->
  A (nth i pi 0%nat) j = Rsum n (fun t => lo_ g i t * up_ g t j).
Proof.
  intros n A g pi (H1 & H2 & H3) i j Hi Hj. rewrite H3 by auto.
  set (q := Nat.min i j).
  replace (Nat.min n q) with q by lia. replace (Nat.min i n) with i by lia.
  replace n with (q + (1 + (n - q - 1)))%nat by lia.
  rewrite Rsum_split. f_equal.
  - apply Rsum_ext. intros t Ht. unfold lo_, up_.
    destruct (Nat.ltb_spec t i), (Nat.leb_spec t j); try lia. reflexivity.
  - rewrite Rsum_split. simpl Rsum at 1. rewrite Nat.add_0_r.
    rewrite Rsum_zero.
    + unfold lo_, up_, delta, q. destruct (Nat.ltb_spec j i).
      * replace (Nat.min i j) with j by lia.
        destruct (Nat.ltb_spec j i), (Nat.leb_spec j j); try lia. lra.
      * replace (Nat.min i j) with i by lia.
        destruct (Nat.ltb_spec i i), (Nat.leb_spec i j), (Nat.eqb_spec i i); try lia. lra.
    + intros t Ht. unfold lo_, up_, delta. natcase; lra.
Qed.

(** ** Substitution *)
Definition vrep (n : nat) (v : list XR) (f : nat -> R) : Prop :=
  length v = n /\ forall i, (i < n)%nat -> vget v i = Some (f i).
Lemma vrep_ext : forall n v f g, (forall i, (i < n)%nat -> f i = g i) -> vrep n v f -> vrep n v g.
Proof. intros n v f g H [H1 H2]. split; auto. intros. rewrite <- H; auto. Qed.
Lemma vrep_upd : forall n v f i x, vrep n v f -> (i < n)%nat ->
  vrep n (upd v i (Some x)) (fun j => if Nat.eqb j i then x else f j).
Proof.
  intros n v f i x [H1 H2] Hi. split.
  - now rewrite upd_length.
  - intros j Hj. unfold vget. rewrite upd_nth by lia. destruct (Nat.eqb j i); auto. now apply H2.
Qed.
Lemma vrep_zero : forall n, vrep n (v_zero n) (fun _ => 0).
Proof.
  intros. unfold v_zero, v_fill. split.
  - apply repeat_length.
  - intros i Hi. unfold vget. now rewrite nth_repeat.
Qed.
Lemma vrep_vS : forall n v f, vrep n v f -> v = vS (map f (seq 0 n)).
Proof.
  intros n v f [H1 H2]. apply nth_ext with (d := cst 0) (d' := cst 0).
  - now rewrite !map_length, seq_length.
  - intros i Hi. fold (vget v i). rewrite H2 by lia.
    change (cst 0 : XR) with (Some 0). rewrite map_nth. now rewrite nth_map_seq by lia.
Qed.

Lemma forward_spec : forall n lu g pi b, rep n lu g ->
  exists y, vrep n (lup_forward n lu pi (vS b)) y /\
    forall i, (i < n)%nat -> y i = nth (nth i pi 0%nat) b 0 - Rsum i (fun j => g i j * y j).
Proof.
  intros n lu g pi b Hlu. unfold lup_forward.
  set (I := fun i (v : list XR) => exists y, vrep n v y /\
    forall i', (i' < i)%nat -> y i' = nth (nth i' pi 0%nat) b 0 - Rsum i' (fun j => g i' j * y j)).
  match goal with |- exists y, vrep n ?l y /\ _ => assert (HI : I (0 + n)%nat l) end.
  { apply for_ind.
    - exists (fun _ => 0). split; [apply vrep_zero|]. intros; lia.
    - intros i v Hi (y & Hv & Hy).
      rewrite (acc_sum_ext i 0 _ (fun j => Some (g i j * y j))).
      2: { intros j Hj. rewrite (proj2 Hlu) by lia. rewrite (proj2 Hv) by lia. reflexivity. }
      change (cst 0 : XR) with (Some 0). rewrite acc_sum_S, vS_get. simpl.
      exists (fun j => if Nat.eqb j i then nth (nth i pi 0%nat) b 0 - (0 + Rsum i (fun j => g i j * y j)) else y j).
      split; [now apply vrep_upd|].
      intros i' Hi'. destruct (Nat.eqb_spec i' i) as [-> |].
      + rewrite Rplus_0_l. f_equal. apply Rsum_ext. intros j Hj. destruct (Nat.eqb_spec j i); [lia|reflexivity].
      + rewrite Hy by lia. f_equal. apply Rsum_ext. intros j Hj. destruct (Nat.eqb_spec j i); [lia|reflexivity]. }
  destruct HI as (y & H1 & H2). exists y. split; auto.
Qed.

Lemma backward_spec : forall n lu g yv y, rep n lu g -> vrep n yv y -> (forall t, (t < n)%nat -> g t t <> 0) ->
  exists x, vrep n (lup_backward n lu yv) x /\
    forall i, (i < n)%nat -> g i i * x i = y i - Rsum (n - (i + 1)) (fun j => g i (i + 1 + j)%nat * x (i + 1 + j)%nat).
Proof.
  intros n lu g yv y Hlu Hyv Hd. unfold lup_backward.
  set (I := fun k (v : list XR) => exists x, vrep n v x /\
    forall i, (i < n)%nat -> (n - k <= i)%nat ->
      g i i * x i = y i - Rsum (n - (i + 1)) (fun j => g i (i + 1 + j)%nat * x (i + 1 + j)%nat)).
  match goal with |- exists x, vrep n ?l x /\ _ => assert (HI : I (0 + n)%nat l) end.
  { apply for_ind.
    - exists (fun _ => 0). split; [apply vrep_zero|]. intros; lia.
    - intros k v Hk (x & Hv & Hx). cbv zeta. set (i := (n - 1 - k)%nat).
      assert (Hi : (i < n)%nat) by (unfold i; lia).
      rewrite (acc_sum_ext (n - (i + 1)) (i + 1) _ (fun j => Some (g i j * x j))).
      2: { intros j Hj. rewrite (proj2 Hlu) by lia. rewrite (proj2 Hv) by lia. reflexivity. }
      change (cst 0 : XR) with (Some 0). rewrite acc_sum_S. rewrite (proj2 Hyv) by auto.
      rewrite (proj2 Hlu) by auto. simpl o_sub. rewrite X_div by auto.
      set (s := 0 + _). 
      exists (fun j => if Nat.eqb j i then (y i - s) / g i i else x j).
      split; [now apply vrep_upd|].
      intros i' Hi' Hi''. destruct (Nat.eqb_spec i' i) as [-> |].
      + replace (g i i * ((y i - s) / g i i)) with (y i - s) by (field; auto).
        unfold s. rewrite Rplus_0_l. f_equal.
        apply Rsum_ext. intros j Hj. destruct (Nat.eqb_spec (i + 1 + j) i); [lia|reflexivity].
      + rewrite Hx by (unfold i in *; lia). f_equal. apply Rsum_ext. intros j Hj.
        destruct (Nat.eqb_spec (i' + 1 + j) i); [unfold i in *; lia|reflexivity]. }
  destruct HI as (x & H1 & H2). exists x. split; auto. intros. apply H2; auto. lia.
Qed.

(** Products with the triangular factors. *)
Lemma lo_mul : forall n g y i, (i < n)%nat -> Rsum n (fun t => lo_ g i t * y t) = y i + Rsum i (fun j => g i j * y j).
Proof.
  intros n g y i Hi. replace n with (i + (1 + (n - i - 1)))%nat by lia.
  rewrite Rsum_split, Rsum_split. simpl Rsum at 2. rewrite Nat.add_0_r.
  rewrite (Rsum_zero (n - i - 1)).
  - rewrite Rplus_comm. f_equal.
    + unfold lo_, delta. natcase. lra.
    + apply Rsum_ext. intros t Ht. unfold lo_. natcase. reflexivity.
  - intros t Ht. unfold lo_, delta. natcase. lra.
Qed.
Lemma up_mul : forall n g x t, (t < n)%nat ->
  Rsum n (fun j => up_ g t j * x j) = g t t * x t + Rsum (n - (t + 1)) (fun j => g t (t + 1 + j)%nat * x (t + 1 + j)%nat).
Proof.
  intros n g x t Ht. replace n with (t + (1 + (n - (t + 1))))%nat at 1 by lia.
  rewrite Rsum_split, Rsum_split. simpl Rsum at 2. rewrite Nat.add_0_r.
  rewrite (Rsum_zero t).
  - rewrite Rplus_0_l. f_equal.
    + unfold up_. destruct (Nat.leb_spec t t); [lra|lia].
    + apply Rsum_ext. intros j Hj. unfold up_. replace (t + (1 + j))%nat with (t + 1 + j)%nat by lia.
      destruct (Nat.leb_spec t (t + 1 + j)); [reflexivity|lia].
  - intros j Hj. unfold up_. destruct (Nat.leb_spec t j); [lia|lra].
Qed.
Lemma lu_mul : forall n A g pi x, lupinv n n A g pi -> forall i, (i < n)%nat ->
  Rsum n (fun j => A (nth i pi 0%nat) j * x j) = Rsum n (fun t => lo_ g i t * Rsum n (fun j => up_ g t j * x j)).
Proof.
  intros n A g pi x H i Hi.
  rewrite (Rsum_ext n _ (fun j => Rsum n (fun t => lo_ g i t * up_ g t j * x j))).
  - rewrite Rsum_swap. apply Rsum_ext. intros t Ht. rewrite <- Rsum_mul_l. apply Rsum_ext. intros. ring.
  - intros j Hj. rewrite (lupinv_final n A g pi) by auto. rewrite <- Rsum_mul_r. reflexivity.
Qed.
Lemma perm_onto : forall n pi r, Permutation pi (seq 0 n) -> (r < n)%nat ->
  exists i, (i < n)%nat /\ nth i pi 0%nat = r.
Proof.
  intros n pi r H Hr. assert (In r pi).
  { apply (Permutation_in _ (Permutation_sym H)). apply in_seq. lia. }
  apply (In_nth _ _ 0%nat) in H0. destruct H0 as (i & Hi & E). exists i. split; auto.
  rewrite (Permutation_length H), seq_length in Hi. auto.
Qed.

Lemma solve_spec : forall n lu g pi A b, rep n lu g -> lupinv n n A g pi ->
  exists x, vrep n (lup_solve_internal n lu pi (vS b)) x /\
    forall r, (r < n)%nat -> Rsum n (fun j => A r j * x j) = nth r b 0.
Proof.
  intros n lu g pi A b Hlu HA. destruct (HA) as (HP & Hd & _). unfold lup_solve_internal.
  destruct (forward_spec n lu g pi b Hlu) as (y & Hy & Ey).
  destruct (backward_spec n lu g _ y Hlu Hy Hd) as (x & Hx & Ex).
  exists x. split; auto. intros r Hr. destruct (perm_onto n pi r HP Hr) as (i & Hi & <-).
  rewrite (lu_mul n A g pi x HA i Hi).
  rewrite (Rsum_ext n _ (fun t => lo_ g i t * y t)).
  - rewrite lo_mul by auto. rewrite (Ey i) at 1 by auto. lra.
  - intros t Ht. rewrite up_mul by auto. rewrite Ex by auto. f_equal. lra.
Qed.

(** A decomposed matrix maps no non-zero vector to zero. *)
Lemma lu_inj : forall n A g pi x, lupinv n n A g pi ->
  (forall r, (r < n)%nat -> Rsum n (fun j => A r j * x j) = 0) -> forall i, (i < n)%nat -> x i = 0.
Proof.
  intros n A g pi x HA H. destruct (HA) as (HP & Hd & _).
  assert (Hpi : forall i, (i < n)%nat -> (nth i pi 0 < n)%nat).
  { intros i Hi. assert (In (nth i pi 0%nat) (seq 0 n)).
    { apply (Permutation_in _ HP), nth_In. rewrite (Permutation_length HP), seq_length. auto. }
    apply in_seq in H0. lia. }
  set (y := fun t => Rsum n (fun j => up_ g t j * x j)).
  assert (Hy : forall i, (i < n)%nat -> y i = 0).
  { intros i. induction i as [i IH] using lt_wf_ind. intros Hi.
    pose proof (H (nth i pi 0%nat) (Hpi i Hi)) as E. rewrite (lu_mul n A g pi x HA i Hi) in E.
    fold (y) in E. rewrite (Rsum_ext n _ (fun t => lo_ g i t * y t)) in E by reflexivity.
    rewrite lo_mul in E by auto. rewrite Rsum_zero in E; [lra|].
    intros j Hj. rewrite IH by lia. lra. }
  assert (Hx : forall k, (k <= n)%nat -> forall i, (n - k <= i < n)%nat -> x i = 0).
  { induction k as [|k IH]; intros Hk i Hi; [lia|].
    destruct (Nat.eq_dec i (n - S k)) as [Ei|]; [|apply IH; lia].
    pose proof (Hy i ltac:(lia)) as E. unfold y in E. rewrite up_mul in E by lia.
    rewrite Rsum_zero in E.
    - rewrite Rplus_0_r in E. apply Rmult_integral in E. destruct E as [E|E]; auto.
      exfalso. now apply (Hd i ltac:(lia)).
    - intros j Hj. rewrite IH by lia. lra. }
  intros i Hi. apply (Hx n); lia.
Qed.

(** ** A failure is near a singular matrix *)
Lemma back_subst : forall k (U : nat -> nat -> R) u, (forall t, (t < k)%nat -> U t t <> 0) ->
  exists z, forall t, (t < k)%nat -> Rsum k (fun j => (if Nat.leb t j then U t j else 0) * z j) = u t.
Proof.
  induction k as [|k IH]; intros U u H.
  - exists (fun _ => 0). intros; lia.
  - set (zk := u k / U k k).
    destruct (IH U (fun t => u t - U t k * zk)) as (z & Hz); [intros; apply H; lia|].
    exists (fun j => if Nat.eqb j k then zk else z j). intros t Ht. simpl.
    rewrite Nat.eqb_refl. destruct (Nat.leb_spec t k); [|lia].
    destruct (Nat.eq_dec t k) as [-> |].
    + rewrite Rsum_zero.
      * unfold zk. field. apply H. lia.
      * intros j Hj. destruct (Nat.leb_spec k j); [lia|lra].
    + rewrite (Rsum_ext k _ (fun j => (if Nat.leb t j then U t j else 0) * z j)).
      * rewrite Hz by lia. lra.
      * intros j Hj. destruct (Nat.eqb_spec j k); [lia|reflexivity].
Qed.

Lemma fail_near_eps : forall n A eps k f pi, 0 < eps -> (k < n)%nat -> lupinv n k A f pi -> (forall i, (k <= i < n)%nat -> Rabs (f i k) < eps) ->
  exists (B : nat -> nat -> R) x,
    (forall r c, (r < n)%nat -> (c < n)%nat -> Rabs (A r c - B r c) < eps) /\
    (exists i, (i < n)%nat /\ x i <> 0) /\
    forall r, (r < n)%nat -> Rsum n (fun j => B r j * x j) = 0.
Proof.
  intros n A eps k f pi Heps Hk (HP & Hd & HA) Hsmall.
  (* position of a row in the permutation *)
  assert (Hl : length pi = n) by (rewrite (Permutation_length HP); apply seq_length).
  assert (HND : NoDup pi) by (apply (Permutation_NoDup (Permutation_sym HP)), seq_NoDup).
  set (pos := fun r => (fix go l i := match l with [] => i | a :: l' => if Nat.eqb a r then i else go l' (S i) end) pi 0%nat).
  assert (Hpos : forall i, (i < n)%nat -> pos (nth i pi 0%nat) = i).
  { intros i Hi. unfold pos.
    assert (G : forall l i o, NoDup l -> (i < length l)%nat ->
      (fix go l0 i0 := match l0 with [] => i0 | a :: l' => if Nat.eqb a (nth i l 0%nat) then i0 else go l' (S i0) end) l o = (o + i)%nat).
    { clear. induction l as [|a l IH]; intros i o HN Hi; simpl in Hi; [lia|].
      destruct i as [|i]; simpl.
      - now rewrite Nat.eqb_refl, Nat.add_0_r.
      - inversion HN; subst. destruct (Nat.eqb_spec a (nth i l 0%nat)) as [E|].
        + exfalso. apply H1. rewrite E. apply nth_In. lia.
        + rewrite IH; auto; lia. }
    rewrite G; auto. lia. }
  destruct (back_subst k f (fun t => f t k)) as (z & Hz); auto.
  exists (fun r c => A r c - (if (Nat.eqb c k && Nat.leb k (pos r))%bool then f (pos r) k else 0)),
    (fun j => if Nat.ltb j k then z j else if Nat.eqb j k then -1 else 0).
  split; [|split].
  - intros r c Hr Hc. destruct (perm_onto n pi r HP Hr) as (i & Hi & <-). rewrite Hpos by auto.
    match goal with |- Rabs (?a - (?a - ?b)) < _ => replace (a - (a - b)) with b by ring end.
    destruct (Nat.eqb_spec c k), (Nat.leb_spec k i); simpl; try (rewrite Rabs_R0; lra).
    apply Hsmall. lia.
  - exists k. split; auto. natcase. lra.
  - intros r Hr. destruct (perm_onto n pi r HP Hr) as (i & Hi & <-). rewrite Hpos by auto.
    replace n with (k + (1 + (n - k - 1)))%nat at 1 by lia.
    rewrite Rsum_split, Rsum_split. simpl Rsum at 2. rewrite Nat.add_0_r.
    rewrite (Rsum_zero (n - k - 1)) by (intros; natcase; lra).
    rewrite Nat.eqb_refl, Nat.ltb_irrefl. simpl.
    (* the columns before k, and column k, are combinations of the first columns of L *)
    set (q := Nat.min k i).
    set (l := fun t => if Nat.ltb t i then f i t else if Nat.eqb t i then 1 else 0).
    rewrite (Rsum_ext k _ (fun j => Rsum k (fun t => l t * ((if Nat.leb t j then f t j else 0) * z j)))).
    2: { intros j Hj. destruct (Nat.eqb_spec j k); [lia|]. simpl.
      destruct (Nat.ltb_spec j k); [|lia].
      rewrite HA by lia. rewrite Rminus_0_r.
      rewrite (Rsum_ext k _ (fun t => (l t * (if Nat.leb t j then f t j else 0)) * z j)) by (intros; ring).
      rewrite Rsum_mul_r. f_equal.
      set (w := Nat.min k (Nat.min i j)).
      replace k with (w + (1 + (k - w - 1)))%nat at 2 by lia.
      rewrite Rsum_split, Rsum_split. simpl Rsum at 3. rewrite Nat.add_0_r.
      rewrite (Rsum_zero (k - w - 1)).
      - f_equal.
        + apply Rsum_ext. intros t Ht. unfold l. natcase.
          destruct (Nat.leb_spec t j); [reflexivity|lia].
        + unfold l. destruct (Nat.le_gt_cases i j).
          * replace w with i by lia. natcase. lra.
          * replace w with j by lia. natcase. lra.
      - intros t Ht. unfold l. natcase; lra. }
    rewrite Rsum_swap.
    rewrite (Rsum_ext k _ (fun t => l t * f t k)).
    2: { intros t Ht. rewrite Rsum_mul_l. rewrite Hz by auto. reflexivity. }
    rewrite (HA i k) by lia.
    replace (Nat.min k (Nat.min i k)) with q by lia.
    destruct (Nat.ltb_spec k (Nat.min i k)); [lia|].
    replace k with (q + (k - q))%nat at 1 by lia. rewrite Rsum_split.
    rewrite (Rsum_ext q _ (fun t => f i t * f t k)).
    2: { intros t Ht. unfold l. natcase. reflexivity. }
    destruct (Nat.leb_spec k i).
    + replace (k - q)%nat with 0%nat by lia. simpl. lra.
    + replace (k - q)%nat with (1 + (k - q - 1))%nat by lia. rewrite Rsum_split. simpl Rsum at 2.
      rewrite (Rsum_zero (k - q - 1)) by (intros; unfold l; natcase; lra).
      unfold l. natcase. replace (q + 0)%nat with i by lia. lra.
Qed.
Lemma fail_near : forall n A, lupfail n A ->
  exists (B : nat -> nat -> R) x,
    (forall r c, (r < n)%nat -> (c < n)%nat -> Rabs (A r c - B r c) < 1 / 1000000000000000) /\
    (exists i, (i < n)%nat /\ x i <> 0) /\
    forall r, (r < n)%nat -> Rsum n (fun j => B r j * x j) = 0.
Proof. intros n A (k & f & pi & Hk & HI & Hs). apply (fail_near_eps n A _ k f pi); auto. lra. Qed.
