(** LUP decomposition over any type of numbers: what the loops compute, and operations with a finite result (C108). *)
From Coq Require Import ZArith Reals List Bool Lra Lia Arith Permutation.
From Flocq Require Import Core BinarySingleNaN.
From Verif Require Import Ops M_scalar M_vec M_mat Inst_F S_mat S_rnd P_ieee P_mat P_mat2 P_lup P_fp.
Import ListNotations.

Section Any.
Context {T : Type} {o : ops T}.
Local Open Scope sc_scope.

(** [m] is the n x n matrix with the entries f (row, column). *)
Definition grid (n : nat) (m : list (list T)) (f : nat -> nat -> T) : Prop :=
  is_mat n n m /\ forall r c, (r < n)%nat -> (c < n)%nat -> mget m c r = f r c.
Lemma grid_ext : forall n m f g, (forall r c, (r < n)%nat -> (c < n)%nat -> f r c = g r c) -> grid n m f -> grid n m g.
Proof. intros n m f g H [H1 H2]. split; auto. intros. rewrite <- H; auto. Qed.
Lemma grid_put : forall n m f r c v, grid n m f -> (r < n)%nat -> (c < n)%nat ->
  grid n (mput m c r v) (fun r' c' => if (Nat.eqb r' r && Nat.eqb c' c)%bool then v else f r' c').
Proof.
  intros n m f r c v [H1 H2] Hr Hc. split.
  - now apply mput_shape.
  - intros r' c' Hr' Hc'. rewrite (mput_get n n) by auto. rewrite andb_comm.
    destruct (Nat.eqb r' r && Nat.eqb c' c)%bool; auto.
Qed.
Lemma grid_swap : forall n k k' m f, grid n m f -> (k < n)%nat -> (k' < n)%nat ->
  grid n (lup_swap_rows n k k' m) (fun r c => f (sw k k' r) c).
Proof.
  intros n k k' m f H Hk Hk'. unfold lup_swap_rows.
  set (I := fun i (m' : list (list T)) => grid n m' (fun r c => if Nat.ltb c i then f (sw k k' r) c else f r c)).
  assert (HI : I (0 + n)%nat (for_loop n 0 (fun i a =>
    let x := mget a i k in
    let y := mget a i k' in
    mput (mput a i k y) i k' x) m)).
  { apply for_ind.
    - unfold I. eapply grid_ext; [|exact H]. intros. destruct (Nat.ltb_spec c 0); auto; lia.
    - intros i s Hi Hs. cbv zeta.
      rewrite (proj2 Hs) by lia. rewrite (proj2 Hs) by lia.
      eapply grid_ext.
      2: { apply grid_put; [apply grid_put; [exact Hs|lia|lia]|lia|lia]. }
      intros r c Hr Hc. simpl. unfold sw. natcase; subst; auto; lia. }
  eapply grid_ext; [|exact HI]. intros. simpl. destruct (Nat.ltb_spec c n); auto; lia.
Qed.
Definition elimT (k : nat) (f : nat -> nat -> T) (r c : nat) : T :=
  if Nat.ltb k r then
    if Nat.eqb c k then f r k / f k k
    else if Nat.ltb k c then f r c - f r k / f k k * f k c
    else f r c
  else f r c.
Lemma grid_eliminate : forall n k m f, grid n m f -> (k < n)%nat -> grid n (lup_eliminate n k m) (elimT k f).
Proof.
  intros n k m f H Hk. unfold lup_eliminate.
  set (I := fun i (m' : list (list T)) => grid n m' (fun r c => if Nat.ltb r i then elimT k f r c else f r c)).
  match goal with |- grid n ?loop _ => assert (HI : I ((k + 1) + (n - (k + 1)))%nat loop) end.
  { apply for_ind.
    - unfold I. eapply grid_ext; [|exact H]. intros. unfold elimT. natcase; auto.
    - intros i s Hi Hs.
      rewrite (proj2 Hs) by lia. rewrite (proj2 Hs) by lia.
      replace (if Nat.ltb i i then elimT k f i k else f i k) with (f i k) by (natcase; auto).
      replace (if Nat.ltb k i then elimT k f k k else f k k) with (f k k) by (unfold elimT; natcase; auto).
      cbv zeta.
      pose proof (grid_put n s _ i k (f i k / f k k) Hs ltac:(lia) ltac:(lia)) as Hs1.
      set (s1 := mput s k i (f i k / f k k)) in *. clearbody s1.
      set (J := fun j (m' : list (list T)) => grid n m' (fun r c =>
        if Nat.ltb r i then elimT k f r c
        else if (Nat.eqb r i && Nat.ltb c j)%bool then elimT k f r c else f r c)).
      match goal with |- I _ ?loop => assert (HJ : J ((k + 1) + (n - (k + 1)))%nat loop) end.
      { apply for_ind.
        - unfold J. eapply grid_ext; [|exact Hs1]. intros r c Hr Hc. simpl. unfold elimT. natcase; subst; auto.
        - intros j s2 Hj Hs2.
          rewrite (proj2 Hs2) by lia. rewrite (proj2 Hs2) by lia. rewrite (proj2 Hs2) by lia.
          replace (o_sub _ _) with (f i j - f i k / f k k * f k j).
          2: { unfold elimT. natcase; simpl; auto. }
          eapply grid_ext; [|apply grid_put; [exact Hs2|lia|lia]].
          intros r c Hr Hc. simpl. unfold elimT. natcase; subst; auto; try lia. }
      eapply grid_ext; [|exact HJ]. intros r c Hr Hc. simpl. natcase; subst; auto. }
  eapply grid_ext; [|exact HI]. intros r c Hr Hc. simpl. unfold elimT. natcase; auto.
Qed.

Definition line (n : nat) (v : list T) (f : nat -> T) : Prop := length v = n /\ forall i, (i < n)%nat -> vget v i = f i.
Lemma line_upd : forall n v f i x, line n v f -> (i < n)%nat -> line n (upd v i x) (fun j => if Nat.eqb j i then x else f j).
Proof.
  intros n v f i x [H1 H2] Hi. split.
  - now rewrite upd_length.
  - intros j Hj. unfold vget. rewrite upd_nth by lia. destruct (Nat.eqb j i); auto. now apply H2.
Qed.
Lemma line_zero : forall n, line n (v_zero n) (fun _ => cst 0).
Proof. intros. unfold v_zero, v_fill. split; [apply repeat_length|]. intros i Hi. unfold vget. now rewrite nth_repeat. Qed.
Lemma line_forward : forall n lu g pi b, grid n lu g ->
  exists y, line n (lup_forward n lu pi b) y /\
    forall i, (i < n)%nat -> y i = vget b (nth i pi 0%nat) - acc_sum i 0 (fun j => g i j * y j) (cst 0).
Proof.
  intros n lu g pi b Hlu. unfold lup_forward.
  set (I := fun i (v : list T) => exists y, line n v y /\
    forall i', (i' < i)%nat -> y i' = vget b (nth i' pi 0%nat) - acc_sum i' 0 (fun j => g i' j * y j) (cst 0)).
  match goal with |- exists y, line n ?l y /\ _ => assert (HI : I (0 + n)%nat l) end.
  { apply for_ind.
    - exists (fun _ => cst 0). split; [apply line_zero|]. intros; lia.
    - intros i v Hi (y & Hv & Hy).
      rewrite (acc_sum_ext i 0 _ (fun j => g i j * y j)).
      2: { intros j Hj. rewrite (proj2 Hlu) by lia. rewrite (proj2 Hv) by lia. reflexivity. }
      exists (fun j => if Nat.eqb j i then vget b (nth i pi 0%nat) - acc_sum i 0 (fun j => g i j * y j) (cst 0) else y j).
      split; [apply line_upd; [exact Hv|lia]|].
      intros i' Hi'. destruct (Nat.eqb_spec i' i) as [-> |].
      + f_equal. apply acc_sum_ext. intros j Hj. destruct (Nat.eqb_spec j i); [lia|reflexivity].
      + rewrite Hy by lia. f_equal. apply acc_sum_ext. intros j Hj. destruct (Nat.eqb_spec j i); [lia|reflexivity]. }
  destruct HI as (y & H1 & H2). exists y. split; auto.
Qed.
Lemma line_backward : forall n lu g yv y, grid n lu g -> line n yv y ->
  exists x, line n (lup_backward n lu yv) x /\
    forall i, (i < n)%nat -> x i = (y i - acc_sum (n - (i + 1)) (i + 1) (fun j => g i j * x j) (cst 0)) / g i i.
Proof.
  intros n lu g yv y Hlu Hyv. unfold lup_backward.
  set (I := fun k (v : list T) => exists x, line n v x /\
    forall i, (i < n)%nat -> (n - k <= i)%nat ->
      x i = (y i - acc_sum (n - (i + 1)) (i + 1) (fun j => g i j * x j) (cst 0)) / g i i).
  match goal with |- exists x, line n ?l x /\ _ => assert (HI : I (0 + n)%nat l) end.
  { apply for_ind.
    - exists (fun _ => cst 0). split; [apply line_zero|]. intros; lia.
    - intros k v Hk (x & Hv & Hx). cbv zeta. set (i := (n - 1 - k)%nat).
      assert (Hi : (i < n)%nat) by (unfold i; lia).
      rewrite (acc_sum_ext (n - (i + 1)) (i + 1) _ (fun j => g i j * x j)).
      2: { intros j Hj. rewrite (proj2 Hlu) by lia. rewrite (proj2 Hv) by lia. reflexivity. }
      rewrite (proj2 Hyv) by auto. rewrite (proj2 Hlu) by auto.
      match goal with |- context [upd v i ?z] => exists (fun j => if Nat.eqb j i then z else x j) end.
      split; [now apply line_upd|].
      intros i' Hi' Hi''. destruct (Nat.eqb_spec i' i) as [-> |].
      + do 2 f_equal. apply acc_sum_ext. intros j Hj. destruct (Nat.eqb_spec j i); [lia|reflexivity].
      + rewrite Hx by (unfold i in *; lia). do 2 f_equal. apply acc_sum_ext. intros j Hj.
        destruct (Nat.eqb_spec j i); [unfold i in *; lia|reflexivity]. }
  destruct HI as (x & H1 & H2). exists x. split; auto. intros. apply H2; auto. lia.
Qed.
Lemma acc_snoc : forall n lo (f : nat -> T) i, acc_sum (S n) lo f i = acc_sum n lo f i + f (lo + n)%nat.
Proof.
  intros n. unfold acc_sum. induction n as [|n IH]; intros lo f i.
  - cbn [for_loop]. now rewrite Nat.add_0_r.
  - cbn [for_loop] in *. rewrite IH. now replace (S lo + n)%nat with (lo + S n)%nat by lia.
Qed.
End Any.

Local Open Scope R_scope.
Section FP.
Variables prec emax : Z.
Context {Hprec : Prec_gt_0 prec} {Hmax : Prec_lt_emax prec emax}.
Notation fl := (binary_float prec emax).
Notation u := (unit_roundoff prec).
Notation eta := (underflow_error prec emax).
Notation rnd := (round radix2 (SpecFloat.fexp prec emax) (round_mode mode_NE)).
Notation F := (generic_format radix2 (SpecFloat.fexp prec emax)).

Lemma overflow_not_finite : forall (x : fl) m s, B2SF x = binary_overflow prec emax mode_NE s -> is_finite x = m -> m = false.
Proof. intros x m s E <-. destruct x; try reflexivity; cbn in E; discriminate. Qed.
Lemma sub_inv : forall x y : fl, is_finite (o_sub x y) = true -> is_finite x = true /\ is_finite y = true /\ B2R (o_sub x y) = rnd (B2R x - B2R y).
Proof.
  intros x y H. change (o_sub x y) with (Bminus mode_NE x y) in *.
  assert (Fx : is_finite x = true) by (destruct x as [|[]| |], y as [|[]| |]; try reflexivity; discriminate).
  assert (Fy : is_finite y = true) by (destruct x as [|[]| |], y as [|[]| |]; try reflexivity; discriminate).
  split; [exact Fx|]. split; [exact Fy|]. generalize (Bminus_correct prec emax Hprec Hmax mode_NE x y Fx Fy).
  destruct (Rlt_bool _ _); [intros (E & _); exact E|]. intros (E & _). exfalso. pose proof (overflow_not_finite _ _ _ E H). discriminate.
Qed.
Lemma add_inv : forall x y : fl, is_finite (o_add x y) = true -> is_finite x = true /\ is_finite y = true /\ B2R (o_add x y) = rnd (B2R x + B2R y).
Proof.
  intros x y H. change (o_add x y) with (Bplus mode_NE x y) in *.
  assert (Fx : is_finite x = true) by (destruct x as [|[]| |], y as [|[]| |]; try reflexivity; discriminate).
  assert (Fy : is_finite y = true) by (destruct x as [|[]| |], y as [|[]| |]; try reflexivity; discriminate).
  split; [exact Fx|]. split; [exact Fy|]. generalize (Bplus_correct prec emax Hprec Hmax mode_NE x y Fx Fy).
  destruct (Rlt_bool _ _); [intros (E & _); exact E|]. intros (E & _). exfalso. pose proof (overflow_not_finite _ _ _ E H). discriminate.
Qed.
Lemma mul_inv : forall x y : fl, is_finite (o_mul x y) = true -> is_finite x = true /\ is_finite y = true /\ B2R (o_mul x y) = rnd (B2R x * B2R y).
Proof.
  intros x y H. change (o_mul x y) with (Bmult mode_NE x y) in *.
  assert (Fx : is_finite x = true) by (destruct x as [|[]| |], y as [|[]| |]; try reflexivity; discriminate).
  assert (Fy : is_finite y = true) by (destruct x as [|[]| |], y as [|[]| |]; try reflexivity; discriminate).
  split; [exact Fx|]. split; [exact Fy|]. generalize (Bmult_correct prec emax Hprec Hmax mode_NE x y).
  destruct (Rlt_bool _ _); [intros (E & _); exact E|]. intros E. exfalso. pose proof (overflow_not_finite _ _ _ E H). discriminate.
Qed.
Lemma div_inv : forall x y : fl, is_finite (o_div x y) = true -> is_finite y = true -> B2R y <> 0 -> is_finite x = true /\ B2R (o_div x y) = rnd (B2R x / B2R y).
Proof.
  intros x y H Fy N. change (o_div x y) with (Bdiv mode_NE x y) in *.
  assert (Fx : is_finite x = true) by (destruct x as [|[]| |], y as [|[]| |]; try reflexivity; discriminate).
  split; [exact Fx|]. generalize (Bdiv_correct prec emax Hprec Hmax mode_NE x y N).
  destruct (Rlt_bool _ _); [intros (E & _); exact E|]. intros E. exfalso. pose proof (overflow_not_finite _ _ _ E H). discriminate.
Qed.
(** Results whose size is bounded by a machine number *)
Lemma sub_bound : forall (x y : fl) m, is_finite x = true -> is_finite y = true -> F m -> Rabs (B2R x - B2R y) <= m -> m < bpow radix2 emax ->
  is_finite (o_sub x y) = true /\ B2R (o_sub x y) = rnd (B2R x - B2R y) /\ Rabs (B2R (o_sub x y)) <= m.
Proof.
  intros x y m Fx Fy Fm H L. assert (G := abs_round_le_generic radix2 (SpecFloat.fexp prec emax) (round_mode mode_NE) _ _ Fm H).
  change (o_sub x y) with (Bminus mode_NE x y). generalize (Bminus_correct prec emax Hprec Hmax mode_NE x y Fx Fy). rewrite Rlt_bool_true by lra.
  intros (E & A & _). rewrite E. auto.
Qed.
Lemma mul_bound : forall (x y : fl) m, is_finite x = true -> is_finite y = true -> F m -> Rabs (B2R x * B2R y) <= m -> m < bpow radix2 emax ->
  is_finite (o_mul x y) = true /\ B2R (o_mul x y) = rnd (B2R x * B2R y) /\ Rabs (B2R (o_mul x y)) <= m.
Proof.
  intros x y m Fx Fy Fm H L. assert (G := abs_round_le_generic radix2 (SpecFloat.fexp prec emax) (round_mode mode_NE) _ _ Fm H).
  change (o_mul x y) with (Bmult mode_NE x y). generalize (Bmult_correct prec emax Hprec Hmax mode_NE x y). rewrite Rlt_bool_true by lra.
  intros (E & A & _). rewrite E, Fx, Fy in *. auto.
Qed.
Lemma div_bound : forall (x y : fl) m, is_finite x = true -> B2R y <> 0 -> F m -> Rabs (B2R x / B2R y) <= m -> m < bpow radix2 emax ->
  is_finite (o_div x y) = true /\ B2R (o_div x y) = rnd (B2R x / B2R y) /\ Rabs (B2R (o_div x y)) <= m.
Proof.
  intros x y m Fx N Fm H L. assert (G := abs_round_le_generic radix2 (SpecFloat.fexp prec emax) (round_mode mode_NE) _ _ Fm H).
  change (o_div x y) with (Bdiv mode_NE x y). generalize (Bdiv_correct prec emax Hprec Hmax mode_NE x y N). rewrite Rlt_bool_true by lra.
  intros (E & A & _). rewrite E, Fx in *. auto.
Qed.
(** Errors of roundings *)
Lemma err_any : forall x, Rabs (rnd x - x) <= u * Rabs x + eta.
Proof.
  intros x. destruct (rnd_error prec emax x) as (d & e & A & B & ->). replace (x * (1 + d) + e - x) with (x * d + e) by ring.
  eapply Rle_trans; [apply Rabs_triang|]. rewrite Rabs_mult. assert (P := Rabs_pos x). nra.
Qed.
Lemma err_sub : forall x y : fl, Rabs (rnd (B2R x - B2R y) - (B2R x - B2R y)) <= u * Rabs (B2R x - B2R y).
Proof.
  intros x y. destruct (rnd_error_plus prec emax (B2R x) (- B2R y)) as (d & A & E); try apply generic_format_opp; try apply generic_format_B2R.
  change (B2R x - B2R y) with (B2R x + - B2R y). rewrite E. match goal with |- Rabs ?z <= _ => replace z with ((B2R x + - B2R y) * d) by ring end.
  rewrite Rabs_mult, Rmult_comm. apply Rmult_le_compat_r; [apply Rabs_pos|exact A].
Qed.
Lemma err_add : forall x y : fl, Rabs (rnd (B2R x + B2R y) - (B2R x + B2R y)) <= u * Rabs (B2R x + B2R y).
Proof.
  intros x y. destruct (rnd_error_plus prec emax (B2R x) (B2R y)) as (d & A & E); try apply generic_format_B2R.
  rewrite E. match goal with |- Rabs ?z <= _ => replace z with ((B2R x + B2R y) * d) by ring end.
  rewrite Rabs_mult, Rmult_comm. apply Rmult_le_compat_r; [apply Rabs_pos|exact A].
Qed.
End FP.
