(** When box functions and conversions to integers return, in machine arithmetic (C102). *)
From Coq Require Import ZArith Reals List Bool Lia Lra Arith.
From Flocq Require Import Core BinarySingleNaN.
From Verif Require Import Ops M_scalar M_vec M_mat M_bbox Inst_F S_safe P_ord P_compare P_ieee P_round P_bbox P_bbox3 P_safe.
Import ListNotations.
Local Open Scope R_scope.

Section Ord.
Context {T : Type} {o : ops T} {ol : ordlaws o}.
Lemma lt_irr : forall x : T, o_lt x x = false.
Proof. intros x. destruct (o_lt x x) eqn:E; [|reflexivity]. apply lt_true in E. lra. Qed.
Lemma lt_asym : forall x y : T, o_lt x y = true -> o_lt y x = false.
Proof. intros x y H. destruct (o_lt y x) eqn:E; [|reflexivity]. apply lt_true in E, H. lra. Qed.
Lemma lt_via : forall x y z : T, o_lt x y = true -> o_lt z y = false -> o_lt z x = false.
Proof. intros x y z H1 H2. destruct (o_lt z x) eqn:E; [|reflexivity]. rewrite <- H2. symmetry. apply lt_true in E, H1. apply lt_true. repeat split; try tauto. lra. Qed.
Lemma lt_via' : forall x y z : T, o_lt x y = true -> o_lt x z = false -> o_lt y z = false.
Proof. intros x y z H1 H2. destruct (o_lt y z) eqn:E; [|reflexivity]. rewrite <- H2. symmetry. apply lt_true in E, H1. apply lt_true. repeat split; try tauto. lra. Qed.

Lemma valid2_iff : forall a b : list T, bb_valid2 a b = true <-> Forall (fun p => o_lt (snd p) (fst p) = false) (combine a b).
Proof.
  induction a as [|x a IH]; intros [|y b]; cbn [bb_valid2 combine]; try (split; [constructor|reflexivity]).
  destruct (o_lt y x) eqn:E.
  - split; [discriminate|]. intros H. inversion_clear H as [|? ? H1 _]. cbn in H1. congruence.
  - rewrite IH. split; [intros H; constructor; auto|]. intros H. now inversion_clear H.
Qed.
Lemma make_returns : forall a b : list T, returns (bb_make a b) <-> bb_valid2 a b = true.
Proof. intros a b. unfold bb_make. rewrite returns_require. split; [tauto|]. intros H. split; [exact H|apply returns_ret]. Qed.
Lemma merge_p_ret : forall (b : bbox T) p, returns (bb_merge_p b p).
Proof.
  intros [mn mx] p. unfold bb_merge_p. cbn [bb_min bb_max]. apply make_returns. revert mn mx. unfold v_min, v_max.
  induction p as [|z p IH]; intros [|x mn] [|y mx]; try reflexivity. cbn [map2 bb_valid2 sc_min sc_max].
  match goal with |- (if ?c then _ else _) = true => replace c with false end; [apply IH|]. symmetry.
  destruct (o_lt x z) eqn:E1, (o_lt z y) eqn:E2; auto using lt_irr, lt_asym.
  apply (lt_asym x y). apply lt_true in E1, E2. apply lt_true. repeat split; try tauto. lra.
Qed.
Lemma merge_ret : forall a b : bbox T, bb_is_valid a = true -> bb_is_valid b = true -> returns (bb_merge a b).
Proof.
  intros [mn mx] [mn' mx']. unfold bb_is_valid, bb_merge. cbn [bb_min bb_max]. rewrite make_returns. unfold v_min, v_max. revert mx mn' mx'.
  induction mn as [|x mn IH]; intros [|y mx] [|x' mn'] [|y' mx'] H1 H2; try reflexivity. cbn [map2 bb_valid2 sc_min sc_max] in *.
  destruct (o_lt y x) eqn:L1; [discriminate|]. destruct (o_lt y' x') eqn:L2; [discriminate|].
  match goal with |- (if ?c then _ else _) = true => replace c with false end; [now apply IH|]. symmetry.
  destruct (o_lt x x') eqn:E1, (o_lt y' y) eqn:E2; auto.
  - exact (lt_via _ _ _ E1 L2).
  - exact (lt_via' _ _ _ E2 L2).
Qed.
Lemma zeros_valid : forall n (x : T), bb_valid2 (v_fill n x) (v_fill n x) = true.
Proof. intros n x. unfold v_fill. induction n; [reflexivity|]. cbn. rewrite lt_irr. exact IHn. Qed.
Lemma same_valid : forall a : list T, bb_valid2 a a = true.
Proof. induction a as [|x a IH]; [reflexivity|]. cbn. rewrite lt_irr. exact IH. Qed.
Lemma intersect_ret : forall a b : bbox T, returns (bb_intersect a b).
Proof. intros a b. unfold bb_intersect. cbv zeta. destruct (bb_valid2 _ _) eqn:E; apply make_returns; [exact E|apply zeros_valid]. Qed.
Lemma repair_ret : forall b : bbox T, returns (bb_repair b).
Proof.
  intros [mn mx]. unfold bb_repair. cbn [bb_min bb_max]. apply make_returns. revert mx. unfold v_min, v_max.
  induction mn as [|x mn IH]; intros [|y mx]; try reflexivity. cbn [map2 bb_valid2 sc_min sc_max].
  match goal with |- (if ?c then _ else _) = true => replace c with false end; [apply IH|]. symmetry.
  destruct (o_lt x y) eqn:E1, (o_lt y x) eqn:E2; auto using lt_irr.
Qed.
Lemma merge_rest_ret : forall l (b : bbox T), returns (bb_merge_rest b l).
Proof. induction l as [|p l IH]; intros b; cbn [bb_merge_rest]; [apply returns_ret|]. apply returns_bind; [apply merge_p_ret|]. auto. Qed.
Lemma merge_all_ret : forall l : list (list T), returns (bb_merge_all l) <-> l <> [].
Proof.
  intros [|p l]; cbn [bb_merge_all]; split; try congruence.
  - intros (a & E). discriminate.
  - intros _. apply returns_bind; [apply make_returns, same_valid|]. intros b _. apply merge_rest_ret.
Qed.
Lemma add_all_ret : forall l (b : bbox T), Forall (fun i => match i with It_box x => bb_is_valid x = true | It_point _ => True end) l -> returns (bbb_add_all b l).
Proof.
  induction l as [|i l IH]; intros b H; cbn [bbb_add_all]; [apply returns_ret|]. inversion_clear H as [|? ? H1 H2].
  apply returns_bind; [|intros b' _; now apply IH]. unfold bbb_add, bbb_add_point, bbb_add_box. destruct i as [p|x].
  - destruct (negb _); [apply returns_ret|apply merge_p_ret].
  - destruct (bbb_initialized b) eqn:E; cbn [negb]; [|apply returns_ret]. now apply merge_ret.
Qed.
Lemma transform_ret : forall (b : bbox T) M, returns (bb_transform b M) <-> bb_is_valid b = true.
Proof.
  intros b M. unfold bb_transform. destruct (box_ok b [] [] b) as (_ & _ & _ & _ & _ & _ & _ & _ & _ & _ & _ & _ & V). rewrite <- V. split.
  - intros H. apply returns_bind_inv in H. destruct H as (v & E & _). now exists v.
  - intros H. apply returns_bind; [exact H|]. intros v _. apply add_all_ret. apply Forall_forall. intros i Hi. apply in_map_iff in Hi. now destruct Hi as (x & <- & _).
Qed.
End Ord.

Section F.
Variables prec emax : Z.
Context {Hprec : Prec_gt_0 prec} {Hmax : Prec_lt_emax prec emax}.
Notation fl := (binary_float prec emax).
Notation rnd := (round radix2 (SpecFloat.fexp prec emax) ZnearestE).

Lemma key_lt_false : forall x y : fl, is_finite x = true -> is_finite y = true -> o_lt y x = false -> B2R x <= B2R y.
Proof. intros x y Hx Hy H. change (Bltb y x = false) in H. rewrite Flt in H by assumption. revert H. case Rlt_bool_spec; [discriminate|auto]. Qed.
Lemma keys_false : forall x y : fl, is_nan x = false -> is_nan y = false -> key x <= key y -> o_lt y x = false.
Proof. intros x y Nx Ny H. rewrite lt_key by assumption. apply Rlt_bool_false. exact H. Qed.
Lemma no_below : forall z : fl, o_lt z (B754_infinity true) = false.
Proof. intros [|[]| |[]]; reflexivity. Qed.
Lemma no_above : forall z : fl, o_lt (B754_infinity false) z = false.
Proof. intros [|[]| |[]]; reflexivity. Qed.
Lemma no_nan : forall z : fl, o_lt z B754_nan = false.
Proof. intros [|[]| |[]]; reflexivity. Qed.
Ltac cases := match goal with
  | |- o_lt ?a ?b = false => first
    [ reflexivity | change b with (B754_infinity true : fl); apply no_below | change a with (B754_infinity false : fl); apply no_above | change b with (B754_nan : fl); apply no_nan ] end.
Lemma add_kept : forall x y d : fl, o_lt y x = false -> o_lt (o_add y d) (o_add x d) = false.
Proof.
  intros x y d H. destruct (is_finite x) eqn:Fx, (is_finite y) eqn:Fy, (is_finite d) eqn:Fd.
  { destruct (plus_key prec emax x d Fx Fd) as [N1 K1], (plus_key prec emax y d Fy Fd) as [N2 K2]. apply keys_false; auto. rewrite K1, K2.
    apply sat_le, round_le; try typeclasses eauto. apply (key_lt_false x y Fx Fy) in H. lra. }
  all: destruct x as [sx|[]| |[] mx ex Bx], y as [sy|[]| |[] my ey By], d as [sd|[]| |sd md ed Bd]; try discriminate; cases.
Qed.
Lemma spread_kept : forall x y f : fl, o_lt y x = false -> o_lt f (cst 0) = false -> o_lt (o_add y f) (o_sub x f) = false.
Proof.
  intros x y f H Hf. destruct (is_finite x) eqn:Fx, (is_finite y) eqn:Fy, (is_finite f) eqn:Ff.
  { destruct (minus_key prec emax x f Fx Ff) as [N1 K1], (plus_key prec emax y f Fy Ff) as [N2 K2]. apply keys_false; auto. rewrite K1, K2.
    apply sat_le, round_le; try typeclasses eauto. apply (key_lt_false x y Fx Fy) in H. destruct (F_cst0 prec emax) as [F0 B0].
    apply (key_lt_false (cst 0) f F0 Ff) in Hf. rewrite B0 in Hf. lra. }
  all: destruct x as [sx|[]| |[] mx ex Bx], y as [sy|[]| |[] my ey By], f as [sd|[]| |sd md ed Bd]; try discriminate; cases.
Qed.
Lemma translate_ret : forall (b : bbox fl) d, returns (bb_translate b d) <-> bb_is_valid b = true.
Proof.
  intros [mn mx] d. unfold bb_translate. rewrite returns_require, make_returns. unfold bb_is_valid. cbn [bb_min bb_max]. split; [tauto|]. intros H. split; [exact H|].
  revert mx d H. unfold v_add. induction mn as [|x mn IH]; intros [|y mx] [|z d] H; try reflexivity. cbn [map2 bb_valid2] in *.
  destruct (o_lt y x) eqn:E; [discriminate|]. rewrite add_kept by exact E. now apply IH.
Qed.
Lemma expand_ret : forall (b : bbox fl) f, o_lt f (cst 0) = false -> (returns (bb_expand b f) <-> bb_is_valid b = true).
Proof.
  intros [mn mx] f Hf. unfold bb_expand. rewrite returns_require, make_returns. unfold bb_is_valid. cbn [bb_min bb_max]. split; [tauto|]. intros H. split; [exact H|].
  generalize (length mn). intros n. revert n mx H. unfold v_add, v_sub, v_fill. induction mn as [|x mn IH]; intros [|n] [|y mx] H; try reflexivity. cbn [map2 bb_valid2 repeat] in *.
  destruct (o_lt y x) eqn:E; [discriminate|]. rewrite spread_kept by assumption. now apply IH.
Qed.

(** * Conversions to integers *)
Lemma fits_range : forall x : fl, fits_i64 x <-> is_finite x = true /\ i64_range (B2R x).
Proof. intros x. unfold fits_i64, i64_range. replace (bpow radix2 63) with (2 ^ 63); [reflexivity|]. cbn -[IZR]. lra. Qed.
Lemma trunc_ret : forall x : fl, returns (sc_trunc x) <-> fits_i64 x.
Proof.
  intros x. rewrite fits_range. split.
  - intros (r & E). destruct (F_trunc_UB prec emax x) as [_ H].
    destruct (is_finite x) eqn:Fx; [|rewrite H in E; [discriminate|intros [A _]; discriminate]]. split; [reflexivity|].
    unfold i64_range in *. destruct (Rlt_dec (- bpow radix2 63 - 1) (B2R x)) as [A|A]; [|rewrite H in E; [discriminate|intros [_ [B _]]; contradiction]].
    destruct (Rlt_dec (B2R x) (bpow radix2 63)) as [B|B]; [split; assumption|]. rewrite H in E; [discriminate|]. intros [_ [_ C]]. contradiction.
  - intros [Fx Hx]. destruct (F_trunc prec emax x Fx Hx) as (r & E & _). now exists r.
Qed.
Lemma floor_ret : forall x : fl, returns (sc_floor x) <-> fits_i64 x.
Proof.
  intros x. rewrite <- trunc_ret. unfold sc_floor. split.
  - intros H. apply returns_bind_inv in H. destruct H as (r & E & _). now exists r.
  - intros H. apply returns_bind; [exact H|]. intros r _. apply returns_ret.
Qed.
Lemma ceil_ret : forall x : fl, returns (sc_ceil x) <-> fits_i64 x.
Proof.
  intros x. rewrite <- trunc_ret. unfold sc_ceil. split.
  - intros H. apply returns_bind_inv in H. destruct H as (r & E & _). now exists r.
  - intros H. apply returns_bind; [exact H|]. intros r _. apply returns_ret.
Qed.
Lemma bind_ret_iff : forall A B (x : outcome A) (f : A -> B), returns (bind x (fun a => Ret (f a))) <-> returns x.
Proof.
  intros A B x f. split.
  - intros H. apply returns_bind_inv in H. destruct H as (r & E & _). now exists r.
  - intros H. apply returns_bind; [exact H|]. intros r _. apply returns_ret.
Qed.
Lemma integer_parts_ret : forall x : fl,
  (returns (sc_trunc x) <-> fits_i64 x) /\ (returns (sc_floor x) <-> fits_i64 x) /\ (returns (sc_ceil x) <-> fits_i64 x)
  /\ (returns (sc_fract x) <-> fits_i64 x) /\ (returns (sc_round_up x) <-> fits_i64 x) /\ (returns (sc_round_down x) <-> fits_i64 x).
Proof.
  intros x. split; [apply trunc_ret|]. split; [apply floor_ret|]. split; [apply ceil_ret|]. unfold sc_fract, sc_round_up, sc_round_down.
  split; [|split]; match goal with |- context [if ?c then _ else _] => destruct c end; rewrite ?bind_ret_iff; auto using floor_ret, ceil_ret.
Qed.
Lemma mod_ret : forall x y : fl, returns (sc_mod x y) <-> fits_i64 (o_div x y).
Proof. intros x y. unfold sc_mod. rewrite bind_ret_iff. apply trunc_ret. Qed.
Lemma snap_up_down_ret : forall x y : fl, (returns (sc_snap_up x y) <-> o_lt (cst 0) y = true /\ fits_i64 (o_div x y))
  /\ (returns (sc_snap_down x y) <-> o_lt (cst 0) y = true /\ fits_i64 (o_div x y)).
Proof.
  intros x y. unfold sc_snap_up, sc_snap_down. rewrite !returns_require, !bind_ret_iff. destruct (integer_parts_ret (o_div x y)) as (_ & _ & _ & _ & -> & ->). split; reflexivity.
Qed.

(** Rounding *)
Hypothesis small : (3 <= prec <= 62)%Z.
Hypothesis large : (64 <= emax)%Z.
Lemma below63 : forall x : fl, B2R x < bpow radix2 63 -> B2R x <= bpow radix2 63 - 2.
Proof.
  intros x H. assert (G := generic_format_B2R prec emax x).
  assert (GB : generic_format radix2 (SpecFloat.fexp prec emax) (bpow radix2 63)).
  { apply generic_format_bpow. unfold SpecFloat.fexp, SpecFloat.emin. generalize Hprec Hmax. unfold Prec_gt_0, Prec_lt_emax. lia. }
  assert (P := pred_ge_gt radix2 (SpecFloat.fexp prec emax) _ _ G GB H). apply Rle_trans with (1 := P).
  rewrite pred_bpow. unfold SpecFloat.fexp, SpecFloat.emin.
  assert (B : bpow radix2 1 <= bpow radix2 (Z.max (63 - prec) (3 - emax - prec))) by (apply bpow_le; lia). change (bpow radix2 1) with 2 in B. lra.
Qed.
Lemma fmt63 : forall k, (k = 0 \/ k = -2)%Z -> generic_format radix2 (SpecFloat.fexp prec emax) (bpow radix2 63).
Proof. intros k _. apply generic_format_bpow. unfold SpecFloat.fexp, SpecFloat.emin. generalize Hprec Hmax. unfold Prec_gt_0, Prec_lt_emax. lia. Qed.
Lemma half_pos : forall x : fl, is_finite x = true -> 0 < B2R x -> (fits_i64 (o_add x (lit 1 2)) <-> fits_i64 x).
Proof.
  intros x Fx Px. rewrite !fits_range. destruct (F_half prec emax (proj1 small)) as [Fh Bh].
  assert (C := Bplus_correct prec emax Hprec Hmax mode_NE x (lit 1 2) Fx Fh). rewrite Bh in C. change (round_mode mode_NE) with ZnearestE in C.
  change (o_add x (lit 1 2)) with (Bplus mode_NE x (lit 1 2)). assert (B63 := bpow_gt_0 radix2 63).
  assert (BE : bpow radix2 63 < bpow radix2 emax) by (apply bpow_lt; lia).
  assert (G := generic_format_B2R prec emax x).
  assert (R0 : B2R x <= rnd (B2R x + / 2)).
  { rewrite <- (round_generic radix2 (SpecFloat.fexp prec emax) ZnearestE (B2R x) G) at 1. apply round_le; try typeclasses eauto. lra. }
  assert (KEY : B2R x < bpow radix2 63 -> rnd (B2R x + / 2) < bpow radix2 63).
  { intros H. apply below63 in H. destruct (Rlt_dec (rnd (B2R x + / 2)) (bpow radix2 63)) as [L|L]; [exact L|]. exfalso. apply Rnot_lt_le in L.
    assert (N := round_N_pt radix2 (SpecFloat.fexp prec emax) (fun t => negb (Z.even t)) (B2R x + / 2)). destruct N as (_ & N). specialize (N (B2R x) G).
    rewrite (Rabs_pos_eq (rnd (B2R x + / 2) - (B2R x + / 2))) in N by lra. rewrite Rabs_left1 in N by lra. lra. }
  destruct (Rlt_bool_spec (Rabs (rnd (B2R x + / 2))) (bpow radix2 emax)) as [L|L].
  - destruct C as (C1 & C2 & _). unfold i64_range. rewrite C1, C2. split; intros (_ & H); split; auto; lra.
  - rewrite Rabs_pos_eq in L by lra. split.
    + intros (Ff & _). destruct C as (C1 & _). exfalso. unfold binary_overflow, overflow_to_inf in C1. destruct (Bplus mode_NE x (lit 1 2)); discriminate.
    + intros (_ & H). exfalso. destruct H as [_ H]. apply KEY in H. lra.
Qed.
Lemma fits_opp : forall x : fl, is_finite x = true -> Rabs (B2R x) < bpow radix2 63 -> fits_i64 x.
Proof. intros x Fx H. apply fits_range. split; [exact Fx|]. unfold i64_range. apply Rabs_lt_inv in H. lra. Qed.
Lemma half_neg : forall x : fl, is_finite x = true -> B2R x <= 0 -> (fits_i64 (o_sub x (lit 1 2)) <-> fits_i64 x).
Proof.
  intros x Fx Px. rewrite !fits_range. destruct (F_half prec emax (proj1 small)) as [Fh Bh].
  assert (C := Bminus_correct prec emax Hprec Hmax mode_NE x (lit 1 2) Fx Fh). rewrite Bh in C. change (round_mode mode_NE) with ZnearestE in C.
  change (o_sub x (lit 1 2)) with (Bminus mode_NE x (lit 1 2)). assert (B63 := bpow_gt_0 radix2 63).
  assert (BE : bpow radix2 63 + 2 < bpow radix2 emax).
  { assert (bpow radix2 64 <= bpow radix2 emax) by (apply bpow_le; lia). change 64%Z with (63 + 1)%Z in H. rewrite bpow_plus in H. change (bpow radix2 1) with 2 in H.
    assert (bpow radix2 2 <= bpow radix2 63) by (apply bpow_le; lia). change (bpow radix2 2) with 4 in H0. lra. }
  assert (G := generic_format_B2R prec emax x). assert (G63 := fmt63 0 (or_introl eq_refl)). apply generic_format_opp in G63.
  assert (R0 : rnd (B2R x - / 2) <= B2R x).
  { rewrite <- (round_generic radix2 (SpecFloat.fexp prec emax) ZnearestE (B2R x) G) at 2. apply round_le; try typeclasses eauto. lra. }
  (* numbers beyond -2^63 are at least 2 further *)
  assert (GAP : forall r, generic_format radix2 (SpecFloat.fexp prec emax) r -> r < - bpow radix2 63 -> r <= - bpow radix2 63 - 2).
  { intros r Gr L. assert (S := succ_le_lt radix2 (SpecFloat.fexp prec emax) (bpow radix2 63) (- r)).
    assert (A1 : generic_format radix2 (SpecFloat.fexp prec emax) (- r)) by now apply generic_format_opp.
    assert (A2 : generic_format radix2 (SpecFloat.fexp prec emax) (bpow radix2 63)) by exact (fmt63 0 (or_introl eq_refl)).
    specialize (S A2 A1 ltac:(lra)). rewrite succ_eq_pos in S by lra. rewrite ulp_bpow in S. unfold SpecFloat.fexp, SpecFloat.emin in S.
    assert (B : bpow radix2 1 <= bpow radix2 (Z.max (63 + 1 - prec) (3 - emax - prec))) by (apply bpow_le; lia). change (bpow radix2 1) with 2 in B. lra. }
  assert (KEY : - bpow radix2 63 - 1 < B2R x -> - bpow radix2 63 - 1 < rnd (B2R x - / 2)).
  { intros H. destruct (Rlt_dec (- bpow radix2 63 - 1) (rnd (B2R x - / 2))) as [L|L]; [exact L|]. exfalso. apply Rnot_lt_le in L.
    assert (H' : - bpow radix2 63 <= B2R x) by (destruct (Rle_dec (- bpow radix2 63) (B2R x)) as [Q|Q]; [exact Q|]; apply Rnot_le_lt, (GAP _ G) in Q; lra).
    assert (L' := GAP (rnd (B2R x - / 2)) ltac:(apply generic_format_round; typeclasses eauto) ltac:(lra)).
    assert (N := round_N_pt radix2 (SpecFloat.fexp prec emax) (fun t => negb (Z.even t)) (B2R x - / 2)). destruct N as (_ & N). specialize (N (B2R x) G).
    rewrite (Rabs_pos_eq (B2R x - (B2R x - / 2))) in N by lra. rewrite Rabs_left1 in N by lra. lra. }
  destruct (Rlt_bool_spec (Rabs (rnd (B2R x - / 2))) (bpow radix2 emax)) as [L|L].
  - destruct C as (C1 & C2 & _). unfold i64_range. rewrite C1, C2. split; intros (_ & H1 & H2); (split; [reflexivity || assumption|]); (split; [|lra]); [lra|now apply KEY].
  - rewrite Rabs_left1 in L by lra. split.
    + intros (Ff & _). destruct C as (C1 & _). exfalso. unfold binary_overflow, overflow_to_inf in C1. destruct (Bminus mode_NE x (lit 1 2)); discriminate.
    + intros (_ & H). exfalso. destruct H as [H _]. apply KEY in H. lra.
Qed.
Lemma round_ret : forall x : fl, returns (sc_round x) <-> fits_i64 x.
Proof.
  intros x. unfold sc_round. destruct (is_finite x) eqn:Fx.
  - destruct (F_cst0 prec emax) as [F0 B0]. change (o_lt (cst 0) x) with (Bltb (cst 0) x). rewrite Flt by assumption. rewrite B0.
    case Rlt_bool_spec; intros H; [rewrite floor_ret; now apply half_pos|rewrite ceil_ret; now apply half_neg].
  - assert (N : ~ fits_i64 x) by (intros (A & _); congruence).
    assert (N1 : ~ fits_i64 (o_add x (lit 1 2))). { intros (A & _). destruct (F_half prec emax (proj1 small)) as [Fh _]. destruct x as [|[]| |]; try discriminate; destruct (lit 1 2 : fl); discriminate. }
    assert (N2 : ~ fits_i64 (o_sub x (lit 1 2))). { intros (A & _). destruct (F_half prec emax (proj1 small)) as [Fh _]. destruct x as [|[]| |]; try discriminate; destruct (lit 1 2 : fl); discriminate. }
    destruct (o_lt (cst 0) x); rewrite ?floor_ret, ?ceil_ret; tauto.
Qed.
Lemma snap_ret : forall x y : fl, returns (sc_snap x y) <-> o_eq y (cst 0) = false /\ fits_i64 (o_div x y).
Proof. intros x y. unfold sc_snap. rewrite returns_require, bind_ret_iff, round_ret. rewrite negb_true_iff. reflexivity. Qed.
Lemma correct_ret : forall (x : fl) d eps, returns (sc_correct x d eps) <-> (d < 32)%Z /\ fits_i64 (o_mul x (o_of_Z (2 ^ d))).
Proof.
  intros x d eps. unfold sc_correct. destruct (d <? 32)%Z eqn:E.
  - apply Z.ltb_lt in E. rewrite bind_ret_iff, round_ret. tauto.
  - apply Z.ltb_ge in E. split; [intros (a & H); discriminate|]. intros (H & _). lia.
Qed.
End F.
