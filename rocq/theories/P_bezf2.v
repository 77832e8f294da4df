(** Bezier surfaces in machine arithmetic: bounding boxes, corners, a case (C122). *)
From Coq Require Import ZArith Reals List Lia Lra Bool Psatz.
From Flocq Require Import Core BinarySingleNaN.
From Verif Require Import Ops M_scalar M_vec M_approx Inst_F S_vec S_rnd S_hit S_bezier P_ieee P_vec P_fp P_fp4 P_fp5 P_hit P_hit2 P_ft P_comp P_bezier P_polyf3 P_bezf.
Import ListNotations.
Local Open Scope R_scope.

Lemma mix : forall X y0 y1 y2 l h, 0 <= X <= 1 -> l <= y0 <= h -> l <= y1 <= h -> l <= y2 <= h -> l <= bern 0 X * y0 + bern 1 X * y1 + bern 2 X * y2 <= h.
Proof.
  intros X y0 y1 y2 l h HX H0 H1 H2. destruct (bern_parts X HX) as (B0 & B1 & B2 & S & _). set (b0 := bern 0 X) in *. set (b1 := bern 1 X) in *. set (b2 := bern 2 X) in *. clearbody b0 b1 b2.
  assert (SL : l = b0 * l + b1 * l + b2 * l) by (rewrite <- !Rmult_plus_distr_r, S; ring). assert (SH : h = b0 * h + b1 * h + b2 * h) by (rewrite <- !Rmult_plus_distr_r, S; ring).
  rewrite SL at 1. rewrite SH at 1. split; repeat apply Rplus_le_compat; apply Rmult_le_compat_l; lra.
Qed.
Lemma bezier_between : forall cp U V i l h, 0 <= U <= 1 -> 0 <= V <= 1 -> (forall j k, (j < 3)%nat -> (k < 3)%nat -> l <= nth i (control cp j k) 0 <= h) -> l <= bezier_value cp U V i <= h.
Proof.
  intros cp U V i l h HU HV H. assert (R : forall j, (j < 3)%nat -> l <= bern 0 U * nth i (control cp j 0) 0 + bern 1 U * nth i (control cp j 1) 0 + bern 2 U * nth i (control cp j 2) 0 <= h) by (intros j J; apply mix; try exact HU; apply H; lia).
  replace (bezier_value cp U V i) with (bern 0 V * (bern 0 U * nth i (control cp 0 0) 0 + bern 1 U * nth i (control cp 0 1) 0 + bern 2 U * nth i (control cp 0 2) 0) + bern 1 V * (bern 0 U * nth i (control cp 1 0) 0 + bern 1 U * nth i (control cp 1 1) 0 + bern 2 U * nth i (control cp 1 2) 0) + bern 2 V * (bern 0 U * nth i (control cp 2 0) 0 + bern 1 U * nth i (control cp 2 1) 0 + bern 2 U * nth i (control cp 2 2) 0)) by (unfold bezier_value, sum3; ring).
  apply mix; [exact HV| | |]; apply R; lia.
Qed.

Section FP.
Variables prec emax : Z.
Context {Hprec : Prec_gt_0 prec} {Hmax : Prec_lt_emax prec emax}.
Notation fl := (binary_float prec emax).
Notation u := (unit_roundoff prec).
Notation eta := (underflow_error prec emax).
Notation Om := (bpow radix2 emax).
Notation z0 := (cst 0 : fl).

Lemma surface_box : (20 <= prec)%Z -> (20 <= emax)%Z -> forall n (cp : list (list (list fl))) (a b : fl) M, is_grid n (map (map values) cp) -> Forall (Forall (fun v => all_finite v /\ Forall (fun x => Rabs x <= M) (values v))) cp ->
  is_finite a = true -> is_finite b = true -> 0 <= B2R a <= 1 -> 0 <= B2R b <= 1 -> 1 <= M -> 4 * M <= Om ->
  forall i l h, (i < n)%nat -> (forall j k, (j < 3)%nat -> (k < 3)%nat -> l <= nth i (control (map (map values) cp) j k) 0 <= h) ->
  l - 27 * (u * M) <= nth i (values (bezier_surface n cp a b)) 0 <= h + 27 * (u * M).
Proof.
  intros U20 E20 n cp a b M G FG Fa Fb Ha Hb M1 MO i l h I H. destruct (surface_near prec emax U20 E20 n cp a b M G FG Fa Fb Ha Hb M1 MO) as (_ & _ & N). assert (B := bezier_between _ (B2R a) (B2R b) i l h Ha Hb H). assert (D := Rabs_le_inv _ _ (N i I)). lra.
Qed.

(** Exact operations. *)
Definition has (x : fl) (y : R) : Prop := is_finite x = true /\ B2R x = y.
Lemma has_add0 : forall x y a, has x a -> has y 0 -> has (o_add x y) a.
Proof.
  intros x y a (Fx & <-) (Fy & Y). unfold has. destruct (Fplus_exact prec emax x y Fx Fy) as (F & V); rewrite ?Y, ?Rplus_0_r in *; [apply generic_format_B2R|apply abs_B2R_lt_emax|]. now split.
Qed.
Lemma has_0add : forall x y a, has x 0 -> has y a -> has (o_add x y) a.
Proof.
  intros x y a (Fx & X) (Fy & <-). unfold has. destruct (Fplus_exact prec emax x y Fx Fy) as (F & V); rewrite ?X, ?Rplus_0_l in *; [apply generic_format_B2R|apply abs_B2R_lt_emax|]. now split.
Qed.
Lemma has_mul : forall x y a b, has x a -> has y b -> (b = 0 \/ b = 1 \/ a = 0) -> has (o_mul x y) (a * b).
Proof.
  intros x y a b (Fx & <-) (Fy & <-) H. assert (G : generic_format radix2 (SpecFloat.fexp prec emax) (B2R x * B2R y) /\ Rabs (B2R x * B2R y) < Om).
  { destruct H as [->|[->| ->]]; [rewrite Rmult_0_r|rewrite Rmult_1_r|rewrite Rmult_0_l]; try (split; [apply generic_format_0|rewrite Rabs_R0; apply bpow_gt_0]). split; [apply generic_format_B2R|apply abs_B2R_lt_emax]. }
  destruct G as (G & B). generalize (Bmult_correct prec emax Hprec Hmax mode_NE x y). rewrite round_generic by auto with typeclass_instances. rewrite Rlt_bool_true by exact B. intros (V & F & _). unfold has. split; [change (o_mul x y) with (Bmult mode_NE x y); rewrite F, Fx, Fy; reflexivity|exact V].
Qed.
Hypothesis P2 : (2 <= prec)%Z.
Lemma ints_has : forall z, (Z.abs z <= 4)%Z -> has (cst z) (IZR z).
Proof. intros z H. apply F_cst. assert (4 <= 2 ^ prec)%Z by (change 4%Z with (2 ^ 2)%Z; apply Z.pow_le_mono_r; lia). lia. Qed.
Lemma has_sub : forall x y p q, has x (IZR p) -> has y (IZR q) -> (Z.abs (p - q) <= 4)%Z -> has (o_sub x y) (IZR (p - q)).
Proof.
  intros x y p q (Fx & X) (Fy & Y) H. destruct (ints_has _ H) as (Fc & Vc). unfold has. destruct (Fminus_exact prec emax x y Fx Fy) as (F & V); rewrite ?X, ?Y, <- ?minus_IZR in *; [rewrite <- Vc; apply generic_format_B2R|rewrite <- Vc; apply abs_B2R_lt_emax|]. now split.
Qed.
Lemma has_addz : forall x y p q, has x (IZR p) -> has y (IZR q) -> (Z.abs (p + q) <= 4)%Z -> has (o_add x y) (IZR (p + q)).
Proof.
  intros x y p q (Fx & X) (Fy & Y) H. destruct (ints_has _ H) as (Fc & Vc). unfold has. destruct (Fplus_exact prec emax x y Fx Fy) as (F & V); rewrite ?X, ?Y, <- ?plus_IZR in *; [rewrite <- Vc; apply generic_format_B2R|rewrite <- Vc; apply abs_B2R_lt_emax|]. now split.
Qed.
Lemma weights0 : forall x, has x 0 -> has (bernstein_0 x) 1 /\ has (bernstein_1 x) 0 /\ has (bernstein_2 x) 0.
Proof.
  intros x X. assert (XX : has (o_mul x x) 0) by (replace 0 with (0 * 0) by ring; apply has_mul; auto). assert (X2 : has (o_mul (cst 2) x) 0) by (replace 0 with (IZR 2 * 0) by ring; apply has_mul; auto; apply ints_has; lia).
  split; [|split; [|exact XX]].
  - apply (has_addz _ _ 1 0); [|exact XX|lia]. apply (has_sub _ _ 1 0); [apply ints_has; lia|exact X2|lia].
  - unfold bernstein_1. replace 0 with (IZR 2 * 0) by ring. apply has_mul; auto; [apply ints_has; lia|]. apply (has_sub _ _ 0 0); [exact X|exact XX|lia].
Qed.
Lemma weights1 : forall x, has x 1 -> has (bernstein_0 x) 0 /\ has (bernstein_1 x) 0 /\ has (bernstein_2 x) 1.
Proof.
  intros x X. assert (XX : has (o_mul x x) 1) by (replace 1 with (1 * 1) by ring; apply has_mul; auto). assert (X2 : has (o_mul (cst 2) x) 2) by (replace 2 with (IZR 2 * 1) by ring; apply has_mul; auto; apply ints_has; lia).
  split; [|split; [|exact XX]].
  - apply (has_addz _ _ (-1) 1); [|exact XX|lia]. apply (has_sub _ _ 1 2); [apply ints_has; lia|exact X2|lia].
  - unfold bernstein_1. replace 0 with (IZR 2 * 0) by ring. apply has_mul; auto; [apply ints_has; lia|]. apply (has_sub _ _ 1 1); [exact X|exact XX|lia].
Qed.
(** A parameter at one of the two ends, with the index of the control point there. *)
Definition end_of (x : fl) (k : nat) : Prop := is_finite x = true /\ (B2R x = 0 /\ k = 0%nat \/ B2R x = 1 /\ k = 2%nat).
Lemma combine_end : forall (x p0 p1 p2 : fl) y0 y1 y2 k, end_of x k -> has p0 y0 -> has p1 y1 -> has p2 y2 ->
  has (o_add (o_add (o_add (cst 0) (o_mul p0 (bernstein_0 x))) (o_mul p1 (bernstein_1 x))) (o_mul p2 (bernstein_2 x))) (match k with O => y0 | _ => y2 end).
Proof.
  intros x p0 p1 p2 y0 y1 y2 k (Fx & E) H0 H1 H2. assert (Z : has (cst 0) 0) by apply F_cst0. assert (M0 : forall p y w, has p y -> has w 0 -> has (o_mul p w) 0) by (intros p y w Hp Hw; replace 0 with (y * 0) by ring; apply has_mul; auto). assert (M1 : forall p y w, has p y -> has w 1 -> has (o_mul p w) y) by (intros p y w Hp Hw; replace y with (y * 1) by ring; apply has_mul; auto).
  destruct E as [(X & ->)|(X & ->)].
  - destruct (weights0 x (conj Fx X)) as (W0 & W1 & W2). apply has_add0; [apply has_add0; [apply has_0add; [exact Z|now apply M1]|now apply (M0 _ y1)]|now apply (M0 _ y2)].
  - destruct (weights1 x (conj Fx X)) as (W0 & W1 & W2). apply has_0add; [|now apply M1]. apply has_add0; [apply has_add0; [exact Z|now apply (M0 _ y0)]|now apply (M0 _ y1)].
Qed.
Definition hasv (v : list fl) (r : list R) : Prop := length v = length r /\ forall i, (i < length r)%nat -> has (nth i v z0) (nth i r 0).
Lemma hasv_values : forall v r, hasv v r -> all_finite v /\ values v = r.
Proof.
  intros v r (L & H). split.
  - unfold all_finite. apply Forall_forall. intros x Hx. apply (In_nth _ _ z0) in Hx. destruct Hx as (i & I & <-). apply (H i). lia.
  - apply (nth_ext _ _ 0 0); [unfold values; now rewrite map_length|]. intros i I. unfold values in I. rewrite map_length in I. rewrite (nth_values prec emax). apply (H i). lia.
Qed.
Lemma hasv_of : forall v : list fl, all_finite v -> hasv v (values v).
Proof.
  intros v F. split; [unfold values; now rewrite map_length|]. intros i I. unfold values in I. rewrite map_length in I. rewrite (nth_values prec emax). split; [|reflexivity]. unfold all_finite in F. rewrite Forall_forall in F. apply F, nth_In, I.
Qed.
Lemma interp_end : forall n x k (a b c : list fl) ra rb rc, end_of x k -> hasv a ra -> hasv b rb -> hasv c rc -> length ra = n -> length rb = n -> length rc = n -> hasv (bezier_interpolate n x [a; b; c]) (match k with O => ra | _ => rc end).
Proof.
  intros n x k a b c ra rb rc E (LA & A) (LB & B) (LC & C) NA NB NC. assert (LM : length (match k with O => ra | _ => rc end) = n) by (destruct k; assumption). split.
  - rewrite LM. destruct n as [|m]; [destruct a; [reflexivity|cbn [length] in LA; lia]|]. apply (interp_nth prec emax (S m) x a b c 0); lia.
  - intros i I. rewrite LM in I. destruct (interp_nth prec emax n x a b c i) as (-> & _); try lia. assert (H := combine_end x _ _ _ _ _ _ k E (A i ltac:(lia)) (B i ltac:(lia)) (C i ltac:(lia))). destruct k; exact H.
Qed.
Lemma surface_corner : forall n (cp : list (list (list fl))) (a b : fl) j k, is_grid n (map (map values) cp) -> Forall (Forall (fun v => all_finite v)) cp -> end_of a k -> end_of b j ->
  let q := bezier_surface n cp a b in all_finite q /\ values q = control (map (map values) cp) j k.
Proof.
  intros n cp a b j k (L3 & FL) FG Ea Eb q. rewrite map_length in L3. destruct cp as [|r0 [|r1 [|r2 [|]]]]; try discriminate. clear L3. cbn [map] in FL.
  destruct (Forall_inv FL) as (K0 & FL0). destruct (Forall_inv (Forall_inv_tail FL)) as (K1 & FL1). destruct (Forall_inv (Forall_inv_tail (Forall_inv_tail FL))) as (K2 & FL2). assert (FG0 := Forall_inv FG). assert (FG1 := Forall_inv (Forall_inv_tail FG)). assert (FG2 := Forall_inv (Forall_inv_tail (Forall_inv_tail FG))).
  assert (D : forall r : list (list fl), length (map values r) = 3%nat -> Forall (fun p => length p = n) (map values r) -> Forall (fun v => all_finite v) r -> hasv (bezier_interpolate n a r) (nth k (map values r) []) /\ length (nth k (map values r) []) = n).
  { intros r LR FR GR. destruct r as [|c0 [|c1 [|c2 [|]]]]; try discriminate. cbn [map] in FR. assert (A0 := Forall_inv FR). assert (A1 := Forall_inv (Forall_inv_tail FR)). assert (A2 := Forall_inv (Forall_inv_tail (Forall_inv_tail FR))). cbn beta in A0, A1, A2. assert (G0 := hasv_of _ (Forall_inv GR)). assert (G1 := hasv_of _ (Forall_inv (Forall_inv_tail GR))). assert (G2 := hasv_of _ (Forall_inv (Forall_inv_tail (Forall_inv_tail GR)))).
    assert (H := interp_end n a k c0 c1 c2 _ _ _ Ea G0 G1 G2 A0 A1 A2). destruct Ea as (_ & [(_ & ->)|(_ & ->)]); cbn [map nth]; auto. }
  destruct (D r0 K0 FL0 FG0) as (H0 & N0). destruct (D r1 K1 FL1 FG1) as (H1 & N1). destruct (D r2 K2 FL2 FG2) as (H2 & N2). assert (H := interp_end n b j _ _ _ _ _ _ Eb H0 H1 H2 N0 N1 N2). apply hasv_values in H. destruct H as (F & V). split; [exact F|]. unfold q. transitivity (values (bezier_interpolate n b [bezier_interpolate n a r0; bezier_interpolate n a r1; bezier_interpolate n a r2])); [reflexivity|]. rewrite V. unfold control. cbn [map]. destruct Eb as (_ & [(_ & ->)|(_ & ->)]); reflexivity.
Qed.
End FP.

(** A patch of double precision control points; its middle is (4, 4, 3). *)
Definition patch : list (list (list double)) :=
  [[ints [0; 0; 0]; ints [4; 0; 2]; ints [8; 0; 0]]; [ints [0; 4; 2]; ints [4; 4; 8]; ints [8; 4; 2]]; [ints [0; 8; 0]; ints [4; 8; 2]; ints [8; 8; 0]]]%Z.
Definition half_d : double := o_div (cst 1) (cst 2).
Lemma half_ok : is_finite half_d = true /\ B2R half_d = / 2.
Proof.
  destruct (cst_double 2 ltac:(lia)) as (F2 & V2). assert (H : is_finite half_d = true) by (vm_cast_no_check (eq_refl true)). split; [exact H|].
  assert (E : Beqb (o_add half_d half_d) (cst 1) = true) by (vm_cast_no_check (eq_refl true)). destruct (cst_double 1 ltac:(lia)) as (F1 & V1).
  assert (K := Bdiv_correct 53 1024 eq_refl eq_refl mode_NE (cst 1 : double) (cst 2 : double)). cbv zeta in K. set (c1 := cst 1 : double) in *. set (c2 := cst 2 : double) in *. change (cst 1) with c1 in K. change (cst 2) with c2 in K. rewrite V1, V2 in K. specialize (K ltac:(lra)). replace (1 / 2) with (bpow radix2 (-1)) in K by (cbn; lra).
  rewrite round_generic in K; [|auto with typeclass_instances|apply generic_format_bpow; cbn; lia]. rewrite Rlt_bool_true in K; [|rewrite Rabs_pos_eq by apply bpow_ge_0; apply bpow_lt; lia]. destruct K as (K & _). transitivity (bpow radix2 (-1)); [exact K|cbn; lra].
Qed.
Lemma patch_case : is_grid 3 (map (map values) patch) /\ Forall (Forall (fun v => all_finite v /\ Forall (fun x => Rabs x <= 8) (values v))) patch /\ is_finite half_d = true /\ 0 <= B2R half_d <= 1 /\ 4 * 8 <= bpow radix2 1024
  /\ v_eq (bezier_surface 3 patch half_d half_d) (ints [4; 4; 3]%Z) = true /\ bezier_value (map (map values) patch) (/ 2) (/ 2) 2 = 3.
Proof.
  assert (W : forall x y z, (Z.abs x <= 8)%Z -> (Z.abs y <= 8)%Z -> (Z.abs z <= 8)%Z -> S_hit.within 8 (ints [x; y; z])) by (intros; apply ints_within; assumption). assert (V : forall x y z, (Z.abs x <= 8)%Z -> (Z.abs y <= 8)%Z -> (Z.abs z <= 8)%Z -> values (ints [x; y; z]) = [IZR x; IZR y; IZR z]) by (intros; apply ints_within; assumption). destruct half_ok as (FH & VH).
  split; [unfold patch, is_grid; cbn [map length]; split; [reflexivity|]; repeat constructor|]. split; [unfold patch; repeat apply Forall_cons; try apply Forall_nil; apply (W _ _ _); lia|]. split; [exact FH|]. split; [rewrite VH; lra|]. split; [apply Rle_trans with (bpow radix2 30); [cbn; lra|apply bpow_le; lia]|]. split; [vm_cast_no_check (eq_refl true)|].
  unfold patch, bezier_value, sum3, control. cbn [map nth]. rewrite !V by lia. cbn [nth bern]. field.
Qed.
