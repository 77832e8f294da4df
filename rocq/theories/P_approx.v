(** Proofs about approx.h and matrix comparison. *)
From Coq Require Import ZArith Reals List Bool Arith Lia Lra.
From Flocq Require Import Core BinarySingleNaN.
From Verif Require Import Ops M_scalar M_vec M_mat M_geom M_approx Inst_F Inst_XR S_order S_vec S_geom S_approx.
From Verif Require Import P_ord P_compare P_xr P_ieee P_misc P_vec.
Import ListNotations.
Local Open Scope R_scope.

(** ** Numbers over the reals *)
Lemma X_ap_left : forall x v e, 0 <= e ->
  (ap_lt_r (Some x) (Approx (Some v) (Some e)) = true <-> x < v - e)
  /\ (ap_eq_r (Some x) (Approx (Some v) (Some e)) = true <-> Rabs (x - v) <= e)
  /\ (ap_gt_r (Some x) (Approx (Some v) (Some e)) = true <-> v + e < x)
  /\ (ap_le_r (Some x) (Approx (Some v) (Some e)) = true <-> x <= v + e)
  /\ (ap_ge_r (Some x) (Approx (Some v) (Some e)) = true <-> v - e <= x).
Proof.
  intros x v e E. unfold ap_lt_r, ap_eq_r, ap_gt_r, ap_le_r, ap_ge_r. cbn [ap_value ap_eps].
  cbn [o_lt o_le o_sub o_add XRops Xcmp X2]. rewrite andb_true_iff.
  split; [ | split; [ | split; [ | split ] ] ].
  - destruct (Rlt_bool_spec x (v - e)); split; try easy; lra.
  - destruct (Rle_bool_spec (v - e) x), (Rle_bool_spec x (v + e)); split; try (intros [? ?]); try discriminate;
      intros; try (split; reflexivity); try (apply Rabs_le; lra); match goal with H : Rabs _ <= _ |- _ => apply Rabs_le_inv in H; lra end.
  - destruct (Rlt_bool_spec (v + e) x); split; try easy; lra.
  - destruct (Rle_bool_spec x (v + e)); split; try easy; lra.
  - destruct (Rle_bool_spec (v - e) x); split; try easy; lra.
Qed.
Lemma X_ap_trichotomy : forall x v e, 0 <= e -> let a := Approx (Some v) (Some e) in let y := Some x : XR in
  exactly_one3 (ap_lt_r y a) (ap_eq_r y a) (ap_gt_r y a)
  /\ ap_le_r y a = ap_lt_r y a || ap_eq_r y a /\ ap_ge_r y a = ap_gt_r y a || ap_eq_r y a
  /\ ap_lt_l a y = ap_gt_r y a /\ ap_gt_l a y = ap_lt_r y a /\ ap_eq_l a y = ap_eq_r y a
  /\ ap_le_l a y = ap_ge_r y a /\ ap_ge_l a y = ap_le_r y a
  /\ ap_ne_r y a = negb (ap_eq_r y a) /\ ap_ne_l a y = negb (ap_eq_r y a).
Proof.
  intros x v e E a y. unfold a, y, exactly_one3, ap_lt_r, ap_eq_r, ap_gt_r, ap_le_r, ap_ge_r, ap_lt_l, ap_eq_l, ap_gt_l, ap_le_l, ap_ge_l, ap_ne_r, ap_ne_l, ap_eq_l, ap_eq_r. cbn [ap_value ap_eps].
  cbn [o_lt o_le o_sub o_add XRops Xcmp X2].
  repeat match goal with
  | |- context [Rlt_bool ?a ?b] => destruct (Rlt_bool_spec a b)
  | |- context [Rle_bool ?a ?b] => destruct (Rle_bool_spec a b)
  end; cbn [andb orb negb]; try lra; repeat split; auto.
Qed.
Lemma ap_make_ok : forall A (value : A) e, 0 <= e -> ap_make value (Some e) = Ret (Approx value (Some e)).
Proof.
  intros A value e E. unfold ap_make. change (o_le (cst 0) (Some e)) with (Rle_bool 0 e). rewrite Rle_bool_true by exact E. reflexivity.
Qed.
Lemma ap_make_negative : forall A (value : A) e, e < 0 -> ap_make value (Some e) = Assert.
Proof.
  intros A value e E. unfold ap_make. change (o_le (cst 0) (Some e)) with (Rle_bool 0 e). rewrite Rle_bool_false by exact E. reflexivity.
Qed.

(** ** Numbers over IEEE *)
Section Generic.
Context {T : Type} {o : ops T} {L : ordlaws o}.
Lemma ap_trichotomy : forall x v e : T, is_nan x = false -> o_le (o_sub v e) (o_add v e) = true ->
  let a := Approx v e in
  exactly_one3 (ap_lt_r x a) (ap_eq_r x a) (ap_gt_r x a)
  /\ ap_le_r x a = ap_lt_r x a || ap_eq_r x a /\ ap_ge_r x a = ap_gt_r x a || ap_eq_r x a.
Proof.
  intros x v e Nx H a. unfold a, exactly_one3, ap_lt_r, ap_eq_r, ap_gt_r, ap_le_r, ap_ge_r. cbn [ap_value ap_eps].
  set (lo := o_sub v e) in *. set (hi := o_add v e) in *. apply le_true in H. destruct H as (Nl & Nh & H).
  rewrite !lt_key, !le_key by assumption.
  destruct (Rlt_bool_spec (key x) (key lo)), (Rle_bool_spec (key lo) (key x)), (Rle_bool_spec (key x) (key hi)), (Rlt_bool_spec (key hi) (key x)); cbn [andb orb]; try lra; tauto.
Qed.
End Generic.
Section IEEE.
Variables prec emax : Z.
Context {Hprec : Prec_gt_0 prec} {Hmax : Prec_lt_emax prec emax}.
Notation fl := (binary_float prec emax).
Notation F := (generic_format radix2 (SpecFloat.fexp prec emax)).

Lemma le_inf_r : forall x : fl, BinarySingleNaN.is_nan x = false -> o_le x (B754_infinity false : fl) = true.
Proof. intros [s|[]| |[] m e H] N; try discriminate; reflexivity. Qed.
Lemma le_inf_l : forall x : fl, BinarySingleNaN.is_nan x = false -> o_le (B754_infinity true : fl) x = true.
Proof. intros [s|[]| |[] m e H] N; try discriminate; reflexivity. Qed.
Lemma ovf : forall s (x : fl), B2SF x = binary_overflow prec emax mode_NE s -> x = B754_infinity s.
Proof. intros s x H. apply B2SF_inj. rewrite H. reflexivity. Qed.
Lemma nonneg_cases : forall e : fl, o_le (cst 0 : fl) e = true ->
  (exists s, e = B754_zero s) \/ e = B754_infinity false \/ (is_finite e = true /\ Bsign e = false /\ 0 < B2R e).
Proof.
  intros e H. assert (Z := F_cst0 prec emax). destruct Z as [Z1 Z2]. destruct e as [s|[]| |s m e B].
  - left. now exists s.
  - exfalso. revert H. destruct (cst 0 : fl) as [[]|[]| |[] ? ? ?]; try discriminate Z1; discriminate.
  - right. now left.
  - exfalso. revert H. destruct (cst 0 : fl) as [[]|[]| |[] ? ? ?]; discriminate.
  - right. right. change (Bleb (cst 0 : fl) (B754_finite s m e B) = true) in H. rewrite Bleb_correct in H by (auto; reflexivity).
    destruct (Rle_bool_spec (B2R (cst 0 : fl)) (B2R (B754_finite s m e B))) as [Le|]; [ | discriminate ].
    rewrite Z2 in Le. split; [ reflexivity | ]. destruct s.
    + exfalso. apply (Rlt_not_le _ _ (F2R_lt_0 radix2 (Float radix2 (Zneg m) e) eq_refl)). exact Le.
    + split; [ reflexivity | ]. apply (F2R_gt_0 radix2 (Float radix2 (Zpos m) e) eq_refl).
Qed.
Lemma F_interval : forall v e : fl, BinarySingleNaN.is_nan v = false -> o_le (cst 0 : fl) e = true ->
  is_finite v = true \/ is_finite e = true -> o_le (o_sub v e) (o_add v e) = true.
Proof.
  intros v e Nv He FF. destruct (nonneg_cases e He) as [[s ->] | [-> | (Fe & Se & Pe)]].
  - destruct v as [[]|[]| |[] m x B], s; try discriminate; try reflexivity;
    match goal with H : BinarySingleNaN.is_nan ?w = false |- _ => change (Bleb w w = true) end; rewrite Bleb_correct by reflexivity; apply Rle_bool_true, Rle_refl.
  - destruct FF as [FF | FF]; [ | discriminate ]. destruct v as [[]|[]| |[] m x B]; try discriminate; reflexivity.
  - destruct (is_finite v) eqn:Fv.
    2:{ destruct v as [[]|[]| |[] m x B]; try discriminate; destruct e as [[]|[]| |[] m' x' B']; try discriminate; reflexivity. }
    generalize (Bplus_correct prec emax Hprec Hmax mode_NE v e Fv Fe) (Bminus_correct prec emax Hprec Hmax mode_NE v e Fv Fe).
    assert (M : round radix2 (SpecFloat.fexp prec emax) (round_mode mode_NE) (B2R v - B2R e) <= round radix2 (SpecFloat.fexp prec emax) (round_mode mode_NE) (B2R v + B2R e)).
    { apply round_le; [ apply fexp_correct; exact Hprec | apply valid_rnd_round_mode | lra ]. }
    change (o_sub v e) with (Bminus mode_NE v e). change (o_add v e) with (Bplus mode_NE v e). change (@o_le fl _) with (@Bleb prec emax).
    destruct (Rlt_bool_spec (Rabs (round radix2 (SpecFloat.fexp prec emax) (round_mode mode_NE) (B2R v + B2R e))) (bpow radix2 emax)) as [B1|B1];
    destruct (Rlt_bool_spec (Rabs (round radix2 (SpecFloat.fexp prec emax) (round_mode mode_NE) (B2R v - B2R e))) (bpow radix2 emax)) as [B2|B2].
    + intros (P1 & P2 & _) (Q1 & Q2 & _). rewrite Bleb_correct by assumption. rewrite P1, Q1. now apply Rle_bool_true.
    + intros (P1 & P2 & _) (Q1 & Q2). apply ovf in Q1. rewrite Q1. rewrite Q2, Se. cbn [negb]. apply le_inf_l. now destruct (Bplus mode_NE v e).
    + intros (P1 & P2) (Q1 & Q2 & _). apply ovf in P1. rewrite P1. rewrite P2, Se. apply le_inf_r. now destruct (Bminus mode_NE v e).
    + intros (P1 & P2) (Q1 & Q2). apply ovf in P1. rewrite P1. rewrite P2, Se. apply le_inf_r. apply ovf in Q1. rewrite Q1. reflexivity.
Qed.
Lemma F_ap_trichotomy : forall x v e : fl, ~ NaN x -> ~ NaN v -> o_le (cst 0) e = true -> is_finite v = true \/ is_finite e = true ->
  let a := Approx v e in
  exactly_one3 (ap_lt_r x a) (ap_eq_r x a) (ap_gt_r x a)
  /\ ap_le_r x a = ap_lt_r x a || ap_eq_r x a /\ ap_ge_r x a = ap_gt_r x a || ap_eq_r x a
  /\ ap_eq_l a x = ap_eq_r x a /\ ap_ne_r x a = negb (ap_eq_r x a) /\ ap_ne_l a x = negb (ap_eq_r x a).
Proof.
  intros x v e Nx Nv He FF a. apply not_NaN_is_nan in Nx, Nv.
  destruct (ap_trichotomy x v e Nx) as (A & B & C). { apply F_interval; auto. clear - Nv. destruct v; try reflexivity. discriminate. }
  repeat split; auto.
Qed.
End IEEE.
(** The two operand orders round differently; with the approx on the left no relation may hold. *)
Lemma ap_orders_refuted : exists x v e : double, is_finite x = true /\ is_finite v = true /\ o_le (cst 0) e = true
  /\ ap_lt_r x (Approx v e) = true
  /\ ap_lt_l (Approx v e) x = false /\ ap_eq_l (Approx v e) x = false /\ ap_gt_l (Approx v e) x = false.
Proof.
  exists (D (2 ^ 53 - 1) (-53)), (D 1 0), (D 1 (-54)). repeat split; vm_compute; reflexivity.
Qed.

(** ** Lists *)
Lemma X_apl_eq : forall xs vs, Forall (fun a => 0 <= ap_eps a) vs ->
  let as_ := map (fun a => Approx (Some (ap_value a)) (Some (ap_eps a))) vs in
  (apl_eq_r (map Some xs) as_ = true <-> Forall2 (fun x a => Rabs (x - ap_value a) <= ap_eps a) xs vs)
  /\ apl_eq_l as_ (map Some xs) = apl_eq_r (map Some xs) as_
  /\ apl_ne_r (map Some xs) as_ = negb (apl_eq_r (map Some xs) as_)
  /\ apl_ne_l as_ (map Some xs) = negb (apl_eq_r (map Some xs) as_).
Proof.
  intros xs vs H as_. split; [ | repeat split ]. unfold apl_eq_r, as_. rewrite !map_length.
  destruct (Nat.eqb_spec (length xs) (length vs)) as [E|E]; cbn [negb].
  - clear as_. revert vs H E. induction xs as [|x xs IH]; intros [|a vs] H E; try discriminate.
    + split; [ constructor | reflexivity ].
    + inversion H as [|? ? Ha H']; subst. cbn [map apl_loop]. unfold ap_ne_r.
      destruct (X_ap_left x (ap_value a) (ap_eps a) Ha) as (_ & Q & _).
      destruct (ap_eq_r (Some x) (Approx (Some (ap_value a)) (Some (ap_eps a)))); cbn [negb].
      * rewrite IH by (auto; cbn [length] in E; lia). split; [ intros K; constructor; [ now apply Q | exact K ] | intros K; now inversion K ].
      * split; [ discriminate | ]. intros K. inversion K; subst. assert (W : false = true) by now apply Q. discriminate.
  - split; [ discriminate | ]. intros K. exfalso. apply E. clear - K. induction K; cbn [length]; congruence.
Qed.

(** ** Vectors *)
Lemma X_sub_fill : forall v e n, length v = n -> v_sub (vS v) (v_fill n (Some e)) = vS (map (fun x => x - e) v).
Proof.
  intros v e n <-. unfold v_sub, v_fill. induction v as [|x v IH]; [ reflexivity | ]. cbn [map length repeat map2]. now rewrite IH.
Qed.
Lemma X_add_fill : forall v e n, length v = n -> v_add (vS v) (v_fill n (Some e)) = vS (map (fun x => x + e) v).
Proof.
  intros v e n <-. unfold v_add, v_fill. induction v as [|x v IH]; [ reflexivity | ]. cbn [map length repeat map2]. now rewrite IH.
Qed.
Lemma X_ccmp : forall x y, ccmp (Some x : XR) (Some y) = match Rcompare x y with Lt => -1 | Eq => 0 | Gt => 1 end%Z.
Proof. intros x y. unfold ccmp. rewrite !X_nan. reflexivity. Qed.
Lemma within_not_less : forall x v e, 0 <= e -> vec_within e x v ->
  (0 <= v_compare (vS x) (vS (map (fun y => (y - e)%R) v)) (cst 0) /\ v_compare (vS x) (vS (map (fun y => (y + e)%R) v)) (cst 0) <= 0)%Z.
Proof.
  intros x v e E H. induction H as [|a b x v H1 H2 IH]; [ cbn; lia | ]. cbn [map]. rewrite !v_compare_cons, !X_ccmp.
  apply Rabs_le_inv in H1. destruct (Rcompare_spec a (b - e)), (Rcompare_spec a (b + e)); cbn [Z.eqb]; try lra; lia.
Qed.
Lemma less_not_greater : forall v x e, 0 <= e -> length x = length v ->
  (v_compare (vS x) (vS (map (fun y => (y - e)%R) v)) (cst 0) < 0 -> v_compare (vS x) (vS (map (fun y => (y + e)%R) v)) (cst 0) <= 0)%Z.
Proof.
  induction v as [|b v IH]; intros [|a x] e E L; try discriminate. cbn [map]. rewrite !v_compare_cons, !X_ccmp.
  cbn [length] in L. injection L as L.
  destruct (Rcompare_spec a (b - e)), (Rcompare_spec a (b + e)); cbn [Z.eqb]; try lra; try lia. now apply IH.
Qed.
Lemma X_apv_spec : forall n x v e, length x = n -> length v = n -> 0 <= e ->
  let a := Approx (vS v) (Some e) in let y := vS x in
  (apv_eq_r y a = true <-> vec_within e x v)
  /\ apv_eq_l a y = apv_eq_r y a /\ apv_ne_r y a = negb (apv_eq_r y a) /\ apv_ne_l a y = negb (apv_eq_r y a)
  /\ (apv_eq_r y a = true -> apv_lt_r n y a = false /\ apv_gt_r n y a = false)
  /\ (apv_lt_r n y a = true -> apv_gt_r n y a = false)
  /\ (apv_le_r n y a = negb (apv_gt_r n y a))
  /\ (apv_le_l n a y = negb (apv_gt_l n a y))
  /\ (apv_lt_r n y a = true -> apv_le_r n y a = true) /\ (apv_eq_r y a = true -> apv_le_r n y a = true).
Proof.
  intros n x v e Lx Lv E a y. unfold a, y, apv_lt_r, apv_gt_r, apv_le_r, apv_le_l, apv_gt_l, v_lt, v_gt, v_le. cbn [ap_value ap_eps].
  rewrite X_sub_fill, !X_add_fill by assumption.
  assert (Q := X_v_is_equal x v e ltac:(congruence) E).
  assert (W := within_not_less x v e E). assert (G := less_not_greater v x e E ltac:(congruence)).
  assert (NG : forall z : Z, (z <=? 0)%Z = negb (0 <? z)%Z) by (intros z; destruct (Z.leb_spec z 0), (Z.ltb_spec 0 z); lia || reflexivity).
  set (lo := v_compare (vS x) (vS (map (fun y => (y - e)%R) v)) (cst 0)) in *.
  set (hi := v_compare (vS x) (vS (map (fun y => (y + e)%R) v)) (cst 0)) in *. clearbody lo hi.
  rewrite !NG. split; [ exact Q | ]. do 3 (split; [ reflexivity | ]).
  assert (K : apv_eq_r (vS x) (Approx (vS v) (Some e)) = true -> vec_within e x v) by apply Q.
  split; [ | split; [ | split; [ reflexivity | split; [ reflexivity | split ] ] ] ].
  - intros H. specialize (W (K H)). split; apply Z.ltb_ge; lia.
  - rewrite Z.ltb_lt, Z.ltb_ge. exact G.
  - rewrite Z.ltb_lt, negb_true_iff, Z.ltb_ge. exact G.
  - intros H. specialize (W (K H)). rewrite negb_true_iff, Z.ltb_ge. lia.
Qed.
(** For vectors no relation may hold. *)
Lemma X_apv_trichotomy_refuted : exists x v e, length x = 2%nat /\ length v = 2%nat /\ 0 <= e
  /\ let a := Approx (vS v) (Some e) in let y := vS x in
     apv_lt_r 2 y a = false /\ apv_eq_r y a = false /\ apv_gt_r 2 y a = false.
Proof.
  exists [/ 2; -5], [0; 0], 1. split; [ reflexivity | split; [ reflexivity | split; [ lra | ] ] ]. cbv zeta.
  unfold apv_lt_r, apv_gt_r, v_lt, v_gt. cbn [ap_value ap_eps]. rewrite X_sub_fill, X_add_fill by reflexivity. cbn [map].
  rewrite !v_compare_cons, !X_ccmp. rewrite (Rcompare_Gt (/ 2) (0 - 1)) by lra. rewrite (Rcompare_Lt (/ 2) (0 + 1)) by lra.
  split; [ reflexivity | split; [ | reflexivity ] ].
  destruct (apv_eq_r (vS [/ 2; -5]) (Approx (vS [0; 0]) (Some 1))) eqn:Q; [ exfalso | exact Q ].
  destruct (X_apv_spec 2 [/ 2; -5] [0; 0] 1) as (W & _); try reflexivity; [ lra | ]. apply W in Q. clear W.
  inversion Q as [|? ? ? ? _ Q2]; subst. inversion Q2 as [|? ? ? ? Q3 _]; subst. apply Rabs_le_inv in Q3. lra.
Qed.

(** ** Matrices and lines *)
Lemma X_m_compare_zero : forall A B e, Forall2 (fun a b => length a = length b) A B -> 0 <= e ->
  (m_compare (map vS A) (map vS B) (Some e) = 0%Z <-> Forall2 (vec_within e) A B).
Proof.
  intros A B e H E. induction H as [|a b A B L H IH]; [ split; [ constructor | reflexivity ] | ]. cbn [map m_compare].
  assert (Q := X_v_is_equal a b e L E). unfold v_is_equal in Q.
  destruct (v_compare (vS a) (vS b) (Some e) =? 0)%Z eqn:C; cbn [negb].
  - rewrite IH. split; [ intros K; constructor; [ now apply Q | exact K ] | intros K; now inversion K ].
  - split; [ intros K; rewrite K in C; discriminate | ]. intros K. inversion K; subst. assert (W : false = true) by (apply Q; assumption). discriminate.
Qed.
Lemma X_m_is_equal : forall A B e, Forall2 (fun a b => length a = length b) A B -> 0 <= e ->
  (m_is_equal (map vS A) (map vS B) (Some e) = true <-> Forall2 (vec_within e) A B).
Proof. intros A B e H E. unfold m_is_equal. rewrite Z.eqb_eq. now apply X_m_compare_zero. Qed.
Lemma X_apm_spec : forall A B e, Forall2 (fun a b => length a = length b) A B -> 0 <= e ->
  let a := Approx (map vS B) (Some e) in let y := map vS A in
  (apm_eq_r y a = true <-> Forall2 (vec_within e) A B)
  /\ apm_eq_l a y = apm_eq_r y a /\ apm_ne_r y a = negb (apm_eq_r y a) /\ apm_ne_l a y = negb (apm_eq_r y a).
Proof. intros A B e H E a y. split; [ now apply X_m_is_equal | repeat split ]. Qed.
Lemma X_apn_spec : forall l m e, length (ln_point l) = length (ln_point m) -> length (ln_dir l) = length (ln_dir m) -> 0 <= e ->
  let a := Approx (line_lift m) (Some e) in
  (apn_eq_r (line_lift l) a = true <-> vec_within e (ln_point l) (ln_point m) /\ vec_within e (ln_dir l) (ln_dir m))
  /\ apn_eq_l a (line_lift l) = apn_eq_r (line_lift l) a.
Proof.
  intros [p d] [q f] e L1 L2 E a. split; [ | reflexivity ]. cbn [ln_point ln_dir] in *. unfold a, apn_eq_r, ln_is_equal, line_lift. cbn [ap_value ap_eps ln_point ln_dir].
  rewrite andb_true_iff, !X_v_is_equal by assumption. reflexivity.
Qed.
Section MatOrd.
Context {T : Type} {o : ops T} {L : ordlaws o}.
Lemma m_compare_zero : forall A B : list (list T), Forall2 (fun a b => length a = length b) A B ->
  (m_compare A B (cst 0) = 0%Z <-> Forall2 vec_eq A B).
Proof.
  intros A B H. induction H as [|a b A B E H IH]; [ split; [ constructor | reflexivity ] | ]. cbn [m_compare].
  assert (Q := v_compare_eq a b E). destruct (Z.eqb_spec (v_compare a b (cst 0)) 0) as [C|C]; cbn [negb].
  - rewrite IH. split; [ intros K; constructor; [ now apply Q | exact K ] | intros K; now inversion K ].
  - split; [ intros K; contradiction | ]. intros K. inversion K; subst. exfalso. apply C. now apply Q.
Qed.
Lemma m_operators : forall A B : list (list T), Forall2 (fun a b => length a = length b) A B ->
  (m_eq A B = true <-> Forall2 vec_eq A B) /\ m_ne A B = negb (m_eq A B) /\ m_is_equal A B (cst 0) = m_eq A B.
Proof. intros A B H. unfold m_eq, m_ne, m_is_equal. rewrite Z.eqb_eq. split; [ now apply m_compare_zero | split; reflexivity ]. Qed.
End MatOrd.
