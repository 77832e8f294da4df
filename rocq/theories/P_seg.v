(** Proofs about segments (C45, C46). *)
From Coq Require Import ZArith Reals List Bool Lia Lra Psatz.
From Flocq Require Import Core BinarySingleNaN.
From Verif Require Import Ops M_scalar M_vec M_mat M_geom Inst_F Inst_XR Inst_conv S_order S_vec S_geom.
From Verif Require Import P_ord P_compare P_order_final P_xr P_vec P_vec2 P_line.
Import ListNotations.
Local Open Scope R_scope.

Section Ord.
Context {T : Type} {o : ops T} {ol : ordlaws o}.

Lemma seg_make_ok : forall (p q : list T), length p = length q ->
  let s := seg_make p q in
  (s = Seg p q \/ s = Seg q p) /\ ~ vec_lt (seg_end s) (seg_start s) /\ v_le (seg_start s) (seg_end s) = true
  /\ seg_eq s (seg_make q p) = true.
Proof.
  intros p q L s.
  assert (E : s = Seg p q /\ v_lt p q = true \/ s = Seg q p /\ v_lt p q = false).
  { unfold s, seg_make. destruct (v_lt p q); auto. }
  destruct (v_ops_spec p q L) as (A1 & _ & A3 & _ & A5 & _).
  destruct (v_ops_spec q p (eq_sym L)) as (B1 & _ & B3 & _ & B5 & _).
  assert (TR := v_lt_total p q). destruct (v_gt_lt p q) as (G & _).
  split; [ destruct E as [[E _]|[E _]]; auto | ].
  assert (K : v_le (seg_start s) (seg_end s) = true).
  { destruct E as [[-> E]|[-> E]]; cbn [seg_start seg_end].
    - apply A5. left. now apply A1.
    - unfold v_lt in E. unfold v_le. rewrite (v_compare_anti p q). apply Z.leb_le. apply Z.ltb_ge in E. lia. }
  split; [ | split; [ exact K | ] ].
  - destruct E as [[-> E]|[-> E]]; cbn [seg_start seg_end]; intros H; [ apply B1 in H | apply A1 in H ]; [ | congruence ].
    rewrite <- G in H. destruct TR as [(_ & _ & TR)|[(_ & _ & TR)|(TR & _)]]; congruence.
  - unfold seg_eq, seg_compare. unfold s, seg_make. 
    destruct TR as [(T1 & T2 & T3)|[(T1 & T2 & T3)|(T1 & T2 & T3)]]; rewrite G in T3; rewrite T1, T3; cbn [seg_start seg_end];
      rewrite ?v_compare_refl; try reflexivity.
    unfold v_eq in T2. apply Z.eqb_eq in T2. rewrite (v_compare_anti p q), T2. reflexivity.
Qed.

(** The order of segments is the order of the pairs start, end. *)
Lemma seg_compare_r : forall s t : segment T,
  seg_compare s t (cst 0) = r_compare [seg_start s; seg_end s] [seg_start t; seg_end t] (cst 0).
Proof.
  intros [a b] [c d]. unfold seg_compare. cbn [seg_start seg_end]. rewrite !r_compare_cons. cbn [r_compare].
  destruct (v_compare_range a c) as [->|[->| ->]]; cbn; try reflexivity.
  destruct (v_compare_range b d) as [->|[->| ->]]; reflexivity.
Qed.
Lemma seg_order : forall n (s t u : segment T), seg_dim n s -> seg_dim n t -> seg_dim n u ->
  (seg_lt s t = true <-> vec_lt (seg_start s) (seg_start t)
      \/ (vec_eq (seg_start s) (seg_start t) /\ vec_lt (seg_end s) (seg_end t)))
  /\ (seg_eq s t = true <-> vec_eq (seg_start s) (seg_start t) /\ vec_eq (seg_end s) (seg_end t))
  /\ seg_lt s s = false
  /\ (seg_lt s t = true -> seg_lt t u = true -> seg_lt s u = true)
  /\ (seg_lt s t = false /\ seg_lt t s = false <-> seg_eq s t = true)
  /\ (seg_eq s t = true -> seg_lt s u = seg_lt t u /\ seg_lt u s = seg_lt u t).
Proof.
  intros n s t u [S1 S2] [T1 T2] [U1 U2].
  assert (DS : dim n [seg_start s; seg_end s]) by (repeat constructor; assumption).
  assert (DT : dim n [seg_start t; seg_end t]) by (repeat constructor; assumption).
  assert (DU : dim n [seg_start u; seg_end u]) by (repeat constructor; assumption).
  unfold seg_lt, seg_eq. rewrite !seg_compare_r.
  assert (LT := r_compare_lt n _ _ DS DT). assert (EQ := r_compare_eq n _ _ DS DT).
  assert (R1 := r_compare_range [seg_start s; seg_end s] [seg_start t; seg_end t]).
  assert (R2 := r_compare_range [seg_start t; seg_end t] [seg_start u; seg_end u]).
  assert (R3 := r_compare_range [seg_start s; seg_end s] [seg_start u; seg_end u]).
  assert (AN := r_compare_anti [seg_start s; seg_end s] [seg_start t; seg_end t]).
  assert (AN2 := r_compare_anti [seg_start t; seg_end t] [seg_start u; seg_end u]).
  assert (AN3 := r_compare_anti [seg_start s; seg_end s] [seg_start u; seg_end u]).
  assert (AN4 := r_compare_anti [seg_start s; seg_end s] [seg_start s; seg_end s]).
  assert (TRA := r_compare_trans n _ _ _ DS DT DU). assert (TRB := r_compare_trans n _ _ _ DT DS DU).
  assert (TRC := r_compare_trans n _ _ _ DU DS DT). assert (TRD := r_compare_trans n _ _ _ DU DT DS).
  set (st := r_compare [seg_start s; seg_end s] [seg_start t; seg_end t] (cst 0)) in *.
  set (tu := r_compare [seg_start t; seg_end t] [seg_start u; seg_end u] (cst 0)) in *.
  set (su := r_compare [seg_start s; seg_end s] [seg_start u; seg_end u] (cst 0)) in *.
  rewrite !AN, ?AN2, ?AN3 in *.
  split; [ | split; [ | split; [ | split; [ | split ] ] ] ].
  - rewrite Z.ltb_lt. assert (E : (st < 0)%Z <-> st = (-1)%Z) by lia. rewrite E, LT. unfold seq_lt. split.
    + intros H. inversion H; subst; auto. inversion H5; subst; auto. inversion H7.
    + intros [H|[H H']]; [ now apply lex_here | apply lex_next; [ exact H | now apply lex_here ] ].
  - rewrite Z.eqb_eq, EQ. unfold seq_eq. split.
    + intros H. inversion H; subst. inversion H5; subst; auto.
    + intros [H H']. repeat constructor; auto.
  - apply Z.ltb_ge. lia.
  - rewrite !Z.ltb_lt. intros H1 H2. destruct (TRA ltac:(lia) ltac:(lia)). lia.
  - rewrite !Z.ltb_ge, Z.eqb_eq. lia.
  - rewrite Z.eqb_eq. intros E.
    assert (E2 : su = tu).
    { destruct R2 as [R2|[R2|R2]], R3 as [R3|[R3|R3]]; try lia; exfalso; lia. }
    rewrite E2. auto.
Qed.

Lemma m_mul_p_length : forall n (m : list (list T)) p, length (m_mul_p (S n) m p) = n.
Proof.
  intros n m p. unfold m_mul_p, v_to_cartesian, v_div_s, m_mul_v. rewrite !map_length, firstn_length, map_length, seq_length. simpl. lia.
Qed.
Lemma seg_transform_ok : forall n (s : segment T) m,
  let a := m_mul_p (S n) m (seg_start s) in let b := m_mul_p (S n) m (seg_end s) in
  let t := seg_transform (S n) s m in
  (t = Seg a b \/ t = Seg b a) /\ ~ vec_lt (seg_end t) (seg_start t).
Proof.
  intros n s m a b t. destruct (seg_make_ok a b) as (A & B & _). { unfold a, b. now rewrite !m_mul_p_length. }
  split; [ exact A | exact B ].
Qed.
Lemma seg_translate_ok : forall (s : segment T) d, length (seg_start s) = length d -> length (seg_end s) = length d ->
  let t := seg_translate s d in
  (t = Seg (v_add (seg_start s) d) (v_add (seg_end s) d) \/ t = Seg (v_add (seg_end s) d) (v_add (seg_start s) d))
  /\ ~ vec_lt (seg_end t) (seg_start t).
Proof.
  intros s d L1 L2 t. assert (L : length (v_add (seg_start s) d) = length (v_add (seg_end s) d)).
  { clear - L1 L2. destruct s as [a b]. cbn [seg_start seg_end] in *. unfold v_add.
    assert (A : forall (a d : list T), length a = length d -> length (map2 o_add a d) = length d).
    { induction a0; intros [|y d0] H; try discriminate; simpl; auto. }
    rewrite !A; auto. }
  destruct (seg_make_ok _ _ L) as (A & B & _). split; [ exact A | exact B ].
Qed.
End Ord.

(** ** Conversion between formats *)
Section Conv.
Variables p1 e1 p2 e2 : Z.
Context {Hp1 : Prec_gt_0 p1} {Hm1 : Prec_lt_emax p1 e1} {Hp2 : Prec_gt_0 p2} {Hm2 : Prec_lt_emax p2 e2}.
#[local] Existing Instance fexp_correct.
Notation f1 := (binary_float p1 e1).
Notation f2 := (binary_float p2 e2).
Notation conv := (F_conv p2 e2 Hp2 Hm2).

(** Every number of a format is a number of a wider format. *)
Lemma conv_exact : (p1 <= p2)%Z -> (e1 <= e2)%Z -> forall x : f1, is_finite x = true ->
  is_finite (conv x) = true /\ B2R (conv x) = B2R x.
Proof.
  intros P E x Hx. destruct x as [s|s| |s m e H]; try discriminate; [ split; reflexivity | ].
  assert (G : generic_format radix2 (SpecFloat.fexp p2 e2) (B2R (B754_finite s m e H))).
  { eapply (generic_inclusion radix2 (SpecFloat.fexp p1 e1) (SpecFloat.fexp p2 e2)) with (e := mag radix2 (B2R (B754_finite s m e H))).
    - generalize (mag radix2 (B2R (B754_finite s m e H)) : Z). intros k. unfold SpecFloat.fexp, SpecFloat.emin. lia.
    - split; [ apply bpow_mag_le | apply Rlt_le, bpow_mag_gt ]. unfold B2R. apply F2R_neq_0. simpl. now destruct s.
    - apply generic_format_B2R. }
  generalize (binary_normalize_correct p2 e2 Hp2 Hm2 mode_NE (cond_Zopp s (Zpos m)) e s). cbv zeta.
  change (F2R {| Fnum := cond_Zopp s (Zpos m); Fexp := e |}) with (B2R (B754_finite s m e H)).
  rewrite round_generic by (auto with typeclass_instances).
  rewrite Rlt_bool_true. { intros (C1 & C2 & _). split; [ exact C2 | exact C1 ]. }
  eapply Rlt_le_trans; [ apply abs_B2R_lt_emax | ]. now apply bpow_le.
Qed.
Lemma conv_nan : forall x : f1, BinarySingleNaN.is_nan (conv x) = BinarySingleNaN.is_nan x.
Proof.
  intros [s|s| |s m e H]; try reflexivity. 
  assert (K : BinarySingleNaN.is_nan (binary_normalize p2 e2 Hp2 Hm2 mode_NE (cond_Zopp s (Zpos m)) e s) = false).
  { apply is_nan_binary_normalize. } exact K.
Qed.
Lemma conv_compare : (p1 <= p2)%Z -> (e1 <= e2)%Z -> forall x y : f1, ccmp (conv x) (conv y) = ccmp x y.
Proof.
  intros P E x y. unfold ccmp. rewrite !F_is_nan, !conv_nan.
  destruct (BinarySingleNaN.is_nan x) eqn:Nx, (BinarySingleNaN.is_nan y) eqn:Ny; try reflexivity.
  change (match Rcompare (Fkey p2 e2 (conv x)) (Fkey p2 e2 (conv y)) with Lt => -1 | Eq => 0 | Gt => 1 end
    = match Rcompare (Fkey p1 e1 x) (Fkey p1 e1 y) with Lt => -1 | Eq => 0 | Gt => 1 end)%Z.
  assert (A : forall z : f1, BinarySingleNaN.is_nan z = false ->
    (is_finite z = true /\ is_finite (conv z) = true /\ Fkey p1 e1 z = B2R z /\ Fkey p2 e2 (conv z) = B2R z)
    \/ (Fkey p1 e1 z = bpow radix2 e1 /\ Fkey p2 e2 (conv z) = bpow radix2 e2)
    \/ (Fkey p1 e1 z = - bpow radix2 e1 /\ Fkey p2 e2 (conv z) = - bpow radix2 e2)).
  { intros z Nz. destruct (is_finite z) eqn:Fz.
    - left. destruct (conv_exact P E z Fz) as [C1 C2]. rewrite !Fkey_finite by assumption. auto.
    - right. destruct z as [s|[|]| |]; try discriminate; [ right | left ]; split; reflexivity. }
  assert (Px := bpow_gt_0 radix2 e1). assert (Py := bpow_gt_0 radix2 e2).
  destruct (A x Nx) as [(Fx & Fx' & -> & Kx)|[[-> Kx]|[-> Kx]]], (A y Ny) as [(Fy & Fy' & -> & Ky)|[[-> Ky]|[-> Ky]]]; rewrite Kx, Ky;
    try (rewrite !Rcompare_Eq by reflexivity; reflexivity);
    try reflexivity;
    try (rewrite !Rcompare_Lt by lra; reflexivity); try (rewrite !Rcompare_Gt by lra; reflexivity);
    repeat match goal with
    | H : is_finite ?z = true |- _ => 
      generalize (abs_B2R_lt_emax _ _ z); let I := fresh in intros I; apply Rabs_lt_inv in I; rewrite ?(proj2 (conv_exact P E _ ltac:(eassumption))) in I; revert H end; intros;
    first [ rewrite !Rcompare_Lt by lra; reflexivity | rewrite !Rcompare_Gt by lra; reflexivity ].
Qed.
Lemma conv_v_compare : (p1 <= p2)%Z -> (e1 <= e2)%Z -> forall a b : list f1,
  v_compare (map conv a) (map conv b) (cst 0) = v_compare a b (cst 0).
Proof.
  intros P E. induction a as [|x a IH]; intros [|y b]; try reflexivity. cbn [map].
  rewrite (v_compare_cons x y a b), (v_compare_cons (conv x) (conv y)), conv_compare, IH by assumption. reflexivity.
Qed.
Lemma seg_convert_ok : (p1 <= p2)%Z -> (e1 <= e2)%Z -> forall s : segment f1,
  length (seg_start s) = length (seg_end s) -> ~ vec_lt (seg_end s) (seg_start s) ->
  let t := seg_convert conv s in ~ vec_lt (seg_end t) (seg_start t).
Proof.
  intros P E [a b] L H t. unfold t, seg_convert in *. cbn [seg_start seg_end] in *.
  rewrite <- v_compare_lt by (rewrite !map_length; congruence). rewrite conv_v_compare by assumption.
  rewrite v_compare_lt by congruence. exact H.
Qed.
End Conv.
(** Rounding to a narrower format does not keep the order. *)
Lemma seg_convert_refuted : exists s : segment double,
  s = seg_make (seg_start s) (seg_end s) /\ ~ vec_lt (seg_end s) (seg_start s)
  /\ let t := seg_convert to_single s in vec_lt (seg_end t) (seg_start t).
Proof.
  exists (Seg [D 1 0; D 5 0] [D (2 ^ 40 + 1) (-40); D 0 0]). cbn [seg_start seg_end]. split; [ | split ].
  - assert (H : v_lt [D 1 0; D 5 0] [D (2 ^ 40 + 1) (-40); D 0 0] = true) by (vm_compute; reflexivity).
    unfold seg_make. now rewrite H.
  - rewrite <- v_compare_lt by reflexivity. assert (H : (v_compare [D (2 ^ 40 + 1) (-40); D 0 0] [D 1 0; D 5 0] (cst 0) =? -1)%Z = false) by (vm_compute; reflexivity).
    now apply Z.eqb_neq.
  - cbv zeta. rewrite <- v_compare_lt by reflexivity. apply Z.eqb_eq. vm_compute. reflexivity.
Qed.

(** ** contains *)
Lemma X_seg_direction : forall s n, is_segment n s -> seg_start s <> seg_end s ->
  exists u L, seg_direction (seg_lift s) = vS u /\ unit_vec n u /\ 0 < L /\ rsub (seg_end s) (seg_start s) = rscale L u
    /\ seg_squared_length (seg_lift s) = Some (L * L).
Proof.
  intros [a b] n [L1 L2] N. cbn [seg_start seg_end] in *. unfold seg_direction, seg_squared_length, seg_lift. cbn [seg_start seg_end]. rewrite X_sub.
  assert (NZ : rsub b a <> rzero (length (rsub b a))).
  { rewrite rsub_length by congruence. intros E. apply N. symmetry. apply rsub_eq; [ congruence | exact E ]. }
  destruct (X_normalize_unit _ NZ) as (u & Eu & U & Lu & k & K & Ek).
  rewrite rsub_length in Lu by congruence. assert (UU : rdot u u = 1) by (rewrite <- rnorm_sq, U; ring).
  exists u, k. split; [ exact Eu | ]. split; [ split; congruence | ]. split; [ exact K | ]. split; [ exact Ek | ].
  rewrite X_squared_length, Ek, rdot_scale_l, rdot_scale_r, UU. f_equal. ring.
Qed.
Lemma X_contains : forall s p d n u L, is_segment n s -> length p = n -> 
  seg_direction (seg_lift s) = vS u -> unit_vec n u -> seg_squared_length (seg_lift s) = Some (L * L) ->
  let f := rdot (rsub p (seg_start s)) u in
  let h := rdot (rsub p (rpoint (seg_start s) u f)) (rsub p (rpoint (seg_start s) u f)) in
  (seg_contains (seg_lift s) (vS p) (Some d) = true <-> - d <= f /\ f * f <= L * L + d * d /\ h <= d * d).
Proof.
  intros s p d n u L [L1 L2] L3 E [U1 U2] Q f h. unfold seg_contains. rewrite E, Q. change (seg_start (seg_lift s)) with (vS (seg_start s)).
  destruct (X_projection (seg_start s) u p f) as (-> & E2 & _). fold f. cbv zeta. rewrite E2, X_squared_distance.
  cbn [o_lt o_le o_mul o_neg o_add XRops Xcmp X1 X2].
  assert (HE : rdot (rsub (rpoint (seg_start s) u f) p) (rsub (rpoint (seg_start s) u f) p) = h).
  { unfold h. rewrite (rsub_anti (rpoint _ _ _) p), rdot_neg_l. rewrite (rdot_comm _ (rneg _)), rdot_neg_l. ring. }
  rewrite HE. destruct (Rlt_bool_spec f (- d)); cbn [orb]; [ split; [ discriminate | intros; lra ] | ].
  destruct (Rlt_bool_spec (L * L + d * d) (f * f)); cbn [orb]; [ split; [ discriminate | intros; lra ] | ].
  destruct (Rle_bool_spec h (d * d)); split; try easy; try lra.
Qed.
Lemma seg_points : forall s n u L, is_segment n s -> unit_vec n u -> 0 < L -> rsub (seg_end s) (seg_start s) = rscale L u ->
  forall q, on_seg s q <-> exists t, 0 <= t <= L /\ q = rpoint (seg_start s) u t.
Proof.
  intros s n u L [L1 L2] [U1 U2] HL E q. unfold on_seg, on_segment, rlerp. rewrite E. split.
  - intros (t & T & ->). exists (t * L). split; [ nra | ]. unfold rpoint. now rewrite rscale_mul.
  - intros (t & T & ->). exists (t / L). split.
    + split; [ apply Rmult_le_pos; [ lra | left; now apply Rinv_0_lt_compat ] | ].
      apply Rmult_le_reg_r with L; [ lra | ]. unfold Rdiv. rewrite Rmult_assoc, Rinv_l; lra.
    + unfold rpoint. rewrite rscale_mul. do 2 f_equal. field. lra.
Qed.
Lemma sq_le : forall a b, 0 <= b -> a * a <= b * b -> a <= b.
Proof. intros. nra. Qed.
Lemma rdist_sq : forall a b d, 0 <= d -> (rdist a b <= d <-> rdot (rsub a b) (rsub a b) <= d * d).
Proof.
  intros a b d D. unfold rdist. rewrite <- rnorm_sq. assert (H := rnorm_nonneg (rsub a b)). split; intros; nra.
Qed.

(** If the point's projection is on the segment: exactly the points at distance at most d. *)
Lemma contains_middle : forall n s p q d, is_segment n s -> length p = n -> seg_start s <> seg_end s -> 0 <= d ->
  on_seg s q -> rdot (rsub p q) (rsub (seg_end s) (seg_start s)) = 0 ->
  (seg_contains (seg_lift s) (vS p) (Some d) = true <-> within s p d).
Proof.
  intros n s p q d HS L3 N D Q O. destruct (X_seg_direction s n HS N) as (u & L & E1 & U & HL & E2 & E3).
  rewrite (X_contains s p d n u L HS L3 E1 U E3). destruct U as [U1 U2], HS as [L1 L2].
  assert (SP := seg_points s n u L (conj L1 L2) (conj U1 U2) HL E2).
  apply SP in Q as (t & T & ->). rewrite E2, rdot_scale_r in O.
  assert (F : rdot (rsub p (seg_start s)) u = t).
  { unfold rpoint in O. revert O. dots. rewrite U2. intros O. apply Rmult_integral in O as [O|O]; lra. }
  rewrite F. split.
  - intros (_ & _ & H). exists (rpoint (seg_start s) u t). split; [ apply SP; eauto | ]. now apply rdist_sq.
  - intros (q & Q & H). apply SP in Q as (t' & T' & ->). apply rdist_sq in H; [ | exact D ].
    rewrite <- (proj_nearest (seg_start s) u p t') in H by congruence. rewrite F in H.
    assert (0 <= (t' - t) * (t' - t)) by apply Rle_0_sqr. repeat split; nra.
Qed.
(** Nothing is contained in a segment of length 0. *)
Lemma X_dot_None : forall a b, v_dot (None :: a) b = (match b with [] => Some 0 | _ => None end : XR).
Proof.
  intros a [|y b]; [ reflexivity | ]. unfold v_dot. cbn [combine fold_left fst snd].
  change (o_add (cst 0) (o_mul None y)) with (None : XR).
  generalize (combine a b). induction l as [|[u v] l IH]; [ reflexivity | exact IH ].
Qed.
Lemma contains_degenerate : forall n s p d, is_segment (S n) s -> length p = S n -> seg_start s = seg_end s ->
  seg_contains (seg_lift s) (vS p) (Some d) = false.
Proof.
  intros n [a b] p d [L1 L2] L3 E. cbn [seg_start seg_end] in *. subst b.
  unfold seg_contains, seg_direction, al_distance_to_projected_point, al_point_at_distance, seg_lift. cbn [seg_start seg_end].
  rewrite !X_sub, rsub_self, X_normalize_zero, L1.
  destruct a as [|x a]; try discriminate. destruct p as [|y p]; try discriminate.
  assert (F : v_dot (vS (rsub (y :: p) (x :: a))) (repeat None (S n)) = None).
  { unfold v_dot. cbn [rsub zip map repeat combine fold_left fst snd].
    change (o_add (cst 0) (o_mul (Some (y - x)) None)) with (None : XR).
    generalize (combine (vS (zip Rminus p a)) (repeat (@None R) n)). induction l as [|[u v] l IH]; [ reflexivity | exact IH ]. }
  rewrite F. cbv zeta.
  match goal with |- (if ?c then _ else _) = false => destruct c; [ reflexivity | ] end.
  unfold v_squared_distance, v_squared_length. cbn [repeat v_scale map v_add v_sub map2].
  change (o_sub (o_add (Some x) (o_mul None None)) (Some y)) with (None : XR). now rewrite X_dot_None.
Qed.
(** contains never accepts a point farther away than d times the square root of 2. *)
Lemma contains_sound : forall n s p d, is_segment (S n) s -> length p = S n -> 0 <= d ->
  seg_contains (seg_lift s) (vS p) (Some d) = true -> within s p (sqrt 2 * d).
Proof.
  intros n s p d HS L3 D H.
  assert (N : seg_start s <> seg_end s). { intros E. rewrite (contains_degenerate n) in H by assumption. discriminate. }
  destruct (X_seg_direction s _ HS N) as (u & L & E1 & U & HL & E2 & E3).
  apply (X_contains s p d _ u L HS L3 E1 U E3) in H as (H1 & H2 & H3). destruct U as [U1 U2], HS as [L1 L2].
  assert (SP := seg_points s _ u L (conj L1 L2) (conj U1 U2) HL E2).
  set (f := rdot (rsub p (seg_start s)) u) in *.
  assert (S2 : sqrt 2 * sqrt 2 = 2) by (apply sqrt_sqrt; lra). assert (S0 := sqrt_pos 2).
  set (t := Rmax 0 (Rmin f L)). exists (rpoint (seg_start s) u t).
  split. { apply SP. exists t. split; [ | reflexivity ]. unfold t, Rmax, Rmin. destruct (Rle_dec f L), (Rle_dec 0 _); lra. }
  apply rdist_sq; [ nra | ]. rewrite <- (proj_nearest (seg_start s) u p t) by congruence. fold f.
  assert (K : (t - f) * (t - f) <= d * d).
  { unfold t, Rmax, Rmin. destruct (Rle_dec f L), (Rle_dec 0 _); try nra. }
  nra.
Qed.
(** With d = 0 the points of the segment, and these for every d. *)
Lemma contains_zero : forall n s p, is_segment (S n) s -> length p = S n -> seg_start s <> seg_end s ->
  (seg_contains (seg_lift s) (vS p) (Some 0) = true <-> on_seg s p).
Proof.
  intros n s p HS L3 N. split.
  - intros H. destruct (contains_sound n s p 0 HS L3 (Rle_refl 0) H) as (q & Q & E).
    assert (q = p); [ | now subst ]. rewrite Rmult_0_r in E. symmetry. apply rdist_zero.
    + destruct Q as (t & _ & ->). destruct HS as [L1 L2]. unfold rlerp. len.
    + assert (P := rnorm_nonneg (rsub p q)). unfold rdist in *. lra.
  - intros Q. apply (contains_middle (S n) s p p 0 HS L3 N (Rle_refl 0) Q).
    + rewrite rsub_self, rdot_rzero. reflexivity.
    + exists p. split; [ exact Q | ]. unfold rdist. rewrite rsub_self, rnorm_rzero. lra.
Qed.
Lemma contains_points : forall n s p d, is_segment (S n) s -> length p = S n -> seg_start s <> seg_end s -> 0 <= d ->
  on_seg s p -> seg_contains (seg_lift s) (vS p) (Some d) = true.
Proof.
  intros n s p d HS L3 N D Q. apply (contains_middle (S n) s p p d HS L3 N D Q).
  - rewrite rsub_self, rdot_rzero. reflexivity.
  - exists p. split; [ exact Q | ]. unfold rdist. rewrite rsub_self, rnorm_rzero. lra.
Qed.
(** Counterexamples. *)
Definition wit_seg : segment R := Seg [0; 0; 0] [3; 0; 0].
Lemma wit_dir : seg_direction (seg_lift wit_seg) = vS [1; 0; 0] /\ seg_squared_length (seg_lift wit_seg) = Some (3 * 3).
Proof.
  unfold seg_direction, seg_squared_length, seg_lift, wit_seg. cbn [seg_start seg_end]. rewrite X_sub.
  assert (N : rnorm (rsub [3; 0; 0] [0; 0; 0]) = 3).
  { unfold rnorm. replace (rdot _ _) with (3 * 3) by (simpl; ring). apply sqrt_square. lra. }
  rewrite X_normalize_vec by (rewrite N; lra). rewrite N, X_squared_length. split; [ | simpl; f_equal; ring ].
  apply (f_equal vS). unfold rsub, rscale, zip. cbn [map]. repeat (apply f_equal2; [ lra | ]). reflexivity.
Qed.
Lemma contains_refuted_near : exists s p d, is_segment 3 s /\ length p = 3%nat /\ seg_start s <> seg_end s /\ 0 <= d
  /\ within s p d /\ seg_contains (seg_lift s) (vS p) (Some d) = false.
Proof.
  exists wit_seg, [4; 0; 0], 1. destruct wit_dir as [E1 E2].
  split; [ split; reflexivity | ]. split; [ reflexivity | ]. split; [ simpl; intros E; injection E; lra | ]. split; [ lra | ]. split.
  - exists [3; 0; 0]. split.
    + exists 1. split; [ lra | ]. unfold rlerp, rpoint, rsub, rscale, radd, wit_seg. cbn. repeat (apply f_equal2; [ lra | ]). reflexivity.
    + apply rdist_sq; [ lra | ]. simpl. lra.
  - apply not_true_is_false. intros H.
    apply (X_contains wit_seg [4; 0; 0] 1 3 [1; 0; 0] 3) in H; try assumption; try reflexivity.
    + destruct H as (_ & H & _). simpl in H. lra.
    + split; reflexivity.
    + split; [ reflexivity | simpl; lra ].
Qed.
Lemma contains_refuted_far : exists s p d, is_segment 3 s /\ length p = 3%nat /\ seg_start s <> seg_end s /\ 0 <= d
  /\ ~ within s p d /\ seg_contains (seg_lift s) (vS p) (Some d) = true.
Proof.
  exists wit_seg, [-1; 1; 0], 1. destruct wit_dir as [E1 E2].
  split; [ split; reflexivity | ]. split; [ reflexivity | ]. split; [ simpl; intros E; injection E; lra | ]. split; [ lra | ]. split.
  - intros (q & (t & T & ->) & H). apply rdist_sq in H; [ | lra ].
    unfold rlerp, rpoint, rsub, rscale, radd, wit_seg in H. simpl in H. nra.
  - apply (X_contains wit_seg [-1; 1; 0] 1 3 [1; 0; 0] 3); try assumption; try reflexivity.
    + split; reflexivity.
    + split; [ reflexivity | simpl; lra ].
    + unfold rpoint, rsub, rscale, radd. simpl. repeat split; lra.
Qed.
