(** The intersection of a ray and a box in machine arithmetic (C112). *)
From Coq Require Import ZArith Reals List Lia Lra Bool Psatz.
From Flocq Require Import Core BinarySingleNaN.
From Verif Require Import Ops M_scalar M_vec M_geom M_bbox M_intersect Inst_F S_vec S_rnd S_order S_bbox S_boxset S_grid S_intersect S_tbox S_raybox P_ord P_ieee P_compare P_vec P_line P_fp P_hit P_hit2 P_bbox3 P_ft P_intersect P_raybox.
Import ListNotations.
Local Open Scope R_scope.

Section FP.
Variables prec emax : Z.
Context {Hprec : Prec_gt_0 prec} {Hmax : Prec_lt_emax prec emax}.
Notation fl := (binary_float prec emax).
Notation u := (unit_roundoff prec).
Notation eta := (underflow_error prec emax).
Notation Om := (bpow radix2 emax).
Notation sat := (sat emax).
Hypothesis U20 : (20 <= prec)%Z.
Hypothesis E20 : (20 <= emax)%Z.

Lemma sized_get : forall n M (v : list fl) i, sized n M v -> (i < n)%nat -> is_finite (vget v i) = true /\ Rabs (B2R (vget v i)) <= M /\ nth i (values v) 0 = B2R (vget v i).
Proof.
  intros n M v i (L & F & B) Hi. unfold vget. assert (I : In (nth i v (cst 0)) v) by (apply nth_In; lia).
  assert (E : nth i (values v) 0 = B2R (nth i v (cst 0))). { unfold values. rewrite nth_indep with (d' := B2R (cst 0 : fl)) by (rewrite map_length; lia). now rewrite map_nth. }
  split; [exact (proj1 (Forall_forall _ _) F _ I)|]. split; [|exact E]. rewrite Forall_forall in B. apply B. unfold values. now apply in_map.
Qed.

Section Box.
Variables (n : nat) (M : R) (o d lo hi : list fl).
Hypothesis (N0 : (0 < n)%nat) (So : sized n M o) (Sd : is_direction n d) (Sl : sized n M lo) (Sh : sized n M hi) (BOX : box_of n (BB lo hi)) (M16 : 16 * M <= Om).
Let r := Ray o d.
Let b := BB lo hi.
Let og i := B2R (vget o i).
Let dr i := B2R (vget d i).
Let mn i := B2R (vget lo i).
Let mx i := B2R (vget hi i).
Let D i := rb_distances r b i.
Let P i := B2R (fst (rb_axis r b i)).
Let T i := (P i - og i) / dr i.
Notation e := (ray_box_error prec emax M).

Lemma Fo : forall i, (i < n)%nat -> is_finite (vget o i) = true /\ Rabs (og i) <= M. Proof. intros i H. destruct (sized_get n M o i So H). tauto. Qed.
Lemma Fd : forall i, (i < n)%nat -> is_finite (vget d i) = true /\ Rabs (dr i) <= 2. Proof. intros i H. destruct (sized_get n 2 d i (proj1 Sd) H). tauto. Qed.
Lemma Fl : forall i, (i < n)%nat -> is_finite (vget lo i) = true /\ Rabs (mn i) <= M. Proof. intros i H. destruct (sized_get n M lo i Sl H). tauto. Qed.
Lemma Fh : forall i, (i < n)%nat -> is_finite (vget hi i) = true /\ Rabs (mx i) <= M. Proof. intros i H. destruct (sized_get n M hi i Sh H). tauto. Qed.
Lemma Mpos : 0 <= M. Proof. destruct (Fo 0%nat N0) as [_ H]. generalize (Rabs_pos (og 0)). lra. Qed.
Lemma LE : forall i, (i < n)%nat -> mn i <= mx i.
Proof.
  intros i Hi. destruct BOX as (_ & _ & H). cbn [bb_min bb_max] in H. apply (finite_le prec emax); [now apply Fl|now apply Fh|].
  unfold vec_below in H. clear - H Hi Sl. destruct Sl as [L _]. revert i Hi. rewrite <- L. clear - H. induction H as [|x y l l' H HF IH]; intros i Hi; [cbn in Hi; lia|]. destruct i; [exact H|]. cbn [vget nth]. apply IH. cbn in Hi. lia.
Qed.
Lemma long : exists j, (j < n)%nat /\ / 4 <= Rabs (dr j).
Proof.
  destruct Sd as [S H]. apply Exists_exists in H as (x & I & H). destruct (In_nth _ _ 0 I) as (j & Lj & E). assert (L : length (values d) = n) by (unfold values; rewrite map_length; apply S). rewrite L in Lj.
  exists j. split; [exact Lj|]. destruct (sized_get n 2 d j S Lj) as (_ & _ & G). rewrite G in E. unfold dr. now rewrite E.
Qed.
Lemma at_get : forall t i, (i < n)%nat -> nth i (ray_at (ray_values r) t) 0 = og i + t * dr i.
Proof.
  intros t i Hi. unfold ray_at, ray_values, r, rpoint. cbn [ray_origin ray_dir]. destruct (sized_get n M o i So Hi) as (_ & _ & E1). destruct (sized_get n 2 d i (proj1 Sd) Hi) as (_ & _ & E2).
  assert (L1 : length (values o) = n) by (unfold values; rewrite map_length; apply So). assert (L2 : length (values d) = n) by (unfold values; rewrite map_length; apply (proj1 Sd)).
  rewrite nth_radd by (unfold rscale; rewrite ?map_length; lia). rewrite nth_rscale. now rewrite E1, E2.
Qed.
Lemma at_len : forall t, length (ray_at (ray_values r) t) = n.
Proof.
  intros t. unfold ray_at, ray_values, r, rpoint. cbn [ray_origin ray_dir]. assert (L1 : length (values o) = n) by (unfold values; rewrite map_length; apply So). assert (L2 : length (values d) = n) by (unfold values; rewrite map_length; apply (proj1 Sd)).
  rewrite radd_length; unfold rscale; rewrite ?map_length; lia.
Qed.
Lemma lo_get : forall i, (i < n)%nat -> nth i (bb_min (box_values b)) 0 = mn i. Proof. intros i H. apply (sized_get n M lo i Sl H). Qed.
Lemma hi_get : forall i, (i < n)%nat -> nth i (bb_max (box_values b)) 0 = mx i. Proof. intros i H. apply (sized_get n M hi i Sh H). Qed.
Lemma box_at : forall x t, in_bbox_upto x (box_values b) (ray_at (ray_values r) t) <-> forall i, (i < n)%nat -> mn i - x <= og i + t * dr i <= mx i + x.
Proof.
  intros x t. unfold in_bbox_upto. rewrite !Forall2_nth_iff, at_len. unfold box_values, b. cbn [bb_min bb_max]. rewrite !map_length. rewrite (proj1 Sl), (proj1 Sh). split.
  - intros [[_ H1] [_ H2]] i Hi. specialize (H1 i Hi). specialize (H2 i Hi). fold (values lo) in H1. fold (values hi) in H2. rewrite at_get in * by assumption.
    destruct (sized_get n M lo i Sl Hi) as (_ & _ & G1). destruct (sized_get n M hi i Sh Hi) as (_ & _ & G2). rewrite G1 in H1. rewrite G2 in H2. unfold mn, mx. lra.
  - intros H. split; (split; [reflexivity|]); intros i Hi; rewrite at_get by assumption; fold (values lo) (values hi); destruct (sized_get n M lo i Sl Hi) as (_ & _ & G1); destruct (sized_get n M hi i Sh Hi) as (_ & _ & G2); rewrite ?G1, ?G2; specialize (H i Hi); unfold mn, mx in H; lra.
Qed.
Lemma box_in : forall p, in_bbox (box_values b) p <-> in_bbox_upto 0 (box_values b) p.
Proof.
  intros p. unfold in_bbox, in_bbox_upto. rewrite !Forall2_nth_iff. split; intros [[L1 H1] [L2 H2]]; (split; (split; [assumption|])); intros i Hi; specialize (H1 i); specialize (H2 i); try specialize (H1 Hi); try specialize (H2 Hi); try lra.
Qed.

(** The facts about the axes *)
Lemma ax_ins : forall i, (i < n)%nat -> rb_inside r b i = true -> mn i <= og i <= mx i /\ (dr i < 0 /\ P i = mn i \/ 0 <= dr i /\ P i = mx i).
Proof.
  intros i Hi H. destruct (Fo i Hi), (Fd i Hi), (Fl i Hi), (Fh i Hi). destruct (axis_inside prec emax (vget o i) (vget d i) (vget lo i) (vget hi i)) as [G1 G2]; auto. split; [exact G1|].
  unfold P, rb_axis, r, b. cbn [ray_origin ray_dir bb_min bb_max]. destruct G2 as [[G2 ->]|[G2 ->]]; [left|right]; split; auto.
Qed.
Lemma ax_out : forall i, (i < n)%nat -> rb_inside r b i = false -> og i < mn i /\ P i = mn i \/ mx i < og i /\ P i = mx i.
Proof.
  intros i Hi H. destruct (Fo i Hi), (Fd i Hi), (Fl i Hi), (Fh i Hi). assert (G := axis_outside prec emax (vget o i) (vget d i) (vget lo i) (vget hi i)).
  specialize (G ltac:(assumption) ltac:(assumption) ltac:(assumption) ltac:(assumption) H). unfold P, rb_axis, r, b. cbn [ray_origin ray_dir bb_min bb_max]. destruct G as [[G ->]|[G ->]]; auto.
Qed.
Lemma ax_P : forall i, (i < n)%nat -> Rabs (P i) <= M.
Proof. intros i Hi. destruct (Fl i Hi), (Fh i Hi). destruct (rb_inside r b i) eqn:E; [apply ax_ins in E as [_ [[_ ->]|[_ ->]]]|apply ax_out in E as [[_ ->]|[_ ->]]]; auto. Qed.
Lemma ax_zero : forall i, (i < n)%nat -> dr i = 0 -> is_nan (D i) = false /\ key (D i) = -1.
Proof. intros i Hi H. destruct (Fo i Hi), (Fd i Hi), (Fl i Hi), (Fh i Hi). apply (axis_zero prec emax U20 (vget o i) (vget d i) (vget lo i) (vget hi i)); auto. Qed.
Lemma ax_dist : forall i, (i < n)%nat -> dr i <> 0 -> is_nan (D i) = false /\ exists y, key (D i) = sat y /\ (0 <= T i -> 0 <= y)
   /\ Rabs (y - T i) <= 21 / 10 * u * Rabs (T i) + eta.
Proof.
  intros i Hi H. destruct (Fo i Hi), (Fd i Hi), (Fl i Hi), (Fh i Hi).
  destruct (axis_dist prec emax U20 (vget o i) (vget d i) (vget lo i) (vget hi i) M) as (G & y & d1 & d2 & ee & K & Y & A1 & A2 & A3 & A4); auto using LE.
  split; [exact G|]. exists y. split; [exact K|]. split; [exact A4|]. destruct (u_small prec ltac:(assumption)) as (U0 & U1).
  change (y = T i * (1 + d1) * (1 + d2) + ee) in Y. rewrite Y. replace (T i * (1 + d1) * (1 + d2) + ee - T i) with (T i * (d1 + d2 + d1 * d2) + ee) by ring.
  eapply Rle_trans; [apply Rabs_triang|]. apply Rplus_le_compat; [|exact A3]. rewrite Rabs_mult, Rmult_comm. apply Rmult_le_compat_r; [apply Rabs_pos|]. apply Rabs_le_inv in A1, A2. apply Rabs_le. split; nra.
Qed.
Lemma no_nan : forall i, (i < n)%nat -> is_nan (D i) = false.
Proof. intros i Hi. destruct (Req_dec (dr i) 0) as [Z|Z]; [apply (ax_zero i Hi Z)|apply (ax_dist i Hi Z)]. Qed.
Let best := rb_best n (rb_inside r b) D.
Definition passed (s : fl) i := (o_lt (o_add (vget o i) (o_mul s (vget d i))) (vget lo i) || o_lt (vget hi i) (o_add (vget o i) (o_mul s (vget d i)))) = false.
Lemma result : (best < n)%nat -> let s := intersect_ray_bbox n r b in
  s = o_nan \/ s = D best /\ 0 <= key (D best) /\ forall i, (i < n)%nat -> i <> best -> passed (D best) i.
Proof.
  intros HB. cbv zeta. destruct (F_cst0 prec emax) as [F0 V0]. unfold intersect_ray_bbox. cbv zeta. change (rb_best n (rb_inside r b) (rb_distances r b)) with best. change (rb_distances r b best) with (D best). rewrite (lt_fin_r prec emax) by (auto using no_nan). rewrite V0.
  destruct (Rlt_bool_spec (key (D best)) 0) as [|H]; [now left|].
  match goal with |- context [existsb ?f ?l] => destruct (existsb f l) eqn:E end; [now left|]. right. split; [reflexivity|]. split; [exact H|].
  intros i Hi Ni. unfold passed. destruct (_ || _) eqn:G; [|reflexivity]. exfalso. apply not_true_iff_false in E. apply E. apply existsb_exists. exists i. split; [apply in_seq; lia|].
  apply andb_true_intro. split; [|exact G]. apply negb_true_iff, Nat.eqb_neq. auto.
Qed.
Lemma result_if : 0 <= key (D best) -> (best < n)%nat -> (forall i, (i < n)%nat -> i <> best -> passed (D best) i) -> intersect_ray_bbox n r b = D best.
Proof.
  intros H HB Q. destruct (F_cst0 prec emax) as [F0 V0]. unfold intersect_ray_bbox. cbv zeta. change (rb_best n (rb_inside r b) (rb_distances r b)) with best. change (rb_distances r b best) with (D best). rewrite (lt_fin_r prec emax) by (auto using no_nan). rewrite V0, Rlt_bool_false by exact H.
  match goal with |- context [existsb ?f ?l] => destruct (existsb f l) eqn:E end; [|reflexivity]. exfalso. apply existsb_exists in E as (i & Li & E). apply in_seq in Li. apply andb_prop in E as [E1 E2].
  apply negb_true_iff, Nat.eqb_neq in E1. specialize (Q i ltac:(lia) ltac:(auto)). unfold passed in Q. pose proof (eq_trans (eq_sym E2) Q). discriminate.
Qed.
Lemma all_or : (forall i, (i < n)%nat -> rb_inside r b i = true) \/ exists i, (i < n)%nat /\ rb_inside r b i = false.
Proof.
  destruct (forallb (rb_inside r b) (seq 0 n)) eqn:E; [left|right].
  - intros i Hi. rewrite forallb_forall in E. apply E, in_seq. lia.
  - apply not_true_iff_false in E. rewrite forallb_forall in E. destruct (find (fun i => negb (rb_inside r b i)) (seq 0 n)) as [k|] eqn:G.
    + apply find_some in G as [G1 G2]. apply in_seq in G1. exists k. split; [lia|]. now apply negb_true_iff.
    + exfalso. apply E. intros i Ii. assert (H := find_none _ _ G i Ii). now apply negb_false_iff.
Qed.
Lemma best_lt : (best < n)%nat.
Proof.
  destruct all_or as [H|H]; [apply (best_inside prec emax n (rb_inside r b) D N0)|apply (best_outside prec emax n (rb_inside r b) D)]; auto using no_nan.
Qed.
(** A distance that is returned is finite, of a component of the direction that is not zero, and the point is near the box. *)
Lemma returned : let s := intersect_ray_bbox n r b in s <> o_nan -> let R := B2R s in
  s = D best /\ is_finite s = true /\ dr best <> 0 /\ 0 <= R <= 9 * (M + eta)
  /\ Rabs (R * dr best - (P best - og best)) <= e
  /\ forall i, (i < n)%nat -> mn i - e <= og i + R * dr i <= mx i + e.
Proof.
  intros s Hs. cbv zeta. assert (HB := best_lt). destruct (result HB) as [E|(E & K & Q)]; [now elim Hs|]. change (s = D best) in E. split; [exact E|]. rewrite E. clear Hs E s. assert (M0 := Mpos).
  destruct (u_small prec ltac:(assumption)) as (U0 & U1). assert (T0 := eta_pos prec emax). destruct (eta_small prec emax ltac:(assumption)) as [_ TS]. assert (OM := om_big emax ltac:(assumption)).
  assert (Nd : dr best <> 0). { intros Z. destruct (ax_zero best HB Z) as [_ G]. lra. }
  destruct (ax_dist best HB Nd) as (N & y & Ky & _ & Y). destruct (Fo best HB) as [Fo1 Fo2], (Fd best HB) as [Fd1 Fd2], (Fl best HB) as [Fl1 Fl2], (Fh best HB) as [Fh1 Fh2].
  assert (PB := ax_P best HB). assert (TD : T best * dr best = P best - og best) by (unfold T; field; exact Nd). apply Rabs_le_inv in PB as PB', Fo2 as Fo2'.
  assert (PO : Rabs (P best - og best) <= 2 * M) by (apply Rabs_le; lra).
  destruct long as (j & Lj & Hj).
  assert (BT : j = best -> Rabs (T best) <= 8 * M).
  { intros ->. apply Rmult_le_reg_r with (Rabs (dr best)); [lra|]. rewrite <- Rabs_mult, TD. eapply Rle_trans; [exact PO|]. nra. }
  assert (Fs : is_finite (D best) = true).
  { apply (key_inner prec emax); [exact N|]. destruct (Nat.eq_dec j best) as [Ej|Nj].
    - specialize (BT Ej). rewrite Ky. assert (Rabs y <= Rabs (T best) + (21 / 10 * u * Rabs (T best) + eta)). { replace y with (T best + (y - T best)) by ring. eapply Rle_trans; [apply Rabs_triang|]. lra. }
      assert (u * Rabs (T best) <= / 1000000 * (8 * M)) by (apply Rmult_le_compat; try lra; apply Rabs_pos). rewrite sat_small; [apply Rabs_lt_inv|]; lra.
    - split; [lra|]. destruct (key_range prec emax (D best)) as [_ KR]. destruct (Rle_lt_or_eq_dec _ _ KR) as [|EK]; [assumption|]. exfalso.
      assert (INF : D best = B754_infinity false). { change (Fkey prec emax (D best) = Om) in EK. rewrite F_is_nan in N. destruct (is_finite (D best)) eqn:Z; [assert (G := Fkey_bound prec emax _ Z); lra|]. destruct (D best) as [|[]| |]; try discriminate; auto. cbn in EK. assert (G := bpow_gt_0 radix2 emax). lra. }
      specialize (Q j Lj Nj). destruct (Fo j Lj), (Fd j Lj), (Fl j Lj), (Fh j Lj). unfold passed in Q. assert (NZ : B2R (vget d j) <> 0) by (intros Z; unfold dr in Hj; rewrite Z, Rabs_R0 in Hj; lra). eapply eq_true_false_abs; [|exact Q]. apply (inf_miss prec emax) with (M := M); auto. }
  set (R := B2R (D best)). assert (KR : key (D best) = R) by (apply (key_fin prec emax); exact Fs). assert (RY : R = y).
  { assert (G := abs_B2R_lt_emax prec emax (D best)). apply Rabs_lt_inv in G. fold R in G. rewrite KR in Ky. apply Rle_antisym; [apply (sat_lo emax); lra|apply (sat_hi emax); lra]. }
  rewrite KR in K. split; [exact Fs|]. split; [exact Nd|].
  assert (BEST : Rabs (R * dr best - (P best - og best)) <= 42 / 10 * (u * M) + 2 * eta).
  { rewrite RY, <- TD. replace (y * dr best - T best * dr best) with ((y - T best) * dr best) by ring. rewrite Rabs_mult. apply Rle_trans with ((21 / 10 * u * Rabs (T best) + eta) * Rabs (dr best)); [apply Rmult_le_compat_r; [apply Rabs_pos|exact Y]|].
    replace ((21 / 10 * u * Rabs (T best) + eta) * Rabs (dr best)) with (21 / 10 * u * (Rabs (T best) * Rabs (dr best)) + eta * Rabs (dr best)) by ring. rewrite <- Rabs_mult, TD.
    assert (21 / 10 * u * Rabs (P best - og best) <= 21 / 10 * u * (2 * M)) by (apply Rmult_le_compat_l; lra). assert (eta * Rabs (dr best) <= eta * 2) by (apply Rmult_le_compat_l; lra). lra. }
  assert (UM : 0 <= u * M) by (apply Rmult_le_pos; lra). assert (UM' : u * M <= / 1000000 * M) by (apply Rmult_le_compat_r; lra).
  assert (OTH : forall i, (i < n)%nat -> i <> best -> mn i - e <= og i + R * dr i <= mx i + e /\ Rabs (R * dr i) <= 21 / 10 * M + 2 * eta).
  { intros i Hi Ni. destruct (Fo i Hi), (Fd i Hi), (Fl i Hi), (Fh i Hi). apply (passes prec emax U20 (vget o i) (vget d i) (vget lo i) (vget hi i) (D best) M); try exact (LE i Hi); try exact (Q i Hi Ni); auto. }
  split; [|split].
  - split; [exact K|]. assert (W : Rabs (R * dr j) <= 21 / 10 * M + 2 * eta). { destruct (Nat.eq_dec j best) as [->|Nj]; [|now apply OTH]. apply Rabs_le_inv in BEST, PO. apply Rabs_le. lra. }
    rewrite Rabs_mult, (Rabs_pos_eq R) in W by assumption. assert (R * / 4 <= R * Rabs (dr j)) by (apply Rmult_le_compat_l; lra). lra.
  - eapply Rle_trans; [exact BEST|]. unfold ray_box_error. lra.
  - intros i Hi. destruct (Nat.eq_dec i best) as [->|Ni]; [|now apply OTH]. apply Rabs_le_inv in BEST. assert (PF : mn best <= P best <= mx best).
    { assert (G := LE best HB). destruct (rb_inside r b best) eqn:Z; [apply ax_ins in Z as [_ [[_ ->]|[_ ->]]]|apply ax_out in Z as [[_ ->]|[_ ->]]]; auto; lra. }
    unfold ray_box_error. lra.
Qed.
Lemma sound : let s := intersect_ray_bbox n r b in
  s = o_nan \/ is_finite s = true /\ 0 <= B2R s <= 9 * (M + eta) /\ on_surface_upto e (box_values b) (ray_at (ray_values r) (B2R s)).
Proof.
  intros s. assert (DEC : s = o_nan \/ s <> o_nan). { destruct (result best_lt) as [E|(E & _)]; [now left|]. right. intros Z. assert (G := no_nan best best_lt). rewrite <- E in G. change (intersect_ray_bbox n r b) with s in G. rewrite Z, F_is_nan in G. discriminate. }
  destruct DEC as [E|Hs]; [now left|right]. destruct (returned Hs) as (E & F & Nd & B & H1 & H2). split; [exact F|]. split; [exact B|]. split; [now apply box_at|].
  exists best. rewrite at_len, at_get, lo_get, hi_get by exact best_lt. split; [exact best_lt|].
  assert (PF : P best = mn best \/ P best = mx best). { destruct (rb_inside r b best) eqn:Z; [apply ax_ins in Z as [_ [[_ ->]|[_ ->]]]|apply ax_out in Z as [[_ ->]|[_ ->]]]; auto using best_lt. }
  change (intersect_ray_bbox n r b) with s in H1. replace (B2R s * dr best - (P best - og best)) with (og best + B2R s * dr best - P best) in H1 by ring. destruct PF as [PF|PF]; rewrite PF in H1; auto.
Qed.
(** From outside, the ray does not meet the box before. *)
Lemma not_before : let s := intersect_ray_bbox n r b in ~ in_bbox (box_values b) (values o) -> is_finite s = true ->
  forall t, 0 <= t < B2R s * (1 - 3 * u) - 2 * eta -> ~ in_bbox (box_values b) (ray_at (ray_values r) t).
Proof.
  intros s HO Fs t Ht HI. assert (Hs : s <> o_nan) by (intros Z; rewrite Z in Fs; discriminate). destruct (returned Hs) as (E & _ & Nd & B & _ & _). change (intersect_ray_bbox n r b) with s in E, B.
  destruct (u_small prec ltac:(assumption)) as (U0 & U1). assert (T0 := eta_pos prec emax).
  rewrite box_in, box_at in HI. destruct all_or as [A|A].
  { apply HO. replace (values o) with (ray_at (ray_values r) 0). 2:{ unfold ray_at, ray_values, r, rpoint. cbn [ray_origin ray_dir]. apply nth_ext with (d := 0) (d' := 0); [rewrite radd_length; [reflexivity|unfold rscale, values; rewrite !map_length; rewrite (proj1 So), (proj1 (proj1 Sd)); reflexivity]|]. intros k _. rewrite nth_radd, nth_rscale; [ring|]. unfold rscale, values; rewrite !map_length; rewrite (proj1 So), (proj1 (proj1 Sd)); reflexivity. }
    rewrite box_in, box_at. intros i Hi. destruct (ax_ins i Hi (A i Hi)) as [G _]. lra. }
  destruct (best_outside prec emax n (rb_inside r b) D no_nan A) as (HB & Ob & _). fold best in HB, Ob.
  destruct (ax_dist best HB Nd) as (N & y & Ky & _ & Y). rewrite <- E, (key_fin prec emax s Fs) in Ky.
  assert (RY : B2R s <= y). { apply (sat_lo emax); [|lra]. assert (G := bpow_gt_0 radix2 emax). lra. }
  specialize (HI best HB). assert (TD : T best * dr best = P best - og best) by (unfold T; field; exact Nd).
  assert (G : 0 < T best <= t).
  { destruct (ax_out best HB Ob) as [[O1 O2]|[O1 O2]]; rewrite O2 in TD.
    - assert (0 < t * dr best) by lra. assert (0 < dr best) by nra. split; [nra|]. apply Rmult_le_reg_r with (dr best); lra.
    - assert (t * dr best < 0) by lra. assert (dr best < 0) by nra. split; [nra|]. apply Rmult_le_reg_r with (- dr best); lra. }
  rewrite (Rabs_pos_eq (T best)) in Y by lra. apply Rabs_le_inv in Y.
  assert (B2R s * (1 - 3 * u) <= (T best + (21 / 10 * u * T best + eta)) * (1 - 3 * u)) by (apply Rmult_le_compat_r; lra). assert (0 <= u * T best) by (apply Rmult_le_pos; lra). assert (0 <= u * (u * T best)) by (apply Rmult_le_pos; lra). assert (0 <= u * eta) by (apply Rmult_le_pos; lra). lra.
Qed.
(** From inside, the ray stays in the box until then. *)
Lemma until : let s := intersect_ray_bbox n r b in in_bbox (box_values b) (values o) -> is_finite s = true ->
  forall t, 0 <= t <= B2R s * (1 - 3 * u) - 2 * eta -> in_bbox (box_values b) (ray_at (ray_values r) t).
Proof.
  intros s HO Fs t Ht. assert (Hs : s <> o_nan) by (intros Z; rewrite Z in Fs; discriminate). destruct (returned Hs) as (E & _ & Nd & B & _ & _). change (intersect_ray_bbox n r b) with s in E, B.
  destruct (u_small prec ltac:(assumption)) as (U0 & U1). assert (T0 := eta_pos prec emax).
  assert (A : forall i, (i < n)%nat -> rb_inside r b i = true).
  { intros i Hi. destruct (rb_inside r b i) eqn:Z; [reflexivity|]. exfalso. replace (values o) with (ray_at (ray_values r) 0) in HO. 2:{ unfold ray_at, ray_values, r, rpoint. cbn [ray_origin ray_dir]. apply nth_ext with (d := 0) (d' := 0); [rewrite radd_length; [reflexivity|unfold rscale, values; rewrite !map_length; rewrite (proj1 So), (proj1 (proj1 Sd)); reflexivity]|]. intros k _. rewrite nth_radd, nth_rscale; [ring|]. unfold rscale, values; rewrite !map_length; rewrite (proj1 So), (proj1 (proj1 Sd)); reflexivity. }
    rewrite box_in, box_at in HO. specialize (HO i Hi). destruct (ax_out i Hi Z) as [[G _]|[G _]]; lra. }
  destruct (best_inside prec emax n (rb_inside r b) D N0 no_nan A) as (HB & Min). fold best in HB, Min. rewrite <- E, (key_fin prec emax s Fs) in Min.
  rewrite box_in, box_at. intros i Hi. specialize (Min i Hi). assert (Ni : dr i <> 0). { intros Z. destruct (ax_zero i Hi Z) as [_ G]. lra. }
  destruct (ax_dist i Hi Ni) as (N & y & Ky & _ & Y). rewrite Ky in Min. apply (sat_lo emax) in Min; [|assert (G := bpow_gt_0 radix2 emax); lra].
  destruct (ax_ins i Hi (A i Hi)) as [G1 G2]. assert (TD : T i * dr i = P i - og i) by (unfold T; field; exact Ni).
  assert (TP : 0 <= T i). { destruct G2 as [[G2 G3]|[G2 G3]]; rewrite G3 in TD; nra. }
  rewrite (Rabs_pos_eq (T i)) in Y by lra. apply Rabs_le_inv in Y.
  assert (TT : t <= T i). { assert (B2R s * (1 - 3 * u) <= (T i + (21 / 10 * u * T i + eta)) * (1 - 3 * u)) by (apply Rmult_le_compat_r; lra). assert (0 <= u * T i) by (apply Rmult_le_pos; lra). assert (0 <= u * (u * T i)) by (apply Rmult_le_pos; lra). assert (0 <= u * eta) by (apply Rmult_le_pos; lra). lra. }
  destruct G2 as [[G2 G3]|[G2 G3]]; rewrite G3 in TD; nra.
Qed.
(** The distance to the chosen plane, if the ray meets it between the other faces *)
Lemma chosen : forall t, 0 <= t -> dr best <> 0 -> T best = t -> (forall j, (j < n)%nat -> j <> best -> mn j + e <= og j + t * dr j <= mx j - e) -> mn best <= og best + t * dr best <= mx best ->
  let s := intersect_ray_bbox n r b in is_finite s = true /\ Rabs (B2R s - t) <= 3 * u * t + eta.
Proof.
  intros t Ht Nd ET HJ HBx. cbv zeta. assert (HB := best_lt). assert (M0 := Mpos).
  destruct (u_small prec ltac:(assumption)) as (U0 & U1). assert (T0 := eta_pos prec emax). destruct (eta_small prec emax ltac:(assumption)) as [_ TS]. assert (OM := om_big emax ltac:(assumption)).
  destruct (ax_dist best HB Nd) as (N & y & Ky & Y0 & Y). rewrite ET in Y0, Y. rewrite (Rabs_pos_eq t) in Y by assumption. specialize (Y0 Ht).
  assert (UM : 0 <= u * M) by (apply Rmult_le_pos; lra). assert (EP : 0 <= e) by (unfold ray_box_error; lra).
  assert (B8 : t <= 8 * M).
  { destruct long as (j & Lj & Hj). destruct (Fo j Lj) as [_ Fo2], (Fl j Lj) as [_ Fl2], (Fh j Lj) as [_ Fh2]. apply Rabs_le_inv in Fo2, Fl2, Fh2.
    assert (W : mn j <= og j + t * dr j <= mx j). { destruct (Nat.eq_dec j best) as [->|Nj]; [exact HBx|]. specialize (HJ j Lj Nj). lra. }
    assert (W2 : Rabs (t * dr j) <= 2 * M) by (apply Rabs_le; lra). rewrite Rabs_mult, (Rabs_pos_eq t) in W2 by assumption. assert (t * / 4 <= t * Rabs (dr j)) by (apply Rmult_le_compat_l; lra). lra. }
  assert (UT : u * t <= / 1000000 * (8 * M)) by (apply Rmult_le_compat; lra). apply Rabs_le_inv in Y as Y'. assert (YO : Rabs y < Om) by (apply Rabs_lt; lra). rewrite sat_small in Ky by exact YO.
  assert (Fs : is_finite (D best) = true). { apply (key_inner prec emax); [exact N|]. rewrite Ky. now apply Rabs_lt_inv. }
  assert (V : B2R (D best) = y) by (rewrite <- Ky; symmetry; apply (key_fin prec emax); exact Fs).
  rewrite result_if; [|rewrite Ky; exact Y0|exact HB|].
  - split; [exact Fs|]. rewrite V. assert (0 <= u * t) by (apply Rmult_le_pos; lra). lra.
  - intros j Lj Nj. destruct (Fo j Lj), (Fd j Lj), (Fl j Lj), (Fh j Lj). apply (passes_if prec emax U20 E20 (vget o j) (vget d j) (vget lo j) (vget hi j) (D best) M) with (t := t); try exact (LE j Lj); auto.
    + rewrite V. exact Y.
    + exact (HJ j Lj Nj).
Qed.
(** The closeness of two distances *)
Lemma apart : forall t t' yt yt' q, 0 <= t -> 0 <= t' -> 0 < q <= 2 -> Rmin t t' * q <= 2 * M -> t' + e / q <= t -> Rabs (yt - t) <= 21 / 10 * u * t + eta -> Rabs (yt' - t') <= 21 / 10 * u * t' + eta -> yt' < yt.
Proof.
  intros t t' yt yt' q Ht Ht' Hq Hm Hd H1 H2. destruct (u_small prec ltac:(assumption)) as (U0 & U1). assert (T0 := eta_pos prec emax). assert (M0 := Mpos).
  assert (EP : 0 < e) by (unfold ray_box_error; assert (0 <= u * M) by (apply Rmult_le_pos; lra); lra). assert (EQ : 0 < e / q) by (apply Rdiv_lt_0_compat; lra).
  rewrite Rmin_right in Hm by lra. apply Rabs_le_inv in H1, H2.
  assert (G : 42 / 10 * u * t' + 2 * eta < (1 - 21 / 10 * u) * (e / q)).
  { apply Rmult_lt_reg_r with q; [lra|]. replace ((1 - 21 / 10 * u) * (e / q) * q) with ((1 - 21 / 10 * u) * e) by (field; lra).
    replace ((42 / 10 * u * t' + 2 * eta) * q) with (42 / 10 * u * (t' * q) + 2 * eta * q) by ring. assert (42 / 10 * u * (t' * q) <= 42 / 10 * u * (2 * M)) by (apply Rmult_le_compat_l; lra).
    assert (2 * eta * q <= 2 * eta * 2) by (apply Rmult_le_compat_l; lra). assert (UM : 0 <= u * M) by (apply Rmult_le_pos; lra). unfold ray_box_error.
    assert (9 * (u * M + eta) <= (1 - 21 / 10 * u) * (10 * (u * M + eta))) by nra. lra. }
  assert ((t' + e / q) * (1 - 21 / 10 * u) <= t * (1 - 21 / 10 * u)) by (apply Rmult_le_compat_r; lra). lra.
Qed.
Lemma origin_axis : forall i, (i < n)%nat -> nth i (ray_origin (ray_values r)) 0 = og i /\ nth i (ray_dir (ray_values r)) 0 = dr i.
Proof. intros i Hi. split; [apply (sized_get n M o i So Hi)|apply (sized_get n 2 d i (proj1 Sd) Hi)]. Qed.
Lemma entry : forall i t, enters e (ray_values r) (box_values b) i t -> let s := intersect_ray_bbox n r b in is_finite s = true /\ Rabs (B2R s - t) <= 3 * u * t + eta.
Proof.
  intros i t (Ht & Li & HF & HJ). change (i < length (values o))%nat in Li. unfold values in Li. rewrite map_length, (proj1 So) in Li. unfold between_others in HJ. rewrite at_len in HJ.
  assert (HJ' : forall j, (j < n)%nat -> j <> i -> mn j + e <= og j + t * dr j <= mx j - e). { intros j Lj Nj. specialize (HJ j Lj Nj). rewrite at_get, lo_get, hi_get in HJ by assumption. exact HJ. } clear HJ.
  destruct (origin_axis i Li) as [EO ED]. rewrite EO, at_get, lo_get, hi_get in HF by assumption. assert (M0 := Mpos).
  destruct (u_small prec ltac:(assumption)) as (U0 & U1). assert (T0 := eta_pos prec emax). destruct (eta_small prec emax ltac:(assumption)) as [_ TS]. assert (OM := om_big emax ltac:(assumption)).
  assert (UM : 0 <= u * M) by (apply Rmult_le_pos; lra). assert (EP : 0 < e) by (unfold ray_box_error; lra).
  assert (LI := LE i Li). assert (Oi : rb_inside r b i = false). { destruct (rb_inside r b i) eqn:Z; [|reflexivity]. destruct (ax_ins i Li Z) as [G _]. destruct HF as [[? ?]|[? ?]]; lra. }
  assert (FI : t * dr i = P i - og i /\ dr i <> 0 /\ mn i <= og i + t * dr i <= mx i).
  { destruct (ax_out i Li Oi) as [[G1 G2]|[G1 G2]], HF as [[F1 F2]|[F1 F2]]; try lra; rewrite G2; (split; [lra|]); (split; [intros Z; rewrite Z in F2; lra|lra]). }
  destruct FI as (F1 & F2 & F3). assert (TI : T i = t) by (unfold T; rewrite <- F1; field; exact F2).
  assert (B8 : t <= 8 * M).
  { destruct long as (j & Lj & Hj). destruct (Fo j Lj) as [_ Fo2], (Fl j Lj) as [_ Fl2], (Fh j Lj) as [_ Fh2]. apply Rabs_le_inv in Fo2, Fl2, Fh2.
    assert (W : mn j <= og j + t * dr j <= mx j). { destruct (Nat.eq_dec j i) as [->|Nj]; [exact F3|]. specialize (HJ' j Lj Nj). lra. }
    assert (W2 : Rabs (t * dr j) <= 2 * M) by (apply Rabs_le; lra). rewrite Rabs_mult, (Rabs_pos_eq t) in W2 by assumption. assert (t * / 4 <= t * Rabs (dr j)) by (apply Rmult_le_compat_l; lra). lra. }
  destruct (ax_dist i Li F2) as (_ & y & Ky & Y0 & Y). rewrite TI in Y, Y0. rewrite (Rabs_pos_eq t) in Y by assumption.
  assert (UT : u * t <= / 1000000 * (8 * M)) by (apply Rmult_le_compat; lra). apply Rabs_le_inv in Y as Y'. rewrite sat_small in Ky by (apply Rabs_lt; lra).
  destruct (best_outside prec emax n (rb_inside r b) D no_nan (ex_intro _ i (conj Li Oi))) as (HB & Ob & Max). fold best in HB, Ob, Max.
  assert (EB : best = i).
  { destruct (Nat.eq_dec best i) as [|Nb]; [assumption|]. exfalso. specialize (Max i Li Oi). specialize (HJ' best HB Nb). destruct (Fo best HB) as [_ Fo2], (Fd best HB) as [_ Fd2], (Fl best HB) as [_ Fl2], (Fh best HB) as [_ Fh2].
    assert (LB := LE best HB). assert (Gd : 0 < Rabs (dr best) /\ t * Rabs (dr best) >= Rabs (P best - og best) + e /\ dr best <> 0 /\ 0 <= T best).
    { destruct (ax_out best HB Ob) as [[G1 G2]|[G1 G2]]; rewrite G2.
      - assert (0 < t * dr best) by lra. assert (Dp : 0 < dr best) by nra. rewrite !Rabs_pos_eq by lra. split; [lra|]. split; [lra|]. split; [lra|]. unfold T. rewrite G2. apply Rlt_le, Rdiv_lt_0_compat; lra.
      - assert (t * dr best < 0) by lra. assert (Dp : dr best < 0) by nra. rewrite !Rabs_left by lra. split; [lra|]. split; [lra|]. split; [lra|]. unfold T. rewrite G2. replace ((mx best - og best) / dr best) with ((og best - mx best) / - dr best) by (field; lra). apply Rlt_le, Rdiv_lt_0_compat; lra. }
    destruct Gd as (D1 & D2 & D3 & D4). destruct (ax_dist best HB D3) as (_ & y' & Ky' & _ & Y2). rewrite (Rabs_pos_eq (T best)) in Y2 by assumption.
    assert (TQ : T best * Rabs (dr best) = Rabs (P best - og best)). { rewrite <- (Rabs_pos_eq (T best)) by assumption. rewrite <- Rabs_mult. f_equal. unfold T. field. exact D3. }
    assert (y' < y). { apply (apart t (T best) y y' (Rabs (dr best)) Ht D4 (conj D1 Fd2)); [| |exact Y|exact Y2].
      - rewrite Rmin_right. + rewrite TQ. apply Rabs_le. assert (PB := ax_P best HB). apply Rabs_le_inv in PB, Fo2. lra. + apply Rmult_le_reg_r with (Rabs (dr best)); lra.
      - apply Rmult_le_reg_r with (Rabs (dr best)); [exact D1|]. replace ((T best + e / Rabs (dr best)) * Rabs (dr best)) with (T best * Rabs (dr best) + e) by (field; lra). lra. }
    rewrite Ky, Ky' in Max. apply (sat_lo emax) in Max; lra. }
  apply chosen; rewrite ?EB; auto.
Qed.
Lemma exit : forall i t, in_bbox (box_values b) (values o) -> (forall j, (j < n)%nat -> dr j <> 0) -> leaves e (ray_values r) (box_values b) i t ->
  let s := intersect_ray_bbox n r b in is_finite s = true /\ Rabs (B2R s - t) <= 3 * u * t + eta.
Proof.
  intros i t HO HN (Ht & Li & HF & HJ). change (i < length (values o))%nat in Li. unfold values in Li. rewrite map_length, (proj1 So) in Li. unfold between_others in HJ. rewrite at_len in HJ.
  assert (HJ' : forall j, (j < n)%nat -> j <> i -> mn j + e <= og j + t * dr j <= mx j - e). { intros j Lj Nj. specialize (HJ j Lj Nj). rewrite at_get, lo_get, hi_get in HJ by assumption. exact HJ. } clear HJ.
  destruct (origin_axis i Li) as [EO ED]. rewrite ED, at_get, lo_get, hi_get in HF by assumption. assert (M0 := Mpos).
  destruct (u_small prec ltac:(assumption)) as (U0 & U1). assert (T0 := eta_pos prec emax). destruct (eta_small prec emax ltac:(assumption)) as [_ TS]. assert (OM := om_big emax ltac:(assumption)).
  assert (UM : 0 <= u * M) by (apply Rmult_le_pos; lra). assert (EP : 0 < e) by (unfold ray_box_error; lra).
  assert (A : forall i, (i < n)%nat -> rb_inside r b i = true).
  { intros k Hk. destruct (rb_inside r b k) eqn:Z; [reflexivity|]. exfalso. replace (values o) with (ray_at (ray_values r) 0) in HO. 2:{ unfold ray_at, ray_values, r, rpoint. cbn [ray_origin ray_dir]. apply nth_ext with (d := 0) (d' := 0); [rewrite radd_length; [reflexivity|unfold rscale, values; rewrite !map_length; rewrite (proj1 So), (proj1 (proj1 Sd)); reflexivity]|]. intros z _. rewrite nth_radd, nth_rscale; [ring|]. unfold rscale, values; rewrite !map_length; rewrite (proj1 So), (proj1 (proj1 Sd)); reflexivity. }
    rewrite box_in, box_at in HO. specialize (HO k Hk). destruct (ax_out k Hk Z) as [[G _]|[G _]]; lra. }
  assert (LI := LE i Li). assert (F2 := HN i Li). destruct (ax_ins i Li (A i Li)) as [GI GP].
  assert (FI : t * dr i = P i - og i /\ mn i <= og i + t * dr i <= mx i). { destruct GP as [[G1 G2]|[G1 G2]], HF as [[F3 F4]|[F3 F4]]; try lra; rewrite G2; split; lra. }
  destruct FI as (F1 & F3). assert (TI : T i = t) by (unfold T; rewrite <- F1; field; exact F2).
  assert (B8 : t <= 8 * M).
  { destruct long as (j & Lj & Hj). destruct (Fo j Lj) as [_ Fo2], (Fl j Lj) as [_ Fl2], (Fh j Lj) as [_ Fh2]. apply Rabs_le_inv in Fo2, Fl2, Fh2.
    assert (W : mn j <= og j + t * dr j <= mx j). { destruct (Nat.eq_dec j i) as [->|Nj]; [exact F3|]. specialize (HJ' j Lj Nj). lra. }
    assert (W2 : Rabs (t * dr j) <= 2 * M) by (apply Rabs_le; lra). rewrite Rabs_mult, (Rabs_pos_eq t) in W2 by assumption. assert (t * / 4 <= t * Rabs (dr j)) by (apply Rmult_le_compat_l; lra). lra. }
  destruct (ax_dist i Li F2) as (_ & y & Ky & Y0 & Y). rewrite TI in Y, Y0. rewrite (Rabs_pos_eq t) in Y by assumption.
  assert (UT : u * t <= / 1000000 * (8 * M)) by (apply Rmult_le_compat; lra). apply Rabs_le_inv in Y as Y'. rewrite sat_small in Ky by (apply Rabs_lt; lra).
  destruct (best_inside prec emax n (rb_inside r b) D N0 no_nan A) as (HB & Min). fold best in HB, Min.
  assert (EB : best = i).
  { destruct (Nat.eq_dec best i) as [|Nb]; [assumption|]. exfalso. specialize (Min i Li). specialize (HJ' best HB Nb). destruct (Fo best HB) as [_ Fo2], (Fd best HB) as [_ Fd2], (Fl best HB) as [_ Fl2], (Fh best HB) as [_ Fh2].
    assert (D3 := HN best HB). destruct (ax_ins best HB (A best HB)) as [GB GB2].
    assert (Gd : 0 < Rabs (dr best) /\ t * Rabs (dr best) + e <= Rabs (P best - og best) /\ 0 <= T best).
    { destruct GB2 as [[G1 G2]|[G1 G2]]; rewrite G2.
      - rewrite (Rabs_left (dr best)), (Rabs_left1 (mn best - og best)) by lra. split; [lra|]. split; [lra|]. unfold T. rewrite G2. replace ((mn best - og best) / dr best) with ((og best - mn best) * / - dr best) by (field; lra). apply Rmult_le_pos; [lra|]. apply Rlt_le, Rinv_0_lt_compat. lra.
      - assert (0 < dr best) by lra. rewrite !Rabs_pos_eq by lra. split; [lra|]. split; [lra|]. unfold T. rewrite G2. apply Rmult_le_pos; [lra|]. apply Rlt_le, Rinv_0_lt_compat. lra. }
    destruct Gd as (D1 & D2 & D4). destruct (ax_dist best HB D3) as (_ & y' & Ky' & _ & Y2). rewrite (Rabs_pos_eq (T best)) in Y2 by assumption.
    assert (TQ : T best * Rabs (dr best) = Rabs (P best - og best)). { rewrite <- (Rabs_pos_eq (T best)) by assumption. rewrite <- Rabs_mult. f_equal. unfold T. field. exact D3. }
    assert (y < y'). { apply (apart (T best) t y' y (Rabs (dr best)) D4 Ht (conj D1 Fd2)); [| |exact Y2|exact Y].
      - rewrite Rmin_right. + assert (PB : Rabs (P best - og best) <= 2 * M) by (apply Rabs_le; assert (PB := ax_P best HB); apply Rabs_le_inv in PB, Fo2; lra). lra. + apply Rmult_le_reg_r with (Rabs (dr best)); lra.
      - apply Rmult_le_reg_r with (Rabs (dr best)); [exact D1|]. replace ((t + e / Rabs (dr best)) * Rabs (dr best)) with (t * Rabs (dr best) + e) by (field; lra). lra. }
    rewrite Ky, Ky' in Min. apply (sat_hi emax) in Min; lra. }
  apply chosen; rewrite ?EB; auto.
Qed.
End Box.
End FP.
