(** Proofs about the convex hull (C60): the algorithm. *)
From Coq Require Import ZArith Reals List Bool Lia Lra Psatz Arith Sorted Permutation.
From Flocq Require Import Core.
From Verif Require Import Ops M_scalar M_vec M_hull Inst_XR S_vec S_polygon S_hull P_xr P_vec P_vec2 P_sort P_line P_polygon P_hull2d P_hull.
Import ListNotations.
Local Open Scope R_scope.

Definition px (v : list R) : R := nth 0 v 0.
Definition py (v : list R) : R := nth 1 v 0.
Notation o3 := (or3 px py).
Lemma is_left_X : forall p q r, is_left (vS p) (vS q) (vS r) = if Rlt_dec (o3 p q r) 0 then (-1)%Z else if Rlt_dec 0 (o3 p q r) then 1%Z else 0%Z.
Proof.
  intros p q r. unfold is_left, vx, vy. rewrite !X_get. change (cst 0 : XR) with (Some 0). cbn [o_sub o_mul XRops X2].
  rewrite !Xlt. fold (px p) (py p) (px q) (py q) (px r) (py r). change ((px q - px p) * (py r - py p) - (px r - px p) * (py q - py p)) with (o3 p q r).
  destruct (Rlt_dec (o3 p q r) 0) as [A|A].
  - now rewrite Rlt_bool_true.
  - rewrite Rlt_bool_false by lra. destruct (Rlt_dec 0 (o3 p q r)) as [B|B]; [now rewrite Rlt_bool_true|now rewrite Rlt_bool_false by lra].
Qed.
Definition negX (u v w : list R) : bool := (is_left (vS u) (vS v) (vS w) <? 0)%Z.
Lemma negX_spec : forall u v w, negX u v w = true <-> o3 u v w < 0.
Proof.
  intros u v w. unfold negX. rewrite is_left_X. destruct (Rlt_dec (o3 u v w) 0); [split; auto|]. destruct (Rlt_dec 0 (o3 u v w)); split; intros; try discriminate; lra.
Qed.
Definition zeroX (a q r : list R) : bool := (is_left (vS a) (vS q) (vS r) =? 0)%Z.
Lemma zeroX_spec : forall a q r, zeroX a q r = true <-> o3 a q r = 0.
Proof.
  intros u v w. unfold zeroX. rewrite is_left_X. destruct (Rlt_dec (o3 u v w) 0); [split; intros; try discriminate; lra|].
  destruct (Rlt_dec 0 (o3 u v w)); split; intros; try discriminate; try lra. reflexivity.
Qed.
Definition ltX (a q r : list R) : bool := less_than_by_angle (vS a) (vS q) (vS r).
Lemma Xeq_bool : forall a b, o_eq (Some a) (Some b : XR) = Req_bool a b.
Proof. reflexivity. Qed.
Lemma ltX_spec : forall a q r, ltX a q r = true <-> angle_lt px py a q r.
Proof.
  intros a q r. unfold ltX, less_than_by_angle, angle_lt, P_hull2d.cr. rewrite is_left_X. unfold vx, vy. rewrite !X_get. cbn [o_sub XRops X2]. rewrite !X_abs.
  fold (px a) (py a) (px q) (py q) (px r) (py r). fold (dx px a q) (dx px a r) (dy py a q) (dy py a r). 
  destruct (Rlt_dec (o3 a q r) 0) as [A|A]; [cbn [Z.gtb Z.ltb Z.compare]; split; [discriminate|lra]|].
  destruct (Rlt_dec 0 (o3 a q r)) as [B|B]; [cbn [Z.gtb Z.ltb Z.compare]; split; auto|]. cbn [Z.gtb Z.ltb Z.compare].
  rewrite Xeq_bool, !Xlt. destruct (Req_bool_spec (Rabs (dx px a q)) (Rabs (dx px a r))) as [E|E]; rewrite Rlt_true; split; intros H; lra.
Qed.
Lemma pop_X : forall st p, pop_stale_points (map vS st) (vS p) = map vS (pop negX st p).
Proof.
  induction st as [|t2 st IH]; intros p; [reflexivity|]. destruct st as [|t1 st]; [reflexivity|].
  cbn [map pop_stale_points pop]. fold (negX t1 t2 p). destruct (negX t1 t2 p); [apply (IH p)|reflexivity].
Qed.
Lemma erase_X : forall a rest p1, erase_colinear (vS a) (vS p1) (map vS rest) = map vS (erase (zeroX a) p1 rest).
Proof.
  intros a. induction rest as [|p2 rest IH]; intros p1; [reflexivity|]. cbn [map erase_colinear erase]. fold (zeroX a p1 p2).
  destruct (zeroX a p1 p2); [apply IH|]. cbn [map]. now rewrite IH.
Qed.
Lemma fold_X : forall rest st, fold_left (fun stack p => p :: pop_stale_points stack p) (map vS rest) (map vS st) =
  map vS (fold_left (fun stack p => p :: pop negX stack p) rest st).
Proof.
  induction rest as [|p rest IH]; intros st; [reflexivity|]. cbn [map fold_left]. rewrite pop_X. apply (IH (p :: pop negX st p)).
Qed.

(** ** The anchor *)
Definition better (p a : list R) : Prop := py p < py a \/ (py p = py a /\ px a < px p).
Lemma anchor_loop : forall pts n i k, (k < length pts)%nat -> (i + n = length pts)%nat ->
  (forall j, (j < i)%nat -> ~ better (nth j pts []) (nth k pts [])) ->
  let r := find_anchor_loop (map vS pts) n i k in
  (r < length pts)%nat /\ forall j, (j < length pts)%nat -> ~ better (nth j pts []) (nth r pts []).
Proof.
  intros pts n. induction n; intros i k Hk Hi H; cbn [find_anchor_loop].
  - split; [exact Hk|]. intros j Hj. apply H. lia.
  - change (@nil XR) with (vS []). rewrite !map_nth. unfold vx, vy. rewrite !X_get, !Xlt, Xeq_bool.
    set (p := nth i pts []). set (a := nth k pts []). fold (px p) (py p) (px a) (py a).
    set (b := Rlt_bool (py p) (py a) || Req_bool (py p) (py a) && Rlt_bool (px a) (px p)).
    assert (B : b = true <-> better p a).
    { unfold b, better. rewrite orb_true_iff, andb_true_iff, !Rlt_true. split; intros [A|(A & C)]; auto; right; split; auto.
      - destruct (Req_bool_spec (py p) (py a)); [assumption|discriminate]. - now apply Req_bool_true. }
    destruct b.
    + apply IHn; [lia|lia|]. intros j Hj. fold p. assert (B1 := proj1 B eq_refl). destruct (Nat.eq_dec j i) as [->|D].
      * fold p. unfold better. lra.
      * specialize (H j ltac:(lia)). fold a in H. unfold better in *. lra.
    + apply IHn; [exact Hk|lia|]. intros j Hj. destruct (Nat.eq_dec j i) as [->|D]; [fold p a; intros W; apply B in W; discriminate|apply H; lia].
Qed.
Lemma not_better_upper : forall a q, ~ better q a -> upper px py a q.
Proof. intros a q H. unfold better, upper, dx, dy in *. destruct (Rlt_le_dec (py a) (py q)); [left; lra|right]. destruct (Rlt_le_dec (px a) (px q)); lra. Qed.
Lemma find_anchor_X : forall pts, pts <> [] -> exists a rest, find_anchor (map vS pts) = Ret (map vS (a :: rest)) /\ Permutation pts (a :: rest)
  /\ Forall (upper px py a) (a :: rest).
Proof.
  intros pts N. unfold find_anchor. rewrite map_length.
  assert (L : (0 < length pts)%nat) by (destruct pts; [congruence|cbn; lia]).
  destruct (anchor_loop pts (length pts - 1) 1 0) as (A & B); [lia|lia| |].
  { intros j Hj. replace j with 0%nat by lia. unfold better. lra. }
  set (k := find_anchor_loop (map vS pts) (length pts - 1) 1 0) in *.
  assert (F : Forall (upper px py (nth k pts [])) pts).
  { apply Forall_forall. intros q Hq. apply In_nth with (d := []) in Hq. destruct Hq as (j & Hj & <-). apply not_better_upper. now apply B. }
  destruct (Nat.ltb_spec 0 k) as [K|K].
  - destruct pts as [|p0 pts]; [congruence|]. destruct k as [|k]; [lia|]. cbn [nth length] in *.
    destruct (nth_split pts [] (n := k)) as (l1 & l2 & E & E1); [lia|]. set (a := nth k pts []) in *.
    exists a, (l1 ++ p0 :: l2). rewrite E. 
    assert (SW := arr_swap_app [] (map vS l1) (map vS l2) (vS p0) (vS a)). rewrite map_length, E1 in SW. cbn [app length Nat.add] in SW.
    cbn [map]. rewrite !map_app. cbn [map]. rewrite SW. split; [reflexivity|].
    assert (PP : Permutation (p0 :: l1 ++ a :: l2) (a :: l1 ++ p0 :: l2)).
    { etransitivity; [apply perm_skip, Permutation_sym, Permutation_middle|]. etransitivity; [apply perm_swap|]. apply perm_skip, Permutation_middle. }
    split; [exact PP|]. rewrite E in F. eapply Permutation_Forall; [exact PP|exact F].
  - assert (k = 0)%nat by lia. rewrite H in *. destruct pts as [|p0 pts]; [congruence|]. exists p0, pts. cbn [nth] in F. auto.
Qed.

(** ** Sorting and scanning *)
Lemma sort_points_X : forall sort a rest, sorts sort -> Forall (upper px py a) (a :: rest) -> rest <> [] ->
  exists q1 ds, sort_points sort (map vS (a :: rest)) = map vS (a :: q1 :: ds)
    /\ StronglySorted (fun v w => 0 < cr px py a v w) (q1 :: ds) /\ incl (q1 :: ds) rest
    /\ forall q, In q (a :: rest) -> exists d, In d (q1 :: ds) /\ part_of px py a q d.
Proof.
  intros sort a rest HS F N. inversion F as [|? ? F0 F1]; subst.
  assert (SW : strict_weak_order (less_than_by_angle (vS a)) (map vS rest)).
  { destruct (angle_swo px py a (ltX a) (ltX_spec a) rest F1) as (A & B & C). split; [|split].
    - intros z Hz. apply in_map_iff in Hz. destruct Hz as (u & <- & Hu). now apply A.
    - intros z1 z2 z3 H1 H2 H3. apply in_map_iff in H1. apply in_map_iff in H2. apply in_map_iff in H3.
      destruct H1 as (u1 & <- & U1), H2 as (u2 & <- & U2), H3 as (u3 & <- & U3). now apply (B u1 u2 u3).
    - intros z1 z2 z3 H1 H2 H3. apply in_map_iff in H1. apply in_map_iff in H2. apply in_map_iff in H3.
      destruct H1 as (u1 & <- & U1), H2 as (u2 & <- & U2), H3 as (u3 & <- & U3). now apply (C u1 u2 u3). }
  destruct (HS _ _ SW) as (PM & ST). cbn [map sort_points].
  apply Permutation_sym in PM. apply Permutation_map_inv in PM. destruct PM as (l & E & PL). rewrite E in *.
  destruct l as [|p1 l]; [exfalso; apply Permutation_length in PL; destruct rest; [congruence|discriminate]|]. cbn [map].
  rewrite erase_X.
  assert (SL : StronglySorted (fun q r => ltX a r q = false) (p1 :: l)).
  { clear - ST. revert ST. generalize (p1 :: l). induction l0 as [|z l0 IH]; intros ST; [constructor|]. cbn [map] in ST. inversion ST as [|? ? S1 S2]; subst.
    constructor; [auto|]. rewrite Forall_map in S2. exact S2. }
  assert (FL : Forall (upper px py a) (p1 :: l)) by (eapply Permutation_Forall; [exact PL|exact F1]).
  destruct (erase_spec px py a (ltX a) (ltX_spec a) (zeroX a) (zeroX_spec a) l p1 SL FL) as (A & B & (r' & C) & D).
  rewrite C in *. exists p1, r'. split; [reflexivity|]. split; [exact A|]. split.
  - intros z Hz. apply B in Hz. eapply Permutation_in; [apply Permutation_sym, PL|exact Hz].
  - intros q [Hq|Hq].
    + subst q. exists p1. split; [now left|]. exists 0. unfold dx, dy. lra.
    + apply D. eapply Permutation_in; [exact PL|exact Hq].
Qed.

(** A closed sequence of points such that everything is to the left of each edge *)
Definition around (V : list (list R)) (p : list R) : Prop :=
  forall i, (i < length V)%nat -> 0 <= o3 (nth i V []) (nth (S i mod length V) V []) p.
Lemma last_cons : forall (A : Type) (l : list A) d d', l <> [] -> last l d = last l d'.
Proof. intros A l d d' N. induction l as [|z l IH]; [congruence|]. destruct l; [reflexivity|]. cbn [last] in *. apply IH. discriminate. Qed.
Lemma build_hull_X : forall a q1 q2 ds pts,
  StronglySorted (fun v w => 0 < cr px py a v w) (q1 :: q2 :: ds) ->
  (forall q, In q pts -> exists d, In d (q1 :: q2 :: ds) /\ part_of px py a q d) ->
  exists V, build_hull (map vS (a :: q1 :: q2 :: ds)) = Ret (map vS V) /\ (3 <= length V)%nat /\ incl V (a :: q1 :: q2 :: ds)
    /\ nth 0 V [] = a /\ (forall i j, (0 < i < j)%nat -> (j < length V)%nat -> 0 < o3 a (nth i V []) (nth j V []))
    /\ forall p, In p pts -> around V p.
Proof.
  intros a q1 q2 ds pts HS C. unfold build_hull. cbn [map].
  change [vS q1; vS a] with (map vS ([q1] ++ [a])). change (vS q2 :: map vS ds) with (map vS (q2 :: ds)). rewrite fold_X.
  inversion HS as [|? ? S1 S2]; subst.
  destruct (scan_spec px py a negX negX_spec (q2 :: ds) [q1] [q1]) as (st & E & N & SS & CC & CV & IC & L2 & TL & TH); auto.
  { discriminate. } { repeat constructor. } { cbn. auto. } { intros q [Hq|[]]. cbn. auto. }
  { rewrite Forall_forall in S2 |- *. intros p Hp. constructor; auto. }
  rewrite E. rewrite <- map_rev, rev_app_distr. cbn [rev app]. set (V := a :: rev st).
  assert (LV : length V = S (length st)) by (unfold V; cbn; now rewrite rev_length).
  exists V. rewrite map_length, LV. destruct (Nat.ltb_spec 2 (S (length st))) as [K|K]; [|lia]. cbn [require].
  split; [reflexivity|]. split; [lia|]. split; [|split; [reflexivity|split]].
  - intros z [Hz|Hz]; [now left|]. right. apply in_rev in Hz. apply IC in Hz. exact Hz.
  - intros i j Hij Hj. destruct i as [|i]; [lia|]. destruct j as [|j]; [lia|]. cbn [V nth].
    rewrite !rev_nth by lia.
    assert (W : forall st i j, StronglySorted (below px py a) st -> (i < j)%nat -> (j < length st)%nat -> below px py a (nth i st []) (nth j st [])).
    { clear. induction st as [|w st IH]; intros i j HS Hij Hj; [cbn in Hj; lia|]. inversion HS as [|? ? S1 S2]; subst. destruct j; [lia|]. cbn [nth length] in *.
      destruct i; [rewrite Forall_forall in S2; apply S2, nth_In; lia|]. apply IH; auto; lia. }
    apply (W st (length st - S j)%nat (length st - S i)%nat SS); lia.
  - intros p Hp i Hi. destruct (C p Hp) as (d & Hd & (t & Ht & Tx & Ty)).
    (* it suffices to consider a and d *)
    assert (G : forall u v, 0 <= o3 u v a -> 0 <= o3 u v d -> 0 <= o3 u v p).
    { intros u v A B. assert (I : o3 u v p = (1 - t) * o3 u v a + t * o3 u v d).
      { unfold dx, dy in *. assert (Xp : px p = px a + t * (px d - px a)) by lra. assert (Yp : py p = py a + t * (py d - py a)) by lra.
        unfold or3. rewrite Xp, Yp. ring. }
      rewrite I. nra. }
    assert (Sd : forall l z, StronglySorted (fun v w => 0 < cr px py a v w) (z :: l) -> In d (z :: l) -> 0 <= cr px py a z d /\ 0 <= cr px py a d (last l z)).
    { clear. induction l as [|w l IH]; intros z HS H.
      - destruct H as [H|[]]. subst. cbn. unfold cr, or3. lra.
      - inversion HS as [|? ? S1 S2]; subst. assert (LL : forall (l : list (list R)) w z, last (w :: l) z = last l w).
        { clear. induction l as [|y l IH]; intros w z; [reflexivity|]. change (last (w :: y :: l) z) with (last (y :: l) z). now rewrite IH, (IH y w). }
        rewrite LL. destruct H as [H|H].
        + subst z. split; [unfold cr, or3; lra|]. assert (IL : In (last l w) (w :: l)).
          { clear. revert w. induction l as [|y l IH]; intros w; [now left|]. right. rewrite <- (last_cons _ (y :: l) y w) by discriminate. destruct l; [now left|]. apply (IH y). }
          rewrite Forall_forall in S2. left. now apply S2.
        + destruct (IH w S1 H) as (A & B). split; [|exact B]. rewrite Forall_forall in S2. left. now apply S2. }
    destruct (Sd (q2 :: ds) q1 HS Hd) as (D1 & D2).
    assert (ST1 : last st a = q1) by (rewrite TL; reflexivity).
    assert (ST2 : hd a st = last (q2 :: ds) q1) by (rewrite TH; reflexivity).
    unfold around. rewrite LV. apply G.
    + destruct i as [|i].
      * rewrite Nat.mod_small by lia. unfold V. cbn [nth]. unfold or3. lra.
      * destruct (Nat.eq_dec (S i) (length st)) as [Q|Q].
        -- rewrite (f_equal S Q), Nat.mod_same by lia. unfold V. cbn [nth]. unfold or3. lra.
        -- rewrite Nat.mod_small by lia. unfold V. cbn [nth]. rewrite !rev_nth by lia.
           assert (EA := edges_apex px py a st SS). rewrite edges_in in EA.
           set (k := (length st - S (S i))%nat). replace (length st - S i)%nat with (S k) by lia.
           destruct (nth_split st [] (n := k)) as (l1 & l2 & E1 & E2); [lia|].
           assert (E3 : nth (S k) st [] = nth 0 l2 []) by (rewrite E1, app_nth2 by lia; replace (S k - length l1)%nat with 1%nat by lia; reflexivity).
           rewrite E3. destruct l2 as [|u l2]; [exfalso; assert (LL := f_equal (@length _) E1); rewrite app_length in LL; cbn in LL; lia|]. cbn [nth].
           apply (EA l1 (nth k st []) u l2 E1).
    + assert (ED : edges px py st d) by (apply (edges_cov px py a); auto; apply CV; exact Hd). rewrite edges_in in ED.
      destruct i as [|i].
      * rewrite Nat.mod_small by lia. unfold V. cbn [nth].
        assert (Q1 : nth 0 (rev st) [] = q1).
        { rewrite rev_nth by lia. rewrite <- ST1. clear - N. induction st as [|z st IH]; [congruence|]. destruct st as [|w st]; [reflexivity|].
          change (last (z :: w :: st) a) with (last (w :: st) a). rewrite <- IH by discriminate. cbn [length]. replace (S (S (length st)) - 1)%nat with (S (S (length st) - 1)) by lia. reflexivity. }
        rewrite Q1. exact D1.
      * destruct (Nat.eq_dec (S i) (length st)) as [Q|Q].
        -- rewrite (f_equal S Q), Nat.mod_same by lia. unfold V. cbn [nth]. rewrite rev_nth by lia. replace (length st - S i)%nat with 0%nat by lia.
           destruct st as [|z st]; [congruence|]. cbn [nth hd] in *. subst z. unfold cr, or3 in *. lra.
        -- rewrite Nat.mod_small by lia. unfold V. cbn [nth]. rewrite !rev_nth by lia.
           set (k := (length st - S (S i))%nat). replace (length st - S i)%nat with (S k) by lia.
           destruct (nth_split st [] (n := k)) as (l1 & l2 & E1 & E2); [lia|].
           assert (E3 : nth (S k) st [] = nth 0 l2 []) by (rewrite E1, app_nth2 by lia; replace (S k - length l1)%nat with 1%nat by lia; reflexivity).
           rewrite E3. destruct l2 as [|u l2]; [exfalso; assert (LL := f_equal (@length _) E1); rewrite app_length in LL; cbn in LL; lia|]. cbn [nth].
           apply (ED l1 (nth k st []) u l2 E1).
Qed.
