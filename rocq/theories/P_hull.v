(** Proofs about the convex hull (C60). *)
From Coq Require Import ZArith Reals List Bool Lia Lra Psatz Arith Sorted Permutation.
From Verif Require Import Ops M_scalar M_vec M_hull Inst_XR S_vec S_polygon S_hull P_xr P_vec P_vec2 P_sort P_line P_polygon P_hull2d.
Import ListNotations.
Local Open Scope R_scope.

(** ** The order by angle *)
Section Angle.
Context {P : Type}.
Variables x y : P -> R.
Variable a : P.
Notation or3 := (or3 x y).
Notation cr := (cr x y a).
Definition dx q := x q - x a.
Definition dy q := y q - y a.
Definition upper (q : P) : Prop := 0 < dy q \/ (dy q = 0 /\ dx q <= 0).
Lemma cr_d : forall q r, cr q r = dx q * dy r - dx r * dy q.
Proof. reflexivity. Qed.
Definition angle_lt (q r : P) : Prop :=
  0 < cr q r \/ (cr q r = 0 /\ (Rabs (dx r) < Rabs (dx q) \/ (Rabs (dx q) = Rabs (dx r) /\ Rabs (dy r) < Rabs (dy q)))).
Variable lt : P -> P -> bool.
Hypothesis lt_spec : forall q r, lt q r = true <-> angle_lt q r.

(** A number that grows with the angle *)
Definition ang (q : P) : R :=
  if Req_EM_T (Rabs (dx q) + Rabs (dy q)) 0 then 2 else - dx q / (Rabs (dx q) + dy q).
Lemma ang_zero : forall q, dx q = 0 -> dy q = 0 -> ang q = 2.
Proof. intros q A B. unfold ang. rewrite A, B, Rabs_R0. destruct (Req_EM_T (0 + 0) 0); lra. Qed.
Lemma ang_pos : forall q, upper q -> ~ (dx q = 0 /\ dy q = 0) ->
  0 < Rabs (dx q) + dy q /\ ang q * (Rabs (dx q) + dy q) = - dx q /\ ang q <= 1.
Proof.
  intros q U N. assert (D : 0 < Rabs (dx q) + dy q).
  { destruct U as [U|(U & V)]; [assert (0 <= Rabs (dx q)) by apply Rabs_pos; lra|]. rewrite U.
    assert (0 < Rabs (dx q)) by (apply Rabs_pos_lt; intros E; apply N; auto). lra. }
  split; [exact D|]. assert (E : ang q * (Rabs (dx q) + dy q) = - dx q).
  { unfold ang. destruct (Req_EM_T (Rabs (dx q) + Rabs (dy q)) 0) as [Z|Z].
    - exfalso. assert (A := Rabs_pos (dx q)). assert (B := Rabs_pos (dy q)). assert (C : Rabs (dy q) = 0) by lra.
      assert (dy q = 0) by (destruct (Req_dec (dy q) 0) as [|W]; auto; apply Rabs_pos_lt in W; lra). lra.
    - field. lra. }
  split; [exact E|]. apply (Rmult_le_reg_r (Rabs (dx q) + dy q)); [exact D|]. rewrite E.
  assert (0 <= dy q) by (destruct U as [U|(U & V)]; lra). assert (- dx q <= Rabs (dx q)) by (rewrite <- Rabs_Ropp; apply Rle_abs). lra.
Qed.
Lemma ang_lt : forall q r, upper q -> upper r -> ~ (dx q = 0 /\ dy q = 0) -> ~ (dx r = 0 /\ dy r = 0) ->
  (0 < cr q r <-> ang q < ang r) /\ (cr q r = 0 <-> ang q = ang r).
Proof.
  intros q r U V N M. destruct (ang_pos q U N) as (A & B & _). destruct (ang_pos r V M) as (C & D & _).
  rewrite cr_d. unfold upper in *.
  set (dq := Rabs (dx q) + dy q) in *. set (dr := Rabs (dx r) + dy r) in *.
  assert (E : (ang r - ang q) * (dq * dr) = dx q * dr - dx r * dq) by (replace ((ang r - ang q) * (dq * dr)) with (ang r * dr * dq - ang q * dq * dr) by ring; rewrite B, D; ring).
  assert (PP : 0 < dq * dr) by (now apply Rmult_lt_0_compat).
  assert (F : (0 < dx q * dr - dx r * dq <-> 0 < dx q * dy r - dx r * dy q) /\ (dx q * dr - dx r * dq = 0 <-> dx q * dy r - dx r * dy q = 0)).
  { unfold dq, dr in *. clear E B D PP dq dr. unfold Rabs in *. destruct (Rcase_abs (dx q)), (Rcase_abs (dx r)); split; split; intros; try nra.
    all: destruct U as [U|(U1 & U2)], V as [V|(V1 & V2)]; try nra. }
  split; rewrite <- ?(proj1 F), <- ?(proj2 F), <- E.
  - split; intros H; nra.
  - split; intros H; [|rewrite H; ring]. apply Rmult_integral in H. destruct H; lra.
Qed.
Lemma Rabs_zero : forall r, Rabs r = 0 -> r = 0.
Proof. intros r H. destruct (Req_dec r 0) as [|W]; auto. apply Rabs_pos_lt in W. lra. Qed.
(** The comparison is lexicographic. *)
Definition lexlt (q r : P) : Prop :=
  ang q < ang r \/ (ang q = ang r /\ (Rabs (dx r) < Rabs (dx q) \/ (Rabs (dx q) = Rabs (dx r) /\ Rabs (dy r) < Rabs (dy q)))).
Lemma angle_lex : forall q r, upper q -> upper r -> (angle_lt q r <-> lexlt q r).
Proof.
  intros q r U V. unfold angle_lt, lexlt.
  assert (Z : forall q, {dx q = 0 /\ dy q = 0} + {~ (dx q = 0 /\ dy q = 0)}).
  { intros z. destruct (Req_EM_T (dx z) 0), (Req_EM_T (dy z) 0); tauto. }
  destruct (Z q) as [(Q1 & Q2)|Q], (Z r) as [(R1 & R2)|W].
  - rewrite cr_d, Q1, Q2, R1, R2, (ang_zero q), (ang_zero r), Rabs_R0 by assumption. lra.
  - destruct (ang_pos r V W) as (_ & _ & L). rewrite cr_d, Q1, Q2, (ang_zero q), Rabs_R0 by assumption.
    assert (A := Rabs_pos (dx r)). assert (B := Rabs_pos (dy r)). split; [|lra].
    intros [H|(_ & [H|(H1 & H2)])]; lra.
  - destruct (ang_pos q U Q) as (_ & _ & L). rewrite cr_d, R1, R2, (ang_zero r), Rabs_R0 by assumption.
    assert (A := Rabs_pos (dx q)). assert (B := Rabs_pos (dy q)). split; [lra|]. intros _. right. split; [lra|].
    destruct A as [A|A]; [now left|right]. split; [easy|]. destruct B as [B|B]; [exact B|]. exfalso. apply Q. split; now apply Rabs_zero.
  - destruct (ang_lt q r U V Q W) as (A & B). rewrite A, B. reflexivity.
Qed.
Lemma angle_swo : forall l, Forall upper l -> strict_weak_order lt l.
Proof.
  intros l F. rewrite Forall_forall in F.
  assert (L : forall q r, In q l -> In r l -> (lt q r = true <-> lexlt q r)) by (intros q r Q R'; rewrite lt_spec; apply angle_lex; auto).
  assert (L' : forall q r, In q l -> In r l -> (lt q r = false <-> ~ lexlt q r)) by (intros q r Q R'; rewrite <- L by assumption; destruct (lt q r); split; intros; congruence).
  split; [|split].
  - intros z Hz. apply L'; auto. unfold lexlt. lra.
  - intros q r z Hq Hr Hz A B. apply L in A; auto. apply L in B; auto. apply L; auto. unfold lexlt in *. lra.
  - intros q r z Hq Hr Hz A B C D. apply L' in A; auto. apply L' in B; auto. apply L' in C; auto. apply L' in D; auto.
    split; apply L'; auto; unfold lexlt in *; lra.
Qed.

(** ** Removal of points in the same direction *)
Variable zero : P -> P -> bool.
Hypothesis zero_spec : forall q r, zero q r = true <-> cr q r = 0.
Fixpoint erase (p1 : P) (rest : list P) : list P :=
  match rest with
  | [] => [p1]
  | p2 :: rest' => if zero p1 p2 then erase p1 rest' else p1 :: erase p2 rest'
  end.
Definition part_of (q d : P) : Prop := exists t, 0 <= t <= 1 /\ dx q = t * dx d /\ dy q = t * dy d.
Lemma part_refl : forall q, part_of q q.
Proof. intros q. exists 1. lra. Qed.
Lemma same_direction : forall p q, upper p -> upper q -> cr p q = 0 -> ~ angle_lt q p -> part_of q p.
Proof.
  intros p q U V C N. unfold angle_lt in N. rewrite cr_d in *. assert (C' : dx q * dy p - dx p * dy q = 0) by lra.
  unfold upper in *. unfold part_of. set (a1 := dx p) in *. set (b1 := dy p) in *. set (a2 := dx q) in *. set (b2 := dy q) in *.
  assert (NX : ~ Rabs a1 < Rabs a2) by (intros H; apply N; right; split; [exact C'|now left]).
  assert (NY : Rabs a1 = Rabs a2 -> ~ Rabs b1 < Rabs b2) by (intros H1 H2; apply N; right; split; [exact C'|right; now split]).
  clear N. assert (B1 : 0 <= b1) by lra. assert (B2 : 0 <= b2) by lra. rewrite (Rabs_pos_eq b1), (Rabs_pos_eq b2) in NY by assumption.
  destruct (Req_dec a1 0) as [A1|A1].
  - assert (A2 : a2 = 0). { apply Rabs_zero. rewrite A1, Rabs_R0 in NX. assert (H := Rabs_pos a2). lra. }
    assert (L : b2 <= b1). { assert (~ b1 < b2) by (apply NY; now rewrite A1, A2). lra. }
    destruct (Req_dec b1 0) as [Z|Z]; [exists 0; lra|]. exists (b2 / b1). assert (0 < b1) by lra.
    split; [|split; [rewrite A1, A2; ring|field; lra]]. split; [apply Rmult_le_pos; [lra|left; now apply Rinv_0_lt_compat]|].
    apply (Rmult_le_reg_r b1); [lra|]. unfold Rdiv. rewrite Rmult_assoc, Rinv_l; lra.
  - exists (a2 / a1). assert (E1 : a2 = a2 / a1 * a1) by (field; exact A1). split; [|split; [exact E1|]].
    + assert (S : 0 <= a2 * a1).
      { destruct (Rlt_le_dec (a2 * a1) 0) as [W|W]; [exfalso|exact W]. 
        assert (Hx : (0 < a1 /\ a2 < 0) \/ (a1 < 0 /\ 0 < a2)) by (destruct (Rtotal_order a1 0) as [H|[H|H]]; [right; split; nra|lra|left; split; nra]).
        destruct Hx as [(X1 & X2)|(X1 & X2)]; nra. }
      assert (QQ : a2 / a1 * (a1 * a1) = a2 * a1) by (field; exact A1). assert (0 < a1 * a1) by nra.
      split; [nra|]. assert (a2 * a1 <= a1 * a1).
      { assert (Rabs a2 * Rabs a1 <= Rabs a1 * Rabs a1) by (apply Rmult_le_compat_r; [apply Rabs_pos|lra]).
        rewrite <- !Rabs_mult in H0. rewrite (Rabs_pos_eq (a2 * a1)), (Rabs_pos_eq (a1 * a1)) in H0 by nra. exact H0. }
      nra.
    + apply (Rmult_eq_reg_l a1); [|exact A1]. replace (a1 * (a2 / a1 * b1)) with (a2 / a1 * a1 * b1) by ring. rewrite <- E1. lra.
Qed.
Lemma cr_trans : forall p q r, upper p -> upper q -> upper r -> 0 < cr p q -> 0 < cr q r -> 0 < cr p r.
Proof.
  intros p q r U V W A B. rewrite cr_d in *. unfold upper in *.
  assert (I : dy q * (dx p * dy r - dx r * dy p) = dy r * (dx p * dy q - dx q * dy p) + dy p * (dx q * dy r - dx r * dy q)) by ring.
  assert (Q : 0 < dy q) by (destruct V as [V|(V1 & V2)]; [exact V|exfalso; rewrite V1 in *; destruct W as [W|(W1 & W2)]; nra]).
  assert (Q' : 0 < dy p) by (destruct U as [U|(U1 & U2)]; [exact U|exfalso; rewrite U1 in *; nra]).
  assert (0 <= dy r) by lra. nra.
Qed.
Lemma erase_spec : forall rest p1, StronglySorted (fun q r => lt r q = false) (p1 :: rest) -> Forall upper (p1 :: rest) ->
  StronglySorted (fun v w => 0 < cr v w) (erase p1 rest) /\ incl (erase p1 rest) (p1 :: rest)
  /\ (exists r', erase p1 rest = p1 :: r') /\ forall q, In q (p1 :: rest) -> exists d, In d (erase p1 rest) /\ part_of q d.
Proof.
  induction rest as [|p2 rest IH]; intros p1 S F.
  - cbn [erase]. split; [repeat constructor|]. split; [apply incl_refl|]. split; [now exists []|].
    intros q [H|[]]. subst. exists q. split; [now left|apply part_refl].
  - inversion S as [|? ? S1 S2]; subst. inversion S1 as [|? ? S3 S4]; subst. inversion S2 as [|? ? S5 S6]; subst.
    inversion F as [|? ? F1 F2]; subst. inversion F2 as [|? ? F3 F4]; subst.
    assert (NL : ~ angle_lt p2 p1) by (rewrite <- lt_spec; congruence).
    cbn [erase]. destruct (zero p1 p2) eqn:Z.
    + apply zero_spec in Z. destruct (IH p1) as (A & B & C & D); [now constructor|now constructor|]. split; [exact A|].
      split; [intros z Hz; apply B in Hz; destruct Hz; [now left|right; now right]|]. split; [exact C|].
      intros q [H|[H|H]].
      * apply D. now left.
      * subst q. exists p1. destruct C as (r' & C). rewrite C. split; [now left|]. now apply same_direction.
      * apply D. now right.
    + assert (Z' : 0 < cr p1 p2).
      { destruct (Rtotal_order (cr p1 p2) 0) as [H|[H|H]]; [exfalso|apply zero_spec in H; congruence|exact H].
        apply NL. left. rewrite cr_d in *. lra. }
      destruct (IH p2) as (A & B & (r' & C) & D); [assumption|assumption|]. rewrite C in *. split; [|split; [|split]].
      * constructor; [exact A|]. inversion A as [|? ? A1 A2]; subst. constructor; [exact Z'|].
        rewrite Forall_forall in A2, F4 |- *. intros w Hw. apply (cr_trans p1 p2 w); auto.
        assert (Iw := B w (or_intror Hw)). destruct Iw as [Iw|Iw]; [now subst|auto].
      * intros z [Hz|Hz]; [now left|right; now apply B].
      * now exists (p2 :: r').
      * intros q [H|H]; [subst; exists q; split; [now left|apply part_refl]|]. destruct (D q H) as (d & D1 & D2). exists d. split; [now right|exact D2].
Qed.
End Angle.
