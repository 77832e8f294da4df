(** The scan for the convex hull in the plane (used for C60). *)
From Coq Require Import ZArith Reals List Bool Lia Lra Psatz Arith Sorted Permutation.
Import ListNotations.
Local Open Scope R_scope.

Section Plane.
Context {P : Type}.
Variables x y : P -> R.
Variable a : P.
(** positive if r is to the left of the way from p to q *)
Definition or3 (p q r : P) : R := (x q - x p) * (y r - y p) - (x r - x p) * (y q - y p).
Definition cr (q r : P) : R := or3 a q r.

(** A stack of points, the top first; the angles around a increase towards the top. *)
Definition below (w v : P) : Prop := 0 < cr v w.
Fixpoint conv3 (st : list P) : Prop :=
  match st with
  | w :: st' => match st' with
                | v :: st'' => match st'' with
                               | u :: _ => 0 <= or3 u v w
                               | [] => True
                               end
                | [] => True
                end /\ conv3 st'
  | [] => True
  end.
(** q is in the triangle of a and an edge of the stack *)
Fixpoint cov (st : list P) (q : P) : Prop :=
  match st with
  | [] => False
  | v :: st' => match st' with
                | [] => q = v
                | u :: _ => (0 <= cr u q /\ 0 <= cr q v /\ 0 <= or3 u v q) \/ cov st' q
                end
  end.
(** q is to the left of each edge of the stack *)
Fixpoint edges (st : list P) (q : P) : Prop :=
  match st with
  | [] => True
  | v :: st' => match st' with
                | [] => True
                | u :: _ => 0 <= or3 u v q /\ edges st' q
                end
  end.

Variable neg : P -> P -> P -> bool.
Hypothesis neg_spec : forall u v w, neg u v w = true <-> or3 u v w < 0.
Fixpoint pop (stack : list P) (p : P) : list P :=
  match stack with
  | t2 :: bl =>
    match bl with
    | t1 :: _ => if neg t1 t2 p then pop bl p else stack
    | [] => stack
    end
  | [] => stack
  end.

Lemma cov_top : forall p st, st <> [] -> Forall (fun s => 0 < cr s p) st -> cov (p :: st) p.
Proof.
  intros p st N F. destruct st as [|u st]; [congruence|]. cbn [cov]. left. inversion F; subst.
  unfold cr, or3 in *. repeat split; lra.
Qed.
Lemma cov_pop : forall p t2 t1 st q, 0 < cr t1 t2 -> 0 < cr t2 p -> 0 < cr t1 p -> or3 t1 t2 p < 0 ->
  cov (p :: t2 :: t1 :: st) q -> cov (p :: t1 :: st) q.
Proof.
  intros p t2 t1 st q H12 H2p H1p N C. cbn [cov] in C |- *. destruct C as [(A & B & C)|[(A & B & C)|C]]; [| |right; exact C].
  - left. split; [|split; [exact B|]].
    + assert (I : cr t2 p * cr t1 q = cr t1 t2 * cr q p + cr t1 p * cr t2 q) by (unfold cr, or3; ring). nra.
    + assert (I : cr t2 p * or3 t1 p q = or3 t2 p q * cr t1 p + cr q p * or3 t1 p t2) by (unfold cr, or3; ring).
      assert (E : or3 t1 p t2 = - or3 t1 t2 p) by (unfold or3; ring). nra.
  - left. split; [exact A|]. split.
    + assert (I : cr t1 t2 * cr q p = cr t1 q * cr t2 p + cr q t2 * cr t1 p) by (unfold cr, or3; ring). nra.
    + assert (I : cr t1 t2 * or3 t1 p q = or3 t1 t2 q * cr t1 p + cr t1 q * or3 t1 p t2) by (unfold cr, or3; ring).
      assert (E : or3 t1 p t2 = - or3 t1 t2 p) by (unfold or3; ring). nra.
Qed.

Lemma pop_spec : forall st p, st <> [] -> StronglySorted below st -> conv3 st -> Forall (fun s => 0 < cr s p) st ->
  exists st', pop (st ++ [a]) p = st' ++ [a] /\ st' <> [] /\ StronglySorted below (p :: st') /\ conv3 (p :: st')
    /\ (forall q, cov (p :: st) q -> cov (p :: st') q) /\ incl st' st /\ last st' a = last st a.
Proof.
  induction st as [|t2 st IH]; intros p N S C F; [congruence|]. inversion F as [|? ? F1 F2]; subst. inversion S as [|? ? S1 S2]; subst.
  destruct st as [|t1 st].
  - exists [t2]. cbn [app pop]. destruct (neg a t2 p) eqn:E.
    + apply neg_spec in E. unfold cr in F1. lra.
    + split; [reflexivity|]. split; [discriminate|]. split; [constructor; auto|]. split; [cbn; auto|]. split; [auto|]. split; [intros q Hq; exact Hq|reflexivity].
  - cbn [app pop]. inversion S2 as [|? ? S3 S4]; subst. inversion F2 as [|? ? F3 F4]; subst. destruct (neg t1 t2 p) eqn:E.
    + apply neg_spec in E. cbn [conv3] in C. destruct (IH p) as (st' & E1 & E2 & E3 & E4 & E5 & E6 & E7); try discriminate; auto.
      { apply C. }
      exists st'. cbn [app pop] in E1. split; [exact E1|]. split; auto. split; auto. split; auto. split.
      * intros q Hq. apply E5. apply (cov_pop p t2 t1 st q); [exact S3|exact F1|exact F3|exact E|exact Hq].
      * split; [intros z Hz; right; auto|exact E7].
    + exists (t2 :: t1 :: st). split; [reflexivity|]. split; [discriminate|]. split; [constructor; auto|].
      split. { split; [|exact C]. destruct (Rlt_le_dec (or3 t1 t2 p) 0) as [L|L]; [|exact L]. apply neg_spec in L. congruence. }
      split; [auto|]. split; [intros z Hz; exact Hz|reflexivity].
Qed.

Lemma scan_spec : forall rest st Q, st <> [] -> StronglySorted below st -> conv3 st ->
  (forall q, In q Q -> cov st q) -> StronglySorted (fun v w => 0 < cr v w) rest ->
  Forall (fun p => Forall (fun s => 0 < cr s p) st) rest ->
  exists st', fold_left (fun stack p => p :: pop stack p) rest (st ++ [a]) = st' ++ [a]
    /\ st' <> [] /\ StronglySorted below st' /\ conv3 st' /\ (forall q, In q (Q ++ rest) -> cov st' q) /\ incl st' (st ++ rest)
    /\ match rest with [] => st' = st | _ => (2 <= length st')%nat end
    /\ last st' a = last st a /\ hd a st' = last rest (hd a st).
Proof.
  induction rest as [|p rest IH]; intros st Q N S C V SR F.
  - exists st. rewrite !app_nil_r. repeat split; auto. apply incl_refl.
  - cbn [fold_left]. inversion F as [|? ? F1 F2]; subst. inversion SR as [|? ? SR1 SR2]; subst.
    destruct (pop_spec st p N S C F1) as (st1 & E & N1 & S1 & C1 & V1 & I1 & T1). rewrite E. change (p :: st1 ++ [a]) with ((p :: st1) ++ [a]).
    destruct (IH (p :: st1) (Q ++ [p])) as (st2 & E2 & N2 & S2 & C2 & V2 & I2 & L2 & T2 & T3); auto.
    + discriminate.
    + intros q Hq. apply V1. apply in_app_or in Hq. destruct Hq as [Hq|[Hq|[]]].
      * destruct st; [congruence|]. cbn [cov]. right. apply V. exact Hq.
      * subst. now apply cov_top.
    + rewrite Forall_forall in F2, SR2. apply Forall_forall. intros r Hr. constructor; [now apply SR2|].
      apply Forall_forall. intros s Hs. specialize (F2 r Hr). rewrite Forall_forall in F2. apply F2, I1, Hs.
    + exists st2. split; [exact E2|]. split; auto. split; auto. split; auto. split; [|split; [|split; [|split]]].
      * intros q Hq. apply V2. rewrite <- app_assoc. exact Hq.
      * intros z Hz. apply I2 in Hz. cbn [app] in Hz. destruct Hz as [Hz|Hz].
        -- subst. apply in_or_app. right. now left.
        -- apply in_app_or in Hz. apply in_or_app. destruct Hz as [Hz|Hz]; [left; now apply I1|right; now right].
      * destruct rest; [|exact L2]. subst st2. cbn. destruct st1; [congruence|]. cbn. lia.
      * rewrite T2, <- T1. destruct st1; [congruence|reflexivity].
      * rewrite T3. cbn [hd]. clear. revert p. induction rest as [|r rest IH]; intros p; [reflexivity|]. cbn [last] in IH |- *. destruct rest; [reflexivity|]. apply (IH p).
Qed.

(** Local convexity implies global convexity. *)
Lemma edges_up : forall st r, StronglySorted below st -> conv3 st -> Forall (fun s => 0 <= cr s r) st ->
  match st with
  | w :: v :: _ => 0 <= or3 v w r
  | _ => True
  end -> edges st r.
Proof.
  induction st as [|w st IH]; intros r S C F H; [exact I|]. destruct st as [|v st]; [exact I|]. cbn [edges]. split; [exact H|].
  inversion S as [|? ? S1 S2]; subst. inversion F as [|? ? F1 F2]; subst. cbn [conv3] in C. destruct C as (C1 & C2).
  apply IH; auto. destruct st as [|u st]; [exact I|].
  inversion S1 as [|? ? S3 S4]; subst. inversion S2 as [|? ? S5 S6]; subst. inversion S4 as [|? ? S7 S8]; subst. inversion F2; subst.
  unfold below in *. assert (I : cr v w * or3 u v r = or3 v w r * cr u v + cr v r * or3 u v w) by (unfold cr, or3; ring). nra.
Qed.
Lemma edges_all : forall st r, StronglySorted below st -> conv3 st -> In r st -> edges st r.
Proof.
  induction st as [|w st IH]; intros r S C H; [exact I|]. inversion S as [|? ? S1 S2]; subst. destruct H as [H|H].
  - subst w. apply edges_up; auto.
    + constructor; [unfold cr, or3; lra|]. eapply Forall_impl; [|exact S2]. intros s Hs. unfold below in Hs. lra.
    + destruct st; [exact I|]. unfold or3. lra.
  - destruct st as [|v st]; [contradiction|]. cbn [edges]. assert (E : edges (v :: st) r) by (apply IH; auto; apply C).
    split; [|exact E]. destruct H as [H|H]; [subst; unfold or3; lra|].
    destruct st as [|u st]; [contradiction|]. cbn [edges] in E. destruct E as (E1 & E2).
    inversion S1 as [|? ? S3 S4]; subst. inversion S2 as [|? ? S5 S6]; subst.
    assert (S4' := S4). rewrite Forall_forall in S4'. specialize (S4' r H). inversion S4 as [|? ? S7 S8]; subst.
    cbn [conv3] in C. destruct C as (C1 & _). unfold below in *.
    assert (I : cr u v * or3 v w r = or3 u v r * cr v w + cr r v * or3 u v w) by (unfold cr, or3; ring). nra.
Qed.
Lemma edges_in : forall st r, edges st r <-> forall l v u m, st = l ++ v :: u :: m -> 0 <= or3 u v r.
Proof.
  induction st as [|w st IH]; intros r.
  - split; [|easy]. intros _ l v u m E. destruct l; discriminate.
  - destruct st as [|z st].
    + split; [|easy]. intros _ l v u m E. destruct l as [|? [|? l]]; discriminate.
    + change (edges (w :: z :: st) r) with (0 <= or3 z w r /\ edges (z :: st) r). rewrite IH. split.
      * intros (A & B) l v u m E. destruct l; cbn in E; inversion E; subst; [exact A|]. eapply B; eauto.
      * intros A. split; [apply (A [] w z st); reflexivity|]. intros l v u m E. apply (A (w :: l) v u m). cbn. now f_equal.
Qed.
Lemma edges_apex : forall st, StronglySorted below st -> edges st a.
Proof.
  induction st as [|w st IH]; intros S; [exact I|]. destruct st as [|v st]; [exact I|]. inversion S as [|? ? S1 S2]; subst.
  cbn [edges]. split; [|exact (IH S1)]. inversion S2; subst. unfold below, cr, or3 in *. lra.
Qed.
(** A point in a triangle of the fan is to the left of each edge. *)
Lemma edges_cov : forall st q, StronglySorted below st -> conv3 st -> cov st q -> edges st q.
Proof.
  intros st q S C V.
  assert (W : forall st', incl st' st -> StronglySorted below st' -> cov st' q ->
    In q st \/ exists u v, In u st /\ In v st /\ 0 < cr u v /\ 0 <= cr u q /\ 0 <= cr q v /\ 0 <= or3 u v q).
  { clear S C V. induction st' as [|v st' IH]; intros I' S' V; [contradiction|]. destruct st' as [|u st'].
    - left. cbn in V. subst. apply I'. now left.
    - inversion S' as [|? ? S1 S2]; subst. destruct V as [V|V].
      + right. exists u, v. inversion S2; subst. repeat split; try apply V; [apply I'; right; now left|apply I'; now left|assumption].
      + apply IH; auto. intros z Hz. apply I'. now right. }
  destruct (W st (incl_refl _) S V) as [H|(u & v & Hu & Hv & P0 & P1 & P2 & P3)]; [now apply edges_all|].
  apply edges_in. intros l w z m E.
  assert (Eu := edges_all st u S C Hu). assert (Ev := edges_all st v S C Hv). assert (Ea := edges_apex st S).
  rewrite edges_in in Eu, Ev, Ea. specialize (Eu _ _ _ _ E). specialize (Ev _ _ _ _ E). specialize (Ea _ _ _ _ E).
  assert (I : cr u v * or3 z w q = or3 u v q * or3 z w a + cr q v * or3 z w u + cr u q * or3 z w v) by (unfold cr, or3; ring). nra.
Qed.
End Plane.
