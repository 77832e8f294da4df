(** Entries of the matrices computed by the model. *)
From Coq Require Import ZArith Reals List Bool Lra Lia Arith.
From Flocq Require Import Core.
From Verif Require Import Ops M_scalar M_vec M_mat Inst_XR P_xr S_mat.
Import ListNotations.
Local Open Scope R_scope.

(** ** Loops *)
Lemma for_ind : forall {S} (I : nat -> S -> Prop) f n lo s,
  I lo s -> (forall i s, (lo <= i < lo + n)%nat -> I i s -> I (Datatypes.S i) (f i s)) ->
  I (lo + n)%nat (for_loop n lo f s).
Proof.
  intros S I f n. induction n as [|n IH]; intros lo s H0 HS; simpl.
  - now rewrite Nat.add_0_r.
  - replace (lo + Datatypes.S n)%nat with (Datatypes.S lo + n)%nat by lia.
    apply IH.
    + apply HS; auto. lia.
    + intros i s' Hi. apply HS. lia.
Qed.
Lemma for_ext : forall {S} (f g : nat -> S -> S) n lo s,
  (forall i s, (lo <= i < lo + n)%nat -> f i s = g i s) -> for_loop n lo f s = for_loop n lo g s.
Proof.
  intros S f g n. induction n as [|n IH]; intros lo s H; simpl; auto.
  rewrite H by lia. apply IH. intros; apply H; lia.
Qed.
Lemma for_last : forall {S} (f : nat -> S -> S) n lo s,
  for_loop (Datatypes.S n) lo f s = f (lo + n)%nat (for_loop n lo f s).
Proof.
  intros S f n. induction n as [|n IH]; intros lo s.
  - simpl. now rewrite Nat.add_0_r.
  - change (for_loop (Datatypes.S (Datatypes.S n)) lo f s)
      with (for_loop (Datatypes.S n) (Datatypes.S lo) f (f lo s)).
    rewrite IH. simpl. f_equal. lia.
Qed.

(** ** Shapes and entries *)
Lemma upd_length : forall {A} (l : list A) i x, length (upd l i x) = length l.
Proof. intros A l. induction l as [|y l IH]; intros [|i] x; simpl; auto. Qed.
Lemma upd_nth : forall {A} (l : list A) i j x d, (i < length l)%nat ->
  nth j (upd l i x) d = if Nat.eqb j i then x else nth j l d.
Proof.
  intros A l. induction l as [|y l IH]; intros i j x d H; simpl in H; [lia|].
  destruct i as [|i], j as [|j]; simpl; auto. apply IH. lia.
Qed.

Section Shape.
Context {T : Type} {o : ops T}.

Lemma of_ent_mk : forall nr nc (f : nat -> nat -> T), of_ent nr nc f = mk_mat nr nc (fun c r => f r c).
Proof. reflexivity. Qed.
Lemma mk_shape : forall R C (f : nat -> nat -> T), is_mat R C (mk_mat R C f).
Proof.
  intros. unfold mk_mat. split.
  - now rewrite map_length, seq_length.
  - apply Forall_forall. intros col H. apply in_map_iff in H. destruct H as (c & <- & _).
    now rewrite map_length, seq_length.
Qed.
Lemma nth_map_seq : forall {A} (f : nat -> A) n i d, (i < n)%nat -> nth i (map f (seq 0 n)) d = f i.
Proof.
  intros. rewrite nth_indep with (d' := f 0%nat) by now rewrite map_length, seq_length.
  rewrite map_nth, seq_nth; auto.
Qed.
Lemma mk_col : forall R C (f : nat -> nat -> T) c, (c < C)%nat ->
  mcol (mk_mat R C f) c = map (fun r => f c r) (seq 0 R).
Proof. intros. unfold mcol, mk_mat. now rewrite nth_map_seq. Qed.
Lemma mk_get : forall R C (f : nat -> nat -> T) c r, (c < C)%nat -> (r < R)%nat ->
  mget (mk_mat R C f) c r = f c r.
Proof. intros. unfold mget, vget. rewrite mk_col by auto. now rewrite nth_map_seq. Qed.
Lemma shape_col : forall R C (m : list (list T)) c, is_mat R C m -> (c < C)%nat -> length (mcol m c) = R.
Proof.
  intros R C m c [HC HR] Hc. rewrite Forall_forall in HR. apply HR. unfold mcol.
  apply nth_In. lia.
Qed.
Lemma mat_ext : forall R C (m m' : list (list T)), is_mat R C m -> is_mat R C m' ->
  (forall c r, (c < C)%nat -> (r < R)%nat -> mget m c r = mget m' c r) -> m = m'.
Proof.
  intros R C m m' H H' E.
  apply nth_ext with (d := []) (d' := []).
  - destruct H, H'. congruence.
  - intros c Hc. destruct (H) as [HC HR], (H') as [HC' HR'].
    apply nth_ext with (d := cst 0) (d' := cst 0).
    + fold (mcol m c) (mcol m' c). rewrite (shape_col R C m c), (shape_col R C m' c); auto; lia.
    + intros r Hr. apply E; [lia|]. fold (mcol m c) in Hr. rewrite (shape_col R C m c) in Hr; auto. lia.
Qed.
Lemma mat_eta : forall R C (m : list (list T)), is_mat R C m -> m = mk_mat R C (mget m).
Proof.
  intros R C m H. apply (mat_ext R C); auto using mk_shape.
  intros. now rewrite mk_get.
Qed.
Lemma mk_ext : forall R C (f g : nat -> nat -> T),
  (forall c r, (c < C)%nat -> (r < R)%nat -> f c r = g c r) -> mk_mat R C f = mk_mat R C g.
Proof.
  intros R C f g H. apply (mat_ext R C); auto using mk_shape. intros. rewrite !mk_get; auto.
Qed.
Lemma mput_shape : forall R C (m : list (list T)) c r v, is_mat R C m -> (c < C)%nat ->
  is_mat R C (mput m c r v).
Proof.
  intros R C m c r v H Hc. destruct (H) as [HC HR]. split; unfold mput.
  - now rewrite upd_length.
  - apply Forall_forall. intros col Hin. apply (In_nth _ _ []) in Hin. destruct Hin as (i & Hi & <-).
    rewrite upd_length in Hi. rewrite upd_nth by lia.
    destruct (Nat.eqb_spec i c).
    + rewrite upd_length. apply (shape_col R C); auto.
    + rewrite Forall_forall in HR. apply HR, nth_In; auto.
Qed.
Lemma mput_get : forall R C (m : list (list T)) c r v c' r', is_mat R C m -> (c < C)%nat -> (r < R)%nat ->
  mget (mput m c r v) c' r' = if (Nat.eqb c' c && Nat.eqb r' r)%bool then v else mget m c' r'.
Proof.
  intros R C m c r v c' r' H Hc Hr. destruct (H) as [HC HR].
  unfold mget at 1, mcol, mput. rewrite upd_nth by lia.
  destruct (Nat.eqb_spec c' c) as [->|]; [|reflexivity].
  unfold vget. rewrite upd_nth.
  - reflexivity.
  - rewrite (shape_col R C); auto.
Qed.
Lemma map_shape : forall {U} (f : T -> U) R C (m : list (list T)), is_mat R C m -> is_mat R C (map (map f) m).
Proof.
  intros U f R C m [HC HR]. split; [now rewrite map_length|].
  apply Forall_forall. intros col H. apply in_map_iff in H. destruct H as (x & <- & Hx).
  rewrite map_length. rewrite Forall_forall in HR. auto.
Qed.
End Shape.

(** ** Transposition and sub-matrices, for any element type *)
Section Generic.
Context {T : Type} {o : ops T}.

Lemma transpose_get : forall S (m : list (list T)), is_mat S S m ->
  is_mat S S (m_transpose S m) /\
  forall c r, (c < S)%nat -> (r < S)%nat -> mget (m_transpose S m) c r = mget m r c.
Proof.
  intros S m H. unfold m_transpose.
  set (I := fun k (m' : list (list T)) => is_mat S S m' /\
    forall c r, (c < S)%nat -> (r < S)%nat ->
      mget m' c r = if (Nat.ltb c k || Nat.ltb r k)%bool then mget m r c else mget m c r).
  assert (HI : I (0 + S)%nat (for_loop S 0 (fun c m =>
    for_loop (S - (c + 1)) (c + 1) (fun r m =>
      let x := mget m c r in
      let y := mget m r c in
      mput (mput m c r y) r c x) m) m)).
  { apply for_ind.
    - split; auto.
    - intros k s Hk [Hs Is].
      set (J := fun j (m' : list (list T)) => is_mat S S m' /\
        forall c r, (c < S)%nat -> (r < S)%nat ->
          mget m' c r = if (Nat.ltb c k || Nat.ltb r k
              || (Nat.eqb c k && Nat.ltb r j) || (Nat.eqb r k && Nat.ltb c j))%bool
            then mget m r c else mget m c r).
      assert (HJ : J ((k + 1) + (S - (k + 1)))%nat (for_loop (S - (k + 1)) (k + 1) (fun r m =>
        let x := mget m k r in
        let y := mget m r k in
        mput (mput m k r y) r k x) s)).
      { apply for_ind.
        - split; auto. intros c r Hc Hr. rewrite Is by auto.
          destruct (Nat.ltb_spec c k), (Nat.ltb_spec r k), (Nat.eqb_spec c k), (Nat.eqb_spec r k),
            (Nat.ltb_spec c (k+1)), (Nat.ltb_spec r (k+1)); subst; simpl; auto; try lia.
        - intros j s' Hj [Hs' Js']. cbv zeta. split.
          + apply mput_shape; [apply mput_shape; auto; lia | lia].
          + intros c r Hc Hr.
            rewrite (mput_get S S) by (auto; try lia; apply mput_shape; auto; lia).
            rewrite (mput_get S S) by (auto; lia).
            rewrite !Js' by lia.
            destruct (Nat.eqb_spec c j), (Nat.eqb_spec r k), (Nat.eqb_spec c k), (Nat.eqb_spec r j);
              subst; simpl; try lia;
            repeat match goal with |- context [Nat.ltb ?a ?b] => destruct (Nat.ltb_spec a b); simpl; try lia
              | |- context [Nat.eqb ?a ?b] => destruct (Nat.eqb_spec a b); simpl; try lia end; auto. }
      destruct HJ as [HJ1 HJ2]. split; auto.
      intros c r Hc Hr. rewrite HJ2 by auto.
      destruct (Nat.ltb_spec c k), (Nat.ltb_spec r k), (Nat.eqb_spec c k), (Nat.eqb_spec r k),
        (Nat.ltb_spec c (Datatypes.S k)), (Nat.ltb_spec r (Datatypes.S k)); subst; simpl; auto; try lia;
      repeat match goal with |- context [Nat.ltb ?a ?b] => destruct (Nat.ltb_spec a b); simpl; try lia end; auto. }
  destruct HI as [H1 H2]. split; auto. intros c r Hc Hr. rewrite H2 by auto.
  destruct (Nat.ltb_spec c (0 + S)); simpl; auto. lia.
Qed.
Lemma transpose_mk : forall S (m : list (list T)), is_mat S S m ->
  m_transpose S m = mk_mat S S (fun c r => mget m r c).
Proof.
  intros S m H. destruct (transpose_get S m H) as [H1 H2].
  apply (mat_ext S S); auto using mk_shape. intros. now rewrite H2, mk_get.
Qed.
Lemma transpose_twice : forall S (m : list (list T)), is_mat S S m -> m_transpose S (m_transpose S m) = m.
Proof.
  intros S m H. destruct (transpose_get S m H) as [H1 H2].
  destruct (transpose_get S _ H1) as [H3 H4].
  apply (mat_ext S S); auto. intros. now rewrite H4, H2.
Qed.

(** Index of the i-th element that is left when the k-th is removed. *)
Definition skip (k i : nat) : nat := if Nat.ltb i k then i else Datatypes.S i.

Lemma minor_mk : forall R C (m : list (list T)) row col, is_mat R C m -> (row < R)%nat -> (col < C)%nat ->
  m_minor R C m row col = mk_mat (R - 1) (C - 1) (fun c r => mget m (skip col c) (skip row r)).
Proof.
  intros R C m row col Hm Hrow Hcol. unfold m_minor.
  match goal with |- snd (for_loop C 0 ?body _) = _ => set (f := body) end.
  set (pos := fun k c => if Nat.ltb k c then (c - 1)%nat else c).
  set (I := fun c (s : nat * list (list T)) => fst s = pos col c /\ is_mat (R - 1) (C - 1) (snd s) /\
    forall c' r', (c' < C - 1)%nat -> (c' < pos col c)%nat -> (r' < R - 1)%nat ->
      mget (snd s) c' r' = mget m (skip col c') (skip row r')).
  assert (HI : I (0 + C)%nat (for_loop C 0 f (0%nat, m_identity (R - 1) (C - 1)))).
  { apply for_ind.
    - unfold I, pos. simpl. repeat split; try apply mk_shape.
      intros c' r' _ Hc' _. exfalso. lia.
    - intros c [minC mi] Hc (E1 & E2 & E3). simpl in E1, E2, E3. unfold f.
      destruct (Nat.eqb_spec c col) as [->|Hne].
      + unfold I. simpl. split; [|split; auto].
        * rewrite E1. unfold pos. destruct (Nat.ltb_spec col col), (Nat.ltb_spec col (Datatypes.S col)); lia.
        * intros c' r' H1 H2 H3. apply E3; auto. revert H2. unfold pos.
          destruct (Nat.ltb_spec col col), (Nat.ltb_spec col (Datatypes.S col)); lia.
      + set (g := fun r (s : nat * list (list T)) => let '(minR, mi0) := s in
                  if Nat.eqb r row then (minR, mi0) else (Datatypes.S minR, mput mi0 minC minR (mget m c r))).
        assert (HminC : (minC < C - 1)%nat).
        { rewrite E1. unfold pos. destruct (Nat.ltb_spec col c); lia. }
        set (J := fun r (s : nat * list (list T)) => fst s = pos row r /\ is_mat (R - 1) (C - 1) (snd s) /\
          forall c' r', (c' < C - 1)%nat -> (r' < R - 1)%nat ->
            mget (snd s) c' r' = if (Nat.eqb c' minC && Nat.ltb r' (pos row r))%bool
              then mget m c (skip row r') else mget mi c' r').
        assert (HJ : J (0 + R)%nat (for_loop R 0 g (0%nat, mi))).
        { apply for_ind.
          - unfold J, pos. simpl. repeat split; auto; try apply E2.
            intros. rewrite andb_comm. reflexivity.
          - intros r [minR mi0] Hr (F1 & F2 & F3). simpl in F1, F2, F3. unfold g.
            destruct (Nat.eqb_spec r row) as [->|Hner].
            + unfold J. simpl. split; [|split; auto].
              * rewrite F1. unfold pos. destruct (Nat.ltb_spec row row), (Nat.ltb_spec row (Datatypes.S row)); lia.
              * intros c' r' H1 H2. rewrite F3 by auto. unfold pos.
                destruct (Nat.ltb_spec row row), (Nat.ltb_spec row (Datatypes.S row)); try lia.
                now replace (Datatypes.S row - 1)%nat with row by lia.
            + assert (HminR : (minR < R - 1)%nat).
              { rewrite F1. unfold pos. destruct (Nat.ltb_spec row r); lia. }
              assert (Hs : skip row minR = r).
              { rewrite F1. unfold pos, skip. destruct (Nat.ltb_spec row r).
                - destruct (Nat.ltb_spec (r - 1) row); lia.
                - destruct (Nat.ltb_spec r row); lia. }
              assert (Hp : pos row (Datatypes.S r) = Datatypes.S (pos row r)).
              { unfold pos. destruct (Nat.ltb_spec row r), (Nat.ltb_spec row (Datatypes.S r)); lia. }
              unfold J. simpl fst. simpl snd. split; [|split].
              * now rewrite Hp, F1.
              * apply mput_shape; auto.
              * intros c' r' H1 H2. rewrite (mput_get (R - 1) (C - 1)) by auto. rewrite F3 by auto.
                rewrite Hp, <- F1.
                destruct (Nat.eqb_spec c' minC); simpl; auto.
                destruct (Nat.eqb_spec r' minR) as [->|].
                -- destruct (Nat.ltb_spec minR (Datatypes.S minR)); [|lia]. now rewrite Hs.
                -- destruct (Nat.ltb_spec r' minR), (Nat.ltb_spec r' (Datatypes.S minR)); auto; lia. }
        change (fun (r : nat) (s : nat * list (list T)) => let '(minR, min) := s in
          if Nat.eqb r row then (minR, min) else (Datatypes.S minR, mput min minC minR (mget m c r))) with g.
        destruct (for_loop R 0 g (0%nat, mi)) as [mR mi'] eqn:Eg.
        destruct HJ as (_ & J2 & J3). simpl in J2, J3.
        assert (Hp : pos col (Datatypes.S c) = Datatypes.S minC).
        { rewrite E1. unfold pos. destruct (Nat.ltb_spec col c), (Nat.ltb_spec col (Datatypes.S c)); lia. }
        assert (Hs : skip col minC = c).
        { rewrite E1. unfold pos, skip. destruct (Nat.ltb_spec col c).
          - destruct (Nat.ltb_spec (c - 1) col); lia.
          - destruct (Nat.ltb_spec c col); lia. }
        unfold I. simpl fst. simpl snd. split; [|split]; auto.
        intros c' r' H1 H2 H3. rewrite J3 by auto.
        destruct (Nat.eqb_spec c' minC) as [->|].
        * destruct (Nat.ltb_spec r' (pos row R)) as [|X]; simpl; [now rewrite Hs|].
          exfalso. revert X. unfold pos. destruct (Nat.ltb_spec row R); lia.
        * simpl. apply E3; auto. lia. }
  destruct HI as (_ & H1 & H2).
  apply (mat_ext (R - 1) (C - 1)); auto using mk_shape.
  intros c r Hc Hr. rewrite mk_get by auto. apply H2; auto.
  unfold pos. destruct (Nat.ltb_spec col (0 + C)); lia.
Qed.
End Generic.
