(** Vector functions that act on components (C76), predicates of vectors (C77), construction of vectors (C78). *)
From Coq Require Import ZArith Reals List Bool Arith Lia Lra.
From Flocq Require Import Core.
From Verif Require Import Ops M_scalar M_vec M_mat Inst_XR S_order S_comp P_xr P_scalar_xr.
Import ListNotations.

Section Any.
Context {T : Type} {o : ops T}.

Lemma mapM_componentwise : forall A B (f : A -> outcome B) l, componentwise f l (mapM f l).
Proof.
  intros A B f. induction l as [|a l IH]; intros w; cbn [mapM].
  - split; [intros E; injection E as <-; constructor|]. intros H. inversion H. reflexivity.
  - destruct (f a) as [b| | |] eqn:F; cbn [bind].
    2-4: split; [discriminate|intros H; inversion H; congruence].
    destruct (mapM f l) as [bs| | |] eqn:M; cbn [bind].
    + split.
      * intros E. injection E as <-. constructor; [exact F|]. apply IH. reflexivity.
      * intros H. inversion H as [|x y l' w' Hx Hr]; subst. rewrite F in Hx. injection Hx as ->. apply IH in Hr. congruence.
    + split; [discriminate|]. intros H. inversion H as [|x y l' w' Hx Hr]; subst. apply IH in Hr. discriminate.
    + split; [discriminate|]. intros H. inversion H as [|x y l' w' Hx Hr]; subst. apply IH in Hr. discriminate.
    + split; [discriminate|]. intros H. inversion H as [|x y l' w' Hx Hr]; subst. apply IH in Hr. discriminate.
Qed.
Lemma combine_nth_error : forall A B (v : list A) (w : list B) i x y, nth_error v i = Some x -> nth_error w i = Some y ->
  nth_error (combine v w) i = Some (x, y).
Proof.
  induction v as [|a v IH]; intros [|b w] [|i] x y H1 H2; cbn in *; try discriminate; auto. congruence.
Qed.
Lemma combine_nth_error_inv : forall A B (v : list A) (w : list B) i p, nth_error (combine v w) i = Some p ->
  nth_error v i = Some (fst p) /\ nth_error w i = Some (snd p).
Proof.
  induction v as [|a v IH]; intros [|b w] [|i] p H; cbn in *; try discriminate; auto. injection H as <-. auto.
Qed.
Lemma Forall2_nth_error : forall A B (P : A -> B -> Prop) l w, Forall2 P l w <->
  length w = length l /\ forall i x y, nth_error l i = Some x -> nth_error w i = Some y -> P x y.
Proof.
  intros A B P. induction l as [|a l IH]; intros [|b w]; split.
  - intros _. split; [reflexivity|]. intros [|i]; discriminate.
  - constructor.
  - intros H; inversion H.
  - intros [H _]; discriminate.
  - intros H; inversion H.
  - intros [H _]; discriminate.
  - intros H. inversion H; subst. apply IH in H5 as [L N]. split; [cbn; congruence|].
    intros [|i] x y; cbn; [congruence|apply N].
  - intros [L N]. constructor; [apply (N O); reflexivity|]. apply IH. split; [cbn in L; congruence|]. intros i. exact (N (S i)).
Qed.
Lemma mapM_componentwise2 : forall A B C (f : A -> B -> outcome C) v w, length v = length w ->
  componentwise2 f v w (mapM (fun p => f (fst p) (snd p)) (combine v w)).
Proof.
  intros A B C f v w L u. rewrite (mapM_componentwise _ _ (fun p => f (fst p) (snd p)) (combine v w) u).
  rewrite Forall2_nth_error, combine_length, <- L, Nat.min_id. apply and_iff_compat_l. split.
  - intros H i x y z Hx Hy Hz. exact (H i (x, y) z (combine_nth_error _ _ _ _ _ _ _ Hx Hy) Hz).
  - intros H i p z Hp Hz. apply combine_nth_error_inv in Hp as [H1 H2]. exact (H i _ _ _ H1 H2 Hz).
Qed.
Lemma map_all : forall A B (f : A -> B) v, all_components f v (map f v).
Proof. intros A B f v. split; [apply map_length|]. intros i x H. unfold component. now apply map_nth_error. Qed.
Lemma map2_all : forall A B C (f : A -> B -> C) v w, length v = length w -> all_components2 f v w (map2 f v w).
Proof.
  intros A B C f. induction v as [|a v IH]; intros [|b w] L; try discriminate.
  - split; [reflexivity|]. intros [|i]; discriminate.
  - destruct (IH w ltac:(cbn in L; congruence)) as [L' N]. split; [cbn; congruence|].
    intros [|i] x y Hx Hy; unfold component in *; cbn in *; [congruence|]. exact (N i x y Hx Hy).
Qed.

Lemma vec_partial_functions : forall v : list T,
  componentwise sc_floor v (v_floor v) /\ componentwise sc_ceil v (v_ceil v) /\ componentwise sc_trunc v (v_trunc v)
  /\ componentwise sc_round v (v_round v) /\ componentwise sc_fract v (v_fract v)
  /\ forall decimals epsilon, componentwise (fun x => sc_correct x decimals epsilon) v (v_correct v decimals epsilon).
Proof. intros v. repeat split; apply mapM_componentwise. Qed.
Lemma vec_partial_functions2 : forall v m : list T, length v = length m ->
  componentwise2 sc_snap v m (v_snap v m) /\ componentwise2 sc_snap_up v m (v_snap_up v m)
  /\ componentwise2 sc_snap_down v m (v_snap_down v m) /\ componentwise2 sc_mod v m (v_mod v m).
Proof. intros v m L. split; [|split; [|split]]; now apply mapM_componentwise2. Qed.
Lemma vec_functions : forall v : list T,
  all_components sc_abs v (v_abs v) /\ all_components sc_sign v (v_sign v) /\ all_components o_neg v (v_neg v)
  /\ forall x, all_components (fun c => o_div x c) v (v_s_div x v) /\ all_components (fun c => o_div c x) v (v_div_s v x)
     /\ all_components (fun c => o_mul c x) v (v_scale v x) /\ all_components (fun c => o_mul c x) v (v_scale_l x v).
Proof. intros v. split; [apply map_all|]. split; [apply map_all|]. split; [apply map_all|]. intros x. repeat split; apply map_all || (intros; now apply map_nth_error). Qed.
Lemma vec_functions2 : forall v w : list T, length v = length w ->
  all_components2 o_add v w (v_add v w) /\ all_components2 o_sub v w (v_sub v w)
  /\ all_components2 o_mul v w (v_mul v w) /\ all_components2 o_div v w (v_div v w)
  /\ all_components2 (fun x y => sc_min x [y]) v w (v_min v w) /\ all_components2 (fun x y => sc_max x [y]) v w (v_max v w)
  /\ all_components2 (fun x y => sc_abs_min x [y]) v w (v_abs_min v w) /\ all_components2 (fun x y => sc_abs_max x [y]) v w (v_abs_max v w)
  /\ all_components2 sc_step v w (v_step v w).
Proof. intros v w L. repeat (split; [now apply map2_all|]). now apply map2_all. Qed.
Lemma nth_error_map2 : forall A B C (f : A -> B -> C) v w i x y, nth_error v i = Some x -> nth_error w i = Some y -> nth_error (map2 f v w) i = Some (f x y).
Proof. induction v as [|a v IH]; intros [|b w] [|i] x y H1 H2; cbn in *; try discriminate; auto. congruence. Qed.
Lemma map2_length : forall A B C (f : A -> B -> C) v w, length v = length w -> length (map2 f v w) = length v.
Proof. induction v as [|a v IH]; intros [|b w] L; try discriminate; cbn; auto. Qed.
Lemma vec_functions3 : forall u v w : list T, length u = length v -> length v = length w ->
  (length (v_smoothstep u v w) = length u /\ forall i x y z, component u i x -> component v i y -> component w i z ->
     component (v_smoothstep u v w) i (sc_smoothstep x y z))
  /\ (length (v_mix u v w) = length u /\ forall i x y z, component u i x -> component v i y -> component w i z ->
     component (v_mix u v w) i (sc_mix x y z)).
Proof.
  intros u v w L1 L2. split; split.
  - unfold v_smoothstep. rewrite map2_length by (rewrite combine_length; lia). rewrite combine_length. lia.
  - intros i x y z Hx Hy Hz. unfold component, v_smoothstep.
    rewrite (nth_error_map2 _ _ _ _ _ _ i (x, y) z); [reflexivity|now apply combine_nth_error|exact Hz].
  - unfold v_mix, v_add, v_mul, v_sub, v_one, v_fill. rewrite !map2_length; rewrite ?map2_length; rewrite ?map2_length; rewrite ?repeat_length; lia.
  - intros i x y z Hx Hy Hz. unfold component, v_mix, v_add, v_mul, v_sub, v_one, v_fill, sc_mix in *.
    assert (H1 : nth_error (repeat (cst 1 : T) (length w)) i = Some (cst 1)).
    { apply nth_error_repeat. apply nth_error_Some. congruence. }
    apply nth_error_map2; apply nth_error_map2; try assumption. now apply nth_error_map2.
Qed.
(** min, max etc. of three or more vectors *)
Lemma vec_variadic : forall (f : T -> list T -> T) v rest, length (v_variadic f v rest) = length v
  /\ forall i x ys, component v i x -> Forall2 (fun r y => component r i y) rest ys -> component (v_variadic f v rest) i (f x ys).
Proof.
  intros f v rest. unfold v_variadic. split; [now rewrite map_length, seq_length|].
  intros i x ys Hx Hr. unfold component in *.
  assert (Li : (i < length v)%nat) by (apply nth_error_Some; congruence).
  rewrite (map_nth_error _ i (seq 0 (length v)) (d := i)).
  2: { rewrite nth_error_nth' with (d := O) by (rewrite seq_length; lia). now rewrite seq_nth by lia. }
  f_equal. f_equal.
  - unfold vget. now apply nth_error_nth.
  - induction Hr as [|r y rest ys H Hr IH]; [reflexivity|]. cbn [map]. rewrite IH. f_equal. unfold vget. now apply nth_error_nth.
Qed.

(** ** Predicates *)
Lemma v_is_nan_iff : forall v : list T, v_is_nan v = true <-> Exists NaN v.
Proof.
  intros v. unfold v_is_nan. rewrite existsb_exists, Exists_exists. unfold NaN, is_nan.
  split; intros (x & I & H); exists x; (split; [exact I|]); now destruct (x =? x)%sc.
Qed.

(** ** Construction *)
Lemma v_fill_spec : forall n (x : T), length (v_fill n x) = n /\ forall i, (i < n)%nat -> component (v_fill n x) i x.
Proof. intros n x. unfold v_fill. split; [apply repeat_length|]. intros i L. unfold component. now apply nth_error_repeat. Qed.
Lemma pad_spec : forall n (l : list T), let v := firstn n l ++ repeat (cst 0) (n - length l) in
  length v = n /\ forall i x, (i < n)%nat ->
    (component l i x -> component v i x) /\ ((length l <= i)%nat -> component v i (cst 0)).
Proof.
  intros n l v. assert (Lf : length (firstn n l) = Nat.min n (length l)) by apply firstn_length.
  split; [unfold v; rewrite app_length, repeat_length; lia|]. intros i x Li. unfold component, v. split.
  - intros H. assert ((i < length l)%nat) by (apply nth_error_Some; congruence).
    rewrite nth_error_app1 by lia. rewrite <- H. clear -Li. revert i l Li. induction n as [|n IH]; intros [|i] [|a l] Li; try lia; try reflexivity.
    cbn. apply IH. lia.
  - intros H. rewrite nth_error_app2 by lia. apply nth_error_repeat. lia.
Qed.
Lemma v_convert_spec : forall U (conv : U -> T) n (l : list U), let v := v_convert conv n l in
  length v = n /\ forall i x, (i < n)%nat ->
    (component l i x -> component v i (conv x)) /\ ((length l <= i)%nat -> component v i (cst 0)).
Proof.
  intros U conv n l v. unfold v, v_convert. rewrite <- firstn_map. rewrite <- (map_length conv l).
  destruct (pad_spec n (map conv l)) as (L & H). split; [exact L|]. intros i x Li. specialize (H i (conv x) Li).
  split; [|apply H]. intros C. apply H. unfold component in *. now apply map_nth_error.
Qed.
Lemma v_extend_spec : forall U (conv : U -> T) (l : list U) args, let v := v_extend conv l args in
  length v = (length l + length args)%nat
  /\ (forall i x, component l i x -> component v i (conv x)) /\ forall i x, component args i x -> component v (length l + i) x.
Proof.
  intros U conv l args v. unfold v, v_extend. split; [now rewrite app_length, map_length|]. unfold component. split.
  - intros i x H. rewrite nth_error_app1 by (rewrite map_length; apply nth_error_Some; congruence). now apply map_nth_error.
  - intros i x H. rewrite nth_error_app2 by (rewrite map_length; lia). rewrite map_length. now replace (length l + i - length l)%nat with i by lia.
Qed.
Lemma nth_error_firstn : forall A n i (l : list A), (i < n)%nat -> nth_error (firstn n l) i = nth_error l i.
Proof. induction n as [|n IH]; intros [|i] [|a l] L; try lia; try reflexivity. cbn. apply IH. lia. Qed.
Lemma nth_error_skipn : forall A k i (l : list A), nth_error (skipn k l) i = nth_error l (k + i).
Proof. induction k as [|k IH]; intros i [|a l]; try reflexivity; [now destruct i|]. cbn. apply IH. Qed.
Lemma v_slice_spec : forall n (v : list T) k, (n <= length v)%nat ->
  ((k + n <= length v)%nat -> exists w, v_slice n v k = Ret w /\ length w = n
     /\ forall i x, (i < n)%nat -> component v (k + i) x -> component w i x)
  /\ ((length v < k + n)%nat -> v_slice n v k = Assert).
Proof.
  intros n v k Ln. unfold v_slice, require. split; intros L.
  - destruct (Nat.leb_spec k (length v - n)); [|lia]. exists (firstn n (skipn k v)). split; [reflexivity|].
    split; [rewrite firstn_length, skipn_length; lia|]. intros i x Li H1. unfold component in *. rewrite nth_error_firstn by lia. now rewrite nth_error_skipn.
  - destruct (Nat.leb_spec k (length v - n)); [lia|reflexivity].
Qed.
Lemma v_xyz_spec : forall v : list T, (3 <= length v)%nat -> length (v_xyz v) = 3%nat /\ forall i x, (i < 3)%nat -> component v i x -> component (v_xyz v) i x.
Proof.
  intros [|a [|b [|c v]]] L; cbn in L; try lia. split; [reflexivity|]. intros [|[|[|i]]] x Li H; try lia; exact H.
Qed.
Lemma m_convert_spec : forall U (conv : U -> T) (m : list (list U)), all_components (map conv) m (m_convert conv m)
  /\ forall c r col x, component m c col -> component col r x -> exists col', component (m_convert conv m) c col' /\ component col' r (conv x).
Proof.
  intros U conv m. split; [apply map_all|]. intros c r col x H1 H2. exists (map conv col).
  split; unfold component, m_convert in *; now apply map_nth_error.
Qed.
End Any.

Local Open Scope R_scope.
Notation vS := (map (@Some R)).
Lemma X_v_is_zero : forall (a : list R) e, 0 <= e -> (v_is_zero (vS a) (Some e) = true <-> Forall (fun x => Rabs x <= e) a).
Proof.
  intros a e E. unfold v_is_zero. rewrite forallb_forall, Forall_forall. split; intros H x I.
  - specialize (H (Some x) (in_map _ _ _ I)). rewrite X_is_zero in H by exact E. now apply Rle_true.
  - apply in_map_iff in I as (y & <- & I). rewrite X_is_zero by exact E. apply Rle_true. now apply H.
Qed.
Lemma X_m_is_zero : forall (m : list (list R)) e, 0 <= e ->
  (m_is_zero (map vS m) (Some e) = true <-> Forall (Forall (fun x => Rabs x <= e)) m).
Proof.
  intros m e E. unfold m_is_zero. rewrite forallb_forall, Forall_forall. split; intros H c I.
  - apply X_v_is_zero; [exact E|]. apply H. now apply in_map.
  - apply in_map_iff in I as (y & <- & I). apply X_v_is_zero; [exact E|]. now apply H.
Qed.
Lemma X_is_integral : forall (a : list R) e, Forall (fun x => Rabs x < IZR (2 ^ 63) - 1) a ->
  exists b, v_is_integral (vS a) (Some e) = Ret b /\ (b = true <-> Forall (fun x => exists z, Rabs (x - IZR z) <= e) a).
Proof.
  intros a e. induction a as [|x a IH]; intros H.
  - exists true. split; [reflexivity|]. split; auto.
  - inversion H as [|? ? Hx Ha]; subst. destruct (IH Ha) as (b & Eb & Hb). cbn [map v_is_integral].
    destruct (X_round_spec x Hx) as (z & Ez & Hz). rewrite Ez. cbn [bind].
    change (o_sub (Some x) (Some (IZR z))) with (Some (x - IZR z)). rewrite X_abs.
    change (o_lt (Some e) (Some (Rabs (x - IZR z)))) with (Rlt_bool e (Rabs (x - IZR z))).
    destruct (Rlt_bool_spec e (Rabs (x - IZR z))) as [G|G].
    + exists false. split; [reflexivity|]. split; [discriminate|]. intros F. inversion F as [|? ? (k & Hk) _]; subst.
      exfalso. destruct Hz as (_ & Hz & _). specialize (Hz k). lra.
    + exists b. split; [exact Eb|]. rewrite Hb. split; intros F; [constructor; [exists z; exact G|exact F]|now inversion F].
Qed.
