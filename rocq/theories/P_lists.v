(** Proofs about operations on lists and arrays of vectors (C68). *)
From Coq Require Import ZArith List Bool Lia Arith.
From Verif Require Import Ops M_scalar M_vec M_mat M_quat M_bbox M_matext P_affine.
Import ListNotations.

Lemma lists_elementwise : forall T (o : ops T) (l : list (list T)) v s m n,
  lv_add l v = map (fun x => v_add x v) l /\ vl_add v l = map (fun x => v_add x v) l
  /\ av_add n (length l) l v = map (fun x => v_add x v) l /\ va_add n (length l) v l = map (fun x => v_add x v) l
  /\ ls_mul l s = map (fun x => v_scale x s) l /\ sl_mul s l = map (fun x => v_scale x s) l
  /\ as_mul n (length l) l s = map (fun x => v_scale x s) l /\ sa_mul n (length l) s l = map (fun x => v_scale x s) l
  /\ ml_mul n m l = map (m_mul_v n m) l /\ ma_mul n (length l) m l = map (m_mul_v n m) l
  /\ mlp_mul n m l = map (m_mul_p n m) l /\ map_mul n (length l) m l = map (m_mul_p n m) l.
Proof.
  intros. unfold lv_add, vl_add, av_add, va_add, ls_mul, sl_mul, as_mul, sa_mul, ml_mul, ma_mul, mlp_mul, map_mul, lv_add, av_add, ls_mul, as_mul.
  rewrite !push_loop_map, !array_loop_map. repeat split.
Qed.
Lemma mapM_each : forall A B (f : A -> outcome B) l, (forall a, In a l -> exists b, f a = Ret b) ->
  exists r, mapM f l = Ret r /\ Forall2 (fun a b => f a = Ret b) l r.
Proof.
  induction l as [|a l IH]; intros H.
  - exists []. auto.
  - destruct (H a (or_introl eq_refl)) as (b & E). destruct IH as (r & Er & F); [intros; apply H; now right|].
    exists (b :: r). cbn [mapM]. rewrite E. cbn [bind]. rewrite Er. auto.
Qed.
Lemma lists_row_vectors : forall T (o : ops T) (l : list (list T)) m n,
  (exists r, lm_mul n l m = Ret r /\ am_mul n (length l) l m = Ret r /\ Forall2 (fun v x => v_mul_m n n v m = Ret x) l r)
  /\ (exists r, lpm_mul n l m = Ret r /\ apm_mul n (length l) l m = Ret r /\ Forall2 (fun v x => p_mul_m n v m = Ret x) l r).
Proof.
  intros T o l m n.
  assert (S : forall v, exists x, v_mul_m n n v m = Ret x).
  { intros v. unfold v_mul_m. rewrite Nat.leb_refl. eexists. reflexivity. }
  split.
  - destruct (mapM_each _ _ (fun v => v_mul_m n n v m) l) as (r & E & F); [auto|]. exists r. split; [|split]; auto.
    + unfold lm_mul. rewrite push_loopM_map, E. reflexivity.
    + unfold am_mul. now rewrite array_loopM_all.
  - destruct (mapM_each _ _ (fun v => p_mul_m n v m) l) as (r & E & F).
    { intros v _. unfold p_mul_m. destruct (S (v_to_homogeneous v)) as (x & ->). eexists. reflexivity. }
    exists r. split; [|split]; auto.
    + unfold lpm_mul. rewrite push_loopM_map, E. reflexivity.
    + unfold apm_mul. now rewrite array_loopM_all.
Qed.
