(** Final theorems: ordering, selection and sorting (C01, C02, C04, C05, C17, C18). *)
From Coq Require Import ZArith Reals List Bool Lia Permutation Sorted.
From Flocq Require Import BinarySingleNaN.
From Verif Require Import Ops M_scalar M_vec Inst_F S_order.
From Verif Require Import P_ord P_compare P_scalar_ord P_sort P_components P_order_final.
Import ListNotations.

Section IEEE.
Variables prec emax : Z.
Context {Hprec : FLX.Prec_gt_0 prec} {Hmax : Prec_lt_emax prec emax}.
Notation fl := (binary_float prec emax).

(** C01 *)
Theorem C01_compare_is_lexicographic : forall a b : list fl, length a = length b ->
  (v_compare a b (cst 0) = (-1)%Z <-> vec_lt a b)
  /\ (v_compare a b (cst 0) = 1%Z <-> vec_lt b a)
  /\ (v_compare a b (cst 0) = 0%Z <-> vec_eq a b)
  /\ (v_compare a b (cst 0) = -1 \/ v_compare a b (cst 0) = 0 \/ v_compare a b (cst 0) = 1)%Z.
Proof.
  intros a b L.
  exact (conj (v_compare_lt a b L) (conj (v_compare_gt a b L)
        (conj (v_compare_eq a b L) (v_compare_range a b)))).
Qed.
Theorem C01_compare_antisymmetric : forall a b : list fl,
  v_compare b a (cst 0) = (- v_compare a b (cst 0))%Z.
Proof. exact v_compare_anti. Qed.
Theorem C01_compare_transitive : forall a b c : list fl, length a = length b -> length b = length c ->
  (v_compare a b (cst 0) <= 0 -> v_compare b c (cst 0) <= 0 ->
   v_compare a c (cst 0) <= 0 /\
   (v_compare a c (cst 0) = 0 -> v_compare a b (cst 0) = 0 /\ v_compare b c (cst 0) = 0))%Z.
Proof. exact v_compare_trans. Qed.
Theorem C01_operators_agree : forall a b : list fl, length a = length b ->
  (v_lt a b = true <-> vec_lt a b) /\ (v_eq a b = true <-> vec_eq a b)
  /\ (v_gt a b = true <-> vec_lt b a)
  /\ (v_ne a b = true <-> ~ vec_eq a b)
  /\ (v_le a b = true <-> vec_lt a b \/ vec_eq a b)
  /\ (v_ge a b = true <-> vec_lt b a \/ vec_eq a b).
Proof. exact v_ops_spec. Qed.
Theorem C01_strict_weak_order :
  (forall a : list fl, v_lt a a = false)
  /\ (forall a b c : list fl, length a = length b -> length b = length c ->
      v_lt a b = true -> v_lt b c = true -> v_lt a c = true)
  /\ (forall a b : list fl,
      (v_lt a b = true /\ v_eq a b = false /\ v_gt a b = false)
      \/ (v_lt a b = false /\ v_eq a b = true /\ v_gt a b = false)
      \/ (v_lt a b = false /\ v_eq a b = false /\ v_gt a b = true))
  /\ (forall a b c : list fl, length a = length b -> length b = length c ->
      v_eq a a = true /\ v_eq b a = v_eq a b
      /\ (v_eq a b = true -> v_eq b c = true -> v_eq a c = true)
      /\ (v_eq a b = true -> v_lt a c = v_lt b c /\ v_lt c a = v_lt c b)).
Proof. exact (conj v_lt_irrefl (conj v_lt_trans (conj v_lt_total v_eq_equiv))). Qed.

(** C02 *)
Theorem C02_range_compare_is_lexicographic : forall n (a b : list (list fl)),
  Forall (fun v => length v = n) a -> Forall (fun v => length v = n) b ->
  (r_compare a b (cst 0) = (-1)%Z <-> seq_lt a b)
  /\ (r_compare a b (cst 0) = 1%Z <-> seq_lt b a)
  /\ (r_compare a b (cst 0) = 0%Z <-> seq_eq a b)
  /\ (r_compare a b (cst 0) = -1 \/ r_compare a b (cst 0) = 0 \/ r_compare a b (cst 0) = 1)%Z.
Proof.
  intros n a b Da Db.
  exact (conj (r_compare_lt n a b Da Db) (conj (r_compare_gt n a b Da Db)
        (conj (r_compare_eq n a b Da Db) (r_compare_range a b)))).
Qed.
Theorem C02_range_compare_antisymmetric : forall a b : list (list fl),
  r_compare b a (cst 0) = (- r_compare a b (cst 0))%Z.
Proof. exact r_compare_anti. Qed.
Theorem C02_range_compare_transitive : forall n (a b c : list (list fl)),
  Forall (fun v => length v = n) a -> Forall (fun v => length v = n) b ->
  Forall (fun v => length v = n) c ->
  (r_compare a b (cst 0) <= 0 -> r_compare b c (cst 0) <= 0 ->
   r_compare a c (cst 0) <= 0 /\
   (r_compare a c (cst 0) = 0 -> r_compare a b (cst 0) = 0 /\ r_compare b c (cst 0) = 0))%Z.
Proof. exact r_compare_trans. Qed.

(** C04 *)
Theorem C04_min_is_least : forall (x : fl) l, is_nan x = false -> Forall (fun y => is_nan y = false) l ->
  In (sc_min x l) (x :: l) /\ (forall y, In y (x :: l) -> Bleb (sc_min x l) y = true).
Proof. exact sc_min_least. Qed.
Theorem C04_max_is_greatest : forall (x : fl) l, is_nan x = false -> Forall (fun y => is_nan y = false) l ->
  In (sc_max x l) (x :: l) /\ (forall y, In y (x :: l) -> Bleb y (sc_max x l) = true).
Proof. exact sc_max_greatest. Qed.
Theorem C04_abs_min_is_least : forall (x : fl) l, is_nan x = false -> Forall (fun y => is_nan y = false) l ->
  In (sc_abs_min x l) (x :: l) /\
  (forall y, In y (x :: l) -> Bleb (sc_abs (sc_abs_min x l)) (sc_abs y) = true).
Proof. exact sc_abs_min_least. Qed.
Theorem C04_abs_max_is_greatest : forall (x : fl) l, is_nan x = false -> Forall (fun y => is_nan y = false) l ->
  In (sc_abs_max x l) (x :: l) /\
  (forall y, In y (x :: l) -> Bleb (sc_abs y) (sc_abs (sc_abs_max x l)) = true).
Proof. exact sc_abs_max_greatest. Qed.
Theorem C04_clamp : forall v lo hi : fl, is_nan v = false -> is_nan lo = false -> is_nan hi = false ->
  Bleb lo hi = true ->
  let r := sc_clamp v lo hi in
  (r = v \/ r = lo \/ r = hi)
  /\ Bleb lo r = true /\ Bleb r hi = true
  /\ (Bleb lo v = true -> Bleb v hi = true -> Beqb r v = true)
  /\ (Bltb v lo = true -> r = lo) /\ (Bltb hi v = true -> Beqb r hi = true).
Proof. exact sc_clamp_spec. Qed.
Theorem C04_vec_clamp : forall v lo hi : list fl, length v = length lo -> length v = length hi ->
  Forall (fun x => ~ NaN x) v -> Forall (fun x => ~ NaN x) lo -> Forall (fun x => ~ NaN x) hi ->
  Forall2 (fun l h => Bleb l h = true) lo hi ->
  length (v_clamp v lo hi) = length v /\
  forall i, (i < length v)%nat ->
    Bleb (vget lo i) (vget (v_clamp v lo hi) i) = true
    /\ Bleb (vget (v_clamp v lo hi) i) (vget hi i) = true
    /\ (Bleb (vget lo i) (vget v i) = true -> Bleb (vget v i) (vget hi i) = true ->
        Beqb (vget (v_clamp v lo hi) i) (vget v i) = true).
Proof. exact v_clamp_spec. Qed.
Theorem C04_contains : forall v s e : fl, is_nan v = false -> is_nan s = false -> is_nan e = false ->
  (sc_contains v s e = true <->
   (Bleb s v = true /\ Bleb v e = true) \/ (Bleb e v = true /\ Bleb v s = true)).
Proof. exact sc_contains_spec. Qed.

(** C05 *)
Theorem C05_safe_min_ignores_nan : forall (x : fl) l,
  (NaN (sc_safe_min x l) <-> Forall NaN (x :: l))
  /\ (Exists (fun y => ~ NaN y) (x :: l) ->
      In (sc_safe_min x l) (x :: l) /\
      forall y, In y (x :: l) -> ~ NaN y -> Bleb (sc_safe_min x l) y = true).
Proof. exact sc_safe_min_spec. Qed.
Theorem C05_safe_max_ignores_nan : forall (x : fl) l,
  (NaN (sc_safe_max x l) <-> Forall NaN (x :: l))
  /\ (Exists (fun y => ~ NaN y) (x :: l) ->
      In (sc_safe_max x l) (x :: l) /\
      forall y, In y (x :: l) -> ~ NaN y -> Bleb y (sc_safe_max x l) = true).
Proof. exact sc_safe_max_spec. Qed.

(** C18 *)
Theorem C18_find_max_component : forall (v : list fl) k, (k < length v)%nat ->
  exists i, find_max_component v k = Ret i /\ (i < length v)%nat
    /\ (length (filter (fun y => Bltb (vget v i) y) v) <= k)%nat
    /\ (length (filter (fun y => Bltb y (vget v i)) v) <= length v - k - 1)%nat.
Proof. exact find_max_component_spec. Qed.
Theorem C18_find_max_component_injective : forall (v : list fl) k1 k2 i,
  find_max_component v k1 = Ret i -> find_max_component v k2 = Ret i -> k1 = k2.
Proof. exact find_max_component_inj. Qed.
Theorem C18_find_abs_max_component : forall (v : list fl) k, (k < length v)%nat ->
  exists i, find_abs_max_component v k = Ret i /\ (i < length v)%nat
    /\ (length (filter (fun y => Bltb (sc_abs (vget v i)) (sc_abs y)) v) <= k)%nat
    /\ (length (filter (fun y => Bltb (sc_abs y) (sc_abs (vget v i))) v) <= length v - k - 1)%nat.
Proof. exact find_abs_max_component_spec. Qed.
Theorem C18_find_abs_max_component_injective : forall (v : list fl) k1 k2 i,
  find_abs_max_component v k1 = Ret i -> find_abs_max_component v k2 = Ret i -> k1 = k2.
Proof. exact find_abs_max_component_inj. Qed.
Theorem C18_get_max_component : forall (v : list fl) k, (k < length v)%nat ->
  exists x, get_max_component v k = Ret x /\ In x v
    /\ (length (filter (fun y => Bltb x y) v) <= k)%nat
    /\ (length (filter (fun y => Bltb y x) v) <= length v - k - 1)%nat.
Proof. exact get_max_component_spec. Qed.
Theorem C18_get_abs_max_component : forall (v : list fl) k, (k < length v)%nat ->
  exists x, get_abs_max_component v k = Ret x /\ In x v
    /\ (length (filter (fun y => Bltb (sc_abs x) (sc_abs y)) v) <= k)%nat
    /\ (length (filter (fun y => Bltb (sc_abs y) (sc_abs x)) v) <= length v - k - 1)%nat.
Proof. exact get_abs_max_component_spec. Qed.
Theorem C18_get_abs_max_component_axis : forall (v : list fl) k, (k < length v)%nat ->
  exists i a, find_abs_max_component v k = Ret i
    /\ get_abs_max_component_axis v k = Ret a /\ length a = length v
    /\ (forall j, (j < length v)%nat ->
        vget a j = if Bltb (vget v i) (cst 0)
                   then Bopp (if Nat.eqb j i then cst 1 else cst 0)
                   else (if Nat.eqb j i then cst 1 else cst 0)).
Proof. exact get_abs_max_component_axis_spec. Qed.
End IEEE.

(** C05, refutation for the plain functions: the result depends on the position of the NaN. *)
Theorem C05_min_ignores_nan_refuted : exists x y : double,
  ~ NaN x /\ NaN y /\ ~ NaN (sc_min y [x]) /\ NaN (sc_min x [y])
  /\ ~ NaN (sc_max y [x]) /\ NaN (sc_max x [y]).
Proof.
  exists (cst 1), B754_nan. unfold NaN.
  split; [ | split; [ | split; [ | split; [ | split ] ] ] ]; vm_compute; congruence.
Qed.

(** C17: for every comparator the sort terminates, stays in its range and permutes it; for every
    irreflexive and transitive comparator (in particular every strict weak order) the result is
    sorted: no element is less than an earlier one. *)
Theorem C17_sort : forall (A : Type) (cmp : A -> A -> bool) (before range after : list A) fuel,
  (length range <= fuel)%nat ->
  exists sorted,
    sort cmp fuel (length before) (length before + length range) (before ++ range ++ after)
    = Ret (before ++ sorted ++ after)
    /\ Permutation range sorted
    /\ ((forall x, cmp x x = false) ->
        (forall x y z, cmp x y = true -> cmp y z = true -> cmp x z = true) ->
        StronglySorted (fun x y => cmp y x = false) sorted).
Proof. intros A cmp a m b fuel H. exact (sort_range cmp fuel a m b H). Qed.

(** Non-vacuity *)
Example ex_C01 : exists a b c : list double,
  v_compare a b (cst 0) = (-1)%Z /\ v_compare b c (cst 0) = (-1)%Z /\ length a = length b
  /\ length b = length c /\ NaN (vget c 1).
Proof.
  exists [D 1 0; D (-3) 2], [D 1 0; B754_infinity false], [D 1 0; B754_nan].
  repeat split; vm_compute; reflexivity.
Qed.
Example ex_C02 : r_compare [[D 1 0]; [D 2 0]] [[D 1 0]; [D 2 0]; [B754_nan]] (cst 0) = (-1)%Z.
Proof. vm_compute. reflexivity. Qed.
Example ex_C04 : B2SF (sc_min (D 3 0) [D 1 0; D 2 0]) = B2SF (D 1 0)
  /\ B2SF (sc_clamp (D 5 0) (D 1 0) (D 2 0)) = B2SF (D 2 0).
Proof. vm_compute. auto. Qed.
Example ex_C05 : B2SF (sc_safe_min B754_nan [D 3 0; B754_nan; D 2 0]) = B2SF (D 2 0).
Proof. vm_compute. auto. Qed.
Example ex_C17 : sort Nat.ltb 5 0 5 [3; 1; 2; 1; 0]%nat = Ret [0; 1; 1; 2; 3]%nat.
Proof. vm_compute. reflexivity. Qed.
Example ex_C18 : find_abs_max_component [D 1 0; D (-5) 0; D 2 0] 1 = Ret 2%nat.
Proof. vm_compute. reflexivity. Qed.

Print Assumptions C01_compare_is_lexicographic.
Print Assumptions C01_compare_antisymmetric.
Print Assumptions C01_compare_transitive.
Print Assumptions C01_operators_agree.
Print Assumptions C01_strict_weak_order.
Print Assumptions C02_range_compare_is_lexicographic.
Print Assumptions C02_range_compare_antisymmetric.
Print Assumptions C02_range_compare_transitive.
Print Assumptions C04_min_is_least.
Print Assumptions C04_max_is_greatest.
Print Assumptions C04_abs_min_is_least.
Print Assumptions C04_abs_max_is_greatest.
Print Assumptions C04_clamp.
Print Assumptions C04_vec_clamp.
Print Assumptions C04_contains.
Print Assumptions C05_safe_min_ignores_nan.
Print Assumptions C05_safe_max_ignores_nan.
Print Assumptions C05_min_ignores_nan_refuted.
Print Assumptions C17_sort.
Print Assumptions C18_find_max_component.
Print Assumptions C18_find_max_component_injective.
Print Assumptions C18_find_abs_max_component.
Print Assumptions C18_find_abs_max_component_injective.
Print Assumptions C18_get_max_component.
Print Assumptions C18_get_abs_max_component.
Print Assumptions C18_get_abs_max_component_axis.
