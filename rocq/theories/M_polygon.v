(** Model of polygon.h. A polygon is its list of vertices (polygon.h:42). *)
From Coq Require Import ZArith List Bool Arith.
From Verif Require Import Ops M_scalar M_vec M_mat M_quat M_bbox M_matext.
Import ListNotations.
Local Open Scope sc_scope.

Section Polygon.
Context {T : Type} {o : ops T}.

(** [std::min_element] with operator< of vec.h (polygon.h:86): [i] is the index of the head of [l],
    [k] and [best] are index and value of the smallest element so far. *)
Fixpoint min_element (best : list T) (k i : nat) (l : list (list T)) : nat :=
  match l with
  | [] => k
  | v :: l' => if v_lt v best then min_element v i (S i) l' else min_element best k (S i) l'
  end.
(** [std::rotate] (polygon.h:88): the element at index [k] becomes the first *)
Definition rotate {A} (k : nat) (l : list A) : list A := skipn k l ++ firstn k l.
(** polygon.h:82-90 [rotate_min_to_front]; polygon.h:54-79, the constructors *)
Definition pg_make (vertices : list (list T)) : list (list T) :=
  match vertices with
  | [] => []
  | v :: l => rotate (min_element v 0 1 l) vertices
  end.
(** polygon.h:108-113, the converting constructor; [conv] converts a component *)
Definition pg_convert {U} (conv : U -> T) (other : list (list U)) : list (list T) :=
  push_loop (map conv) other.
(** polygon.h:121-128 [hasVertex] *)
Fixpoint pg_has_vertex (vertices : list (list T)) (vertex : list T) : bool :=
  match vertices with
  | [] => false
  | v :: l => if v_eq v vertex then true else pg_has_vertex l vertex
  end.
(** polygon.h:135 [vertexCount] *)
Definition pg_vertex_count (p : list (list T)) : nat := length p.
(** polygon.h:177-183 [center] *)
Definition pg_center (S : nat) (p : list (list T)) : list T :=
  v_div_s (fold_left v_add p (v_zero S)) (cst (Z.of_nat (pg_vertex_count p))).
(** polygon.h:190-196 [invert] *)
Definition pg_invert (p : list (list T)) : list (list T) :=
  pg_make (match p with
           | v :: l => if 1 <? length p then v :: rev l else p
           | [] => p
           end)%nat.
(** polygon.h:204-206 [translate] *)
Definition pg_translate (p : list (list T)) (offset : list T) : list (list T) := pg_make (lv_add p offset).
(** polygon.h:214-216 [transform] *)
Definition pg_transform (S : nat) (p : list (list T)) (m : list (list T)) : list (list T) :=
  pg_make (mlp_mul (Datatypes.S S) m p).
(** polygon.h:228-236 [get_vertices]: what is written to [out] *)
Definition pg_get_vertices (ps : list (list (list T))) : list (list T) :=
  fold_left (fun out p => fold_left (fun out v => out ++ [v]) p out) ps [].

(** polygon.h:255-263 [compare] *)
Definition pg_compare (lhs rhs : list (list T)) (epsilon : T) : Z := r_compare lhs rhs epsilon.
(** polygon.h:276-362 [isEqual], [operator==], [!=], [<], [<=], [>], [>=] *)
Definition pg_is_equal (lhs rhs : list (list T)) (epsilon : T) : bool := (pg_compare lhs rhs epsilon =? 0)%Z.
Definition pg_eq (lhs rhs : list (list T)) : bool := (pg_compare lhs rhs (cst 0) =? 0)%Z.
Definition pg_ne (lhs rhs : list (list T)) : bool := negb (pg_compare lhs rhs (cst 0) =? 0)%Z.
Definition pg_lt (lhs rhs : list (list T)) : bool := (pg_compare lhs rhs (cst 0) <? 0)%Z.
Definition pg_le (lhs rhs : list (list T)) : bool := (pg_compare lhs rhs (cst 0) <=? 0)%Z.
Definition pg_gt (lhs rhs : list (list T)) : bool := (0 <? pg_compare lhs rhs (cst 0))%Z.
Definition pg_ge (lhs rhs : list (list T)) : bool := (0 <=? pg_compare lhs rhs (cst 0))%Z.

(** polygon.h:417-431, the backward compare: [n] iterations left, the next index is [i]; false if
    a pair differs *)
Fixpoint pg_backward (n i count : nat) (lhs rhs : list (list T)) (epsilon : T) : outcome bool :=
  match n with
  | O => Ret true
  | S n' =>
    do x <- arr_get lhs i;
    do y <- arr_get rhs (count - i);
    if negb (v_compare x y epsilon =? 0)%Z then Ret false
    else pg_backward n' (S i) count lhs rhs epsilon
  end.
(** polygon.h:383-435 [compareUnoriented] *)
Definition pg_compare_unoriented (lhs rhs : list (list T)) (epsilon : T) : outcome Z :=
  if (length lhs <? length rhs)%nat then Ret (-1)%Z
  else if (length rhs <? length lhs)%nat then Ret 1%Z
  else
    let count := length lhs in
    if (count =? 0)%nat then Ret 0%Z
    else
      do l0 <- arr_get lhs 0; do r0 <- arr_get rhs 0;
      let cmp0 := v_compare l0 r0 epsilon in
      if (cmp0 <? 0)%Z then Ret (-1)%Z
      else if (0 <? cmp0)%Z then Ret 1%Z
      else if (count =? 1)%nat then Ret 0%Z
      else
        do l1 <- arr_get lhs 1; do r1 <- arr_get rhs 1;
        if (v_compare l1 r1 epsilon =? 0)%Z then Ret (r_compare (skipn 2 lhs) (skipn 2 rhs) epsilon)
        else
          do back <- pg_backward (count - 1) 1 count lhs rhs epsilon;
          if back then Ret 0%Z else Ret (r_compare (skipn 2 lhs) (skipn 2 rhs) epsilon).
End Polygon.
