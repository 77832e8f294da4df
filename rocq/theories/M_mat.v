(** Model of mat.h. A [mat<T,R,C>] is the list of its C columns, each a list of R components. *)
From Coq Require Import ZArith List Bool Arith.
From Verif Require Import Ops M_scalar M_vec.
Import ListNotations.

(** [for (i = lo; i < lo + n; ++i) s = f(i, s)] *)
Fixpoint for_loop {S} (n lo : nat) (f : nat -> S -> S) (s : S) : S :=
  match n with
  | O => s
  | Datatypes.S n' => for_loop n' (Datatypes.S lo) f (f lo s)
  end.
(** [swap(l[i], l[j])] *)
Definition swap_nth {A} (d : A) (i j : nat) (l : list A) : list A :=
  upd (upd l i (nth j l d)) j (nth i l d).

Local Open Scope sc_scope.

Section Mat.
Context {T : Type} {o : ops T}.

(** mat.h:127-141 [m\[c\]]; all uses are in range unless said otherwise *)
Definition mcol (m : list (list T)) (c : nat) : list T := nth c m [].
(** [m\[c\]\[r\]] *)
Definition mget (m : list (list T)) (c r : nat) : T := vget (mcol m c) r.
(** [m\[c\]\[r\] = v] *)
Definition mput (m : list (list T)) (c r : nat) (v : T) : list (list T) := upd m c (upd (mcol m c) r v).
(** [for (c = 0; c < C; ++c) for (r = 0; r < R; ++r) result\[c\]\[r\] = f(c, r)] *)
Definition mk_mat (R C : nat) (f : nat -> nat -> T) : list (list T) :=
  map (fun c => map (fun r => f c r) (seq 0 R)) (seq 0 C).
(** [T sum = init; for (i = lo; i < lo + n; ++i) sum += f(i)] *)
Definition acc_sum (n lo : nat) (f : nat -> T) (init : T) : T :=
  for_loop n lo (fun i s => s + f i) init.

(** mat.h:48-55 default constructor, 165-168 [identity] *)
Definition m_identity (R C : nat) : list (list T) :=
  mk_mat R C (fun c r => if Nat.eqb c r then cst 1 else cst 0).
(** mat.h:70-98 construction from R*C values given row by row *)
Definition m_of_rows (R C : nat) (values : list T) : list (list T) :=
  mk_mat R C (fun c r => nth (c + C * r)%nat values (cst 0)).
(** mat.h:108-116 converting constructor *)
Definition m_convert {U} (conv : U -> T) (m : list (list U)) : list (list T) := map (map conv) m.
(** mat.h:151-159 [fill] *)
Definition m_fill (R C : nat) (value : T) : list (list T) := mk_mat R C (fun _ _ => value).
(** mat.h:173-176 [zero] *)
Definition m_zero (R C : nat) : list (list T) := m_fill R C (cst 0).

(** mat.h:181-311 the constant 4x4 matrices, in the order of the arguments of the constructor *)
Definition m_ints (values : list Z) : list (list T) := m_of_rows 4 4 (map cst values).
Definition rot_90_x_cw := m_ints [1; 0; 0; 0;  0; 0; 1; 0;  0; -1; 0; 0;  0; 0; 0; 1]%Z.
Definition rot_90_y_cw := m_ints [0; 0; -1; 0;  0; 1; 0; 0;  1; 0; 0; 0;  0; 0; 0; 1]%Z.
Definition rot_90_z_cw := m_ints [0; 1; 0; 0;  -1; 0; 0; 0;  0; 0; 1; 0;  0; 0; 0; 1]%Z.
Definition rot_90_x_ccw := m_ints [1; 0; 0; 0;  0; 0; -1; 0;  0; 1; 0; 0;  0; 0; 0; 1]%Z.
Definition rot_90_y_ccw := m_ints [0; 0; 1; 0;  0; 1; 0; 0;  -1; 0; 0; 0;  0; 0; 0; 1]%Z.
Definition rot_90_z_ccw := m_ints [0; -1; 0; 0;  1; 0; 0; 0;  0; 0; 1; 0;  0; 0; 0; 1]%Z.
Definition rot_180_x := m_ints [1; 0; 0; 0;  0; -1; 0; 0;  0; 0; -1; 0;  0; 0; 0; 1]%Z.
Definition rot_180_y := m_ints [-1; 0; 0; 0;  0; 1; 0; 0;  0; 0; -1; 0;  0; 0; 0; 1]%Z.
Definition rot_180_z := m_ints [-1; 0; 0; 0;  0; -1; 0; 0;  0; 0; 1; 0;  0; 0; 0; 1]%Z.
Definition mirror_x := m_ints [-1; 0; 0; 0;  0; 1; 0; 0;  0; 0; 1; 0;  0; 0; 0; 1]%Z.
Definition mirror_y := m_ints [1; 0; 0; 0;  0; -1; 0; 0;  0; 0; 1; 0;  0; 0; 0; 1]%Z.
Definition mirror_z := m_ints [1; 0; 0; 0;  0; 1; 0; 0;  0; 0; -1; 0;  0; 0; 0; 1]%Z.

(** mat.h:342-352 [compare] *)
Fixpoint m_compare (lhs rhs : list (list T)) (epsilon : T) : Z :=
  match lhs, rhs with
  | x :: lhs', y :: rhs' =>
    let cmp := v_compare x y epsilon in
    if negb (cmp =? 0)%Z then cmp else m_compare lhs' rhs' epsilon
  | _, _ => 0%Z
  end.
(** mat.h:365-368 [is_equal] *)
Definition m_is_equal (lhs rhs : list (list T)) (epsilon : T) : bool := (m_compare lhs rhs epsilon =? 0)%Z.
(** mat.h:380-388 [is_zero] *)
Definition m_is_zero (m : list (list T)) (epsilon : T) : bool :=
  forallb (fun col => v_is_zero col epsilon) m.
(** mat.h:400-418 [operator==], [operator!=] *)
Definition m_eq (lhs rhs : list (list T)) : bool := (m_compare lhs rhs (cst 0) =? 0)%Z.
Definition m_ne (lhs rhs : list (list T)) : bool := negb (m_compare lhs rhs (cst 0) =? 0)%Z.

(** mat.h:439-446 unary [operator-] *)
Definition m_neg (m : list (list T)) : list (list T) := map v_neg m.
(** mat.h:459-466 [operator+] *)
Definition m_add (lhs rhs : list (list T)) : list (list T) := map2 v_add lhs rhs.
(** mat.h:479-486 [operator-] *)
Definition m_sub (lhs rhs : list (list T)) : list (list T) := map2 v_sub lhs rhs.
(** mat.h:500-511 [operator*] of a R1 x C1R2 and a C1R2 x C2 matrix *)
Definition m_mul (R1 C1R2 C2 : nat) (lhs rhs : list (list T)) : list (list T) :=
  mk_mat R1 C2 (fun c r => acc_sum C1R2 0 (fun i => mget lhs i r * mget rhs c i) (cst 0)).
(** mat.h:523-530 [operator*] with a scalar; 542-545 with the scalar on the left *)
Definition m_scale (lhs : list (list T)) (rhs : T) : list (list T) := map (fun col => v_scale col rhs) lhs.
Definition m_scale_l (lhs : T) (rhs : list (list T)) : list (list T) := m_scale rhs lhs.
(** mat.h:557-564 [operator/] by a scalar *)
Definition m_div_s (lhs : list (list T)) (rhs : T) : list (list T) := map (fun col => v_div_s col rhs) lhs.
(** mat.h:576-583 vector times a R x C matrix. The result has R components, of which C are written;
    with C > R this writes out of bounds. *)
Definition v_mul_m (R C : nat) (lhs : list T) (rhs : list (list T)) : outcome (list T) :=
  if (C <=? R)%nat
  then Ret (map (fun c => v_dot lhs (mcol rhs c)) (seq 0 C) ++ repeat (cst 0) (R - C))
  else UB.
(** mat.h:595-604 matrix times vector; compiles for square matrices only *)
Definition m_mul_v (S : nat) (lhs : list (list T)) (rhs : list T) : list T :=
  map (fun r => acc_sum S 0 (fun c => mget lhs c r * vget rhs c) (cst 0)) (seq 0 S).
(** mat.h:616-619 matrix times a point of one dimension less *)
Definition m_mul_p (S : nat) (lhs : list (list T)) (rhs : list T) : list T :=
  v_to_cartesian (m_mul_v S lhs (v_to_homogeneous rhs)).
(** mat.h:631-634 point times matrix; square matrices *)
Definition p_mul_m (S : nat) (lhs : list T) (rhs : list (list T)) : outcome (list T) :=
  do v <- v_mul_m S S (v_to_homogeneous lhs) rhs; Ret (v_to_cartesian v).

(** mat.h:649-654 [set] *)
Definition m_set (R C : nat) (m : list (list T)) (r c : nat) (v : T) : outcome (list (list T)) :=
  require ((r <? R) && (c <? C))%nat (Ret (mput m c r v)).
(** mat.h:319-324 [zero_out<E>]; E < S is a static assertion *)
Definition m_zero_out (S E : nat) : outcome (list (list T)) := m_set S S (m_identity S S) E E (cst 0).
(** mat.h:665-674 [transpose] in place; compiles for square matrices only *)
Definition m_transpose (S : nat) (m : list (list T)) : list (list T) :=
  for_loop S 0 (fun c m =>
    for_loop (S - (c + 1)) (c + 1) (fun r m =>
      let x := mget m c r in
      let y := mget m r c in
      mput (mput m c r y) r c x) m) m.
(** mat.h:689-700 [slice]. RR <= R is a static assertion. RC <= C is not (the code asserts
    RC <= R), but then [m\[col + c\]] asserts. *)
Definition m_slice (RR RC R C : nat) (m : list (list T)) (r c : nat) : outcome (list (list T)) :=
  require ((r <=? R - RR) && (c + RC <=? C))%nat
    (Ret (mk_mat RR RC (fun col row => mget m (col + c) (row + r)))).
(** mat.h:719-732: the loops of [extract_minor] *)
Definition m_minor (R C : nat) (m : list (list T)) (row col : nat) : list (list T) :=
  snd (for_loop C 0 (fun c (s : nat * list (list T)) =>
    let '(minC, min) := s in
    if Nat.eqb c col then (minC, min)
    else
      let '(_, min) :=
        for_loop R 0 (fun r (s : nat * list (list T)) =>
          let '(minR, min) := s in
          if Nat.eqb r row then (minR, min)
          else (Datatypes.S minR, mput min minC minR (mget m c r))) (0%nat, min) in
      (Datatypes.S minC, min)) (0%nat, m_identity (R - 1) (C - 1))).
(** mat.h:714-733 [extract_minor] *)
Definition m_extract_minor (R C : nat) (m : list (list T)) (row col : nat) : outcome (list (list T)) :=
  require ((row <? R) && (col <? C))%nat (Ret (m_minor R C m row col)).

(** mat.h:744-803 [compute_determinant]: the general case and the special cases for S = 3, 2, 1 *)
Fixpoint m_det (S : nat) (m : list (list T)) : T :=
  match S with
  | O => cst 0 (* does not compile *)
  | 1%nat => mget m 0 0
  | 2%nat => mget m 0 0 * mget m 1 1 - mget m 1 0 * mget m 0 1
  | 3%nat =>
    mget m 0 0 * mget m 1 1 * mget m 2 2 + mget m 1 0 * mget m 2 1 * mget m 0 2
    + mget m 2 0 * mget m 0 1 * mget m 1 2 - mget m 2 0 * mget m 1 1 * mget m 0 2
    - mget m 1 0 * mget m 0 1 * mget m 2 2 - mget m 0 0 * mget m 2 1 * mget m 1 2
  | Datatypes.S n =>
    acc_sum S 0 (fun r =>
      (if Nat.even r then cst 1 else cst (-1)) * mget m 0 r * m_det n (m_minor S S m r 0)) (cst 0)
  end.
(** mat.h:813-824 [compute_adjugate] *)
Definition m_adjugate (S : nat) (m : list (list T)) : list (list T) :=
  mk_mat S S (fun r c =>
    (if Nat.even (c + r) then cst 1 else cst (-1)) * m_det (S - 1) (m_minor S S m r c)).

(** mat.h:853-860: the largest magnitude in column k from row k on, and its row *)
Definition lup_pivot (S k : nat) (a : list (list T)) : T * nat :=
  for_loop (S - k) k (fun i pk =>
    if sc_abs (mget a k i) >? fst pk then (sc_abs (mget a k i), i) else pk) (cst 0, 0%nat).
(** mat.h:865-867: swaps two rows *)
Definition lup_swap_rows (S k k' : nat) (a : list (list T)) : list (list T) :=
  for_loop S 0 (fun i a =>
    let x := mget a i k in
    let y := mget a i k' in
    mput (mput a i k y) i k' x) a.
(** mat.h:868-873: eliminates column k below the diagonal *)
Definition lup_eliminate (S k : nat) (a : list (list T)) : list (list T) :=
  for_loop (S - (k + 1)) (k + 1) (fun i a =>
    let a := mput a k i (mget a k i / mget a k k) in
    for_loop (S - (k + 1)) (k + 1) (fun j a =>
      mput a j i (mget a j i - mget a k i * mget a j k)) a) a.
(** mat.h:852-875: the main loop with n iterations left; [None] is the failure result *)
Fixpoint lup_loop (n S k : nat) (a : list (list T)) (pi : list nat)
  : option (list (list T) * list nat) :=
  match n with
  | O => Some (a, pi)
  | Datatypes.S n' =>
    let '(p, k') := lup_pivot S k a in
    if p <? lit 1 1000000000000000 then None
    else
      let pi := swap_nth 0%nat k k' pi in
      let a := lup_swap_rows S k k' a in
      let a := lup_eliminate S k a in
      lup_loop n' S (Datatypes.S k) a pi
  end.
(** mat.h:846-876 [lup_find_decomposition] *)
Definition lup_find_decomposition (S : nat) (a : list (list T)) : option (list (list T) * list nat) :=
  lup_loop S S 0 a (seq 0 S).
(** mat.h:895-901 forward substitution *)
Definition lup_forward (S : nat) (lu : list (list T)) (pi : list nat) (b : list T) : list T :=
  for_loop S 0 (fun i y =>
    upd y i (vget b (nth i pi 0%nat) - acc_sum i 0 (fun j => mget lu j i * vget y j) (cst 0)))
    (v_zero S).
(** mat.h:902-908 backward substitution; the index runs from S-1 down to 0 and then wraps around *)
Definition lup_backward (S : nat) (lu : list (list T)) (y : list T) : list T :=
  for_loop S 0 (fun k x =>
    let i := (S - 1 - k)%nat in
    upd x i ((vget y i - acc_sum (S - (i + 1)) (i + 1) (fun j => mget lu j i * vget x j) (cst 0)) / mget lu i i))
    (v_zero S).
(** mat.h:890-910 [lup_solve_internal] *)
Definition lup_solve_internal (S : nat) (lu : list (list T)) (pi : list nat) (b : list T) : list T :=
  lup_backward S lu (lup_forward S lu pi b).
(** mat.h:922-933 [lup_solve] *)
Definition lup_solve (S : nat) (a : list (list T)) (b : list T) : bool * list T :=
  match lup_find_decomposition S a with
  | None => (false, v_zero S)
  | Some (lu, pi) => (true, lup_solve_internal S lu pi b)
  end.
(** mat.h:947-966 [invert] *)
Definition m_invert (S : nat) (m : list (list T)) : bool * list (list T) :=
  match lup_find_decomposition S m with
  | None => (false, m_identity S S)
  | Some (lu, pi) =>
    (true, map (fun i => lup_solve_internal S lu pi (upd (v_zero S) i (cst 1))) (seq 0 S))
  end.
End Mat.
