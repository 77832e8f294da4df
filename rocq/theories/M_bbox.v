(** Model of bbox.h. *)
From Coq Require Import ZArith List Bool Arith.
From Verif Require Import Ops M_scalar M_vec M_mat.
Import ListNotations.
Local Open Scope sc_scope.

(** bbox.h:108-109. The dimension S is the length of the two corners. *)
Record bbox (T : Type) := BB { bb_min : list T; bb_max : list T }.
Arguments BB {T} _ _.
Arguments bb_min {T} _.
Arguments bb_max {T} _.

(** bbox.h:369-372 [Corner], 402-406 [Range] *)
Inductive corner_t := C_min | C_max.
Inductive range_t := R_less | R_within | R_greater.

(** What can be given to a builder: bbox.h:87-93 and 98-104 *)
Inductive bb_item (T : Type) := It_point (p : list T) | It_box (b : bbox T).
Arguments It_point {T} p.
Arguments It_box {T} b.

Section BBox.
Context {T : Type} {o : ops T}.

(** bbox.h:226-233 [is_valid] of two corners *)
Fixpoint bb_valid2 (mn mx : list T) : bool :=
  match mn, mx with
  | x :: mn', y :: mx' => if x >? y then false else bb_valid2 mn' mx'
  | _, _ => true
  end.
(** bbox.h:242 [is_valid] *)
Definition bb_is_valid (b : bbox T) : bool := bb_valid2 (bb_min b) (bb_max b).
(** bbox.h:150-154 construction from two corners *)
Definition bb_make (mn mx : list T) : outcome (bbox T) := require (bb_valid2 mn mx) (Ret (BB mn mx)).
(** bbox.h:115-117 default constructor *)
Definition bb_default (S : nat) : bbox T := BB (v_zero S) (v_zero S).
(** bbox.h:164-168 *)
Definition bb_make_values (S : nat) (mn mx : T) : outcome (bbox T) := bb_make (v_fill S mn) (v_fill S mx).
(** bbox.h:178-182 *)
Definition bb_make_value (S : nat) (mm : T) : outcome (bbox T) := bb_make (v_fill S (- mm)) (v_fill S mm).
(** bbox.h:188-192 the invalid box a builder starts with *)
Definition bb_invalid (S : nat) : bbox T := BB (v_fill S (cst 1)) (v_fill S (cst 0)).
(** bbox.h:135-140 converting constructor *)
Definition bb_convert {U} (conv : U -> T) (b : bbox U) : outcome (bbox T) :=
  bb_make (map conv (bb_min b)) (map conv (bb_max b)).

(** bbox.h:623-625 [repair] *)
Definition bb_repair (b : bbox T) : outcome (bbox T) :=
  bb_make (v_min (bb_min b) (bb_max b)) (v_max (bb_min b) (bb_max b)).
(** bbox.h:636-639 [merge] of boxes *)
Definition bb_merge (lhs rhs : bbox T) : outcome (bbox T) :=
  bb_make (v_min (bb_min lhs) (bb_min rhs)) (v_max (bb_max lhs) (bb_max rhs)).
(** bbox.h:650-653 [merge] of a box and a point *)
Definition bb_merge_p (lhs : bbox T) (rhs : list T) : outcome (bbox T) :=
  bb_make (v_min (bb_min lhs) rhs) (v_max (bb_max lhs) rhs).
(** bbox.h:665-674 [intersect] *)
Definition bb_intersect (lhs rhs : bbox T) : outcome (bbox T) :=
  let mn := v_max (bb_min lhs) (bb_min rhs) in
  let mx := v_min (bb_max lhs) (bb_max rhs) in
  if bb_valid2 mn mx then bb_make mn mx
  else bb_make (v_zero (length mn)) (v_zero (length mn)).
(** bbox.h:577-611 [operator==], [operator!=], [is_equal] *)
Definition bb_eq (lhs rhs : bbox T) : bool := v_eq (bb_min lhs) (bb_min rhs) && v_eq (bb_max lhs) (bb_max rhs).
Definition bb_ne (lhs rhs : bbox T) : bool := v_ne (bb_min lhs) (bb_min rhs) || v_ne (bb_max lhs) (bb_max rhs).
Definition bb_is_equal (lhs rhs : bbox T) (epsilon : T) : bool :=
  v_is_equal (bb_min lhs) (bb_min rhs) epsilon && v_is_equal (bb_max lhs) (bb_max rhs) epsilon.

(** bbox.h:53-56 the builder's initial state *)
Definition bbb_init (S : nat) : bbox T := bb_invalid S.
(** bbox.h:66 [builder::initialized] *)
Definition bbb_initialized (b : bbox T) : bool := bb_is_valid b.
(** bbox.h:87-93 [builder::add] of a point *)
Definition bbb_add_point (b : bbox T) (point : list T) : outcome (bbox T) :=
  if negb (bbb_initialized b) then Ret (BB point point) else bb_merge_p b point.
(** bbox.h:98-104 [builder::add] of a box *)
Definition bbb_add_box (b box : bbox T) : outcome (bbox T) :=
  if negb (bbb_initialized b) then Ret box else bb_merge b box.
Definition bbb_add (b : bbox T) (i : bb_item T) : outcome (bbox T) :=
  match i with
  | It_point p => bbb_add_point b p
  | It_box x => bbb_add_box b x
  end.
(** bbox.h:77-82 [builder::add] of a range; also any other sequence of calls *)
Fixpoint bbb_add_all (b : bbox T) (l : list (bb_item T)) : outcome (bbox T) :=
  match l with
  | [] => Ret b
  | i :: l' => do b' <- bbb_add b i; bbb_add_all b' l'
  end.
(** bbox.h:61 [builder::bounds] after a sequence of [add] calls on a new builder *)
Definition bbb_bounds (S : nat) (l : list (bb_item T)) : outcome (bbox T) := bbb_add_all (bbb_init S) l.

(** bbox.h:207-216 [merge_all] *)
Fixpoint bb_merge_rest (result : bbox T) (l : list (list T)) : outcome (bbox T) :=
  match l with
  | [] => Ret result
  | p :: l' => do r <- bb_merge_p result p; bb_merge_rest r l'
  end.
Definition bb_merge_all (l : list (list T)) : outcome (bbox T) :=
  match l with
  | [] => Assert
  | first :: l' => do result <- bb_make first first; bb_merge_rest result l'
  end.

(** bbox.h:249-257 [is_empty] *)
Fixpoint bb_empty2 (mn mx : list T) : bool :=
  match mn, mx with
  | x :: mn', y :: mx' => if x >=? y then true else bb_empty2 mn' mx'
  | _, _ => false
  end.
Definition bb_is_empty (b : bbox T) : outcome bool :=
  require (bb_is_valid b) (Ret (bb_empty2 (bb_min b) (bb_max b))).
(** bbox.h:264-267 [center] *)
Definition bb_center (b : bbox T) : outcome (list T) :=
  require (bb_is_valid b) (Ret (v_div_s (v_add (bb_min b) (bb_max b)) (cst 2))).
(** bbox.h:274-277 [size] *)
Definition bb_size (b : bbox T) : outcome (list T) :=
  require (bb_is_valid b) (Ret (v_sub (bb_max b) (bb_min b))).
(** bbox.h:284-292 [volume] *)
Definition bb_volume (b : bbox T) : outcome T :=
  require (bb_is_valid b)
    (do boxSize <- bb_size b; Ret (fold_left o_mul (tl boxSize) (vget boxSize 0))).
(** bbox.h:300-308 [contains] of a point *)
Fixpoint bb_contains3 (mn mx p : list T) : bool :=
  match mn, mx, p with
  | a :: mn', b :: mx', x :: p' =>
    if (x <? a) || (x >? b) then false else bb_contains3 mn' mx' p'
  | _, _, _ => true
  end.
Definition bb_contains_p (b : bbox T) (point : list T) : outcome bool :=
  require (bb_is_valid b) (Ret (bb_contains3 (bb_min b) (bb_max b) point)).
(** bbox.h:316-324 [contains] of a box *)
Fixpoint bb_contains4 (mn mx bmn bmx : list T) : bool :=
  match mn, mx, bmn, bmx with
  | a :: mn', b :: mx', x :: bmn', y :: bmx' =>
    if (x <? a) || (y >? b) then false else bb_contains4 mn' mx' bmn' bmx'
  | _, _, _, _ => true
  end.
Definition bb_contains (b box : bbox T) : outcome bool :=
  require (bb_is_valid b) (Ret (bb_contains4 (bb_min b) (bb_max b) (bb_min box) (bb_max box))).
(** bbox.h:333-341 [encloses] *)
Fixpoint bb_encloses4 (mn mx bmn bmx : list T) : bool :=
  match mn, mx, bmn, bmx with
  | a :: mn', b :: mx', x :: bmn', y :: bmx' =>
    if (x <=? a) || (y >=? b) then false else bb_encloses4 mn' mx' bmn' bmx'
  | _, _, _, _ => true
  end.
Definition bb_encloses (b box : bbox T) : outcome bool :=
  require (bb_is_valid b) (Ret (bb_encloses4 (bb_min b) (bb_max b) (bb_min box) (bb_max box))).
(** bbox.h:349-356 [intersects] *)
Fixpoint bb_intersects4 (mn mx bmn bmx : list T) : bool :=
  match mn, mx, bmn, bmx with
  | a :: mn', b :: mx', x :: bmn', y :: bmx' =>
    if (y <? a) || (x >? b) then false else bb_intersects4 mn' mx' bmn' bmx'
  | _, _, _, _ => true
  end.
Definition bb_intersects (b box : bbox T) : bool :=
  bb_intersects4 (bb_min b) (bb_max b) (bb_min box) (bb_max box).
(** bbox.h:364-367 [constrain] *)
Definition bb_constrain (b : bbox T) (point : list T) : outcome (list T) :=
  require (bb_is_valid b) (Ret (v_max (bb_min b) (v_min (bb_max b) point))).
(** bbox.h:380-387 [corner] *)
Fixpoint bb_corner3 (c : list corner_t) (mn mx : list T) : list T :=
  match c, mn, mx with
  | k :: c', a :: mn', b :: mx' =>
    (match k with C_min => a | C_max => b end) :: bb_corner3 c' mn' mx'
  | _, _, _ => []
  end.
Definition bb_corner (b : bbox T) (c : list corner_t) : outcome (list T) :=
  require (bb_is_valid b) (Ret (bb_corner3 c (bb_min b) (bb_max b))).
(** bbox.h:420-435 [relative_position] *)
Fixpoint bb_relative3 (mn mx p : list T) : list range_t :=
  match mn, mx, p with
  | a :: mn', b :: mx', x :: p' =>
    (if x <? a then R_less else if x >? b then R_greater else R_within) :: bb_relative3 mn' mx' p'
  | _, _, _ => []
  end.
Definition bb_relative_position (b : bbox T) (point : list T) : outcome (list range_t) :=
  require (bb_is_valid b) (Ret (bb_relative3 (bb_min b) (bb_max b) point)).
(** bbox.h:443-446 [expand] *)
Definition bb_expand (b : bbox T) (f : T) : outcome (bbox T) :=
  let S := length (bb_min b) in
  require (bb_is_valid b) (bb_make (v_sub (bb_min b) (v_fill S f)) (v_add (bb_max b) (v_fill S f))).
(** bbox.h:454-457 [translate] *)
Definition bb_translate (b : bbox T) (delta : list T) : outcome (bbox T) :=
  require (bb_is_valid b) (bb_make (v_add (bb_min b) delta) (v_add (bb_max b) delta)).

(** bbox.h:483-486, 504-507, 535-538: the box's sides as vectors *)
Definition bb_sides (b : bbox T) : outcome (list T * list T * list T) :=
  do boxSize <- bb_size b;
  Ret ([vx boxSize; cst 0; cst 0], [cst 0; vy boxSize; cst 0], [cst 0; cst 0; vz boxSize]).
(** bbox.h:482-494 [for_each_face]: the arguments of the calls of [op], in order *)
Definition bb_faces (b : bbox T) : outcome (list (list (list T) * list T)) :=
  do s <- bb_sides b;
  let '(x, y, z) := s in
  let mn := bb_min b in let mx := bb_max b in
  Ret [ ([mx; v_sub mx y; v_sub (v_sub mx y) x; v_sub mx x], [cst 0; cst 0; cst 1]);
        ([mn; v_add mn x; v_add (v_add mn x) y; v_add mn y], [cst 0; cst 0; cst (-1)]);
        ([mn; v_add mn z; v_add (v_add mn z) x; v_add mn x], [cst 0; cst (-1); cst 0]);
        ([mx; v_sub mx x; v_sub (v_sub mx x) z; v_sub mx z], [cst 0; cst 1; cst 0]);
        ([mn; v_add mn y; v_add (v_add mn y) z; v_add mn z], [cst (-1); cst 0; cst 0]);
        ([mx; v_sub mx z; v_sub (v_sub mx z) y; v_sub mx y], [cst 1; cst 0; cst 0]) ].
(** bbox.h:503-526 [for_each_edge] *)
Definition bb_edges (b : bbox T) : outcome (list (list T * list T)) :=
  do s <- bb_sides b;
  let '(x, y, z) := s in
  let mn := bb_min b in let mx := bb_max b in
  Ret [ (mx, v_sub mx y);
        (v_sub mx y, v_sub (v_sub mx y) x);
        (v_sub (v_sub mx y) x, v_sub mx x);
        (v_sub mx x, mx);
        (mn, v_add mn x);
        (v_add mn x, v_add (v_add mn x) y);
        (v_add (v_add mn x) y, v_add mn y);
        (v_add mn y, mn);
        (mn, v_add mn z);
        (v_add mn y, v_add (v_add mn y) z);
        (v_add (v_add mn x) y, v_add (v_add (v_add mn x) y) z);
        (v_add mn x, v_add (v_add mn x) z) ].
(** bbox.h:534-551 [for_each_vertex], 558-565 [vertices] *)
Definition bb_vertices (b : bbox T) : outcome (list (list T)) :=
  do s <- bb_sides b;
  let '(x, y, z) := s in
  let mn := bb_min b in let mx := bb_max b in
  Ret [ mx; v_sub mx y; v_add mn z; v_sub mx x; mn; v_add mn x; v_sub mx z; v_add mn y ].
(** bbox.h:466-473 [transform]; vertices() restricts this to three dimensions *)
Definition bb_transform (b : bbox T) (transform : list (list T)) : outcome (bbox T) :=
  do vertices <- bb_vertices b;
  bbb_bounds 3 (map (fun v => It_point (m_mul_p 4 transform v)) vertices).
End BBox.
