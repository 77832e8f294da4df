(** Specification of machine integers and of integer vectors. *)
From Coq Require Import ZArith List.
From Verif Require Import Inst_I S_order.
Import ListNotations.
Local Open Scope Z_scope.

(** The numbers that w bits represent *)
Definition signed (w z : Z) : Prop := - 2 ^ (w - 1) <= z < 2 ^ (w - 1).
Definition unsigned (w z : Z) : Prop := 0 <= z < 2 ^ w.
(** x is the machine integer with the value z. *)
Definition is_sint {w} (x : sint w) (z : Z) : Prop := match x with SI a _ => a = z | S_undef => False end.
Definition is_uint {w} (x : uint w) (z : Z) : Prop := match x with UI a _ => a = z | U_undef => False end.
(** v is the vector of machine integers with the values a. *)
Definition are_sints {w} (v : list (sint w)) (a : list Z) : Prop := Forall2 is_sint v a.
Definition are_uints {w} (v : list (uint w)) (a : list Z) : Prop := Forall2 is_uint v a.

(** Exact operations on integer vectors *)
Fixpoint zzip (f : Z -> Z -> Z) (a b : list Z) : list Z :=
  match a, b with
  | x :: a', y :: b' => f x y :: zzip f a' b'
  | _, _ => []
  end.
Definition zsum (a : list Z) : Z := fold_right Z.add 0 a.
Definition zdot (a b : list Z) : Z := zsum (zzip Z.mul a b).
Definition zcross (a b : list Z) : list Z :=
  let x v := nth 0 v 0 in let y v := nth 1 v 0 in let z v := nth 2 v 0 in
  [y a * z b - z a * y b; z a * x b - x a * z b; x a * y b - y a * x b].

(** A signed result: the exact value if it is representable, otherwise undefined. *)
Definition s_result {w} (r : sint w) (e : Z) : Prop := (signed w e /\ is_sint r e) \/ (~ signed w e /\ r = S_undef).
(** An unsigned result: the exact value modulo 2^w *)
Definition u_result {w} (r : uint w) (e : Z) : Prop := is_uint r (e mod 2 ^ w).

(** The lexicographic order of integer vectors *)
Definition zlex : list Z -> list Z -> Prop := lex Z.lt eq.
