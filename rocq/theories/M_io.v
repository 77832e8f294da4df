(** Model of vec_io.h, mat_io.h, bbox_io.h, line_io.h, plane_io.h and ray_io.h. A string is a list of characters. *)
From Coq Require Import ZArith List Bool Arith Ascii String.
From Verif Require Import Ops M_scalar M_vec M_mat M_bbox M_geom.
Import ListNotations.

Notation text := (list ascii).
(** A string literal *)
Definition chars (s : string) : text := list_ascii_of_string s.
(** Membership in a set of characters *)
Definition mem (c : ascii) (set : text) : bool := existsb (Ascii.eqb c) set.
(** The control characters \t, \n, \r *)
Definition tab : ascii := ascii_of_nat 9.
Definition newline : ascii := ascii_of_nat 10.
Definition return_ : ascii := ascii_of_nat 13.
Definition space : ascii := ascii_of_nat 32.
(** vec_io.h:34, mat_io.h:46 [blank] *)
Definition blank_vec : text := [space; tab; newline; return_] ++ chars "()".
(** vec_io.h:88 [blank] of [parse_all] *)
Definition blank_list : text := [space; tab; newline; return_] ++ chars ",;".

(** A position in a string; [None] is [std::string::npos]. *)
Fixpoint scan (p : ascii -> bool) (s : text) (i : nat) : option nat :=
  match s with
  | [] => None
  | c :: s' => if p c then Some i else scan p s' (S i)
  end.
(** [std::string_view::find_first_of], [find_first_not_of] from a position *)
Definition find_first_of (str set : text) (pos : option nat) : option nat :=
  match pos with
  | None => None
  | Some k => scan (fun c => mem c set) (skipn k str) k
  end.
Definition find_first_not_of (str set : text) (pos : option nat) : option nat :=
  match pos with
  | None => None
  | Some k => scan (fun c => negb (mem c set)) (skipn k str) k
  end.

Section IO.
Context {T : Type} {o : ops T}.
(** [static_cast<T>(std::atof(p))]: the number at the start of the characters from [p] up to the
    terminating zero. C library function, not modelled further. *)
Variable atof : text -> T.
(** [stream << x] for a number. C++ library function, not modelled further. *)
Variable show : T -> text.

(** vec_io.h:32-49 [doParse]: [n] components are left, the next index is [i]; the result and the
    final position. [beyond] are the characters in memory after the end of [str], up to a zero
    character: [std::atof(str.data() + pos)] reads on into them. *)
Fixpoint do_parse (str beyond : text) (S n i : nat) (pos : option nat) (result : list T)
  : option (list T) * option nat :=
  match n with
  | O => (Some result, pos)
  | Datatypes.S n' =>
    match find_first_not_of str blank_vec pos with
    | None => (None, None)
    | Some k =>
      let result := result ++ [atof (skipn k str ++ beyond)] in
      match find_first_of str blank_vec (Some k) with
      | None => if (i <? S - 1)%nat then (None, None)
                else do_parse str beyond S n' (Datatypes.S i) None result
      | Some k' => do_parse str beyond S n' (Datatypes.S i) (Some k') result
      end
    end
  end.
(** vec_io.h:66-69 [parse] *)
Definition vec_parse (S : nat) (str beyond : text) : option (list T) :=
  fst (do_parse str beyond S S 0 (Some 0%nat) []).
(** vec_io.h:87-99 [parse_all]; [out] is what was written so far *)
Fixpoint parse_all_loop (fuel S : nat) (str beyond : text) (pos : option nat) (out : list (list T))
  : outcome (list (list T)) :=
  match pos with
  | None => Ret out
  | Some k =>
    match fuel with
    | O => Fuel
    | Datatypes.S fuel' =>
      let r := do_parse str beyond S S 0 pos [] in
      let out := match fst r with
                 | Some v => out ++ [v]
                 | None => out
                 end in
      let pos := find_first_of str blank_list (snd r) in
      let pos := find_first_not_of str blank_list pos in
      parse_all_loop fuel' S str beyond pos out
    end
  end.
Definition parse_all (S : nat) (str beyond : text) : outcome (list (list T)) :=
  parse_all_loop (Datatypes.S (List.length str)) S str beyond (Some 0%nat) [].
(** vec_io.h:110-119 [operator<<] *)
Definition vec_print (v : list T) : text :=
  match v with
  | [] => []
  | x :: v' => fold_left (fun s y => s ++ chars " " ++ show y) v' (show x)
  end.

(** mat_io.h:45-65 [parse], the inner loop over the columns of row [r]: [n] columns left, the next is [c]; the
    entries read so far are in [row] *)
Fixpoint mat_parse_row (str beyond : text) (R C r n c : nat) (pos : option nat) (row : list T)
  : option (list T * option nat) :=
  match n with
  | O => Some (row, pos)
  | Datatypes.S n' =>
    match find_first_not_of str blank_vec pos with
    | None => None
    | Some k =>
      let row := row ++ [atof (skipn k str ++ beyond)] in
      match find_first_of str blank_vec (Some k) with
      | None => if (r * C + c <? R * C - 1)%nat then None
                else mat_parse_row str beyond R C r n' (Datatypes.S c) None row
      | Some k' => mat_parse_row str beyond R C r n' (Datatypes.S c) (Some k') row
      end
    end
  end.
(** The outer loop: [n] rows left *)
Fixpoint mat_parse_rows (str beyond : text) (R C n r : nat) (pos : option nat) (rows : list (list T))
  : option (list (list T)) :=
  match n with
  | O => Some rows
  | Datatypes.S n' =>
    match mat_parse_row str beyond R C r C 0 pos [] with
    | None => None
    | Some (row, pos) => mat_parse_rows str beyond R C n' (Datatypes.S r) pos (rows ++ [row])
    end
  end.
(** mat_io.h:45-65 [parse]: entry r, c of the rows read is put at [c][r] *)
Definition mat_parse (R C : nat) (str beyond : text) : option (list (list T)) :=
  match mat_parse_rows str beyond R C R 0 (Some 0%nat) [] with
  | None => None
  | Some rows => Some (mk_mat R C (fun c r => nth c (nth r rows []) (cst 0)))
  end.
(** mat_io.h:77-91 [operator<<] *)
Definition mat_print (R C : nat) (m : list (list T)) : text :=
  fold_left (fun s r =>
    let s := fold_left (fun s c =>
      let s := s ++ show (mget m c r) in
      if (c <? C - 1)%nat then s ++ chars " " else s) (seq 0 C) s in
    if (r <? R - 1)%nat then s ++ chars " " else s) (seq 0 R) [].

(** bbox_io.h:38-41, line_io.h:38-41, plane_io.h:38-41, ray_io.h:38-41 [operator<<] *)
Definition bbox_print (b : bbox T) : text :=
  chars "{ min: (" ++ vec_print (bb_min b) ++ chars "), max: (" ++ vec_print (bb_max b) ++ chars ") }".
Definition line_print (l : line T) : text :=
  chars "{ point: (" ++ vec_print (ln_point l) ++ chars "), direction: (" ++ vec_print (ln_dir l) ++ chars ") }".
Definition plane_print (p : plane T) : text :=
  chars "{ normal: (" ++ vec_print (pl_normal p) ++ chars "), distance: " ++ show (pl_dist p) ++ chars " }".
Definition ray_print (r : ray T) : text :=
  chars "{ origin: (" ++ vec_print (ray_origin r) ++ chars "), direction: (" ++ vec_print (ray_dir r) ++ chars ") }".
End IO.
