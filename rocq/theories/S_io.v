(** What it means for text to be read and printed, independently of the parser. *)
From Coq Require Import ZArith List Bool Ascii String DecimalString.
Import ListNotations.

(** The characters between numbers: white space and parentheses *)
Definition white (c : ascii) : Prop :=
  c = ascii_of_nat 32 \/ c = ascii_of_nat 9 \/ c = ascii_of_nat 10 \/ c = ascii_of_nat 13.
Definition blank (c : ascii) : Prop := white c \/ c = "("%char \/ c = ")"%char.
(** The characters between vectors of a list *)
Definition list_separator (c : ascii) : Prop := white c \/ c = ","%char \/ c = ";"%char.

Definition begins {A} (P : A -> Prop) (s : list A) : Prop :=
  match s with
  | [] => False
  | c :: _ => P c
  end.
(** Nothing follows, or a blank *)
Definition ends_token (r : list ascii) : Prop := r = [] \/ begins blank r.
(** A word: characters without a blank *)
Definition token (t : list ascii) : Prop := t <> [] /\ Forall (fun c => ~ blank c) t.

(** The words of a text, in order *)
Inductive tokenized : list ascii -> list (list ascii) -> Prop :=
| Tok_nil : forall b, Forall blank b -> tokenized b []
| Tok_cons : forall b t r ts, Forall blank b -> token t -> ends_token r -> tokenized r ts ->
    tokenized (b ++ t ++ r) (t :: ts).

(** Reading a number stops at a blank. *)
Definition reads_tokens {T} (atof : list ascii -> T) : Prop :=
  forall t r, token t -> ends_token r -> atof (t ++ r) = atof t.
(** A printed number is a word. *)
Definition prints_tokens {T} (show : T -> list ascii) : Prop := forall x, token (show x).
(** ... that does not begin with a separator of lists *)
Definition prints_numbers {T} (show : T -> list ascii) : Prop :=
  forall x, token (show x) /\ begins (fun c => ~ list_separator c) (show x).

(** Words separated by single spaces *)
Fixpoint spaced (ts : list (list ascii)) : list ascii :=
  match ts with
  | [] => []
  | [t] => t
  | t :: ts' => t ++ ascii_of_nat 32 :: spaced ts'
  end.

(** A list of printed vectors of [S] components. A vector may be put in parentheses. What follows a vector is a nonempty
    run of separators; if the vector is not in parentheses, it begins with white space. *)
Inductive printed_list {T} (show : T -> list ascii) (S : nat) : list (list T) -> list ascii -> Prop :=
| Pl_nil : printed_list show S [] []
| Pl_last : forall v, List.length v = S -> printed_list show S [v] (spaced (map show v))
| Pl_last_paren : forall v, List.length v = S ->
    printed_list show S [v] ("("%char :: spaced (map show v) ++ [")"%char])
| Pl_more : forall v vs sep r, List.length v = S -> Forall list_separator sep -> begins white sep ->
    printed_list show S vs r ->
    printed_list show S (v :: vs) (spaced (map show v) ++ sep ++ r)
| Pl_more_paren : forall v vs sep r, List.length v = S -> Forall list_separator sep -> sep <> [] ->
    printed_list show S vs r ->
    printed_list show S (v :: vs) ("("%char :: spaced (map show v) ++ ")"%char :: sep ++ r).

(** Reading a decimal integer: the longest prefix of digits and signs; 0 if it is not a number *)
Definition digit_or_sign (c : ascii) : bool := existsb (Ascii.eqb c) (list_ascii_of_string "-0123456789").
Fixpoint take_while (p : ascii -> bool) (s : list ascii) : list ascii :=
  match s with
  | [] => []
  | c :: s' => if p c then c :: take_while p s' else []
  end.
Definition read_int (s : list ascii) : Z :=
  match NilZero.int_of_string (string_of_list_ascii (take_while digit_or_sign s)) with
  | Some i => Z.of_int i
  | None => 0%Z
  end.
Definition show_int (z : Z) : list ascii := list_ascii_of_string (NilZero.string_of_int (Z.to_int z)).
