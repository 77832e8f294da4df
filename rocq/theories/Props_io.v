(** Final theorems: parsing and printing (C63), printed texts are unambiguous (C74). *)
From Coq Require Import ZArith List Bool Arith Ascii String Lia.
From Verif Require Import Ops M_scalar M_vec M_mat M_bbox M_geom M_io S_io P_io P_io2.
Import ListNotations.

(** C63. [atof] and [show] stand for the C library's reading and the C++ library's printing of numbers: any functions
    such that reading stops at a blank and a printed number contains no blank. [beyond] is what follows the text in memory. *)
Theorem C63_parse_vec : forall (T : Type) (atof : list ascii -> T) S str beyond words,
  reads_tokens atof -> ends_token beyond -> tokenized str words ->
  vec_parse atof S str beyond = if (S <=? List.length words)%nat then Some (map atof (firstn S words)) else None.
Proof. exact (fun T => vec_parse_spec). Qed.
Theorem C63_every_text_has_words : forall str, exists words, tokenized str words.
Proof. exact tokenized_exists. Qed.
Theorem C63_vec_round_trip : forall (T : Type) (atof : list ascii -> T) (show : T -> list ascii) v beyond,
  reads_tokens atof -> prints_tokens show -> ends_token beyond ->
  vec_parse atof (List.length v) (vec_print show v) beyond = Some (map (fun x => atof (show x)) v).
Proof. exact (fun T => vec_parse_print). Qed.
Theorem C63_parse_mat : forall (T : Type) (o : ops T) (atof : list ascii -> T) R C str beyond words,
  reads_tokens atof -> ends_token beyond -> tokenized str words ->
  mat_parse atof R C str beyond =
  if (R * C <=? List.length words)%nat
  then Some (map (fun c => map (fun r => atof (nth (r * C + c) words [])) (seq 0 R)) (seq 0 C)) else None.
Proof. exact (fun T o => mat_parse_spec). Qed.
Theorem C63_mat_round_trip : forall (T : Type) (o : ops T) (atof : list ascii -> T) (show : T -> list ascii) R C m beyond,
  reads_tokens atof -> prints_tokens show -> ends_token beyond ->
  List.length m = C -> Forall (fun col => List.length col = R) m -> (0 < C)%nat ->
  mat_parse atof R C (mat_print show R C m) beyond = Some (map (map (fun x => atof (show x))) m).
Proof. exact (fun T o => mat_parse_print). Qed.
Theorem C63_parse_all_terminates : forall (T : Type) (atof : list ascii -> T) S str beyond,
  exists vs, parse_all atof S str beyond = Ret vs.
Proof. exact (fun T => parse_all_terminates). Qed.
Theorem C63_parse_all_partial : forall (T : Type) (atof : list ascii -> T) (show : T -> list ascii) S str beyond vs,
  (0 < S)%nat -> reads_tokens atof -> prints_numbers show -> ends_token beyond -> printed_list show S vs str ->
  parse_all atof S str beyond = Ret (map (map (fun x => atof (show x))) vs).
Proof. exact (fun T => parse_all_printed). Qed.
(** Missing in [C63_parse_all_partial]: a comma directly after a vector without parentheses; a space before ')'. Both match the
    documented syntax. *)
Theorem C63_parse_all_comma_refuted :
  parse_all read_int 3 (list_ascii_of_string "1 2 3,4 5 6") [] = Ret [[1; 2; 3]%Z].
Proof. exact parse_all_comma. Qed.
Theorem C63_parse_all_inner_space_refuted :
  parse_all read_int 3 (list_ascii_of_string "( 1 2 3 ), ( 4 5 6 )") [] = Ret [[1; 2; 3]%Z; [0; 4; 5]%Z].
Proof. exact parse_all_inner_space. Qed.
(** The parsers take a [string_view] but read on past its end: "1 2", a part of "1 23", is read as 1, 23. *)
Theorem C63_reads_past_the_end_refuted :
  vec_parse read_int 2 (list_ascii_of_string "1 2") (list_ascii_of_string "3") = Some [1; 23]%Z.
Proof. exact parse_beyond. Qed.

(** The hypotheses hold of reading and printing decimal integers, where reading undoes printing. *)
Example C63_hypotheses : reads_tokens read_int /\ prints_tokens show_int /\ prints_numbers show_int /\ ends_token []
  /\ forall z, read_int (show_int z) = z.
Proof. exact (conj read_int_tokens (conj show_int_tokens (conj show_int_numbers (conj (or_introl eq_refl) read_show_int)))). Qed.
Example C63_integers : forall v, vec_parse read_int (List.length v) (vec_print show_int v) [] = Some v.
Proof.
  intros v. rewrite C63_vec_round_trip; [|exact read_int_tokens|exact show_int_tokens|now left].
  f_equal. induction v; [reflexivity|]. cbn [map]. rewrite read_show_int. now f_equal.
Qed.
Example C63_words : tokenized (list_ascii_of_string "(1 -20)") [list_ascii_of_string "1"; list_ascii_of_string "-20"].
Proof.
  apply (Tok_cons ["("%char] (list_ascii_of_string "1") (list_ascii_of_string " -20)")).
  - repeat (constructor; [apply blank_spec; reflexivity|]). constructor.
  - split; [discriminate|]. constructor; [|constructor]. intros H. apply blank_spec in H. discriminate.
  - right. apply blank_spec. reflexivity.
  - apply (Tok_cons [" "%char] (list_ascii_of_string "-20") [")"%char]).
    + constructor; [apply blank_spec; reflexivity|constructor].
    + split; [discriminate|]. repeat (constructor; [intros H; apply blank_spec in H; discriminate|]). constructor. 
    + right. apply blank_spec. reflexivity.
    + apply Tok_nil. constructor; [apply blank_spec; reflexivity|constructor].
Qed.
Example C63_list : printed_list show_int 2 [[1; 2]; [3; 4]; [5; 6]]%Z (list_ascii_of_string "(1 2),(3 4); 5 6").
Proof.
  apply (Pl_more_paren show_int 2 [1; 2]%Z _ [","%char] (list_ascii_of_string "(3 4); 5 6")); try reflexivity; try discriminate.
  { repeat (constructor; [apply sep_spec; reflexivity|]). constructor. }
  apply (Pl_more_paren show_int 2 [3; 4]%Z _ [";"%char; " "%char] (list_ascii_of_string "5 6")); try reflexivity; try discriminate.
  { repeat (constructor; [apply sep_spec; reflexivity|]). constructor. }
  apply (Pl_last show_int 2 [5; 6]%Z). reflexivity.
Qed.
Example C63_too_few_words : vec_parse read_int 3 (list_ascii_of_string "(1 2)") [] = None.
Proof. vm_compute. reflexivity. Qed.

(** C74: two values with the same text have the same printed components. *)
Theorem C74_vec_text : forall (T : Type) (show : T -> list ascii), prints_tokens show ->
  forall v w, vec_print show v = vec_print show w -> map show v = map show w.
Proof. exact (fun T => vec_print_inj). Qed.
Theorem C74_mat_text : forall (T : Type) (o : ops T) (show : T -> list ascii), prints_tokens show ->
  forall R C m n, (0 < C)%nat -> mat_print show R C m = mat_print show R C n ->
  forall r c, (r < R)%nat -> (c < C)%nat -> show (mget m c r) = show (mget n c r).
Proof. exact (fun T o => mat_print_inj). Qed.
Theorem C74_bbox_text : forall (T : Type) (show : T -> list ascii), prints_tokens show ->
  forall a b, bbox_print show a = bbox_print show b ->
  map show (bb_min a) = map show (bb_min b) /\ map show (bb_max a) = map show (bb_max b).
Proof. exact (fun T => bbox_print_inj). Qed.
Theorem C74_line_text : forall (T : Type) (show : T -> list ascii), prints_tokens show ->
  forall a b, line_print show a = line_print show b ->
  map show (ln_point a) = map show (ln_point b) /\ map show (ln_dir a) = map show (ln_dir b).
Proof. exact (fun T => line_print_inj). Qed.
Theorem C74_ray_text : forall (T : Type) (show : T -> list ascii), prints_tokens show ->
  forall a b, ray_print show a = ray_print show b ->
  map show (ray_origin a) = map show (ray_origin b) /\ map show (ray_dir a) = map show (ray_dir b).
Proof. exact (fun T => ray_print_inj). Qed.
Theorem C74_plane_text : forall (T : Type) (show : T -> list ascii), prints_tokens show ->
  forall a b, plane_print show a = plane_print show b ->
  map show (pl_normal a) = map show (pl_normal b) /\ show (pl_dist a) = show (pl_dist b).
Proof. exact (fun T => plane_print_inj). Qed.
Example C74_example : bbox_print show_int (BB [-1; 0]%Z [10; 2]%Z) = list_ascii_of_string "{ min: (-1 0), max: (10 2) }"
  /\ plane_print show_int (Pl 5%Z [0; 0; 1]%Z) = list_ascii_of_string "{ normal: (0 0 1), distance: 5 }".
Proof. split; vm_compute; reflexivity. Qed.
Print Assumptions C63_parse_vec.
Print Assumptions C63_every_text_has_words.
Print Assumptions C63_vec_round_trip.
Print Assumptions C63_parse_mat.
Print Assumptions C63_mat_round_trip.
Print Assumptions C63_parse_all_terminates.
Print Assumptions C63_parse_all_partial.
Print Assumptions C63_parse_all_comma_refuted.
Print Assumptions C63_parse_all_inner_space_refuted.
Print Assumptions C63_reads_past_the_end_refuted.
Print Assumptions C74_vec_text.
Print Assumptions C74_mat_text.
Print Assumptions C74_bbox_text.
Print Assumptions C74_line_text.
Print Assumptions C74_ray_text.
Print Assumptions C74_plane_text.
