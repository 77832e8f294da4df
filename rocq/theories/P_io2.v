(** A decimal reader and printer that meet the hypotheses on [atof] and [operator<<]; counterexamples; texts determine values. *)
From Coq Require Import ZArith List Bool Arith Ascii String Lia DecimalString DecimalZ.
From Verif Require Import Ops M_scalar M_vec M_mat M_bbox M_geom M_io S_io P_io.
Import ListNotations.

Lemma take_while_app : forall p t r, (r = [] \/ begins (fun c => p c = false) r) -> take_while p (t ++ r) = take_while p t.
Proof.
  intros p t r Hr. induction t as [|c t IH]; cbn [app take_while].
  - destruct Hr as [Hr|Hr]; [subst; reflexivity|]. destruct r; [reflexivity|]. cbn in Hr. cbn. now rewrite Hr.
  - destruct (p c); [now rewrite IH|reflexivity].
Qed.
Lemma take_while_all : forall p t, Forall (fun c => p c = true) t -> take_while p t = t.
Proof. intros p t H. induction H; cbn; auto. rewrite H. now f_equal. Qed.
Lemma blank_no_digit : forall c, blank c -> digit_or_sign c = false.
Proof. intros c [[H|[H|[H|H]]]|[H|H]]; subst; reflexivity. Qed.
Lemma sep_no_digit : forall c, list_separator c -> digit_or_sign c = false.
Proof. intros c [[H|[H|[H|H]]]|[H|H]]; subst; reflexivity. Qed.
Lemma read_int_tokens : reads_tokens read_int.
Proof.
  intros t r Ht Hr. unfold read_int. rewrite take_while_app; [reflexivity|].
  destruct Hr as [Hr|Hr]; [now left|right]. destruct r; [contradiction|]. cbn in *. now apply blank_no_digit.
Qed.
Lemma uint_digits : forall d, Forall (fun c => digit_or_sign c = true) (list_ascii_of_string (NilEmpty.string_of_uint d)).
Proof. induction d; cbn [NilEmpty.string_of_uint list_ascii_of_string]; constructor; auto. Qed.
Lemma uint_digits0 : forall d, Forall (fun c => digit_or_sign c = true) (list_ascii_of_string (NilZero.string_of_uint d)) /\
  list_ascii_of_string (NilZero.string_of_uint d) <> [].
Proof.
  intros d. split.
  - destruct d; cbn [NilZero.string_of_uint list_ascii_of_string]; try (repeat constructor; fail); try apply (uint_digits (_ d)).
    all: cbn [NilEmpty.string_of_uint list_ascii_of_string]; constructor; try reflexivity; apply uint_digits.
  - destruct d; discriminate.
Qed.
Lemma show_int_digits : forall z, Forall (fun c => digit_or_sign c = true) (show_int z) /\ show_int z <> [].
Proof.
  intros z. unfold show_int. destruct (Z.to_int z) as [d|d]; cbn [NilZero.string_of_int list_ascii_of_string].
  - apply uint_digits0. - split; [|discriminate]. constructor; [reflexivity|]. apply uint_digits0.
Qed.
Lemma show_int_numbers : prints_numbers show_int.
Proof.
  intros z. destruct (show_int_digits z) as (H & N). split; [split; auto|].
  - eapply Forall_impl; [|exact H]. intros c Hc B. apply blank_no_digit in B. congruence.
  - destruct (show_int z); [congruence|]. inversion H; subst. cbn. intros B. apply sep_no_digit in B. congruence.
Qed.
Lemma show_int_tokens : prints_tokens show_int.
Proof. intros z. apply show_int_numbers. Qed.
Lemma Zto_int_norm : forall z, Z.to_int z <> Decimal.Neg Decimal.Nil /\ Z.to_int z <> Decimal.Pos Decimal.Nil.
Proof.
  intros z. assert (W : Decimal.norm (Z.to_int z) = Z.to_int z) by (rewrite <- DecimalZ.to_of, DecimalZ.of_to; reflexivity).
  split; intros E; rewrite E in W; discriminate.
Qed.
Lemma read_show_int : forall z, read_int (show_int z) = z.
Proof.
  intros z. unfold read_int. rewrite take_while_all by apply show_int_digits. unfold show_int.
  rewrite string_of_list_ascii_of_string.
  destruct (Zto_int_norm z) as (N1 & N2).
  rewrite NilZero.isi by auto. apply DecimalZ.of_to.
Qed.

(** Lists that match the documented syntax but are not read *)
Lemma parse_all_comma : parse_all read_int 3 (chars "1 2 3,4 5 6") [] = Ret [[1; 2; 3]%Z].
Proof. vm_compute. reflexivity. Qed.
Lemma parse_all_inner_space : parse_all read_int 3 (chars "( 1 2 3 ), ( 4 5 6 )") [] = Ret [[1; 2; 3]%Z; [0; 4; 5]%Z].
Proof. vm_compute. reflexivity. Qed.
Lemma parse_beyond : vec_parse read_int 2 (chars "1 2") (chars "3") = Some [1; 23]%Z.
Proof. vm_compute. reflexivity. Qed.

(** Texts determine the printed components *)
Lemma split_unique : forall (P : ascii -> Prop) a a' c c' r r', Forall (fun x => ~ P x) a -> Forall (fun x => ~ P x) a' -> P c -> P c' ->
  a ++ c :: r = a' ++ c' :: r' -> a = a' /\ c :: r = c' :: r'.
Proof.
  intros P a. induction a as [|x a IH]; intros a' c c' r r' Ha Ha' Hc Hc' E; destruct a' as [|x' a']; cbn [app] in E.
  - auto. - inversion E; subst. inversion Ha'; contradiction. - inversion E; subst. inversion Ha; contradiction.
  - inversion E; subst. inversion Ha; inversion Ha'; subst. destruct (IH a' c c' r r') as (A & B); auto. subst. auto.
Qed.
Lemma split_end : forall (P : ascii -> Prop) a a' c' r', Forall (fun x => ~ P x) a -> P c' -> a = a' ++ c' :: r' -> False.
Proof.
  intros P a a' c' r' Ha Hc E. subst. apply Forall_app in Ha. destruct Ha as (_ & Ha). inversion Ha. contradiction.
Qed.
Lemma spaced_inj : forall ts us, Forall token ts -> Forall token us -> spaced ts = spaced us -> ts = us.
Proof.
  induction ts as [|t ts IH]; intros us Ht Hu E.
  - destruct us as [|u us]; auto. exfalso. inversion Hu; subst. destruct H1 as (N & _). destruct us; cbn in E; [congruence|].
    symmetry in E. apply app_eq_nil in E. destruct E. discriminate.
  - destruct us as [|u us].
    + exfalso. inversion Ht; subst. destruct H1 as (N & _). destruct ts; cbn in E; [congruence|].
      apply app_eq_nil in E. destruct E. discriminate.
    + inversion Ht; inversion Hu; subst. destruct H1 as (_ & F1), H5 as (_ & F2). destruct ts as [|t' ts], us as [|u' us].
      * cbn in E. now subst.
      * exfalso. cbn in E. apply (split_end _ _ _ _ _ F1 space_blank E).
      * exfalso. cbn in E. symmetry in E. apply (split_end _ _ _ _ _ F2 space_blank E).
      * rewrite !spaced_cons in E. apply (split_unique _ _ _ _ _ _ _ F1 F2 space_blank space_blank) in E. destruct E as (E1 & E2).
        inversion E2. f_equal; auto.
Qed.
Definition closing (c : ascii) : Prop := c = ")"%char.
Lemma spaced_no_close : forall ts, Forall token ts -> Forall (fun c => ~ closing c) (spaced ts).
Proof.
  assert (W : forall t, token t -> Forall (fun c => ~ closing c) t).
  { intros t (_ & H). eapply Forall_impl; [|exact H]. intros c Hc B. apply Hc. right. now right. }
  induction ts as [|t ts IH]; intros H; [constructor|]. inversion H; subst. destruct ts; [cbn; auto|].
  rewrite spaced_cons. apply Forall_app. split; auto. constructor; auto. unfold closing. discriminate.
Qed.

Section Unique.
Context {T : Type} {o : ops T}.
Variable show : T -> text.
Hypothesis Hp : prints_tokens show.

Lemma vec_print_inj : forall v w, vec_print show v = vec_print show w -> map show v = map show w.
Proof. intros v w E. rewrite !vec_print_spec in E. apply spaced_inj in E; auto; now apply shown_tokens. Qed.
Lemma two_vecs_inj : forall p m e v v' w w',
  p ++ vec_print show v ++ ")"%char :: m ++ vec_print show w ++ e = p ++ vec_print show v' ++ ")"%char :: m ++ vec_print show w' ++ e ->
  map show v = map show v' /\ map show w = map show w'.
Proof.
  intros p m e v v' w w' E. apply app_inv_head in E. rewrite !vec_print_spec in E.
  apply (split_unique closing) in E; try (apply spaced_no_close, shown_tokens, Hp); try reflexivity.
  destruct E as (E1 & E2). inversion E2 as [E3]. apply app_inv_head in E3. apply app_inv_tail in E3.
  split; apply spaced_inj; auto; now apply shown_tokens.
Qed.
Lemma bbox_print_inj : forall a b, bbox_print show a = bbox_print show b ->
  map show (bb_min a) = map show (bb_min b) /\ map show (bb_max a) = map show (bb_max b).
Proof. intros a b E. apply (two_vecs_inj (chars "{ min: (") (chars ", max: (") (chars ") }")). exact E. Qed.
Lemma line_print_inj : forall a b, line_print show a = line_print show b ->
  map show (ln_point a) = map show (ln_point b) /\ map show (ln_dir a) = map show (ln_dir b).
Proof. intros a b E. apply (two_vecs_inj (chars "{ point: (") (chars ", direction: (") (chars ") }")). exact E. Qed.
Lemma ray_print_inj : forall a b, ray_print show a = ray_print show b ->
  map show (ray_origin a) = map show (ray_origin b) /\ map show (ray_dir a) = map show (ray_dir b).
Proof. intros a b E. apply (two_vecs_inj (chars "{ origin: (") (chars ", direction: (") (chars ") }")). exact E. Qed.
Lemma plane_print_inj : forall a b, plane_print show a = plane_print show b ->
  map show (pl_normal a) = map show (pl_normal b) /\ show (pl_dist a) = show (pl_dist b).
Proof.
  intros a b E. destruct (two_vecs_inj (chars "{ normal: (") (chars ", distance: ") (chars " }") (pl_normal a) (pl_normal b) [pl_dist a] [pl_dist b] E) as (E1 & E2).
  split; auto. now inversion E2.
Qed.
Lemma mat_print_inj : forall R C m n, (0 < C)%nat -> mat_print show R C m = mat_print show R C n ->
  forall r c, (r < R)%nat -> (c < C)%nat -> show (mget m c r) = show (mget n c r).
Proof.
  intros R C m n HC E r c Hr Hc. rewrite !mat_print_spec in E by assumption. apply spaced_inj in E; try now apply shown_tokens.
  rewrite <- (nth_row_major R C m r c (cst 0)), <- (nth_row_major R C n r c (cst 0)) by assumption.
  rewrite <- !(map_nth show). now rewrite E.
Qed.
End Unique.
