(** Proofs about parsing and printing. *)
From Coq Require Import ZArith List Bool Arith Ascii String Lia.
From Verif Require Import Ops M_scalar M_vec M_mat M_bbox M_geom M_io S_io.
Import ListNotations.

Lemma mem_spec : forall c set, mem c set = true <-> In c set.
Proof.
  intros c set. unfold mem. rewrite existsb_exists. split.
  - intros (x & Hx & E). apply Ascii.eqb_eq in E. now subst.
  - intros H. exists c. split; auto. apply Ascii.eqb_refl.
Qed.
Lemma blank_spec : forall c, mem c blank_vec = true <-> blank c.
Proof.
  intros c. rewrite mem_spec. unfold blank, white, blank_vec, space, tab, newline, return_. cbn [app chars list_ascii_of_string In].
  intuition.
Qed.
Lemma sep_spec : forall c, mem c blank_list = true <-> list_separator c.
Proof.
  intros c. rewrite mem_spec. unfold list_separator, white, blank_list, space, tab, newline, return_.
  cbn [app chars list_ascii_of_string In]. intuition.
Qed.
Lemma nonblank_spec : forall c, mem c blank_vec = false <-> ~ blank c.
Proof. intros c. rewrite <- blank_spec. destruct (mem c blank_vec); intuition congruence. Qed.
Lemma nonsep_spec : forall c, mem c blank_list = false <-> ~ list_separator c.
Proof. intros c. rewrite <- sep_spec. destruct (mem c blank_list); intuition congruence. Qed.

Lemma scan_none : forall p s i, Forall (fun c => p c = false) s -> scan p s i = None.
Proof. intros p s i H. revert i. induction H; intros i; cbn [scan]; auto. rewrite H. auto. Qed.
Lemma scan_some : forall p a c r i, Forall (fun c => p c = false) a -> p c = true ->
  scan p (a ++ c :: r) i = Some (i + List.length a)%nat.
Proof.
  intros p a c r i H Hc. revert i. induction H; intros i; cbn [scan app List.length].
  - rewrite Hc. f_equal. lia.
  - rewrite H, IHForall. f_equal. lia.
Qed.
Lemma scan_inv : forall p s i k, scan p s i = Some k -> (i <= k < i + List.length s)%nat.
Proof.
  intros p s. induction s; intros i k H; cbn [scan] in H; [discriminate|]. cbn [List.length].
  destruct (p a). - inversion H. lia. - apply IHs in H. lia.
Qed.
Lemma scan_at : forall p s i k, scan p s i = Some k -> exists c, nth_error s (k - i) = Some c /\ p c = true.
Proof.
  intros p s. induction s; intros i k H; cbn [scan] in H; [discriminate|].
  destruct (p a) eqn:E.
  - inversion H. subst. exists a. now rewrite Nat.sub_diag.
  - pose proof (scan_inv _ _ _ _ H). apply IHs in H. destruct H as (c & H & Hc). exists c.
    split; auto. replace (k - i)%nat with (S (k - S i)) by lia. exact H.
Qed.

Lemma skipn_step : forall (A : Type) (str : list A) k a r, skipn k str = a ++ r ->
  skipn (k + List.length a) str = r.
Proof.
  intros A str k. revert str. induction k; intros str a r H.
  - cbn [skipn] in H. subst. cbn [Nat.add]. rewrite skipn_app, Nat.sub_diag, skipn_all. reflexivity.
  - destruct str; cbn [skipn] in H.
    + symmetry in H. apply app_eq_nil in H. destruct H. subst. reflexivity.
    + cbn [Nat.add skipn]. auto.
Qed.

Section Proofs.
Context {T : Type} {o : ops T}.
Variable atof : text -> T.
Variable show : T -> text.

Lemma do_parse_acc : forall str beyond S n i pos acc,
  do_parse atof str beyond S n i pos acc =
  let r := do_parse atof str beyond S n i pos [] in
  (match fst r with Some l => Some (acc ++ l) | None => None end, snd r).
Proof.
  intros str beyond S n. induction n; intros i pos acc.
  - cbn. now rewrite app_nil_r.
  - cbn [do_parse]. destruct (find_first_not_of str blank_vec pos) as [k|]; [|reflexivity].
    set (x := atof (skipn k str ++ beyond)). cbn [app].
    assert (W : forall p, do_parse atof str beyond S n (Datatypes.S i) p (acc ++ [x]) =
      (let r := do_parse atof str beyond S n (Datatypes.S i) p [x] in
       (match fst r with Some l => Some (acc ++ l) | None => None end, snd r))).
    { intros p. rewrite IHn, (IHn (Datatypes.S i) p [x]). cbn [fst snd].
      destruct (fst (do_parse atof str beyond S n (Datatypes.S i) p [])); f_equal. f_equal. now rewrite <- app_assoc. }
    destruct (find_first_of str blank_vec (Some k)) as [k'|].
    + apply W.
    + destruct (i <? S - 1)%nat; [reflexivity|apply W].
Qed.
Lemma do_parse_none : forall str beyond S n i pos acc p,
  do_parse atof str beyond S n i pos acc = (None, p) -> p = None.
Proof.
  intros str beyond S n. induction n; intros i pos acc p H; cbn [do_parse] in H; [discriminate|].
  destruct (find_first_not_of str blank_vec pos) as [k|]; [|congruence].
  destruct (find_first_of str blank_vec (Some k)) as [k'|]; [eauto|].
  destruct (i <? S - 1)%nat; [congruence|eauto].
Qed.
Lemma do_parse_split : forall str beyond S a b i pos acc,
  do_parse atof str beyond S (a + b) i pos acc =
  match do_parse atof str beyond S a i pos acc with
  | (Some acc', p) => do_parse atof str beyond S b (i + a) p acc'
  | (None, p) => (None, p)
  end.
Proof.
  intros str beyond S a b. induction a; intros i pos acc.
  - cbn [Nat.add do_parse]. now rewrite Nat.add_0_r.
  - cbn [Nat.add do_parse]. destruct (find_first_not_of str blank_vec pos) as [k|]; [|reflexivity].
    destruct (find_first_of str blank_vec (Some k)) as [k'|].
    + rewrite IHa. now rewrite Nat.add_succ_comm.
    + destruct (i <? S - 1)%nat; [reflexivity|]. rewrite IHa. now rewrite Nat.add_succ_comm.
Qed.

(** [n] words, then [rest] *)
Inductive takes : nat -> list ascii -> list (list ascii) -> list ascii -> Prop :=
| Tk_0 : forall s, takes 0 s [] s
| Tk_S : forall n b t r ts rest, Forall blank b -> token t -> ends_token r -> takes n r ts rest ->
    takes (S n) (b ++ t ++ r) (t :: ts) rest.

Lemma blanks_not : forall b, Forall blank b -> Forall (fun c => negb (mem c blank_vec) = false) b.
Proof. intros b H. eapply Forall_impl; [|exact H]. intros c Hc. apply blank_spec in Hc. now rewrite Hc. Qed.
Lemma nonblanks : forall t, Forall (fun c => ~ blank c) t -> Forall (fun c => mem c blank_vec = false) t.
Proof. intros b H. eapply Forall_impl; [|exact H]. intros c Hc. now apply nonblank_spec. Qed.

Lemma find_token : forall str k b t r, skipn k str = b ++ t ++ r -> Forall blank b -> token t ->
  find_first_not_of str blank_vec (Some k) = Some (k + List.length b)%nat.
Proof.
  intros str k b t r H Hb (Ht & Hn). unfold find_first_not_of. rewrite H. destruct t as [|c t]; [congruence|].
  cbn [app]. apply scan_some; [now apply blanks_not|].
  inversion Hn. apply nonblank_spec in H2. now rewrite H2.
Qed.
Lemma find_end : forall str k t r, skipn k str = t ++ r -> token t -> ends_token r ->
  find_first_of str blank_vec (Some k) = match r with [] => None | _ => Some (k + List.length t)%nat end.
Proof.
  intros str k t r H (Ht & Hn) Hr. unfold find_first_of. rewrite H. destruct r as [|c r].
  - rewrite app_nil_r. apply scan_none. now apply nonblanks.
  - apply scan_some; [now apply nonblanks|]. apply blank_spec. destruct Hr as [Hr|Hr]; [discriminate|exact Hr].
Qed.

Lemma ends_app : forall r beyond, ends_token r -> ends_token beyond -> ends_token (r ++ beyond).
Proof. intros [|c r] beyond H1 H2; [exact H2|]. right. destruct H1 as [H1|H1]; [discriminate|exact H1]. Qed.

Lemma do_parse_takes : forall str beyond S n s ts rest, reads_tokens atof -> ends_token beyond ->
  takes n s ts rest -> forall i k acc, skipn k str = s -> (i + n = S)%nat ->
  do_parse atof str beyond S n i (Some k) acc =
  (Some (acc ++ map atof ts),
   match n with
   | O => Some k
   | _ => match rest with [] => None | _ => Some (k + (List.length s - List.length rest))%nat end
   end).
Proof.
  intros str beyond S n s ts rest Ha Hb H. induction H; intros i k acc Hk Hi.
  - cbn [do_parse map]. now rewrite app_nil_r.
  - cbn [do_parse]. rewrite (find_token str k b t r) by assumption.
    pose proof (skipn_step _ _ _ _ _ Hk) as Hk1.
    rewrite (find_end str _ t r) by assumption.
    rewrite Hk1, <- app_assoc, Ha by (try assumption; apply ends_app; assumption).
    pose proof (skipn_step _ _ _ _ _ Hk1) as Hk2.
    assert (Hlen : forall n s ts rest, takes n s ts rest -> (List.length rest <= List.length s)%nat).
    { intros n0 s0 ts0 rest0 W. induction W; auto. rewrite !app_length. lia. }
    specialize (Hlen _ _ _ _ H2).
    destruct r as [|c r].
    + inversion H2; subst.
      * rewrite (proj2 (Nat.ltb_ge i (i + 1 - 1))) by lia. cbn [do_parse map]. reflexivity.
      * exfalso. destruct b0; [|discriminate]. destruct t0; [|discriminate]. now destruct H5.
    + rewrite IHtakes by (try assumption; lia). cbn [map]. rewrite <- app_assoc. cbn [app]. f_equal.
      destruct n.
      * inversion H2; subst. rewrite !app_length. f_equal. lia.
      * destruct rest; [reflexivity|]. rewrite !app_length. f_equal. cbn [List.length] in *. lia.
Qed.

Lemma tokenized_takes : forall s ts, tokenized s ts -> forall n, (n <= List.length ts)%nat ->
  exists rest, takes n s (firstn n ts) rest.
Proof.
  intros s ts H. induction H; intros n Hn.
  - cbn in Hn. assert (n = 0)%nat by lia. subst. exists b. constructor.
  - destruct n. { exists (b ++ t ++ r). constructor. }
    cbn in Hn. destruct (IHtokenized n) as (rest & W); [lia|]. exists rest. cbn [firstn]. now constructor.
Qed.
Lemma do_parse_fails : forall str beyond S s ts, tokenized s ts -> forall n i k acc, skipn k str = s -> (i + n = S)%nat ->
  (List.length ts < n)%nat -> do_parse atof str beyond S n i (Some k) acc = (None, None).
Proof.
  intros str beyond S s ts H. induction H; intros n i k acc Hk Hi Hn.
  - destruct n; [cbn in Hn; lia|]. cbn [do_parse]. unfold find_first_not_of. rewrite Hk.
    rewrite scan_none; [reflexivity|now apply blanks_not].
  - destruct n; [cbn in Hn; lia|]. cbn [do_parse List.length] in *. rewrite (find_token str k b t r) by assumption.
    pose proof (skipn_step _ _ _ _ _ Hk) as Hk1.
    rewrite (find_end str _ t r) by assumption.
    pose proof (skipn_step _ _ _ _ _ Hk1) as Hk2.
    destruct r.
    + rewrite (proj2 (Nat.ltb_lt i (S - 1))) by lia. reflexivity.
    + apply IHtokenized; try assumption; lia.
Qed.

Lemma vec_parse_spec : forall S str beyond ts, reads_tokens atof -> ends_token beyond -> tokenized str ts ->
  vec_parse atof S str beyond = if (S <=? List.length ts)%nat then Some (map atof (firstn S ts)) else None.
Proof.
  intros S str beyond ts Ha Hb H. unfold vec_parse.
  destruct (Nat.leb_spec S (List.length ts)) as [L|L].
  - destruct (tokenized_takes _ _ H S L) as (rest & W).
    rewrite (do_parse_takes str beyond S S str (firstn S ts) rest) by (try assumption; try lia; reflexivity). reflexivity.
  - rewrite (do_parse_fails str beyond S str ts) by (try assumption; try lia; reflexivity). reflexivity.
Qed.

Lemma blank_dec : forall c, {blank c} + {~ blank c}.
Proof. intros c. destruct (mem c blank_vec) eqn:E; [left; now apply blank_spec|right; now apply nonblank_spec]. Qed.
Lemma tokenized_exists : forall s, exists ts, tokenized s ts.
Proof.
  assert (W : forall n s, (List.length s <= n)%nat -> exists ts, tokenized s ts).
  { induction n; intros s Hs.
    - destruct s; [|cbn in Hs; lia]. exists []. constructor. constructor.
    - assert (D : forall (P : ascii -> Prop) (Pd : forall c, {P c} + {~ P c}) (s : list ascii), exists a b, s = a ++ b /\ Forall P a /\
         (b = [] \/ begins (fun c => ~ P c) b)).
      { intros P Pd. induction s0 as [|c s0 (a & b & E & Fa & Fb)].
        - exists [], []. auto.
        - destruct (Pd c). + exists (c :: a), b. subst. auto. + exists [], (c :: s0). cbn. auto. }
      destruct (D blank blank_dec s) as (b & s1 & E & Fb & F1).
      destruct (D (fun c => ~ blank c) (fun c => match blank_dec c with left h => right (fun f => f h) | right h => left h end) s1)
        as (t & r & E1 & Ft & Fr).
      destruct F1 as [F1|F1].
      + exists []. rewrite E, F1, app_nil_r. now constructor.
      + assert (Ht : t <> []).
        { intros Et. subst. cbn [app] in F1. destruct Fr as [Fr|Fr]; subst; [contradiction|]. destruct r; cbn in *; [auto|].
          apply Fr. exact F1. }
        destruct (IHn r) as (ts & Hts).
        { subst s s1. rewrite !app_length in Hs. destruct t; [congruence|]. cbn in Hs. lia. }
        exists (t :: ts). rewrite E, E1. constructor; auto.
        * split; auto.
        * destruct Fr as [Fr|Fr]; [now left|right]. destruct r; cbn in *; [auto|]. destruct (blank_dec a); auto. contradiction. }
  intros s. apply (W (List.length s)). lia.
Qed.

(** Printing *)
Lemma vec_print_spec : forall v, vec_print show v = spaced (map show v).
Proof.
  intros [|x v]; [reflexivity|]. unfold vec_print.
  assert (W : forall v s x, fold_left (fun s y => s ++ chars " " ++ show y) v (s ++ show x) = s ++ spaced (map show (x :: v))).
  { clear. induction v; intros s x. - reflexivity.
    - cbn [fold_left]. replace ((s ++ show x) ++ chars " " ++ show a) with ((s ++ show x ++ chars " ") ++ show a) by (rewrite <- !app_assoc; reflexivity).
      rewrite IHv. cbn [map]. rewrite <- !app_assoc. f_equal. }
  apply (W v [] x).
Qed.
Lemma spaced_cons : forall t u us, spaced (t :: u :: us) = t ++ ascii_of_nat 32 :: spaced (u :: us).
Proof. reflexivity. Qed.
Lemma space_blank : blank (ascii_of_nat 32).
Proof. left. now left. Qed.

Lemma takes_spaced : forall ts b rest, Forall token ts -> ts <> [] -> Forall blank b -> ends_token rest ->
  takes (List.length ts) (b ++ spaced ts ++ rest) ts rest.
Proof.
  induction ts as [|t ts IH]; intros b rest Ht Hn Hb Hr; [congruence|]. inversion Ht; subst.
  destruct ts as [|u us].
  - cbn [spaced List.length]. constructor; auto. constructor.
  - rewrite spaced_cons. cbn [List.length]. rewrite <- app_assoc. constructor; auto.
    + right. cbn. apply space_blank.
    + apply (IH [ascii_of_nat 32] rest); auto; [discriminate|]. constructor; auto. apply space_blank.
Qed.
Lemma takes_tokenized : forall n s ts, takes n s ts [] -> tokenized s ts.
Proof.
  intros n s ts H. remember [] as rest eqn:E. revert E. induction H; intros E; subst.
  - repeat constructor.
  - constructor; auto.
Qed.
Lemma tokenized_spaced : forall ts, Forall token ts -> tokenized (spaced ts) ts.
Proof.
  intros ts H. destruct ts; [repeat constructor|].
  apply (takes_tokenized (List.length (l :: ts))). rewrite <- (app_nil_r (spaced (l :: ts))). apply (takes_spaced (l :: ts) []); auto.
  - discriminate. - now left.
Qed.
Lemma shown_tokens : forall v, prints_tokens show -> Forall token (map show v).
Proof. intros v H. induction v; constructor; auto. Qed.
Lemma vec_parse_print : forall v beyond, reads_tokens atof -> prints_tokens show -> ends_token beyond ->
  vec_parse atof (List.length v) (vec_print show v) beyond = Some (map (fun x => atof (show x)) v).
Proof.
  intros v beyond Ha Hp Hb. rewrite vec_print_spec.
  rewrite (vec_parse_spec _ _ _ (map show v) Ha Hb) by (apply tokenized_spaced, shown_tokens, Hp).
  rewrite map_length, Nat.leb_refl, firstn_all2 by (rewrite map_length; lia). now rewrite map_map.
Qed.

(** Matrices *)
Lemma mat_parse_row_spec : forall str beyond R C r n c pos row,
  mat_parse_row atof str beyond R C r n c pos row =
  match do_parse atof str beyond (R * C) n (r * C + c) pos row with
  | (Some row', p) => Some (row', p)
  | (None, _) => None
  end.
Proof.
  intros str beyond R C r n. induction n; intros c pos row; [reflexivity|]. cbn [mat_parse_row do_parse].
  destruct (find_first_not_of str blank_vec pos) as [k|]; [|reflexivity].
  destruct (find_first_of str blank_vec (Some k)) as [k'|].
  - rewrite IHn. now rewrite Nat.add_succ_r.
  - destruct (r * C + c <? R * C - 1)%nat; [reflexivity|]. rewrite IHn. now rewrite Nat.add_succ_r.
Qed.
Fixpoint chunks (C n : nat) (l : list T) : list (list T) :=
  match n with O => [] | S n' => firstn C l :: chunks C n' (skipn C l) end.
Lemma do_parse_length : forall str beyond S n i pos acc l p,
  do_parse atof str beyond S n i pos acc = (Some l, p) -> List.length l = (List.length acc + n)%nat.
Proof.
  intros str beyond S n. induction n; intros i pos acc l p H; cbn [do_parse] in H.
  - inversion H. subst. lia.
  - destruct (find_first_not_of str blank_vec pos) as [k|]; [|congruence].
    destruct (find_first_of str blank_vec (Some k)) as [k'|].
    + apply IHn in H. rewrite app_length in H. cbn in H. lia.
    + destruct (i <? S - 1)%nat; [congruence|]. apply IHn in H. rewrite app_length in H. cbn in H. lia.
Qed.
Lemma mat_parse_rows_spec : forall str beyond R C n r pos rows,
  mat_parse_rows atof str beyond R C n r pos rows =
  match do_parse atof str beyond (R * C) (n * C) (r * C) pos [] with
  | (Some l, _) => Some (rows ++ chunks C n l)
  | (None, _) => None
  end.
Proof.
  intros str beyond R C n. induction n; intros r pos rows.
  - cbn. now rewrite app_nil_r.
  - cbn [mat_parse_rows Nat.mul]. rewrite mat_parse_row_spec, Nat.add_0_r, do_parse_split.
    destruct (do_parse atof str beyond (R * C) C (r * C) pos []) as [[l|] p] eqn:E; [|reflexivity].
    apply do_parse_length in E. cbn [List.length Nat.add] in E.
    rewrite IHn, (do_parse_acc str beyond (R * C) (n * C) (r * C + C) p l). cbn [fst snd]. rewrite (Nat.add_comm (r * C) C). change (C + r * C)%nat with (S r * C)%nat.
    destruct (do_parse atof str beyond (R * C) (n * C) (S r * C) p []) as [[l'|] p']; cbn [fst snd]; [|reflexivity].
    rewrite <- app_assoc. cbn [app chunks]. rewrite firstn_app, skipn_app, E, Nat.sub_diag. rewrite firstn_all2, skipn_all2 by lia.
    cbn. now rewrite app_nil_r.
Qed.
Lemma nth_chunks : forall C n l r c d, (r < n)%nat -> (c < C)%nat ->
  nth c (nth r (chunks C n l) []) d = nth (r * C + c) l d.
Proof.
  intros C n. induction n; intros l r c d Hr Hc; [lia|]. cbn [chunks]. destruct r.
  - cbn [nth Nat.mul Nat.add]. revert l c Hc. clear. induction C; intros l c Hc; [lia|]. destruct l; [destruct c; reflexivity|].
    destruct c; [reflexivity|]. cbn [firstn nth]. apply IHC. lia.
  - cbn [nth Nat.mul]. rewrite IHn by lia. rewrite <- (firstn_skipn C l) at 2.
    destruct (Nat.le_gt_cases C (List.length l)).
    + rewrite app_nth2 by (rewrite firstn_length; lia). f_equal. rewrite firstn_length. lia.
    + rewrite !nth_overflow; auto. * rewrite app_length, firstn_length, skipn_length. lia. * rewrite skipn_length. lia.
Qed.
Lemma mat_parse_spec : forall R C str beyond ts, reads_tokens atof -> ends_token beyond -> tokenized str ts ->
  mat_parse atof R C str beyond =
  if (R * C <=? List.length ts)%nat
  then Some (map (fun c => map (fun r => atof (nth (r * C + c) ts [])) (seq 0 R)) (seq 0 C)) else None.
Proof.
  intros R C str beyond ts Ha Hb H. unfold mat_parse. rewrite mat_parse_rows_spec. cbn [Nat.mul].
  pose proof (vec_parse_spec (R * C) str beyond ts Ha Hb H) as V. unfold vec_parse in V.
  destruct (do_parse atof str beyond (R * C) (R * C) 0 (Some 0%nat) []) as [[l|] p]; cbn [fst] in V.
  - destruct (R * C <=? List.length ts)%nat eqn:L; [|discriminate]. apply Nat.leb_le in L. inversion V. subst l.
    f_equal. unfold mk_mat. apply map_ext_in. intros c Hc. apply map_ext_in. intros r Hr. apply in_seq in Hc, Hr.
    cbn [app]. rewrite nth_chunks by lia.
    assert (r * C + c < R * C)%nat by nia.
    rewrite (nth_indep _ (cst 0) (atof [])) by (rewrite map_length, firstn_length; lia).
    rewrite map_nth. f_equal. rewrite <- (firstn_skipn (R * C) ts) at 2. rewrite app_nth1; auto. rewrite firstn_length. lia.
  - destruct (R * C <=? List.length ts)%nat; [discriminate|reflexivity].
Qed.

Lemma print_fold : forall (g : nat -> text) n a s,
  fold_left (fun s c => let s := s ++ g c in if (c <? a + n - 1)%nat then s ++ chars " " else s) (seq a n) s =
  s ++ spaced (map g (seq a n)).
Proof.
  intros g n. induction n; intros a s; [cbn; now rewrite app_nil_r|]. cbn [seq fold_left map].
  replace (a + S n - 1)%nat with (S a + n - 1)%nat by lia.
  rewrite IHn. destruct n.
  - cbn [seq map spaced]. rewrite (proj2 (Nat.ltb_ge a (S a + 0 - 1))) by lia. now rewrite app_nil_r.
  - rewrite (proj2 (Nat.ltb_lt a (S a + S n - 1))) by lia. cbn [seq map]. rewrite spaced_cons, <- !app_assoc. reflexivity.
Qed.
Lemma spaced_app : forall a b, a <> [] -> b <> [] -> spaced (a ++ b) = spaced a ++ ascii_of_nat 32 :: spaced b.
Proof.
  induction a as [|t a IH]; intros b Ha Hb; [congruence|]. destruct a as [|u a].
  - destruct b; [congruence|]. reflexivity.
  - cbn [app]. rewrite !spaced_cons. change (u :: a ++ b) with ((u :: a) ++ b). rewrite IH by (auto; discriminate).
    rewrite <- app_assoc. reflexivity.
Qed.
Lemma spaced_spaced : forall ll, Forall (fun l => l <> []) ll -> spaced (map spaced ll) = spaced (List.concat ll).
Proof.
  induction ll as [|l ll IH]; intros H; [reflexivity|]. inversion H; subst. destruct ll as [|l' ll].
  - cbn. now rewrite app_nil_r.
  - cbn [map List.concat]. rewrite spaced_cons. change (l' ++ List.concat ll) with (List.concat (l' :: ll)).
    inversion H3; subst. rewrite spaced_app; auto.
    + rewrite <- IH; auto.
    + cbn. destruct l'; [congruence|discriminate].
Qed.
(** The entries of a matrix row by row *)
Definition row_major (R C : nat) (m : list (list T)) : list T :=
  List.concat (map (fun r => map (fun c => mget m c r) (seq 0 C)) (seq 0 R)).
Lemma mat_print_spec : forall R C m, (0 < C)%nat -> mat_print show R C m = spaced (map show (row_major R C m)).
Proof.
  intros R C m HC. unfold mat_print.
  transitivity (fold_left (fun s r => let s := s ++ spaced (map (fun c => show (mget m c r)) (seq 0 C)) in
    if (r <? 0 + R - 1)%nat then s ++ chars " " else s) (seq 0 R) []).
  - assert (W : forall l s, fold_left (fun s r =>
    let s := fold_left (fun s c =>
      let s := s ++ show (mget m c r) in
      if (c <? C - 1)%nat then s ++ chars " " else s) (seq 0 C) s in
    if (r <? R - 1)%nat then s ++ chars " " else s) l s = fold_left (fun s r => let s := s ++ spaced (map (fun c => show (mget m c r)) (seq 0 C)) in
    if (r <? 0 + R - 1)%nat then s ++ chars " " else s) l s).
    { induction l; intros s; [reflexivity|]. cbn [fold_left]. rewrite IHl. f_equal.
      rewrite (print_fold (fun c => show (mget m c a)) C 0 s). reflexivity. }
    apply W.
  - rewrite print_fold. cbn [app]. unfold row_major. rewrite concat_map, map_map.
    rewrite <- spaced_spaced.
    + rewrite map_map. f_equal. apply map_ext. intros r. now rewrite map_map.
    + apply Forall_forall. intros l Hl. apply in_map_iff in Hl. destruct Hl as (r & E & _). subst. destruct C; [lia|discriminate].
Qed.
Lemma row_major_length : forall R C m, List.length (row_major R C m) = (R * C)%nat.
Proof.
  intros R C m. unfold row_major. generalize 0%nat at 2. induction R; intros a; [reflexivity|].
  cbn [seq map List.concat Nat.mul]. rewrite app_length, IHR, map_length, seq_length. reflexivity.
Qed.
Lemma nth_row_major : forall R C m r c d, (r < R)%nat -> (c < C)%nat -> nth (r * C + c) (row_major R C m) d = mget m c r.
Proof.
  intros R C m r c d Hr Hc. unfold row_major.
  assert (W : forall R a r, (r < R)%nat ->
    nth (r * C + c) (List.concat (map (fun r => map (fun c => mget m c r) (seq 0 C)) (seq a R))) d = mget m c (a + r)).
  { clear Hr r R. induction R; intros a r Hr; [lia|]. cbn [seq map List.concat]. destruct r.
    - cbn [Nat.mul Nat.add]. rewrite app_nth1 by (rewrite map_length, seq_length; lia).
      rewrite (nth_indep _ d (mget m 0 a)) by (rewrite map_length, seq_length; lia).
      set (f := fun c => mget m c a). change (mget m 0 a) with (f 0%nat). rewrite map_nth. rewrite seq_nth by lia. unfold f. now rewrite Nat.add_0_r.
    - rewrite app_nth2 by (rewrite map_length, seq_length; nia). rewrite map_length, seq_length.
      replace (S r * C + c - C)%nat with (r * C + c)%nat by nia. rewrite IHR by lia. f_equal. lia. }
  apply (W R 0%nat r Hr).
Qed.
Lemma mat_parse_print : forall R C m beyond, reads_tokens atof -> prints_tokens show -> ends_token beyond ->
  List.length m = C -> Forall (fun col => List.length col = R) m -> (0 < C)%nat ->
  mat_parse atof R C (mat_print show R C m) beyond = Some (map (map (fun x => atof (show x))) m).
Proof.
  intros R C m beyond Ha Hp Hb HC HR H0. rewrite mat_print_spec by assumption.
  rewrite (mat_parse_spec R C _ _ (map show (row_major R C m)) Ha Hb) by (apply tokenized_spaced, shown_tokens, Hp).
  rewrite map_length, row_major_length, Nat.leb_refl. f_equal.
  assert (W : map (fun c => map (fun r => atof (nth (r * C + c) (map show (row_major R C m)) [])) (seq 0 R)) (seq 0 C) =
    map (fun c => map (fun r => atof (show (mget m c r))) (seq 0 R)) (seq 0 C)).
  { apply map_ext_in. intros c Hc. apply map_ext_in. intros r Hr. apply in_seq in Hc, Hr.
    assert (r * C + c < R * C)%nat by nia.
    rewrite (nth_indep _ [] (show (cst 0))) by (rewrite map_length, row_major_length; lia).
    rewrite map_nth, nth_row_major by lia. reflexivity. }
  etransitivity; [exact W|]. clear W.
  assert (M : forall (A B : Type) (f : A -> B) (l : list A) d, map (fun i => f (nth i l d)) (seq 0 (List.length l)) = map f l).
  { clear. intros A B f l d. induction l; [reflexivity|]. cbn [List.length seq map nth]. f_equal. rewrite <- seq_shift, map_map. exact IHl. }
  rewrite <- HC. rewrite <- (M _ _ (map (fun x => atof (show x))) m []).
  apply map_ext_in. intros c Hc. apply in_seq in Hc. unfold mget, mcol, vget.
  assert (L : List.length (nth c m []) = R). { rewrite Forall_forall in HR. apply HR, nth_In. lia. }
  rewrite <- L. apply (M _ _ (fun x => atof (show x))).
Qed.

(** Lists of vectors *)
Lemma find_ge : forall str set k k', find_first_of str set (Some k) = Some k' -> (k <= k' < k + List.length (skipn k str))%nat.
Proof. intros str set k k' H. apply scan_inv in H. exact H. Qed.
Lemma find_not_ge : forall str set k k', find_first_not_of str set (Some k) = Some k' -> (k <= k' < k + List.length (skipn k str))%nat.
Proof. intros str set k k' H. apply scan_inv in H. exact H. Qed.
Lemma do_parse_mono : forall str beyond S n i k acc r k',
  do_parse atof str beyond S n i (Some k) acc = (r, Some k') -> (k <= k')%nat.
Proof.
  intros str beyond S n. induction n; intros i k acc r k' H; cbn [do_parse] in H.
  - inversion H. lia.
  - destruct (find_first_not_of str blank_vec (Some k)) as [k1|] eqn:E1; [|congruence]. apply find_not_ge in E1.
    destruct (find_first_of str blank_vec (Some k1)) as [k2|] eqn:E2.
    + apply find_ge in E2. apply IHn in H. lia.
    + destruct (i <? S - 1)%nat; [congruence|].
      assert (W : forall n i acc, snd (do_parse atof str beyond S n i None acc) = None).
      { clear. induction n; intros; reflexivity. }
      pose proof (W n (Datatypes.S i) (acc ++ [atof (skipn k1 str ++ beyond)])) as W1. rewrite H in W1. discriminate.
Qed.
Lemma find_differ : forall str set k k1 k2, find_first_of str set (Some k) = Some k1 ->
  find_first_not_of str set (Some k1) = Some k2 -> (k1 < k2)%nat.
Proof.
  intros str set k k1 k2 H1 H2. pose proof (find_ge _ _ _ _ H1) as L1. pose proof (find_not_ge _ _ _ _ H2) as L2.
  destruct (Nat.eq_dec k1 k2) as [E|E]; [|lia]. exfalso. subst k2.
  apply scan_at in H1. apply scan_at in H2. destruct H1 as (c1 & N1 & M1), H2 as (c2 & N2 & M2).
  assert (W : forall (A : Type) (l : list A) k j, nth_error (skipn k l) j = nth_error l (k + j)).
  { clear. intros A l k. revert l. induction k; intros l j; [reflexivity|]. destruct l; [now destruct j|]. apply IHk. }
  rewrite W in N1, N2. replace (k + (k1 - k))%nat with k1 in N1 by lia. replace (k1 + (k1 - k1))%nat with k1 in N2 by lia.
  assert (c1 = c2) by congruence. subst. rewrite M1 in M2. discriminate.
Qed.
Lemma parse_all_terminates : forall S str beyond, exists vs, parse_all atof S str beyond = Ret vs.
Proof.
  intros S str beyond. unfold parse_all.
  assert (W : forall fuel k out, (List.length str < k + fuel)%nat -> (k <= List.length str)%nat ->
    exists vs, parse_all_loop atof fuel S str beyond (Some k) out = Ret vs).
  { induction fuel; intros k out H Hk; [lia|].
    cbn [parse_all_loop]. destruct (do_parse atof str beyond S S 0 (Some k) []) as [r p] eqn:E. cbn [fst snd].
    set (out' := match r with Some v => out ++ [v] | None => out end). clearbody out'.
    destruct p as [k0|]; [|exists out'; destruct fuel; reflexivity]. apply do_parse_mono in E.
    destruct (find_first_of str blank_list (Some k0)) as [k1|] eqn:E1; [|exists out'; destruct fuel; reflexivity].
    destruct (find_first_not_of str blank_list (Some k1)) as [k2|] eqn:E2; [|exists out'; destruct fuel; reflexivity].
    pose proof (find_differ _ _ _ _ _ E1 E2). apply find_ge in E1. apply find_not_ge in E2. rewrite skipn_length in *.
    apply IHfuel; lia. }
  apply W; lia.
Qed.

Lemma begins_app : forall (P : ascii -> Prop) a b, begins P a -> begins P (a ++ b).
Proof. intros P [|c a] b H; [contradiction|exact H]. Qed.
Lemma begins_white_blank : forall s, begins white s -> begins blank s.
Proof. intros [|c s] H; [contradiction|]. now left. Qed.
Lemma begins_spaced : forall v, v <> [] -> prints_numbers show -> begins (fun c => ~ list_separator c) (spaced (map show v)).
Proof.
  intros v Hv Hp. destruct v as [|x v]; [congruence|]. destruct (Hp x) as (_ & Hx). destruct v; [exact Hx|].
  cbn [map]. rewrite spaced_cons. now apply begins_app.
Qed.
Lemma paren_not_sep : ~ list_separator "("%char.
Proof. unfold list_separator, white. intros [[H|[H|[H|H]]]|[H|H]]; discriminate. Qed.
Lemma close_not_sep : ~ list_separator ")"%char.
Proof. unfold list_separator, white. intros [[H|[H|[H|H]]]|[H|H]]; discriminate. Qed.
Lemma begins_printed : forall S vs s, (0 < S)%nat -> prints_numbers show -> printed_list show S vs s ->
  s = [] \/ begins (fun c => ~ list_separator c) s.
Proof.
  intros S vs s HS Hp H. inversion H; subst.
  - now left.
  - right. apply begins_spaced; auto. destruct v; [cbn in HS; lia|discriminate].
  - right. apply paren_not_sep.
  - right. apply begins_app, begins_spaced; auto. destruct v; [cbn in HS; lia|discriminate].
  - right. apply paren_not_sep.
Qed.
Lemma printed_nil : forall S vs, (0 < S)%nat -> prints_numbers show -> printed_list show S vs [] -> vs = [].
Proof.
  intros S vs HS Hp H. remember [] as s eqn:E. destruct H; auto; try discriminate.
  - exfalso. pose proof (begins_spaced v) as B. rewrite E in B. apply B; auto. destruct v; [cbn in *; lia|discriminate].
  - exfalso. apply app_eq_nil in E. destruct E as (E & _).
    pose proof (begins_spaced v) as B. rewrite E in B. apply B; auto. destruct v; [cbn in *; lia|discriminate].
Qed.
Lemma next_vector : forall str k p sep r, skipn k str = p ++ sep ++ r -> Forall (fun c => ~ list_separator c) p ->
  Forall list_separator sep -> sep <> [] -> (r = [] \/ begins (fun c => ~ list_separator c) r) ->
  find_first_not_of str blank_list (find_first_of str blank_list (Some k)) =
  match r with [] => None | _ => Some (k + List.length p + List.length sep)%nat end.
Proof.
  intros str k p sep r H Hp Hs Hn Hr. destruct sep as [|c sep]; [congruence|].
  assert (E : find_first_of str blank_list (Some k) = Some (k + List.length p)%nat).
  { unfold find_first_of. rewrite H. cbn [app]. apply scan_some.
    - eapply Forall_impl; [|exact Hp]. intros a Ha. now apply nonsep_spec.
    - apply sep_spec. now inversion Hs. }
  rewrite E. apply skipn_step in H. unfold find_first_not_of. rewrite H.
  assert (Hs' : Forall (fun c => negb (mem c blank_list) = false) (c :: sep)).
  { eapply Forall_impl; [|exact Hs]. intros a Ha. apply sep_spec in Ha. now rewrite Ha. }
  destruct r as [|d r].
  - rewrite app_nil_r. now apply scan_none.
  - apply scan_some; auto. destruct Hr as [Hr|Hr]; [discriminate|]. cbn in Hr. apply nonsep_spec in Hr. now rewrite Hr.
Qed.
Lemma parse_all_printed : forall S str beyond vs, (0 < S)%nat -> reads_tokens atof -> prints_numbers show ->
  ends_token beyond -> printed_list show S vs str ->
  parse_all atof S str beyond = Ret (map (map (fun x => atof (show x))) vs).
Proof.
  intros S str beyond vs HS Ha Hp Hb H. unfold parse_all.
  assert (Hp' : prints_tokens show). { intros x. apply Hp. }
  assert (Stop : forall fuel out, parse_all_loop atof fuel S str beyond None out = Ret out).
  { intros fuel out. destruct fuel; reflexivity. }
  assert (Step : forall fuel k out v p b rest, skipn k str = b ++ spaced (map show v) ++ rest -> List.length v = S -> Forall blank b ->
    ends_token rest ->
    p = match rest with [] => None | _ => Some (k + (List.length (b ++ spaced (map show v) ++ rest) - List.length rest))%nat end ->
    parse_all_loop atof (Datatypes.S fuel) S str beyond (Some k) out =
    parse_all_loop atof fuel S str beyond (find_first_not_of str blank_list (find_first_of str blank_list p))
      (out ++ [map (fun x => atof (show x)) v])).
  { intros fuel k out v p b rest Hk Hv Hbl Hr Hpp. cbn [parse_all_loop].
    assert (Tk : takes S (b ++ spaced (map show v) ++ rest) (map show v) rest).
    { rewrite <- Hv at 1. rewrite <- (map_length show v). apply takes_spaced; auto.
      - now apply shown_tokens. - destruct v; [cbn in Hv; lia|discriminate]. }
    rewrite (do_parse_takes str beyond S S _ _ _ Ha Hb Tk 0 k []) by (auto; lia). cbn [fst snd app].
    destruct S as [|S']; [lia|]. rewrite map_map, Hpp. reflexivity. }
  assert (W : forall vs s, printed_list show S vs s -> forall fuel k out, skipn k str = s -> (List.length s < fuel)%nat ->
    vs <> [] -> parse_all_loop atof fuel S str beyond (Some k) out = Ret (out ++ map (map (fun x => atof (show x))) vs)).
  { clear H vs. intros vs s H. induction H; intros fuel k out Hk Hf Hvs; [congruence| | | |].
    - destruct fuel; [lia|].
      assert (E1 : skipn k str = [] ++ spaced (map show v) ++ []) by (cbn [app]; rewrite app_nil_r; exact Hk).
      rewrite (Step fuel k out v None [] [] E1); auto; try (now left).
    - destruct fuel; [lia|].
      rewrite (Step fuel k out v (Some (k + (List.length (["("%char] ++ spaced (map show v) ++ [")"%char]) - List.length [")"%char]))%nat)
        ["("%char] [")"%char] Hk H); auto.
      2: { constructor; auto. right. now left. }
      2: { right. right. now right. }
      assert (F : find_first_of str blank_list
       (Some (k + (List.length (["("%char] ++ spaced (map show v) ++ [")"%char]) - List.length [")"%char]))%nat) = None).
      { unfold find_first_of. replace (List.length (["("%char] ++ spaced (map show v) ++ [")"%char]) - List.length [")"%char])%nat
          with (List.length ("("%char :: spaced (map show v))) by (rewrite !app_length; cbn [List.length]; lia).
        rewrite (skipn_step _ str k ("("%char :: spaced (map show v)) [")"%char]) by exact Hk.
        apply scan_none. constructor; auto. }
      rewrite F. apply Stop.
    - destruct fuel; [lia|].
      assert (Hsn : sep <> []). { destruct sep; [contradiction|discriminate]. }
      rewrite (Step fuel k out v (Some (k + List.length (spaced (map show v)))%nat) [] (sep ++ r)); auto.
      2: { right. apply begins_app, begins_white_blank. assumption. }
      2: { destruct sep; [congruence|]. cbn [app]. f_equal. rewrite !app_length. cbn [List.length]. rewrite app_length. lia. }
      pose proof (skipn_step _ _ _ _ _ Hk) as Hk1.
      rewrite (next_vector str _ [] sep r) by (auto; eapply begins_printed; eauto).
      cbn [List.length]. rewrite Nat.add_0_r.
      destruct r as [|c r].
      + apply printed_nil in H2; auto. subst vs. apply Stop.
      + rewrite IHprinted_list; auto.
        * cbn [map]. rewrite <- app_assoc. reflexivity.
        * now apply skipn_step.
        * rewrite !app_length in Hf. destruct sep; [congruence|]. cbn [List.length] in *. lia.
        * intros E. subst vs. inversion H2.
    - destruct fuel; [lia|].
      rewrite (Step fuel k out v (Some (k + List.length ("("%char :: spaced (map show v)))%nat) ["("%char] (")"%char :: sep ++ r) Hk H); auto.
      2: { constructor; auto. right. now left. }
      2: { right. right. now right. }
      2: { f_equal. rewrite !app_length. cbn [List.length]. lia. }
      assert (Hk1 : skipn (k + List.length ("("%char :: spaced (map show v))) str = [")"%char] ++ sep ++ r).
      { apply skipn_step. exact Hk. }
      rewrite (next_vector str _ [")"%char] sep r); auto.
      2: { constructor; auto. apply close_not_sep. }
      2: { eapply begins_printed; eauto. }
      destruct r as [|c r].
      + apply printed_nil in H2; auto. subst vs. apply Stop.
      + rewrite IHprinted_list; auto.
        * cbn [map]. rewrite <- app_assoc. reflexivity.
        * apply skipn_step. apply (skipn_step _ _ _ [")"%char]). exact Hk1.
        * cbn [List.length] in Hf. rewrite !app_length in Hf. cbn [List.length] in *. rewrite app_length in Hf. cbn [List.length] in *. lia.
        * intros E. subst vs. inversion H2. }
  destruct vs as [|v vs].
  - inversion H. subst str. cbn [parse_all_loop List.length]. destruct S; [lia|]. reflexivity.
  - apply (W (v :: vs) str H _ 0%nat []); auto. discriminate.
Qed.
End Proofs.
