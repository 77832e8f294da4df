(** Proofs about shearing, mirroring, projections and box transformations (C34, C66, C67). *)
From Coq Require Import ZArith Reals List Bool Lia Lra Psatz.
From Flocq Require Import Core.
From Verif Require Import Ops M_scalar M_vec M_mat M_quat M_bbox M_matext Inst_XR S_vec S_mat S_det S_rot S_quat S_affine S_bbox.
From Verif Require Import P_ord P_xr P_vec P_vec2 P_mat P_mat2 P_lup P_ldet P_det P_mat3 P_quat P_affine P_rotmat P_components P_nsatz P_cond.
Import ListNotations.
Local Open Scope R_scope.
Notation vS := (map (@Some R)).
Notation mS := (map (map (@Some R))).

Lemma X_shear : forall a b c d e f, shear_matrix (Some a) (Some b) (Some c) (Some d) (Some e) (Some f)
  = mS (M4 1 c e 0 a 1 f 0 b d 1 0 0 0 0 1).
Proof. reflexivity. Qed.
Lemma shear_acts : forall Sxy Sxz Syx Syz Szx Szy x y z,
  m_mul_p 4 (shear_matrix (Some Sxy) (Some Sxz) (Some Syx) (Some Syz) (Some Szx) (Some Szy)) (vS [x; y; z])
  = vS [x + Syx * y + Szx * z; y + Sxy * x + Szy * z; z + Sxz * x + Syz * y].
Proof. intros. rewrite X_shear, act4. apply (f_equal vS). listeq; try reflexivity; ring. Qed.
Lemma mirror_acts : forall a x y z,
  m_mul_p 4 (mirror_matrix a) (vS [x; y; z])
  = vS (match a with 0%nat => [- x; y; z] | 1%nat => [x; - y; z] | 2%nat => [x; y; - z] | _ => [x; y; z] end).
Proof.
  intros a x y z. destruct mirrors_act as (Hx & Hy & Hz).
  destruct a as [|[|[|a]]]; cbn [mirror_matrix]; [apply Hx|apply Hy|apply Hz|].
  change 4%nat with (S 3). rewrite X_m_identity, (X_affine 3) by (apply affine_id || reflexivity).
  f_equal. unfold raffine. cbn. unfold ent, rid, of_ent, delta. cbn. listeq; try reflexivity; ring.
Qed.

(** ** Boxes *)
Lemma X_valid2 : forall a b, length a = length b -> (bb_valid2 (vS a) (vS b) = true <-> Forall2 Rle a b).
Proof.
  induction a; intros [|y b] H; try discriminate; cbn [map bb_valid2].
  - split; auto.
  - cbn [o_lt XRops Xcmp]. destruct (Rlt_bool_spec y a) as [L|L].
    + split; [discriminate|]. intros F. inversion F. lra.
    + rewrite IHa by (now injection H). split; intros F; [now constructor|now inversion F].
Qed.
Lemma blift_valid : forall n b, is_box n b -> bb_is_valid (blift b) = true.
Proof. intros n b (H1 & H2 & H3). unfold bb_is_valid, blift. cbn [bb_min bb_max]. apply X_valid2; congruence. Qed.
Lemma X_bb_size : forall n b, is_box n b -> bb_size (blift b) = Ret (vS (rsize b)).
Proof. intros n b H. unfold bb_size. rewrite (blift_valid n) by auto. cbn [require]. unfold blift. cbn [bb_min bb_max]. now rewrite X_sub. Qed.
Lemma X_v_div : forall a b, Forall (fun x => x <> 0) b -> v_div (vS a) (vS b) = vS (zip Rdiv a b).
Proof.
  induction a; intros [|y b] F; try reflexivity. unfold v_div in *. cbn [map map2 zip]. inversion F.
  rewrite IHa by auto. f_equal. now apply X_div.
Qed.
Lemma zip_length : forall (f : R -> R -> R) a b, length a = length b -> length (zip f a b) = length a.
Proof. induction a; intros [|y b] H; try discriminate; auto. cbn. f_equal. apply IHa. now injection H. Qed.
Lemma rsize_length : forall n b, is_box n b -> length (rsize b) = n.
Proof. intros n b (H1 & H2 & _). unfold rsize, rsub. rewrite zip_length; congruence. Qed.
(** translate by a, scale by f, translate back *)
Lemma around_acts : forall a f c p, length a = 3%nat -> length f = 3%nat -> length c = 3%nat -> length p = 3%nat ->
  m_mul_p 4 (m_mul 4 4 4 (m_mul 4 4 4 (translation_matrix (vS a)) (scaling_matrix (vS f))) (translation_matrix (vS c))) (vS p)
  = vS (radd (zip Rmult f (radd p c)) a).
Proof.
  intros a f c p Ha Hf Hc Hp. rewrite !X_translation, X_scaling. rewrite X_m_mul.
  pose proof (transl_affine a) as A. pose proof (scaling_affine f) as F. pose proof (transl_affine c) as C.
  rewrite ?Ha, ?Hf, ?Hc in *. rewrite (affine_compose 3) by auto using affine_mul.
  rewrite (X_affine 3) by auto. rewrite (X_affine 3) by (auto using affine_mul, raffine_length).
  rewrite raffine_mul by auto using raffine_length. f_equal.
  assert (E1 : raffine 3 (rtransl c) p = radd p c). { rewrite <- Hc. apply raffine_transl. congruence. }
  assert (L1 : length (radd p c) = 3%nat) by (rewrite radd_length; congruence).
  assert (E2 : raffine 3 (rscaling f) (radd p c) = zip Rmult f (radd p c)). { rewrite <- Hf. apply raffine_scaling. congruence. }
  rewrite E1, E2. rewrite <- Ha. rewrite raffine_transl; auto. rewrite zip_length; congruence.
Qed.
Lemma scale_bbox_ok : forall b1 b2, is_box 3 b1 -> is_box 3 b2 -> Forall (fun x => x <> 0) (rsize b1) ->
  exists m, scale_bbox_matrix (blift b1) (blift b2) = Ret m /\
    forall t, length t = 3%nat -> m_mul_p 4 m (vS (box_point b1 t)) = vS (box_point b2 t).
Proof.
  intros b1 b2 H1 H2 N. unfold scale_bbox_matrix. rewrite !(X_bb_size 3) by auto. cbn [bind].
  rewrite X_v_div by auto. eexists. split; [reflexivity|]. intros t Ht.
  pose proof (rsize_length _ _ H1) as S1. pose proof (rsize_length _ _ H2) as S2.
  unfold blift. cbn [bb_min]. rewrite X_neg. destruct b1 as [m1 M1], b2 as [m2 M2].
  destruct H1 as (A1 & A2 & _), H2 as (B1 & B2 & _). cbn [bb_min bb_max] in *.
  rewrite around_acts; auto.
  - f_equal. unfold box_point, rsize, rsub in *. cbn [bb_min bb_max] in *.
    vec3 m1. vec3 M1. vec3 m2. vec3 M2. vec3 t. cbn [zip] in *. inversion N as [|? ? N1 N']. inversion N' as [|? ? N2 N'']. inversion N''.
    unfold radd, rneg. cbn [map zip]. listeq; try reflexivity; field; auto.
  - rewrite zip_length; congruence.
  - unfold rneg. now rewrite map_length.
  - unfold box_point. cbn [bb_min]. rewrite radd_length; auto. rewrite zip_length; congruence.
Qed.
Lemma scale_anchor_ok : forall b ns a, is_box 3 b -> length ns = 3%nat -> length a = 3%nat -> Forall (fun x => x <> 0) (rsize b) ->
  exists m, scale_bbox_matrix_with_anchor (blift b) (vS ns) (vS a) = Ret m /\
    m_mul_p 4 m (vS a) = vS a /\
    (forall p, length p = 3%nat -> m_mul_p 4 m (vS p) = vS (radd a (zip Rmult (zip Rdiv ns (rsize b)) (rsub p a)))) /\
    (forall t, length t = 3%nat ->
      v_sub (m_mul_p 4 m (vS (box_point b t))) (m_mul_p 4 m (vS (bb_min b))) = vS (zip Rmult t ns)).
Proof.
  intros b ns a H Hn Ha N. unfold scale_bbox_matrix_with_anchor. rewrite (X_bb_size 3) by auto. cbn [bind].
  rewrite X_v_div by auto. eexists. split; [reflexivity|].
  pose proof (rsize_length _ _ H) as S1. rewrite X_neg.
  assert (G : forall p, length p = 3%nat -> m_mul_p 4 (m_mul 4 4 4 (m_mul 4 4 4 (translation_matrix (vS a)) (scaling_matrix (vS (zip Rdiv ns (rsize b))))) (translation_matrix (vS (rneg a)))) (vS p)
    = vS (radd a (zip Rmult (zip Rdiv ns (rsize b)) (rsub p a)))).
  { intros p Hp. rewrite around_acts; auto.
    - f_equal. set (f := zip Rdiv ns (rsize b)). assert (Hf : length f = 3%nat) by (unfold f; rewrite zip_length; congruence).
      vec3 f. vec3 p. vec3 a. unfold radd, rneg, rsub. cbn [map zip]. listeq; try reflexivity; ring.
    - rewrite zip_length; congruence.
    - unfold rneg. now rewrite map_length. }
  destruct b as [m1 M1]. destruct H as (A1 & A2 & _). cbn [bb_min bb_max] in *.
  split; [|split]; auto.
  - rewrite G by auto. f_equal. set (f := zip Rdiv _ _). assert (Hf : length f = 3%nat) by (unfold f; rewrite zip_length; congruence).
    vec3 f. vec3 a. unfold radd, rsub. cbn [map zip]. listeq; try reflexivity; ring.
  - intros t Ht. rewrite !G; auto.
    + rewrite X_sub. f_equal. unfold box_point, rsize in *. cbn [bb_min bb_max] in *.
      vec3 m1. vec3 M1. vec3 t. vec3 ns. vec3 a. unfold rsub in *. cbn [zip] in *. inversion N as [|? ? N1 N']. inversion N' as [|? ? N2 N'']. inversion N''.
      unfold radd. cbn [map zip]. listeq; try reflexivity; field; auto.
    + unfold box_point. cbn [bb_min]. rewrite radd_length; auto. rewrite zip_length; congruence.
Qed.
(** ** Shearing a box *)
Lemma about_acts : forall a M c p, length a = 3%nat -> affine 3 M -> length c = 3%nat -> length p = 3%nat ->
  m_mul_p 4 (m_mul 4 4 4 (m_mul 4 4 4 (translation_matrix (vS a)) (mS M)) (translation_matrix (vS c))) (vS p)
  = vS (radd (raffine 3 M (radd p c)) a).
Proof.
  intros a M c p Ha Hf Hc Hp. rewrite !X_translation. rewrite X_m_mul.
  pose proof (transl_affine a) as A. pose proof (transl_affine c) as C.
  rewrite ?Ha, ?Hc in *. rewrite (affine_compose 3) by auto using affine_mul.
  rewrite (X_affine 3) by auto. rewrite (X_affine 3) by (auto using affine_mul, raffine_length).
  rewrite raffine_mul by auto using raffine_length. f_equal.
  assert (E1 : raffine 3 (rtransl c) p = radd p c). { rewrite <- Hc. apply raffine_transl. congruence. }
  rewrite E1. rewrite <- Ha. rewrite raffine_transl; auto. rewrite raffine_length; congruence.
Qed.
Ltac veqs := repeat match goal with
  |- context [v_eq (vS ?a) (vS ?b)] =>
    first [ rewrite (proj2 (X_v_eq a b eq_refl)) by (listeq; try reflexivity; lra)
          | replace (v_eq (vS a) (vS b)) with false
              by (symmetry; apply not_true_iff_false; rewrite X_v_eq by reflexivity; intros E; injection E; intros; lra) ] end.
Lemma raffine_M4 : forall a b c d e f g h i j k l x y z,
  raffine 3 (M4 a b c d e f g h i j k l 0 0 0 1) [x; y; z]
  = [a * x + b * y + c * z + d; e * x + f * y + g * z + h; i * x + j * y + k * z + l].
Proof.
  intros. pose proof (act4 a b c d e f g h i j k l x y z) as E. change 4%nat with (S 3) in E.
  rewrite (X_affine 3) in E; [|apply M4_affine|reflexivity]. now apply map_Some_inj in E.
Qed.
Lemma X_pos : @pos_x3 XR XRops = vS [1; 0; 0] /\ @pos_y3 XR XRops = vS [0; 1; 0] /\ @pos_z3 XR XRops = vS [0; 0; 1].
Proof. repeat split. Qed.
Lemma X_bb_faces : forall m0 m1 m2 M0 M1 M2, is_box 3 (BB [m0; m1; m2] [M0; M1; M2]) ->
  bb_faces (blift (BB [m0; m1; m2] [M0; M1; M2])) = Ret
   [ ([vS [M0; M1; M2]; vS [M0 - 0; M1 - (M1 - m1); M2 - 0]; vS [M0 - 0 - (M0 - m0); M1 - (M1 - m1) - 0; M2 - 0 - 0]; vS [M0 - (M0 - m0); M1 - 0; M2 - 0]], vS [0; 0; 1]);
     ([vS [m0; m1; m2]; vS [m0 + (M0 - m0); m1 + 0; m2 + 0]; vS [m0 + (M0 - m0) + 0; m1 + 0 + (M1 - m1); m2 + 0 + 0]; vS [m0 + 0; m1 + (M1 - m1); m2 + 0]], vS [0; 0; -1]);
     ([vS [m0; m1; m2]; vS [m0 + 0; m1 + 0; m2 + (M2 - m2)]; vS [m0 + 0 + (M0 - m0); m1 + 0 + 0; m2 + (M2 - m2) + 0]; vS [m0 + (M0 - m0); m1 + 0; m2 + 0]], vS [0; -1; 0]);
     ([vS [M0; M1; M2]; vS [M0 - (M0 - m0); M1 - 0; M2 - 0]; vS [M0 - (M0 - m0) - 0; M1 - 0 - 0; M2 - 0 - (M2 - m2)]; vS [M0 - 0; M1 - 0; M2 - (M2 - m2)]], vS [0; 1; 0]);
     ([vS [m0; m1; m2]; vS [m0 + 0; m1 + (M1 - m1); m2 + 0]; vS [m0 + 0 + 0; m1 + (M1 - m1) + 0; m2 + 0 + (M2 - m2)]; vS [m0 + 0; m1 + 0; m2 + (M2 - m2)]], vS [-1; 0; 0]);
     ([vS [M0; M1; M2]; vS [M0 - 0; M1 - 0; M2 - (M2 - m2)]; vS [M0 - 0 - 0; M1 - 0 - (M1 - m1); M2 - (M2 - m2) - 0]; vS [M0 - 0; M1 - (M1 - m1); M2 - 0]], vS [1; 0; 0]) ].
Proof.
  intros m0 m1 m2 M0 M1 M2 H. unfold bb_faces, bb_sides. rewrite (X_bb_size 3) by auto. reflexivity.
Qed.
Lemma rneg3 : forall a b c, rneg [a; b; c] = [- a; - b; - c].
Proof. reflexivity. Qed.
Lemma shear_bbox_ok : forall b i (s : bool) d, is_box 3 b -> (i < 3)%nat -> nth i (rsize b) 0 <> 0 -> length d = 3%nat ->
  let side := map (fun j => if Nat.eqb j i then if s then 1 else -1 else 0) (seq 0 3) in
  let here := nth i (if s then bb_max b else bb_min b) 0 in
  let opposite := nth i (if s then bb_min b else bb_max b) 0 in
  let d' := map (fun j => if Nat.eqb j i then 0 else nth j d 0) (seq 0 3) in
  exists m, shear_bbox_matrix (blift b) (vS side) (vS d) = Ret m /\
    forall p, length p = 3%nat ->
      m_mul_p 4 m (vS p) = vS (radd p (rscale ((nth i p 0 - opposite) / (here - opposite)) d')).
Proof.
  intros b i s d Hb Hi N Hd side here opposite d'. unfold shear_bbox_matrix. rewrite (X_bb_size 3) by auto. cbn [bind].
  assert (Hb' := Hb). destruct b as [m M]. destruct Hb as (L1 & L2 & F). cbn [bb_min bb_max] in *.
  unfold rsize in N |- *. cbn [bb_min bb_max] in N |- *.
  vec3 m. vec3 M. vec3 d. rewrite X_bb_faces by auto. cbn [bind].
  rewrite X_neg. unfold shear_for_side. destruct X_pos as (-> & -> & ->). rewrite !X_neg.
  assert (D3 : forall k, k <> 0 -> v_div_s (vS [d0; d1; d2]) (Some k) = vS [d0 / k; d1 / k; d2 / k]).
  { intros k Hk. rewrite X_div_s by auto. apply (f_equal vS). unfold rscale, Rdiv. cbn [map]. listeq; try reflexivity; ring. }
  unfold rsub in *. cbn [zip] in *.
  change (vx (vS [M0 - m0; M1 - m1; M2 - m2])) with (Some (M0 - m0)).
  change (vy (vS [M0 - m0; M1 - m1; M2 - m2])) with (Some (M1 - m1)).
  change (vz (vS [M0 - m0; M1 - m1; M2 - m2])) with (Some (M2 - m2)).
  destruct i as [|[|[|]]]; try lia; cbn [nth] in N, here, opposite; destruct s;
    (let v := eval cbv [side map seq Nat.eqb] in side in change side with v); rewrite ?rneg3;
    cbn [fold_left snd fst nth]; veqs; rewrite D3 by auto;
    (eexists; split; [reflexivity|]);
    intros p Hp; vec3 p; cbn [cst o_of_Z XRops o_neg X1];
    repeat match goal with |- context [vx (vS [?a; ?b; ?c])] => change (vx (vS [a; b; c])) with (Some a)
      | |- context [vy (vS [?a; ?b; ?c])] => change (vy (vS [a; b; c])) with (Some b)
      | |- context [vz (vS [?a; ?b; ?c])] => change (vz (vS [a; b; c])) with (Some c) end;
    cbn [X1]; rewrite X_shear, X_neg, about_acts by (try apply M4_affine; reflexivity);
    apply (f_equal vS); unfold rneg, radd, rscale, here, opposite, d'; cbn [map zip seq nth Nat.eqb]; rewrite raffine_M4;
    cbn [zip]; listeq; try reflexivity; field; lra.
Qed.
Lemma shear_bbox_bad_side : forall b side d, is_box 3 b -> length side = 3%nat -> length d = 3%nat ->
  ~ In side [[1; 0; 0]; [-1; 0; 0]; [0; 1; 0]; [0; -1; 0]; [0; 0; 1]; [0; 0; -1]] ->
  shear_bbox_matrix (blift b) (vS side) (vS d) = Assert.
Proof.
  intros b side d Hb Hs Hd N. unfold shear_bbox_matrix. rewrite (X_bb_size 3) by auto. cbn [bind].
  assert (Hb' := Hb). destruct b as [m M]. destruct Hb as (L1 & L2 & F). cbn [bb_min bb_max] in *.
  vec3 m. vec3 M. vec3 side. rewrite X_bb_faces by auto. cbn [bind]. rewrite X_neg, rneg3. cbn [fold_left snd fst nth].
  assert (K : forall a b c, In [- a; - b; - c] [[1; 0; 0]; [-1; 0; 0]; [0; 1; 0]; [0; -1; 0]; [0; 0; 1]; [0; 0; -1]] ->
    v_eq (vS [a; b; c]) (vS [- side0; - side1; - side2]) = false).
  { intros a b c I. apply not_true_iff_false. rewrite X_v_eq by reflexivity. intros E. injection E as -> -> ->.
    apply N. replace [side0; side1; side2] with [- - side0; - - side1; - - side2] by (listeq; try reflexivity; ring). exact I. }
  change (vS [- side0; - side1; - side2]) with (vS [- side0; - side1; - side2]) in *.
  rewrite !K; auto; cbn [In];
    replace (- 0) with 0 by ring; replace (- -1) with 1 by ring; replace (- 1) with (-1) by ring; intuition.
Qed.
