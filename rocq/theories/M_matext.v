(** Model of mat_ext.h and vec_ext.h. *)
From Coq Require Import ZArith List Bool Arith.
From Verif Require Import Ops M_scalar M_vec M_mat M_bbox M_quat.
Import ListNotations.
Local Open Scope sc_scope.

(** [for (v : l) result.push_back(f(v))] *)
Definition push_loop {A B} (f : A -> B) (l : list A) : list B :=
  fold_left (fun result v => result ++ [f v]) l [].
(** [for (i = 0; i < N; ++i) result\[i\] = f(l\[i\])] on arrays of N elements *)
Definition array_loop {A B} (dA : A) (dB : B) (N : nat) (f : A -> B) (l : list A) : list B :=
  for_loop N 0 (fun i result => upd result i (f (nth i l dA))) (repeat dB N).

Section MatExt.
Context {T : Type} {o : ops T} {lm : libm T}.

(** * vec_ext.h *)
(** vec_ext.h:39-47 list + vector, 80-83 vector + list *)
Definition lv_add (lhs : list (list T)) (rhs : list T) : list (list T) := push_loop (fun v => v_add v rhs) lhs.
Definition vl_add (lhs : list T) (rhs : list (list T)) : list (list T) := lv_add rhs lhs.
(** vec_ext.h:60-68 array + vector, 96-100 vector + array *)
Definition av_add (S N : nat) (lhs : list (list T)) (rhs : list T) : list (list T) :=
  array_loop (v_zero S) (v_zero S) N (fun v => v_add v rhs) lhs.
Definition va_add (S N : nat) (lhs : list T) (rhs : list (list T)) : list (list T) := av_add S N rhs lhs.
(** vec_ext.h:112-120 list * scalar, 151-154 scalar * list *)
Definition ls_mul (lhs : list (list T)) (rhs : T) : list (list T) := push_loop (fun v => v_scale v rhs) lhs.
Definition sl_mul (lhs : T) (rhs : list (list T)) : list (list T) := ls_mul rhs lhs.
(** vec_ext.h:132-139 array * scalar, 166-169 scalar * array *)
Definition as_mul (S N : nat) (lhs : list (list T)) (rhs : T) : list (list T) :=
  array_loop (v_zero S) (v_zero S) N (fun v => v_scale v rhs) lhs.
Definition sa_mul (S N : nat) (lhs : T) (rhs : list (list T)) : list (list T) := as_mul S N rhs lhs.

(** * mat_ext.h: products with lists. As for single vectors only square matrices are considered. *)
(** mat_ext.h:44-52, 65-73 matrix * list or array of vectors *)
Definition ml_mul (S : nat) (lhs : list (list T)) (rhs : list (list T)) : list (list T) :=
  push_loop (m_mul_v S lhs) rhs.
Definition ma_mul (S N : nat) (lhs : list (list T)) (rhs : list (list T)) : list (list T) :=
  array_loop (v_zero S) (v_zero S) N (m_mul_v S lhs) rhs.
(** mat_ext.h:85-94, 107-115 matrix * list or array of points *)
Definition mlp_mul (S : nat) (lhs : list (list T)) (rhs : list (list T)) : list (list T) :=
  push_loop (m_mul_p S lhs) rhs.
Definition map_mul (S N : nat) (lhs : list (list T)) (rhs : list (list T)) : list (list T) :=
  array_loop (v_zero (S - 1)) (v_zero (S - 1)) N (m_mul_p S lhs) rhs.
(** The loops of the next four, whose element operation has an outcome. *)
Fixpoint push_loopM {A B} (f : A -> outcome B) (l : list A) (result : list B) : outcome (list B) :=
  match l with
  | [] => Ret result
  | v :: l' => do x <- f v; push_loopM f l' (result ++ [x])
  end.
Fixpoint array_loopM {A B} (dA : A) (n i : nat) (f : A -> outcome B) (l : list A) (result : list B)
  : outcome (list B) :=
  match n with
  | O => Ret result
  | Datatypes.S n' => do x <- f (nth i l dA); array_loopM dA n' (Datatypes.S i) f l (upd result i x)
  end.
(** mat_ext.h:127-135, 148-156 list or array of vectors * matrix *)
Definition lm_mul (S : nat) (lhs : list (list T)) (rhs : list (list T)) : outcome (list (list T)) :=
  push_loopM (fun v => v_mul_m S S v rhs) lhs [].
Definition am_mul (S N : nat) (lhs : list (list T)) (rhs : list (list T)) : outcome (list (list T)) :=
  array_loopM (v_zero S) N 0 (fun v => v_mul_m S S v rhs) lhs (repeat (v_zero S) N).
(** mat_ext.h:168-177, 190-198 list or array of points * matrix *)
Definition lpm_mul (S : nat) (lhs : list (list T)) (rhs : list (list T)) : outcome (list (list T)) :=
  push_loopM (fun v => p_mul_m S v rhs) lhs [].
Definition apm_mul (S N : nat) (lhs : list (list T)) (rhs : list (list T)) : outcome (list (list T)) :=
  array_loopM (v_zero (S - 1)) N 0 (fun v => p_mul_m S v rhs) lhs (repeat (v_zero (S - 1)) N).

(** * mat_ext.h: projections *)
(** mat_ext.h:212-227 [perspective_matrix] *)
Definition perspective_matrix (fov nearPlane farPlane : T) (width height : Z) : list (list T) :=
  let vFrustum := f_tan (to_radians fov / cst 2) * lit 3 4 * nearPlane in
  let hFrustum := vFrustum * o_of_Z width / o_of_Z height in
  let depth := farPlane - nearPlane in
  let O := cst 0 in
  m_of_rows 4 4
    [ nearPlane / hFrustum; O; O; O;
      O; nearPlane / vFrustum; O; O;
      O; O; - (farPlane + nearPlane) / depth; - cst 2 * farPlane * nearPlane / depth;
      O; O; - cst 1; O ].
(** mat_ext.h:243-258 [ortho_matrix] *)
Definition ortho_matrix (nearPlane farPlane left top right bottom : T) : list (list T) :=
  let width := right - left in
  let height := top - bottom in
  let depth := farPlane - nearPlane in
  let O := cst 0 in
  m_of_rows 4 4
    [ cst 2 / width; O; O; - (left + right) / width;
      O; cst 2 / height; O; - (top + bottom) / height;
      O; O; - cst 2 / depth; - (farPlane + nearPlane) / depth;
      O; O; O; cst 1 ].
(** mat_ext.h:269-281 [view_matrix] *)
Definition view_matrix (direction up : list T) : list (list T) :=
  let f := direction in
  let s := v_cross f up in
  let u := v_cross s f in
  let O := cst 0 in
  m_of_rows 4 4
    [ vget s 0; vget s 1; vget s 2; O;
      vget u 0; vget u 1; vget u 2; O;
      - vget f 0; - vget f 1; - vget f 2; O;
      O; O; O; cst 1 ].

(** * mat_ext.h: rotations *)
(** mat_ext.h:293-310 [rotation_matrix] of roll, pitch and yaw *)
Definition rotation_rpy (roll pitch yaw : T) : list (list T) :=
  let I := cst 1 in
  let O := cst 0 in
  let Cr := f_cos roll in
  let Sr := f_sin roll in
  let R := m_of_rows 4 4 [I; O; O; O;  O; Cr; - Sr; O;  O; Sr; Cr; O;  O; O; O; I] in
  let Cp := f_cos pitch in
  let Sp := f_sin pitch in
  let P := m_of_rows 4 4 [Cp; O; Sp; O;  O; I; O; O;  - Sp; O; Cp; O;  O; O; O; I] in
  let Cy := f_cos yaw in
  let Sy := f_sin yaw in
  let Y := m_of_rows 4 4 [Cy; - Sy; O; O;  Sy; Cy; O; O;  O; O; I; O;  O; O; O; I] in
  m_mul 4 4 4 (m_mul 4 4 4 Y P) R.
(** mat_ext.h:320-345 [rotation_matrix_to_euler_angles] *)
Definition rotation_matrix_to_euler_angles (rotMat : list (list T)) : list T :=
  if sc_abs (mget rotMat 0 2) <>? cst 1 then
    let theta := - f_asin (mget rotMat 0 2) in
    let cosTheta := f_cos theta in
    let psi := f_atan2 (mget rotMat 1 2 / cosTheta) (mget rotMat 2 2 / cosTheta) in
    let phi := f_atan2 (mget rotMat 0 1 / cosTheta) (mget rotMat 0 0 / cosTheta) in
    [psi; theta; phi]
  else
    let phi := cst 0 in
    if mget rotMat 0 2 =? cst (-1) then
      let theta := half_pi in
      let psi := f_atan2 (mget rotMat 1 0) (mget rotMat 2 0) in
      [psi; theta; phi]
    else
      let theta := - half_pi in
      let psi := f_atan2 (- mget rotMat 1 0) (- mget rotMat 2 0) in
      [psi; theta; phi].
(** mat_ext.h:356-379 [rotation_matrix] of axis and angle *)
Definition rotation_axis_angle (axis : list T) (angle : T) : list (list T) :=
  let s := f_sin (- angle) in
  let c := f_cos (- angle) in
  let i := cst 1 - c in
  let ix := i * vget axis 0 in
  let ix2 := ix * vget axis 0 in
  let ixy := ix * vget axis 1 in
  let ixz := ix * vget axis 2 in
  let iy := i * vget axis 1 in
  let iy2 := iy * vget axis 1 in
  let iyz := iy * vget axis 2 in
  let iz2 := i * vget axis 2 * vget axis 2 in
  let sx := s * vget axis 0 in
  let sy := s * vget axis 1 in
  let sz := s * vget axis 2 in
  let O := cst 0 in
  m_of_rows 4 4
    [ ix2 + c; ixy + sz; ixz - sy; O;
      ixy - sz; iy2 + c; iyz + sx; O;
      ixz + sy; iyz - sx; iz2 + c; O;
      O; O; O; cst 1 ].
(** mat_ext.h:390-407 [rotation_matrix] of a quaternion *)
Definition rotation_quat (q : quat T) : list (list T) :=
  let x := vget (q_v q) 0 in
  let y := vget (q_v q) 1 in
  let z := vget (q_v q) 2 in
  let w := q_r q in
  let x2 := x * x in
  let y2 := y * y in
  let z2 := z * z in
  let one := cst 1 in
  let two := cst 2 in
  let O := cst 0 in
  m_of_rows 4 4
    [ one - two * (y2 + z2); two * (x * y - z * w); two * (x * z + y * w); O;
      two * (x * y + z * w); one - two * (x2 + z2); two * (y * z - x * w); O;
      two * (x * z - y * w); two * (y * z + x * w); one - two * (x2 + y2); O;
      O; O; O; one ].
(** mat_ext.h:418-421 [rotation_matrix] of two vectors *)
Definition rotation_from_to (from to : list T) : outcome (list (list T)) :=
  do q <- q_from_to from to; Ret (rotation_quat q).

(** * mat_ext.h: translation, scaling, mirroring *)
(** mat_ext.h:431-438 [translation_matrix] of a vector *)
Definition translation_matrix (delta : list T) : list (list T) :=
  let S := length delta in
  for_loop S 0 (fun i m => mput m S i (vget delta i)) (m_identity (S + 1) (S + 1)).
(** mat_ext.h:448-455 [translation_matrix] of a matrix *)
Definition translation_of (S : nat) (m : list (list T)) : list (list T) :=
  for_loop (S - 1) 0 (fun i r => mput r (S - 1) i (mget m (S - 1) i)) (m_identity S S).
(** mat_ext.h:465-472 [strip_translation] *)
Definition strip_translation (S : nat) (m : list (list T)) : list (list T) :=
  for_loop (S - 1) 0 (fun i r => mput r (S - 1) i (cst 0)) m.
(** mat_ext.h:482-489 [scaling_matrix] *)
Definition scaling_matrix (factors : list T) : list (list T) :=
  let S := length factors in
  for_loop S 0 (fun i m => mput m i i (vget factors i)) (m_identity (S + 1) (S + 1)).
(** mat_ext.h:498-509 [mirror_matrix] *)
Definition mirror_matrix (axis : nat) : list (list T) :=
  match axis with
  | 0%nat => mirror_x
  | 1%nat => mirror_y
  | 2%nat => mirror_z
  | _ => m_identity 4 4
  end.

(** * mat_ext.h: coordinate systems *)
(** mat_ext.h:525-532 [coordinate_system_matrix] *)
Definition coordinate_system_matrix (x y z p : list T) : outcome (list (list T)) :=
  let O := cst 0 in
  let result := m_invert 4 (m_of_rows 4 4
    [ vget x 0; vget y 0; vget z 0; vget p 0;
      vget x 1; vget y 1; vget z 1; vget p 1;
      vget x 2; vget y 2; vget z 2; vget p 2;
      O; O; O; cst 1 ]) in
  require (fst result) (Ret (snd result)).
(** mat_ext.h:545-569 [plane_projection_matrix] *)
Definition plane_projection_matrix (distance : T) (normal direction : list T) : outcome (list (list T)) :=
  do c <- find_abs_max_component normal 0;
  let xAxis := v_normalize (v_cross normal (if Nat.eqb c 0 then pos_z3 else pos_x3)) in
  let yAxis := v_normalize (v_cross normal xAxis) in
  let zAxis := direction in
  require (v_is_unit xAxis almost_zero)
    (require (v_is_unit yAxis almost_zero)
      (require (v_is_unit zAxis almost_zero)
        (coordinate_system_matrix xAxis yAxis zAxis (v_scale_l distance normal)))).
(** mat_ext.h:581-584 *)
Definition plane_projection_matrix_n (distance : T) (normal : list T) : outcome (list (list T)) :=
  plane_projection_matrix distance normal normal.
(** mat_ext.h:606-610 [shear_matrix] *)
Definition shear_matrix (Sxy Sxz Syx Syz Szx Szy : T) : list (list T) :=
  let I := cst 1 in
  let O := cst 0 in
  m_of_rows 4 4 [I; Syx; Szx; O;  Sxy; I; Szy; O;  Sxz; Syz; I; O;  O; O; O; I].

(** * mat_ext.h: transformations of bounding boxes and points *)
(** mat_ext.h:613-618 [scale_bbox_matrix] *)
Definition scale_bbox_matrix (oldBBox newBBox : bbox T) : outcome (list (list T)) :=
  do newSize <- bb_size newBBox;
  do oldSize <- bb_size oldBBox;
  let scaleFactors := v_div newSize oldSize in
  Ret (m_mul 4 4 4 (m_mul 4 4 4 (translation_matrix (bb_min newBBox)) (scaling_matrix scaleFactors))
         (translation_matrix (v_neg (bb_min oldBBox)))).
(** mat_ext.h:621-627 [scale_bbox_matrix_with_anchor] *)
Definition scale_bbox_matrix_with_anchor (oldBBox : bbox T) (newSize anchorPoint : list T)
  : outcome (list (list T)) :=
  do oldSize <- bb_size oldBBox;
  let scaleFactors := v_div newSize oldSize in
  Ret (m_mul 4 4 4 (m_mul 4 4 4 (translation_matrix anchorPoint) (scaling_matrix scaleFactors))
         (translation_matrix (v_neg anchorPoint))).
(** mat_ext.h:636-655: the shear for the given side *)
Definition shear_for_side (oldSize sideToShear delta : list T) : list (list T) :=
  let O := cst 0 in
  if v_eq sideToShear pos_x3 then
    let relativeDelta := v_div_s delta (vx oldSize) in
    shear_matrix (vy relativeDelta) (vz relativeDelta) O O O O
  else if v_eq sideToShear (v_neg pos_x3) then
    let relativeDelta := v_div_s delta (vx oldSize) in
    shear_matrix (- vy relativeDelta) (- vz relativeDelta) O O O O
  else if v_eq sideToShear pos_y3 then
    let relativeDelta := v_div_s delta (vy oldSize) in
    shear_matrix O O (vx relativeDelta) (vz relativeDelta) O O
  else if v_eq sideToShear (v_neg pos_y3) then
    let relativeDelta := v_div_s delta (vy oldSize) in
    shear_matrix O O (- vx relativeDelta) (- vz relativeDelta) O O
  else if v_eq sideToShear pos_z3 then
    let relativeDelta := v_div_s delta (vz oldSize) in
    shear_matrix O O O O (vx relativeDelta) (vy relativeDelta)
  else if v_eq sideToShear (v_neg pos_z3) then
    let relativeDelta := v_div_s delta (vz oldSize) in
    shear_matrix O O O O (- vx relativeDelta) (- vy relativeDelta)
  else m_identity 4 4.
(** mat_ext.h:630-674 [shear_bbox_matrix] *)
Definition shear_bbox_matrix (box : bbox T) (sideToShear delta : list T) : outcome (list (list T)) :=
  do oldSize <- bb_size box;
  let shearMat := shear_for_side oldSize sideToShear delta in
  let sideOppositeToShearSide := v_neg sideToShear in
  do faces <- bb_faces box;
  let grab :=
    fold_left (fun g face =>
      if v_eq (snd face) sideOppositeToShearSide then Some (nth 0 (fst face) []) else g) faces None in
  match grab with
  | None => Assert
  | Some vertOnOppositeSide =>
    Ret (m_mul 4 4 4 (m_mul 4 4 4 (translation_matrix vertOnOppositeSide) shearMat)
           (translation_matrix (v_neg vertOnOppositeSide)))
  end.
(** mat_ext.h:694-744 [points_transformation_matrix] of four points each *)
Definition points_transformation_matrix4 (p0In p1In p2In p3In p0Out p1Out p2Out p3Out : list T)
  : list (list T) :=
  let vec0In := v_sub p1In p0In in
  let vec1In := v_sub p2In p0In in
  let vec2In := v_sub p3In p0In in
  let vec0Out := v_sub p1Out p0Out in
  let vec1Out := v_sub p2Out p0Out in
  let vec2Out := v_sub p3Out p0Out in
  let B := v_init_list 9
    [ vx vec0Out; vy vec0Out; vz vec0Out; vx vec1Out; vy vec1Out; vz vec1Out;
      vx vec2Out; vy vec2Out; vz vec2Out ] in
  let O := cst 0 in
  let A := m_of_rows 9 9
    [ vx vec0In; vy vec0In; vz vec0In; O; O; O; O; O; O;
      O; O; O; vx vec0In; vy vec0In; vz vec0In; O; O; O;
      O; O; O; O; O; O; vx vec0In; vy vec0In; vz vec0In;
      vx vec1In; vy vec1In; vz vec1In; O; O; O; O; O; O;
      O; O; O; vx vec1In; vy vec1In; vz vec1In; O; O; O;
      O; O; O; O; O; O; vx vec1In; vy vec1In; vz vec1In;
      vx vec2In; vy vec2In; vz vec2In; O; O; O; O; O; O;
      O; O; O; vx vec2In; vy vec2In; vz vec2In; O; O; O;
      O; O; O; O; O; O; vx vec2In; vy vec2In; vz vec2In ] in
  let '(success, X) := lup_solve 9 A B in
  if negb success then m_fill 4 4 o_nan
  else
    let xform := m_of_rows 4 4
      [ vget X 0; vget X 1; vget X 2; O;
        vget X 3; vget X 4; vget X 5; O;
        vget X 6; vget X 7; vget X 8; O;
        O; O; O; cst 1 ] in
    m_mul 4 4 4 (m_mul 4 4 4 (translation_matrix p0Out) xform) (translation_matrix (v_neg p0In)).
(** mat_ext.h:762-775 [points_transformation_matrix] of three points each *)
Definition points_transformation_matrix3 (p0In p1In p2In p0Out p1Out p2Out : list T) : list (list T) :=
  let offPlaneIn := v_add p0In (v_normalize (v_cross (v_sub p1In p0In) (v_sub p2In p0In))) in
  let offPlaneOut := v_add p0Out (v_normalize (v_cross (v_sub p1Out p0Out) (v_sub p2Out p0Out))) in
  points_transformation_matrix4 p0In p1In p2In offPlaneIn p0Out p1Out p2Out offPlaneOut.
End MatExt.
