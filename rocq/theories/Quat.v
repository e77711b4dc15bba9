(** Quat.v — model of lib/quat.rs (macro define_quat) and lib/dualquat.rs, one definition per method, generic in the
    scalar arithmetic [N].  No proofs here. *)
From Coq Require Import List ZArith Bool.
Import ListNotations.
From Verif Require Import Base Num Vec Mat.

(** quat.rs:15-21  [struct Quat<T> { _x, _y, _z, _w }] *)
Record quat (T : Type) := Q { qx : T; qy : T; qz : T; qw : T }.
Arguments Q {T} qx qy qz qw.
Arguments qx {T} _.
Arguments qy {T} _.
Arguments qz {T} _.
Arguments qw {T} _.

(** dualquat.rs:12-16  [struct DualQuat<T> { _rot, _tra }] *)
Record dualquat (T : Type) := DQ { dq_rot : quat T; dq_tra : quat T }.
Arguments DQ {T} dq_rot dq_tra.
Arguments dq_rot {T} _.
Arguments dq_tra {T} _.

Section Quat.
  Context {N : Num}.
  Local Open Scope num_scope.

  (** quat.rs:25-34 *)
  Definition quat_default : quat N := Q n0 n0 n0 n1.
  (** quat.rs:38-45 *)
  Definition quat_init : quat N := Q n0 n0 n0 n1.
  (** quat.rs:47-59 *)
  Definition quat_init_from_vals_raw (x y z w : N) : quat N := Q x y z w.

  (** quat.rs:306-313 *)
  Definition quat_add (self other : quat N) : quat N :=
    Q (qx self + qx other) (qy self + qy other) (qz self + qz other) (qw self + qw other).
  (** quat.rs:315-322 *)
  Definition quat_minus (self other : quat N) : quat N :=
    Q (qx self - qx other) (qy self - qy other) (qz self - qz other) (qw self - qw other).
  (** quat.rs:324-338 *)
  Definition quat_mul (self other : quat N) : quat N :=
    Q (qw self * qx other + qx self * qw other + qy self * qz other - qz self * qy other)
      (qw self * qy other - qx self * qz other + qy self * qw other + qz self * qx other)
      (qw self * qz other + qx self * qy other - qy self * qx other + qz self * qw other)
      (qw self * qw other - qx self * qx other - qy self * qy other - qz self * qz other).
  (** quat.rs:340-342 *)
  Definition quat_length_squared (self : quat N) : N :=
    qx self * qx self + qy self * qy self + qz self * qz self + qw self * qw self.
  (** quat.rs:344-347 *)
  Definition quat_length (self : quat N) : N :=
    nsqrt N (qx self * qx self + qy self * qy self + qz self * qz self + qw self * qw self).
  (** quat.rs:349-361 *)
  Definition quat_normalize (self : quat N) : res (quat N) :=
    let l := quat_length self in
    if (ngt l n0 || nlt l n0)%bool then Ok (Q (qx self / l) (qy self / l) (qz self / l) (qw self / l))
    else Panic PExplicit.
  (** quat.rs:61-74 *)
  Definition quat_init_from_vals_normalize (x y z w : N) : res (quat N) := quat_normalize (Q x y z w).
  (** quat.rs:76-93 *)
  Definition quat_init_from_vals_auto_w (x y z : N) : quat N :=
    let w := n1 - x * x - y * y - z * z in
    if nlt w n0 then Q x y z w else Q x y z (nlit N (-1) 1 * nsqrt N w).
  (** quat.rs:95-102 *)
  Definition quat_init_from_translation (trans : mat3x1 N) : quat N :=
    match trans with M3x1 (A3 t0 t1 t2) => Q (t0 / n2) (t1 / n2) (t2 / n2) n0 end.
  (** quat.rs:104-149 *)
  Definition quat_to_translation_matrix (self : quat N) (row_major : bool) : mat4 N :=
    if row_major then
      mat4_init (A16 n0 n0 n0 (qx self)
                     n0 n0 n0 (qy self)
                     n0 n0 n0 (qz self)
                     n0 n0 n0 n1) true
    else
      mat4_init (A16 n0 n0 n0 n0
                     n0 n0 n0 n0
                     n0 n0 n0 n0
                     (qx self) (qy self) (qz self) n1) false.
  (** quat.rs:151-197 *)
  Definition quat_to_rotation_matrix (self : quat N) (row_major : bool) : mat4 N :=
    let x := qx self in let y := qy self in let z := qz self in let w := qw self in
    if row_major then
      mat4_init (A16 (n1 - n2 * (y * y + z * z)) (n2 * (x * y - z * w)) (n2 * (x * z + y * w)) n0
                     (n2 * (x * y + z * w)) (n1 - n2 * (x * x + z * z)) (n2 * (y * z - x * w)) n0
                     (n2 * (x * z - y * w)) (n2 * (z * y + x * w)) (n1 - n2 * (x * x + y * y)) n0
                     n0 n0 n0 n1) true
    else
      mat4_init (A16 (n1 - n2 * (y * y + z * z)) (n2 * (x * y + z * w)) (n2 * (x * z - y * w)) n0
                     (n2 * (x * y - z * w)) (n1 - n2 * (x * x + z * z)) (n2 * (z * y + x * w)) n0
                     (n2 * (x * z + y * w)) (n2 * (y * z - x * w)) (n1 - n2 * (x * x + y * y)) n0
                     n0 n0 n0 n1) false.
  (** quat.rs:199-221 *)
  Definition quat_to_axis_angle (self : quat N) : res (mat3x1 N * N) :=
    let k := nsqrt N (n1 - qw self * qw self) in
    if nlt k (nlit N 1 1000000) then Ok (M3x1 (A3 n1 n0 n0), n0)
    else
      let vec_x := qx self / k in
      let vec_y := qy self / k in
      let vec_z := qz self / k in
      let l := nsqrt N (vec_x * vec_x + vec_y * vec_y + vec_z * vec_z) in
      let! _u := assert (nne l n0) in
      Ok (M3x1 (A3 (vec_x / l) (vec_y / l) (vec_z / l)), n2 * nacos N (qw self)).
  (** quat.rs:231-243 *)
  Definition quat_init_from_axis_angle_radian (axis : mat3x1 N) (radians : N) : res (quat N) :=
    let! o := mat3x1_normalize axis in
    let! axis_adjust := unwrap o in
    let sine_half := nsin N (radians / n2) in
    let! a0 := mat3x1_index axis_adjust 0 in
    let! a1 := mat3x1_index axis_adjust 1 in
    let! a2 := mat3x1_index axis_adjust 2 in
    Ok (Q (a0 * sine_half) (a1 * sine_half) (a2 * sine_half) (ncos N (radians / n2))).
  (** quat.rs:223-229 *)
  Definition quat_init_from_axis_angle_degree (axis : mat3x1 N) (angle : N) : res (quat N) :=
    let radians := angle / nlit N 180 1 * npi N in
    quat_init_from_axis_angle_radian axis radians.
  (** quat.rs:402-409 *)
  Definition quat_negate (self : quat N) : quat N := Q (- qx self) (- qy self) (- qz self) (- qw self).
  (** quat.rs:411-418 *)
  Definition quat_conjugate (self : quat N) : quat N := Q (- qx self) (- qy self) (- qz self) (qw self).
  (** quat.rs:420-427 *)
  Definition quat_scale (self : quat N) (s : N) : quat N :=
    Q (qx self * s) (qy self * s) (qz self * s) (qw self * s).
  (** [Quat { _x: p._val[0], _y: p._val[1], _z: p._val[2], _w: 0 }] (quat.rs:247-252, 261-266, 275-280, 291-296) *)
  Definition quat_of_vec (p : mat3x1 N) : quat N :=
    match p with M3x1 (A3 p0 p1 p2) => Q p0 p1 p2 n0 end.
  (** quat.rs:245-258 *)
  Definition quat_rotate_vector (self : quat N) (p : mat3x1 N) : mat3x1 N :=
    let conj := quat_conjugate self in
    let quat_p := quat_of_vec p in
    let temp := quat_mul self quat_p in
    let temp2 := quat_mul temp conj in
    M3x1 (A3 (qx temp2) (qy temp2) (qz temp2)).
  (** quat.rs:260-272 *)
  Definition quat_reflection_in_plane (self : quat N) (p : mat3x1 N) : mat3x1 N :=
    let quat_p := quat_of_vec p in
    let temp := quat_mul self quat_p in
    let temp2 := quat_mul temp self in
    M3x1 (A3 (qx temp2) (qy temp2) (qz temp2)).
  (** quat.rs:274-288 *)
  Definition quat_parallel_component_of_plane (self : quat N) (p : mat3x1 N) : mat3x1 N :=
    let quat_p := quat_of_vec p in
    let temp := quat_mul self quat_p in
    let temp2 := quat_mul temp self in
    let temp3 := quat_add quat_p temp2 in
    let temp4 := quat_scale temp3 (nlit N 1 2) in
    M3x1 (A3 (qx temp4) (qy temp4) (qz temp4)).
  (** quat.rs:290-304 *)
  Definition quat_orthogonal_component_of_plane (self : quat N) (p : mat3x1 N) : mat3x1 N :=
    let quat_p := quat_of_vec p in
    let temp := quat_mul self quat_p in
    let temp2 := quat_mul temp self in
    let temp3 := quat_minus quat_p temp2 in
    let temp4 := quat_scale temp3 (nlit N 1 2) in
    M3x1 (A3 (qx temp4) (qy temp4) (qz temp4)).
  (** quat.rs:363-380 *)
  Definition quat_ln (self : quat N) : res (quat N) :=
    let l := quat_length self in
    let w_ln := nln N (qw self) in
    let vec_length := nsqrt N (qx self * qx self + qy self * qy self + qz self * qz self) in
    let! _u := assert (nne vec_length n0) in
    let vec_x := qx self / vec_length in
    let vec_y := qy self / vec_length in
    let vec_z := qz self / vec_length in
    let s := nacos N (w_ln / l) in
    Ok (Q (vec_x * s) (vec_y * s) (vec_z * s) w_ln).
  (** quat.rs:382-400 *)
  Definition quat_pow (self : quat N) (t : N) : res (quat N) :=
    let vec_length := nsqrt N (qx self * qx self + qy self * qy self + qz self * qz self) in
    let! _u := assert (nne vec_length n0) in
    let vec_x := qx self / vec_length in
    let vec_y := qy self / vec_length in
    let vec_z := qz self / vec_length in
    let l := quat_length self in
    let alpha := nacos N (qw self / l) in
    let beta := t * alpha in
    let coeff := npowf N l t in
    Ok (Q (coeff * vec_x * nsin N beta) (coeff * vec_y * nsin N beta) (coeff * vec_z * nsin N beta)
          (coeff * ncos N beta)).
  (** quat.rs:429-434 *)
  Definition quat_inverse (self : quat N) : res (quat N) :=
    let conj := quat_conjugate self in
    let norm := quat_length_squared conj in
    let! _u := assert (nne norm n0) in
    Ok (quat_scale conj (n1 / norm)).
  (** quat.rs:436-453 *)
  Definition quat_interpolate_linear (start end_ : quat N) (t : N) : quat N :=
    let clamp_upper := if ngt t n1 then n1 else t in
    let clamp := if nlt clamp_upper n0 then n0 else clamp_upper in
    Q (qx start * (n1 - clamp) + qx end_ * clamp)
      (qy start * (n1 - clamp) + qy end_ * clamp)
      (qz start * (n1 - clamp) + qz end_ * clamp)
      (qw start * (n1 - clamp) + qw end_ * clamp).
  (** quat.rs:455-510 *)
  Definition quat_interpolate_slerp (start end_ : quat N) (t : N) : quat N :=
    let t_clamp_upper := if ngt t n1 then n1 else t in
    let t_clamp := if nlt t_clamp_upper n0 then n0 else t_clamp_upper in
    let cos_omega := qw start * qw end_ + qx start * qx end_ + qy start * qy end_ + qz start * qz end_ in
    let cos_omega_adjust := if nlt cos_omega n0 then - cos_omega else cos_omega in
    let end_adjust :=
      if nlt cos_omega n0 then Q (- qx end_) (- qy end_) (- qz end_) (- qw end_)
      else Q (qx end_) (qy end_) (qz end_) (qw end_) in
    let '(k0, k1) :=
      if ngt cos_omega_adjust (nlit N 9999 10000) then (n1 - t_clamp, t_clamp)
      else
        let sin_omega := nsqrt N (n1 - cos_omega * cos_omega) in
        let omega := natan2 N sin_omega cos_omega in
        let inv_sin_omega := n1 / sin_omega in
        (nsin N ((n1 - t_clamp) * omega) * inv_sin_omega, nsin N (t_clamp * omega) * inv_sin_omega) in
    Q (qx start * k0 + qx end_adjust * k1)
      (qy start * k0 + qy end_adjust * k1)
      (qz start * k0 + qz end_adjust * k1)
      (qw start * k0 + qw end_adjust * k1).

  (** dualquat.rs:22-27 *)
  Definition dualquat_init (rotate translate : quat N) : dualquat N := DQ rotate translate.
End Quat.
