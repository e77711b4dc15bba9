(** Vec.v — model of the six vector types of lib/mat.rs (macros define_mat2x1 .. define_mat1x4), one definition per
    method.  Each method is generic in the scalar arithmetic [N].  Straight-line code reads array cells by pattern
    matching.  No proofs here. *)
From Coq Require Import List ZArith Bool.
Import ListNotations.
From Verif Require Import Base Num.


(** mat.rs:18-24  [struct Mat2x1<T> { _val: [T; 2] }] *)
Record mat2x1 (T : Type) := M2x1 { v2x1 : arr2 T }.
Arguments M2x1 {T} v2x1.
Arguments v2x1 {T} _.

(** mat.rs:43-49  [struct Mat1x2<T> { _val: [T; 2] }] *)
Record mat1x2 (T : Type) := M1x2 { v1x2 : arr2 T }.
Arguments M1x2 {T} v1x2.
Arguments v1x2 {T} _.

(** mat.rs:68-74  [struct Mat3x1<T> { _val: [T; 3] }] *)
Record mat3x1 (T : Type) := M3x1 { v3x1 : arr3 T }.
Arguments M3x1 {T} v3x1.
Arguments v3x1 {T} _.

(** mat.rs:94-100  [struct Mat1x3<T> { _val: [T; 3] }] *)
Record mat1x3 (T : Type) := M1x3 { v1x3 : arr3 T }.
Arguments M1x3 {T} v1x3.
Arguments v1x3 {T} _.

(** mat.rs:120-126  [struct Mat4x1<T> { _val: [T; 4] }] *)
Record mat4x1 (T : Type) := M4x1 { v4x1 : arr4 T }.
Arguments M4x1 {T} v4x1.
Arguments v4x1 {T} _.

(** mat.rs:145-151  [struct Mat1x4<T> { _val: [T; 4] }] *)
Record mat1x4 (T : Type) := M1x4 { v1x4 : arr4 T }.
Arguments M1x4 {T} v1x4.
Arguments v1x4 {T} _.

Section Vec.
  Context {N : Num}.
  Local Open Scope num_scope.

  (** ---- Mat2x1 ---- *)
  (** mat.rs:25-42  [Index]/[IndexMut]: [v[i]] *)
  Definition mat2x1_index (self : mat2x1 N) (i : nat) : res N := get2 (v2x1 self) i.
  Definition mat2x1_set (self : mat2x1 N) (i : nat) (x : N) : res (mat2x1 N) :=
    let! a := set2 (v2x1 self) i x in Ok (M2x1 a).
  (** mat.rs:172-178 *)
  Definition mat2x1_default : mat2x1 N := M2x1 (A2 n0 n0).
  (** mat.rs:180-182 *)
  Definition mat2x1_size (self : mat2x1 N) : option nat := Some (length (list2 (v2x1 self))).
  (** mat.rs:183-187 *)
  Definition mat2x1_mul_elem (self other : mat2x1 N) : option (mat2x1 N) :=
    match self, other with M2x1 (A2 a0 a1), M2x1 (A2 b0 b1) =>
      Some (M2x1 (A2 (a0 * b0) (a1 * b1))) end.
  (** mat.rs:188-192 *)
  Definition mat2x1_div (self other : mat2x1 N) : option (mat2x1 N) :=
    match self, other with M2x1 (A2 a0 a1), M2x1 (A2 b0 b1) =>
      Some (M2x1 (A2 (a0 / b0) (a1 / b1))) end.
  (** mat.rs:193-197 *)
  Definition mat2x1_plus (self other : mat2x1 N) : option (mat2x1 N) :=
    match self, other with M2x1 (A2 a0 a1), M2x1 (A2 b0 b1) =>
      Some (M2x1 (A2 (a0 + b0) (a1 + b1))) end.
  (** mat.rs:198-202 *)
  Definition mat2x1_minus (self other : mat2x1 N) : option (mat2x1 N) :=
    match self, other with M2x1 (A2 a0 a1), M2x1 (A2 b0 b1) =>
      Some (M2x1 (A2 (a0 - b0) (a1 - b1))) end.
  (** mat.rs:203-208 *)
  Definition mat2x1_dot (self other : mat2x1 N) : option N :=
    match self, other with M2x1 (A2 a0 a1), M2x1 (A2 b0 b1) =>
      Some (a0 * b0 + a1 * b1) end.
  (** mat.rs:209-212 *)
  Definition mat2x1_cross (self other : mat2x1 N) : option (mat2x1 N) := None.
  (** mat.rs:213-215 *)
  Definition mat2x1_magnitude (self : mat2x1 N) : option N :=
    match self with M2x1 (A2 a0 a1) =>
      Some (nsqrt N (npowi2 a0 + npowi2 a1)) end.
  (** mat.rs:216-224 *)
  Definition mat2x1_normalize (self : mat2x1 N) : res (option (mat2x1 N)) :=
    let! m := unwrap (mat2x1_magnitude self) in
    match self with M2x1 (A2 a0 a1) =>
      Ok (Some (M2x1 (A2 (a0 / m) (a1 / m)))) end.
  (** mat.rs:225-232 *)
  Definition mat2x1_scale (self : mat2x1 N) (s : N) : option (mat2x1 N) :=
    match self with M2x1 (A2 a0 a1) =>
      Some (M2x1 (A2 (a0 * s) (a1 * s))) end.
  (** mat.rs:233-235 *)
  Definition mat2x1_transpose (self : mat2x1 N) : mat1x2 N := M1x2 (v2x1 self).
  (** mat.rs:237-246 *)
  Definition mat2x1_is_equal (self other : mat2x1 N) (error : N) : option bool :=
    match self, other with M2x1 (A2 a0 a1), M2x1 (A2 b0 b1) =>
      Some (nge a0 (b0 - error) && nle a0 (b0 + error)
            && nge a1 (b1 - error) && nle a1 (b1 + error))%bool end.

  (** ---- Mat1x2 ---- *)
  (** mat.rs:50-66  [Index]/[IndexMut]: [v[i]] *)
  Definition mat1x2_index (self : mat1x2 N) (i : nat) : res N := get2 (v1x2 self) i.
  Definition mat1x2_set (self : mat1x2 N) (i : nat) (x : N) : res (mat1x2 N) :=
    let! a := set2 (v1x2 self) i x in Ok (M1x2 a).
  (** mat.rs:252-258 *)
  Definition mat1x2_default : mat1x2 N := M1x2 (A2 n0 n0).
  (** mat.rs:260-262 *)
  Definition mat1x2_size (self : mat1x2 N) : option nat := Some (length (list2 (v1x2 self))).
  (** mat.rs:263-267 *)
  Definition mat1x2_mul_elem (self other : mat1x2 N) : option (mat1x2 N) :=
    match self, other with M1x2 (A2 a0 a1), M1x2 (A2 b0 b1) =>
      Some (M1x2 (A2 (a0 * b0) (a1 * b1))) end.
  (** mat.rs:268-272 *)
  Definition mat1x2_div (self other : mat1x2 N) : option (mat1x2 N) :=
    match self, other with M1x2 (A2 a0 a1), M1x2 (A2 b0 b1) =>
      Some (M1x2 (A2 (a0 / b0) (a1 / b1))) end.
  (** mat.rs:273-277 *)
  Definition mat1x2_plus (self other : mat1x2 N) : option (mat1x2 N) :=
    match self, other with M1x2 (A2 a0 a1), M1x2 (A2 b0 b1) =>
      Some (M1x2 (A2 (a0 + b0) (a1 + b1))) end.
  (** mat.rs:278-282 *)
  Definition mat1x2_minus (self other : mat1x2 N) : option (mat1x2 N) :=
    match self, other with M1x2 (A2 a0 a1), M1x2 (A2 b0 b1) =>
      Some (M1x2 (A2 (a0 - b0) (a1 - b1))) end.
  (** mat.rs:283-288 *)
  Definition mat1x2_dot (self other : mat1x2 N) : option N :=
    match self, other with M1x2 (A2 a0 a1), M1x2 (A2 b0 b1) =>
      Some (a0 * b0 + a1 * b1) end.
  (** mat.rs:289-292 *)
  Definition mat1x2_cross (self other : mat1x2 N) : option (mat1x2 N) := None.
  (** mat.rs:293-295 *)
  Definition mat1x2_magnitude (self : mat1x2 N) : option N :=
    match self with M1x2 (A2 a0 a1) =>
      Some (nsqrt N (npowi2 a0 + npowi2 a1)) end.
  (** mat.rs:296-304 *)
  Definition mat1x2_normalize (self : mat1x2 N) : res (option (mat1x2 N)) :=
    let! m := unwrap (mat1x2_magnitude self) in
    match self with M1x2 (A2 a0 a1) =>
      Ok (Some (M1x2 (A2 (a0 / m) (a1 / m)))) end.
  (** mat.rs:305-312 *)
  Definition mat1x2_scale (self : mat1x2 N) (s : N) : option (mat1x2 N) :=
    match self with M1x2 (A2 a0 a1) =>
      Some (M1x2 (A2 (a0 * s) (a1 * s))) end.
  (** mat.rs:319-321 *)
  Definition mat1x2_transpose (self : mat1x2 N) : mat2x1 N := M2x1 (v1x2 self).
  (** mat.rs:323-332 *)
  Definition mat1x2_is_equal (self other : mat1x2 N) (error : N) : option bool :=
    match self, other with M1x2 (A2 a0 a1), M1x2 (A2 b0 b1) =>
      Some (nge a0 (b0 - error) && nle a0 (b0 + error)
            && nge a1 (b1 - error) && nle a1 (b1 + error))%bool end.

  (** ---- Mat3x1 ---- *)
  (** mat.rs:76-92  [Index]/[IndexMut]: [v[i]] *)
  Definition mat3x1_index (self : mat3x1 N) (i : nat) : res N := get3 (v3x1 self) i.
  Definition mat3x1_set (self : mat3x1 N) (i : nat) (x : N) : res (mat3x1 N) :=
    let! a := set3 (v3x1 self) i x in Ok (M3x1 a).
  (** mat.rs:338-344 *)
  Definition mat3x1_default : mat3x1 N := M3x1 (A3 n0 n0 n0).
  (** mat.rs:346-348 *)
  Definition mat3x1_size (self : mat3x1 N) : option nat := Some (length (list3 (v3x1 self))).
  (** mat.rs:349-357 *)
  Definition mat3x1_mul_elem (self other : mat3x1 N) : option (mat3x1 N) :=
    match self, other with M3x1 (A3 a0 a1 a2), M3x1 (A3 b0 b1 b2) =>
      Some (M3x1 (A3 (a0 * b0) (a1 * b1) (a2 * b2))) end.
  (** mat.rs:358-366 *)
  Definition mat3x1_div (self other : mat3x1 N) : option (mat3x1 N) :=
    match self, other with M3x1 (A3 a0 a1 a2), M3x1 (A3 b0 b1 b2) =>
      Some (M3x1 (A3 (a0 / b0) (a1 / b1) (a2 / b2))) end.
  (** mat.rs:367-375 *)
  Definition mat3x1_plus (self other : mat3x1 N) : option (mat3x1 N) :=
    match self, other with M3x1 (A3 a0 a1 a2), M3x1 (A3 b0 b1 b2) =>
      Some (M3x1 (A3 (a0 + b0) (a1 + b1) (a2 + b2))) end.
  (** mat.rs:376-384 *)
  Definition mat3x1_minus (self other : mat3x1 N) : option (mat3x1 N) :=
    match self, other with M3x1 (A3 a0 a1 a2), M3x1 (A3 b0 b1 b2) =>
      Some (M3x1 (A3 (a0 - b0) (a1 - b1) (a2 - b2))) end.
  (** mat.rs:385-391 *)
  Definition mat3x1_dot (self other : mat3x1 N) : option N :=
    match self, other with M3x1 (A3 a0 a1 a2), M3x1 (A3 b0 b1 b2) =>
      Some (a0 * b0 + a1 * b1 + a2 * b2) end.
  (** mat.rs:392-406 *)
  Definition mat3x1_cross (self other : mat3x1 N) : option (mat3x1 N) :=
    match self, other with M3x1 (A3 a0 a1 a2), M3x1 (A3 b0 b1 b2) =>
      Some (M3x1 (A3 ((a1 * b2) - (a2 * b1)) ((a2 * b0) - (a0 * b2)) ((a0 * b1) - (a1 * b0)))) end.
  (** mat.rs:407-414 *)
  Definition mat3x1_magnitude (self : mat3x1 N) : option N :=
    match self with M3x1 (A3 a0 a1 a2) =>
      Some (nsqrt N (npowi2 a0 + npowi2 a1 + npowi2 a2)) end.
  (** mat.rs:415-424 *)
  Definition mat3x1_normalize (self : mat3x1 N) : res (option (mat3x1 N)) :=
    let! m := unwrap (mat3x1_magnitude self) in
    match self with M3x1 (A3 a0 a1 a2) =>
      Ok (Some (M3x1 (A3 (a0 / m) (a1 / m) (a2 / m)))) end.
  (** mat.rs:425-433 *)
  Definition mat3x1_scale (self : mat3x1 N) (s : N) : option (mat3x1 N) :=
    match self with M3x1 (A3 a0 a1 a2) =>
      Some (M3x1 (A3 (a0 * s) (a1 * s) (a2 * s))) end.
  (** mat.rs:442-444 *)
  Definition mat3x1_transpose (self : mat3x1 N) : mat1x3 N := M1x3 (v3x1 self).
  (** mat.rs:446-457 *)
  Definition mat3x1_is_equal (self other : mat3x1 N) (error : N) : option bool :=
    match self, other with M3x1 (A3 a0 a1 a2), M3x1 (A3 b0 b1 b2) =>
      Some (nge a0 (b0 - error) && nle a0 (b0 + error)
            && nge a1 (b1 - error) && nle a1 (b1 + error)
            && nge a2 (b2 - error) && nle a2 (b2 + error))%bool end.

  (** ---- Mat1x3 ---- *)
  (** mat.rs:102-118  [Index]/[IndexMut]: [v[i]] *)
  Definition mat1x3_index (self : mat1x3 N) (i : nat) : res N := get3 (v1x3 self) i.
  Definition mat1x3_set (self : mat1x3 N) (i : nat) (x : N) : res (mat1x3 N) :=
    let! a := set3 (v1x3 self) i x in Ok (M1x3 a).
  (** mat.rs:463-469 *)
  Definition mat1x3_default : mat1x3 N := M1x3 (A3 n0 n0 n0).
  (** mat.rs:471-473 *)
  Definition mat1x3_size (self : mat1x3 N) : option nat := Some (length (list3 (v1x3 self))).
  (** mat.rs:474-482 *)
  Definition mat1x3_mul_elem (self other : mat1x3 N) : option (mat1x3 N) :=
    match self, other with M1x3 (A3 a0 a1 a2), M1x3 (A3 b0 b1 b2) =>
      Some (M1x3 (A3 (a0 * b0) (a1 * b1) (a2 * b2))) end.
  (** mat.rs:503-511 *)
  Definition mat1x3_div (self other : mat1x3 N) : option (mat1x3 N) :=
    match self, other with M1x3 (A3 a0 a1 a2), M1x3 (A3 b0 b1 b2) =>
      Some (M1x3 (A3 (a0 / b0) (a1 / b1) (a2 / b2))) end.
  (** mat.rs:512-520 *)
  Definition mat1x3_plus (self other : mat1x3 N) : option (mat1x3 N) :=
    match self, other with M1x3 (A3 a0 a1 a2), M1x3 (A3 b0 b1 b2) =>
      Some (M1x3 (A3 (a0 + b0) (a1 + b1) (a2 + b2))) end.
  (** mat.rs:521-529 *)
  Definition mat1x3_minus (self other : mat1x3 N) : option (mat1x3 N) :=
    match self, other with M1x3 (A3 a0 a1 a2), M1x3 (A3 b0 b1 b2) =>
      Some (M1x3 (A3 (a0 - b0) (a1 - b1) (a2 - b2))) end.
  (** mat.rs:530-536 *)
  Definition mat1x3_dot (self other : mat1x3 N) : option N :=
    match self, other with M1x3 (A3 a0 a1 a2), M1x3 (A3 b0 b1 b2) =>
      Some (a0 * b0 + a1 * b1 + a2 * b2) end.
  (** mat.rs:537-551 *)
  Definition mat1x3_cross (self other : mat1x3 N) : option (mat1x3 N) :=
    match self, other with M1x3 (A3 a0 a1 a2), M1x3 (A3 b0 b1 b2) =>
      Some (M1x3 (A3 ((a1 * b2) - (a2 * b1)) ((a2 * b0) - (a0 * b2)) ((a0 * b1) - (a1 * b0)))) end.
  (** mat.rs:552-559 *)
  Definition mat1x3_magnitude (self : mat1x3 N) : option N :=
    match self with M1x3 (A3 a0 a1 a2) =>
      Some (nsqrt N (npowi2 a0 + npowi2 a1 + npowi2 a2)) end.
  (** mat.rs:560-569 *)
  Definition mat1x3_normalize (self : mat1x3 N) : res (option (mat1x3 N)) :=
    let! m := unwrap (mat1x3_magnitude self) in
    match self with M1x3 (A3 a0 a1 a2) =>
      Ok (Some (M1x3 (A3 (a0 / m) (a1 / m) (a2 / m)))) end.
  (** mat.rs:570-578 *)
  Definition mat1x3_scale (self : mat1x3 N) (s : N) : option (mat1x3 N) :=
    match self with M1x3 (A3 a0 a1 a2) =>
      Some (M1x3 (A3 (a0 * s) (a1 * s) (a2 * s))) end.
  (** mat.rs:587-589 *)
  Definition mat1x3_transpose (self : mat1x3 N) : mat3x1 N := M3x1 (v1x3 self).
  (** mat.rs:591-602 *)
  Definition mat1x3_is_equal (self other : mat1x3 N) (error : N) : option bool :=
    match self, other with M1x3 (A3 a0 a1 a2), M1x3 (A3 b0 b1 b2) =>
      Some (nge a0 (b0 - error) && nle a0 (b0 + error)
            && nge a1 (b1 - error) && nle a1 (b1 + error)
            && nge a2 (b2 - error) && nle a2 (b2 + error))%bool end.

  (** ---- Mat4x1 ---- *)
  (** mat.rs:127-143  [Index]/[IndexMut]: [v[i]] *)
  Definition mat4x1_index (self : mat4x1 N) (i : nat) : res N := get4 (v4x1 self) i.
  Definition mat4x1_set (self : mat4x1 N) (i : nat) (x : N) : res (mat4x1 N) :=
    let! a := set4 (v4x1 self) i x in Ok (M4x1 a).
  (** mat.rs:607-613 *)
  Definition mat4x1_default : mat4x1 N := M4x1 (A4 n0 n0 n0 n0).
  (** mat.rs:615-617 *)
  Definition mat4x1_size (self : mat4x1 N) : option nat := Some (length (list4 (v4x1 self))).
  (** mat.rs:618-627 *)
  Definition mat4x1_mul_elem (self other : mat4x1 N) : option (mat4x1 N) :=
    match self, other with M4x1 (A4 a0 a1 a2 a3), M4x1 (A4 b0 b1 b2 b3) =>
      Some (M4x1 (A4 (a0 * b0) (a1 * b1) (a2 * b2) (a3 * b3))) end.
  (** mat.rs:628-637 *)
  Definition mat4x1_div (self other : mat4x1 N) : option (mat4x1 N) :=
    match self, other with M4x1 (A4 a0 a1 a2 a3), M4x1 (A4 b0 b1 b2 b3) =>
      Some (M4x1 (A4 (a0 / b0) (a1 / b1) (a2 / b2) (a3 / b3))) end.
  (** mat.rs:638-647 *)
  Definition mat4x1_plus (self other : mat4x1 N) : option (mat4x1 N) :=
    match self, other with M4x1 (A4 a0 a1 a2 a3), M4x1 (A4 b0 b1 b2 b3) =>
      Some (M4x1 (A4 (a0 + b0) (a1 + b1) (a2 + b2) (a3 + b3))) end.
  (** mat.rs:648-657 *)
  Definition mat4x1_minus (self other : mat4x1 N) : option (mat4x1 N) :=
    match self, other with M4x1 (A4 a0 a1 a2 a3), M4x1 (A4 b0 b1 b2 b3) =>
      Some (M4x1 (A4 (a0 - b0) (a1 - b1) (a2 - b2) (a3 - b3))) end.
  (** mat.rs:658-665 *)
  Definition mat4x1_dot (self other : mat4x1 N) : option N :=
    match self, other with M4x1 (A4 a0 a1 a2 a3), M4x1 (A4 b0 b1 b2 b3) =>
      Some (a0 * b0 + a1 * b1 + a2 * b2 + a3 * b3) end.
  (** mat.rs:666-669 *)
  Definition mat4x1_cross (self other : mat4x1 N) : option (mat4x1 N) := None.
  (** mat.rs:670-678 *)
  Definition mat4x1_magnitude (self : mat4x1 N) : option N :=
    match self with M4x1 (A4 a0 a1 a2 a3) =>
      Some (nsqrt N (npowi2 a0 + npowi2 a1 + npowi2 a2 + npowi2 a3)) end.
  (** mat.rs:679-689 *)
  Definition mat4x1_normalize (self : mat4x1 N) : res (option (mat4x1 N)) :=
    let! m := unwrap (mat4x1_magnitude self) in
    match self with M4x1 (A4 a0 a1 a2 a3) =>
      Ok (Some (M4x1 (A4 (a0 / m) (a1 / m) (a2 / m) (a3 / m)))) end.
  (** mat.rs:690-699 *)
  Definition mat4x1_scale (self : mat4x1 N) (s : N) : option (mat4x1 N) :=
    match self with M4x1 (A4 a0 a1 a2 a3) =>
      Some (M4x1 (A4 (a0 * s) (a1 * s) (a2 * s) (a3 * s))) end.
  (** mat.rs:710-712 *)
  Definition mat4x1_transpose (self : mat4x1 N) : mat1x4 N := M1x4 (v4x1 self).
  (** mat.rs:714-727 *)
  Definition mat4x1_is_equal (self other : mat4x1 N) (error : N) : option bool :=
    match self, other with M4x1 (A4 a0 a1 a2 a3), M4x1 (A4 b0 b1 b2 b3) =>
      Some (nge a0 (b0 - error) && nle a0 (b0 + error)
            && nge a1 (b1 - error) && nle a1 (b1 + error)
            && nge a2 (b2 - error) && nle a2 (b2 + error)
            && nge a3 (b3 - error) && nle a3 (b3 + error))%bool end.

  (** ---- Mat1x4 ---- *)
  (** mat.rs:152-168  [Index]/[IndexMut]: [v[i]] *)
  Definition mat1x4_index (self : mat1x4 N) (i : nat) : res N := get4 (v1x4 self) i.
  Definition mat1x4_set (self : mat1x4 N) (i : nat) (x : N) : res (mat1x4 N) :=
    let! a := set4 (v1x4 self) i x in Ok (M1x4 a).
  (** mat.rs:733-739 *)
  Definition mat1x4_default : mat1x4 N := M1x4 (A4 n0 n0 n0 n0).
  (** mat.rs:741-743 *)
  Definition mat1x4_size (self : mat1x4 N) : option nat := Some (length (list4 (v1x4 self))).
  (** mat.rs:744-753 *)
  Definition mat1x4_mul_elem (self other : mat1x4 N) : option (mat1x4 N) :=
    match self, other with M1x4 (A4 a0 a1 a2 a3), M1x4 (A4 b0 b1 b2 b3) =>
      Some (M1x4 (A4 (a0 * b0) (a1 * b1) (a2 * b2) (a3 * b3))) end.
  (** mat.rs:776-785 *)
  Definition mat1x4_div (self other : mat1x4 N) : option (mat1x4 N) :=
    match self, other with M1x4 (A4 a0 a1 a2 a3), M1x4 (A4 b0 b1 b2 b3) =>
      Some (M1x4 (A4 (a0 / b0) (a1 / b1) (a2 / b2) (a3 / b3))) end.
  (** mat.rs:786-795 *)
  Definition mat1x4_plus (self other : mat1x4 N) : option (mat1x4 N) :=
    match self, other with M1x4 (A4 a0 a1 a2 a3), M1x4 (A4 b0 b1 b2 b3) =>
      Some (M1x4 (A4 (a0 + b0) (a1 + b1) (a2 + b2) (a3 + b3))) end.
  (** mat.rs:796-805 *)
  Definition mat1x4_minus (self other : mat1x4 N) : option (mat1x4 N) :=
    match self, other with M1x4 (A4 a0 a1 a2 a3), M1x4 (A4 b0 b1 b2 b3) =>
      Some (M1x4 (A4 (a0 - b0) (a1 - b1) (a2 - b2) (a3 - b3))) end.
  (** mat.rs:806-813 *)
  Definition mat1x4_dot (self other : mat1x4 N) : option N :=
    match self, other with M1x4 (A4 a0 a1 a2 a3), M1x4 (A4 b0 b1 b2 b3) =>
      Some (a0 * b0 + a1 * b1 + a2 * b2 + a3 * b3) end.
  (** mat.rs:814-817 *)
  Definition mat1x4_cross (self other : mat1x4 N) : option (mat1x4 N) := None.
  (** mat.rs:818-826 *)
  Definition mat1x4_magnitude (self : mat1x4 N) : option N :=
    match self with M1x4 (A4 a0 a1 a2 a3) =>
      Some (nsqrt N (npowi2 a0 + npowi2 a1 + npowi2 a2 + npowi2 a3)) end.
  (** mat.rs:827-837 *)
  Definition mat1x4_normalize (self : mat1x4 N) : res (option (mat1x4 N)) :=
    let! m := unwrap (mat1x4_magnitude self) in
    match self with M1x4 (A4 a0 a1 a2 a3) =>
      Ok (Some (M1x4 (A4 (a0 / m) (a1 / m) (a2 / m) (a3 / m)))) end.
  (** mat.rs:838-847 *)
  Definition mat1x4_scale (self : mat1x4 N) (s : N) : option (mat1x4 N) :=
    match self with M1x4 (A4 a0 a1 a2 a3) =>
      Some (M1x4 (A4 (a0 * s) (a1 * s) (a2 * s) (a3 * s))) end.
  (** mat.rs:858-860 *)
  Definition mat1x4_transpose (self : mat1x4 N) : mat4x1 N := M4x1 (v1x4 self).
  (** mat.rs:862-875 *)
  Definition mat1x4_is_equal (self other : mat1x4 N) (error : N) : option bool :=
    match self, other with M1x4 (A4 a0 a1 a2 a3), M1x4 (A4 b0 b1 b2 b3) =>
      Some (nge a0 (b0 - error) && nle a0 (b0 + error)
            && nge a1 (b1 - error) && nle a1 (b1 + error)
            && nge a2 (b2 - error) && nle a2 (b2 + error)
            && nge a3 (b3 - error) && nle a3 (b3 + error))%bool end.

End Vec.
