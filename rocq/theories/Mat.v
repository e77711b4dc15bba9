(** Mat.v — model of the square matrices Mat3 and Mat4 of lib/mat.rs (macros define_mat3, define_mat4) and of the
    row-vector * matrix products.  One definition per method, generic in the scalar arithmetic [N].
    Counted loops are folds over the same index ranges with in-place array writes.  No proofs here. *)
From Coq Require Import List ZArith NArith Bool.
Import ListNotations.
From Verif Require Import Base Num Vec.

(** mat.rs:879-886  [struct Mat3<T> { _val: [T; 9], _is_row_major: bool }] *)
Record mat3 (T : Type) := M3 { m3_val : arr9 T; m3_rm : bool }.
Arguments M3 {T} m3_val m3_rm.
Arguments m3_val {T} _.
Arguments m3_rm {T} _.

(** mat.rs:1197-1204  [struct Mat4<T> { _val: [T; 16], _is_row_major: bool }] *)
Record mat4 (T : Type) := M4 { m4_val : arr16 T; m4_rm : bool }.
Arguments M4 {T} m4_val m4_rm.
Arguments m4_val {T} _.
Arguments m4_rm {T} _.

(** The index arithmetic of [index]/[index_mut] (mat.rs:930-934, 938-942, 1250-1254, 1258-1262):
    row major [m * dim + n], column major [m + n * dim], in usize arithmetic ([chk]: overflow checks on). *)
Definition lin_index (chk : bool) (dim : N) (row_major : bool) (m n : N) : res N :=
  if row_major then let! p := usize_mul chk m dim in usize_add chk p n
  else let! p := usize_mul chk n dim in usize_add chk m p.

Section Mat.
  Context {N : Num}.
  Local Open Scope num_scope.

  (** ---------------- Mat3 ---------------- *)
  (** [self._val[i]] and [self._val[i] = x] *)
  Definition mat3_raw (self : mat3 N) (i : nat) : res N := get9 (m3_val self) i.
  Definition mat3_raw_set (self : mat3 N) (i : nat) (x : N) : res (mat3 N) :=
    let! a := set9 (m3_val self) i x in Ok (M3 a (m3_rm self)).
  Definition mat3_zero : arr9 N := A9 n0 n0 n0 n0 n0 n0 n0 n0 n0.

  (** mat.rs:890-897 *)
  Definition mat3_default : mat3 N := M3 mat3_zero true.
  (** mat.rs:900-913 *)
  Definition mat3_init (arr : arr9 N) (row_major : bool) : mat3 N :=
    match row_major with
    | true => M3 arr true
    | false =>
        match arr with A9 a0 a1 a2 a3 a4 a5 a6 a7 a8 =>
          M3 (A9 a0 a3 a6 a1 a4 a7 a2 a5 a8) false
        end
    end.
  (** mat.rs:914-923 *)
  Definition mat3_iden : res (mat3 N) :=
    for_range 3 (fun i m => mat3_raw_set m (i * 3 + i)%nat n1) (M3 mat3_zero true).
  (** mat.rs:925-927 *)
  Definition mat3_trace (self : mat3 N) : N :=
    match m3_val self with A9 a0 a1 a2 a3 a4 a5 a6 a7 a8 => a0 + a4 + a8 end.
  (** mat.rs:929-935 *)
  Definition mat3_index (chk : bool) (self : mat3 N) (m n : BinNums.N) : res N :=
    let! i := lin_index chk 3 (m3_rm self) m n in idxN (list9 (m3_val self)) i.
  (** mat.rs:937-943, used as [*self.index_mut(m, n) = x] *)
  Definition mat3_set (chk : bool) (self : mat3 N) (m n : BinNums.N) (x : N) : res (mat3 N) :=
    let! i := lin_index chk 3 (m3_rm self) m n in
    if (i <? 9)%N then mat3_raw_set self (BinNatDef.N.to_nat i) x else Panic PIndex.
  (** mat.rs:945-947 *)
  Definition mat3_size (self : mat3 N) : option nat := Some (length (list9 (m3_val self))).
  (** mat.rs:949-964 *)
  Definition mat3_mul_elem (self other : mat3 N) : option (mat3 N) :=
    match m3_val self, m3_val other with
    | A9 a0 a1 a2 a3 a4 a5 a6 a7 a8,
      A9 b0 b1 b2 b3 b4 b5 b6 b7 b8 =>
        Some (M3 (A9 (a0 * b0) (a1 * b1) (a2 * b2) (a3 * b3) (a4 * b4) (a5 * b5) (a6 * b6) (a7 * b7) (a8 * b8)) (m3_rm self))
    end.
  (** mat.rs:965-996 *)
  Definition mat3_mul (self other : mat3 N) : res (option (mat3 N)) :=
    let! _u := assert (Bool.eqb (m3_rm self) (m3_rm other)) in
    let m := M3 mat3_zero (m3_rm self) in
    let! m :=
      if m3_rm self then
        for_range 3 (fun y m =>
          for_range 3 (fun x m =>
            let! s0 := get9 (m3_val self) (y * 3 + 0)%nat in let! o0 := get9 (m3_val other) (x + 0)%nat in
            let! s1 := get9 (m3_val self) (y * 3 + 1)%nat in let! o1 := get9 (m3_val other) (x + 3)%nat in
            let! s2 := get9 (m3_val self) (y * 3 + 2)%nat in let! o2 := get9 (m3_val other) (x + 6)%nat in
            mat3_raw_set m (y * 3 + x)%nat (s0 * o0 + s1 * o1 + s2 * o2)) m) m
      else
        for_range 3 (fun x m =>
          for_range 3 (fun y m =>
            let! s0 := get9 (m3_val self) (y + 0)%nat in let! o0 := get9 (m3_val other) (x * 3 + 0)%nat in
            let! s1 := get9 (m3_val self) (y + 3)%nat in let! o1 := get9 (m3_val other) (x * 3 + 1)%nat in
            let! s2 := get9 (m3_val self) (y + 6)%nat in let! o2 := get9 (m3_val other) (x * 3 + 2)%nat in
            mat3_raw_set m (x * 3 + y)%nat (s0 * o0 + s1 * o1 + s2 * o2)) m) m in
    Ok (Some m).
  (** mat.rs:997-1018 *)
  Definition mat3_mul_mat3x1 (self : mat3 N) (other : mat3x1 N) : res (option (mat3x1 N)) :=
    let m := mat3x1_default in
    let! m :=
      if m3_rm self then
        for_range 3 (fun y m =>
          let! s0 := get9 (m3_val self) (y * 3 + 0)%nat in let! o0 := get3 (v3x1 other) 0 in
          let! s1 := get9 (m3_val self) (y * 3 + 1)%nat in let! o1 := get3 (v3x1 other) 1 in
          let! s2 := get9 (m3_val self) (y * 3 + 2)%nat in let! o2 := get3 (v3x1 other) 2 in
          mat3x1_set m y (s0 * o0 + s1 * o1 + s2 * o2)) m
      else
        for_range 3 (fun x m =>
          let! s0 := get9 (m3_val self) (x + 0)%nat in let! o0 := get3 (v3x1 other) 0 in
          let! s1 := get9 (m3_val self) (x + 3)%nat in let! o1 := get3 (v3x1 other) 1 in
          let! s2 := get9 (m3_val self) (x + 6)%nat in let! o2 := get3 (v3x1 other) 2 in
          mat3x1_set m x (s0 * o0 + s1 * o1 + s2 * o2)) m in
    Ok (Some m).
  (** mat.rs:1020-1035 *)
  Definition mat3_div (self other : mat3 N) : option (mat3 N) :=
    match m3_val self, m3_val other with
    | A9 a0 a1 a2 a3 a4 a5 a6 a7 a8,
      A9 b0 b1 b2 b3 b4 b5 b6 b7 b8 =>
        Some (M3 (A9 (a0 / b0) (a1 / b1) (a2 / b2) (a3 / b3) (a4 / b4) (a5 / b5) (a6 / b6) (a7 / b7) (a8 / b8)) (m3_rm self))
    end.
  (** mat.rs:1037-1052 *)
  Definition mat3_plus (self other : mat3 N) : option (mat3 N) :=
    match m3_val self, m3_val other with
    | A9 a0 a1 a2 a3 a4 a5 a6 a7 a8,
      A9 b0 b1 b2 b3 b4 b5 b6 b7 b8 =>
        Some (M3 (A9 (a0 + b0) (a1 + b1) (a2 + b2) (a3 + b3) (a4 + b4) (a5 + b5) (a6 + b6) (a7 + b7) (a8 + b8)) (m3_rm self))
    end.
  (** mat.rs:1054-1069 *)
  Definition mat3_minus (self other : mat3 N) : option (mat3 N) :=
    match m3_val self, m3_val other with
    | A9 a0 a1 a2 a3 a4 a5 a6 a7 a8,
      A9 b0 b1 b2 b3 b4 b5 b6 b7 b8 =>
        Some (M3 (A9 (a0 - b0) (a1 - b1) (a2 - b2) (a3 - b3) (a4 - b4) (a5 - b5) (a6 - b6) (a7 - b7) (a8 - b8)) (m3_rm self))
    end.
  (** mat.rs:1071-1073 *)
  Definition mat3_dot (self other : mat3 N) : option N := None.
  (** mat.rs:1075-1077 *)
  Definition mat3_cross (self other : mat3 N) : option (mat3 N) := None.
  (** mat.rs:1078-1080 *)
  Definition mat3_magnitude (self : mat3 N) : res (option N) := Panic PUnimplemented.
  (** mat.rs:1081-1091  divides every cell by the (current) last cell *)
  Definition mat3_normalize (self : mat3 N) : res (option (mat3 N)) :=
    let! m := for_range 9 (fun x m =>
      let! a := mat3_raw m x in let! l := mat3_raw m 8 in mat3_raw_set m x (a / l))
      (M3 (m3_val self) (m3_rm self)) in
    Ok (Some m).
  (** mat.rs:1092-1101 *)
  Definition mat3_scale (self : mat3 N) (s : N) : res (option (mat3 N)) :=
    let! m := for_range 9 (fun x m =>
      let! a := mat3_raw m x in mat3_raw_set m x (a * s))
      (M3 (m3_val self) (m3_rm self)) in
    Ok (Some m).
  (** mat.rs:1115-1126  mutates [self]: the new value is returned *)
  Definition mat3_transpose_self (self : mat3 N) : res (mat3 N) :=
    let copy := m3_val self in
    for_range 9 (fun i m =>
      let! c := get9 copy i in
      if (i <? 3)%nat then mat3_raw_set m (i * 3)%nat c
      else if ((3 <=? i)%nat && (i <? 6)%nat)%bool then mat3_raw_set m ((i - 3) * 3 + 1)%nat c
      else mat3_raw_set m ((i - 6) * 3 + 2)%nat c) self.
  (** mat.rs:1127-1142 *)
  Definition mat3_transpose (self : mat3 N) : res (mat3 N) :=
    let copy := M3 (m3_val self) (m3_rm self) in
    for_range 9 (fun i m =>
      let! c := get9 (m3_val self) i in
      if (i <? 3)%nat then mat3_raw_set m (i * 3)%nat c
      else if ((3 <=? i)%nat && (i <? 6)%nat)%bool then mat3_raw_set m ((i - 3) * 3 + 1)%nat c
      else mat3_raw_set m ((i - 6) * 3 + 2)%nat c) copy.
  (** mat.rs:1143-1177.  Simplification: the reads [self.index(i,j)] and [t.index(i,j)] of unchanged
      matrices are hoisted; the constant indices cannot overflow, so the overflow mode is irrelevant. *)
  Definition mat3_inverse (self : mat3 N) : res (option (mat3 N)) :=
    let! m00 := mat3_index true self 0 0 in
    let! m01 := mat3_index true self 0 1 in
    let! m02 := mat3_index true self 0 2 in
    let! m10 := mat3_index true self 1 0 in
    let! m11 := mat3_index true self 1 1 in
    let! m12 := mat3_index true self 1 2 in
    let! m20 := mat3_index true self 2 0 in
    let! m21 := mat3_index true self 2 1 in
    let! m22 := mat3_index true self 2 2 in
    let determinant := m00 * (m11 * m22 - m21 * m12) - m10 * (m01 * m22 - m21 * m02) + m20 * (m01 * m12 - m11 * m02) in
    if (nlt determinant (nlit N 1 10000000000) && ngt determinant (- (nlit N 1 100000000000)))%bool then Ok None
    else
    let! t := mat3_transpose self in
    let! t00 := mat3_index true t 0 0 in
    let! t01 := mat3_index true t 0 1 in
    let! t02 := mat3_index true t 0 2 in
    let! t10 := mat3_index true t 1 0 in
    let! t11 := mat3_index true t 1 1 in
    let! t12 := mat3_index true t 1 2 in
    let! t20 := mat3_index true t 2 0 in
    let! t21 := mat3_index true t 2 1 in
    let! t22 := mat3_index true t 2 2 in
    let out := self in
    let! out := mat3_set true out 0 0 (t11 * t22 - t21 * t12 / determinant) in
    let! out := mat3_set true out 1 0 (-(t01 * t22 - t21 * t02) / determinant) in
    let! out := mat3_set true out 2 0 (t01 * t12 - t11 * t02 / determinant) in
    let! out := mat3_set true out 0 1 (t10 * t22 - t20 * t12 / determinant) in
    let! out := mat3_set true out 1 1 (-(t00 * t22 - t20 * t02) / determinant) in
    let! out := mat3_set true out 2 1 (t00 * t12 - t10 * t02 / determinant) in
    let! out := mat3_set true out 0 2 (t10 * t21 - t20 * t11 / determinant) in
    let! out := mat3_set true out 1 2 (-(t00 * t21 - t20 * t01) / determinant) in
    let! out := mat3_set true out 2 2 (t00 * t11 - t10 * t01 / determinant) in
    Ok (Some out).
  (** mat.rs:1179-1193 *)
  Definition mat3_is_equal (self other : mat3 N) (error : N) : res (option bool) :=
    if negb (Bool.eqb (m3_rm self) (m3_rm other)) then Ok (Some false)
    else
    let! r := for_ret (seq 0 9) (fun x =>
      let! a := mat3_raw self x in let! b := mat3_raw other x in
      let e := (nge a (b - error) && nle a (b + error))%bool in
      if negb e then Ok (Ret (Some false)) else Ok Next) in
    match r with Some o => Ok o | None => Ok (Some true) end.

  (** mat.rs:483-502  row vector times matrix *)
  Definition mat1x3_mul_mat3x3 (self : mat1x3 N) (other : mat3 N) : res (option (mat1x3 N)) :=
    let m := mat1x3_default in
    let! m :=
      if m3_rm other then
        for_range 3 (fun x m =>
          let! o0 := get9 (m3_val other) (x + 0)%nat in let! s0 := get3 (v1x3 self) 0 in
          let! o1 := get9 (m3_val other) (x + 3)%nat in let! s1 := get3 (v1x3 self) 1 in
          let! o2 := get9 (m3_val other) (x + 6)%nat in let! s2 := get3 (v1x3 self) 2 in
          mat1x3_set m x (o0 * s0 + o1 * s1 + o2 * s2)) m
      else
        for_range 3 (fun y m =>
          let! o0 := get9 (m3_val other) (y * 3 + 0)%nat in let! s0 := get3 (v1x3 self) 0 in
          let! o1 := get9 (m3_val other) (y * 3 + 1)%nat in let! s1 := get3 (v1x3 self) 1 in
          let! o2 := get9 (m3_val other) (y * 3 + 2)%nat in let! s2 := get3 (v1x3 self) 2 in
          mat1x3_set m y (o0 * s0 + o1 * s1 + o2 * s2)) m in
    Ok (Some m).

  (** ---------------- Mat4 ---------------- *)
  (** [self._val[i]] and [self._val[i] = x] *)
  Definition mat4_raw (self : mat4 N) (i : nat) : res N := get16 (m4_val self) i.
  Definition mat4_raw_set (self : mat4 N) (i : nat) (x : N) : res (mat4 N) :=
    let! a := set16 (m4_val self) i x in Ok (M4 a (m4_rm self)).
  Definition mat4_zero : arr16 N := A16 n0 n0 n0 n0 n0 n0 n0 n0 n0 n0 n0 n0 n0 n0 n0 n0.

  (** mat.rs:1208-1215 *)
  Definition mat4_default : mat4 N := M4 mat4_zero true.
  (** mat.rs:1219-1233 *)
  Definition mat4_init (arr : arr16 N) (row_major : bool) : mat4 N :=
    match row_major with
    | true => M4 arr true
    | false =>
        match arr with A16 a0 a1 a2 a3 a4 a5 a6 a7 a8 a9 a10 a11 a12 a13 a14 a15 =>
          M4 (A16 a0 a4 a8 a12 a1 a5 a9 a13 a2 a6 a10 a14 a3 a7 a11 a15) false
        end
    end.
  (** mat.rs:1234-1243 *)
  Definition mat4_iden : res (mat4 N) :=
    for_range 4 (fun i m => mat4_raw_set m (i * 4 + i)%nat n1) (M4 mat4_zero true).
  (** mat.rs:1245-1247 *)
  Definition mat4_trace (self : mat4 N) : N :=
    match m4_val self with A16 a0 a1 a2 a3 a4 a5 a6 a7 a8 a9 a10 a11 a12 a13 a14 a15 => a0 + a5 + a10 + a15 end.
  (** mat.rs:1249-1255 *)
  Definition mat4_index (chk : bool) (self : mat4 N) (m n : BinNums.N) : res N :=
    let! i := lin_index chk 4 (m4_rm self) m n in idxN (list16 (m4_val self)) i.
  (** mat.rs:1257-1263, used as [*self.index_mut(m, n) = x] *)
  Definition mat4_set (chk : bool) (self : mat4 N) (m n : BinNums.N) (x : N) : res (mat4 N) :=
    let! i := lin_index chk 4 (m4_rm self) m n in
    if (i <? 16)%N then mat4_raw_set self (BinNatDef.N.to_nat i) x else Panic PIndex.
  (** mat.rs:1265-1267 *)
  Definition mat4_size (self : mat4 N) : option nat := Some (length (list16 (m4_val self))).
  (** mat.rs:1269-1291 *)
  Definition mat4_mul_elem (self other : mat4 N) : option (mat4 N) :=
    match m4_val self, m4_val other with
    | A16 a0 a1 a2 a3 a4 a5 a6 a7 a8 a9 a10 a11 a12 a13 a14 a15,
      A16 b0 b1 b2 b3 b4 b5 b6 b7 b8 b9 b10 b11 b12 b13 b14 b15 =>
        Some (M4 (A16 (a0 * b0) (a1 * b1) (a2 * b2) (a3 * b3) (a4 * b4) (a5 * b5) (a6 * b6) (a7 * b7) (a8 * b8) (a9 * b9) (a10 * b10) (a11 * b11) (a12 * b12) (a13 * b13) (a14 * b14) (a15 * b15)) (m4_rm self))
    end.
  (** mat.rs:1292-1325 *)
  Definition mat4_mul (self other : mat4 N) : res (option (mat4 N)) :=
    let! _u := assert (Bool.eqb (m4_rm self) (m4_rm other)) in
    let m := M4 mat4_zero (m4_rm self) in
    let! m :=
      if m4_rm self then
        for_range 4 (fun y m =>
          for_range 4 (fun x m =>
            let! s0 := get16 (m4_val self) (y * 4 + 0)%nat in let! o0 := get16 (m4_val other) (x + 0)%nat in
            let! s1 := get16 (m4_val self) (y * 4 + 1)%nat in let! o1 := get16 (m4_val other) (x + 4)%nat in
            let! s2 := get16 (m4_val self) (y * 4 + 2)%nat in let! o2 := get16 (m4_val other) (x + 8)%nat in
            let! s3 := get16 (m4_val self) (y * 4 + 3)%nat in let! o3 := get16 (m4_val other) (x + 12)%nat in
            mat4_raw_set m (y * 4 + x)%nat (s0 * o0 + s1 * o1 + s2 * o2 + s3 * o3)) m) m
      else
        for_range 4 (fun x m =>
          for_range 4 (fun y m =>
            let! s0 := get16 (m4_val self) (y + 0)%nat in let! o0 := get16 (m4_val other) (x * 4 + 0)%nat in
            let! s1 := get16 (m4_val self) (y + 4)%nat in let! o1 := get16 (m4_val other) (x * 4 + 1)%nat in
            let! s2 := get16 (m4_val self) (y + 8)%nat in let! o2 := get16 (m4_val other) (x * 4 + 2)%nat in
            let! s3 := get16 (m4_val self) (y + 12)%nat in let! o3 := get16 (m4_val other) (x * 4 + 3)%nat in
            mat4_raw_set m (x * 4 + y)%nat (s0 * o0 + s1 * o1 + s2 * o2 + s3 * o3)) m) m in
    Ok (Some m).
  (** mat.rs:1326-1349 *)
  Definition mat4_mul_mat4x1 (self : mat4 N) (other : mat4x1 N) : res (option (mat4x1 N)) :=
    let m := mat4x1_default in
    let! m :=
      if m4_rm self then
        for_range 4 (fun y m =>
          let! s0 := get16 (m4_val self) (y * 4 + 0)%nat in let! o0 := get4 (v4x1 other) 0 in
          let! s1 := get16 (m4_val self) (y * 4 + 1)%nat in let! o1 := get4 (v4x1 other) 1 in
          let! s2 := get16 (m4_val self) (y * 4 + 2)%nat in let! o2 := get4 (v4x1 other) 2 in
          let! s3 := get16 (m4_val self) (y * 4 + 3)%nat in let! o3 := get4 (v4x1 other) 3 in
          mat4x1_set m y (s0 * o0 + s1 * o1 + s2 * o2 + s3 * o3)) m
      else
        for_range 4 (fun x m =>
          let! s0 := get16 (m4_val self) (x + 0)%nat in let! o0 := get4 (v4x1 other) 0 in
          let! s1 := get16 (m4_val self) (x + 4)%nat in let! o1 := get4 (v4x1 other) 1 in
          let! s2 := get16 (m4_val self) (x + 8)%nat in let! o2 := get4 (v4x1 other) 2 in
          let! s3 := get16 (m4_val self) (x + 12)%nat in let! o3 := get4 (v4x1 other) 3 in
          mat4x1_set m x (s0 * o0 + s1 * o1 + s2 * o2 + s3 * o3)) m in
    Ok (Some m).
  (** mat.rs:1351-1373 *)
  Definition mat4_div (self other : mat4 N) : option (mat4 N) :=
    match m4_val self, m4_val other with
    | A16 a0 a1 a2 a3 a4 a5 a6 a7 a8 a9 a10 a11 a12 a13 a14 a15,
      A16 b0 b1 b2 b3 b4 b5 b6 b7 b8 b9 b10 b11 b12 b13 b14 b15 =>
        Some (M4 (A16 (a0 / b0) (a1 / b1) (a2 / b2) (a3 / b3) (a4 / b4) (a5 / b5) (a6 / b6) (a7 / b7) (a8 / b8) (a9 / b9) (a10 / b10) (a11 / b11) (a12 / b12) (a13 / b13) (a14 / b14) (a15 / b15)) (m4_rm self))
    end.
  (** mat.rs:1375-1397 *)
  Definition mat4_plus (self other : mat4 N) : option (mat4 N) :=
    match m4_val self, m4_val other with
    | A16 a0 a1 a2 a3 a4 a5 a6 a7 a8 a9 a10 a11 a12 a13 a14 a15,
      A16 b0 b1 b2 b3 b4 b5 b6 b7 b8 b9 b10 b11 b12 b13 b14 b15 =>
        Some (M4 (A16 (a0 + b0) (a1 + b1) (a2 + b2) (a3 + b3) (a4 + b4) (a5 + b5) (a6 + b6) (a7 + b7) (a8 + b8) (a9 + b9) (a10 + b10) (a11 + b11) (a12 + b12) (a13 + b13) (a14 + b14) (a15 + b15)) (m4_rm self))
    end.
  (** mat.rs:1399-1421 *)
  Definition mat4_minus (self other : mat4 N) : option (mat4 N) :=
    match m4_val self, m4_val other with
    | A16 a0 a1 a2 a3 a4 a5 a6 a7 a8 a9 a10 a11 a12 a13 a14 a15,
      A16 b0 b1 b2 b3 b4 b5 b6 b7 b8 b9 b10 b11 b12 b13 b14 b15 =>
        Some (M4 (A16 (a0 - b0) (a1 - b1) (a2 - b2) (a3 - b3) (a4 - b4) (a5 - b5) (a6 - b6) (a7 - b7) (a8 - b8) (a9 - b9) (a10 - b10) (a11 - b11) (a12 - b12) (a13 - b13) (a14 - b14) (a15 - b15)) (m4_rm self))
    end.
  (** mat.rs:1423-1425 *)
  Definition mat4_dot (self other : mat4 N) : option N := None.
  (** mat.rs:1427-1429 *)
  Definition mat4_cross (self other : mat4 N) : option (mat4 N) := None.
  (** mat.rs:1430-1432 *)
  Definition mat4_magnitude (self : mat4 N) : res (option N) := Panic PUnimplemented.
  (** mat.rs:1433-1443  divides every cell by the (current) last cell *)
  Definition mat4_normalize (self : mat4 N) : res (option (mat4 N)) :=
    let! m := for_range 16 (fun x m =>
      let! a := mat4_raw m x in let! l := mat4_raw m 15 in mat4_raw_set m x (a / l))
      (M4 (m4_val self) (m4_rm self)) in
    Ok (Some m).
  (** mat.rs:1444-1453 *)
  Definition mat4_scale (self : mat4 N) (s : N) : res (option (mat4 N)) :=
    let! m := for_range 16 (fun x m =>
      let! a := mat4_raw m x in mat4_raw_set m x (a * s))
      (M4 (m4_val self) (m4_rm self)) in
    Ok (Some m).
  (** mat.rs:1467-1480  mutates [self]: the new value is returned *)
  Definition mat4_transpose_self (self : mat4 N) : res (mat4 N) :=
    let copy := m4_val self in
    for_range 16 (fun i m =>
      let! c := get16 copy i in
      if (i <? 4)%nat then mat4_raw_set m (i * 4)%nat c
      else if ((4 <=? i)%nat && (i <? 8)%nat)%bool then mat4_raw_set m ((i - 4) * 4 + 1)%nat c
      else if ((8 <=? i)%nat && (i <? 12)%nat)%bool then mat4_raw_set m ((i - 8) * 4 + 2)%nat c
      else mat4_raw_set m ((i - 12) * 4 + 3)%nat c) self.
  (** mat.rs:1481-1498 *)
  Definition mat4_transpose (self : mat4 N) : res (mat4 N) :=
    let copy := M4 (m4_val self) (m4_rm self) in
    for_range 16 (fun i m =>
      let! c := get16 (m4_val self) i in
      if (i <? 4)%nat then mat4_raw_set m (i * 4)%nat c
      else if ((4 <=? i)%nat && (i <? 8)%nat)%bool then mat4_raw_set m ((i - 4) * 4 + 1)%nat c
      else if ((8 <=? i)%nat && (i <? 12)%nat)%bool then mat4_raw_set m ((i - 8) * 4 + 2)%nat c
      else mat4_raw_set m ((i - 12) * 4 + 3)%nat c) copy.
  (** mat.rs:1499-1524 *)
  Definition mat4_submat_mat3 (self : mat4 N) : mat3 N :=
    match m4_val self with A16 a0 a1 a2 a3 a4 a5 a6 a7 a8 a9 a10 a11 a12 a13 a14 a15 =>
      M3 (A9 a0 a1 a2 a4 a5 a6 a8 a9 a10) (m4_rm self) end.
  (** mat.rs:1525-1656.  Simplification: as for [mat3_inverse]. *)
  Definition mat4_inverse (self : mat4 N) : res (option (mat4 N)) :=
    let! m00 := mat4_index true self 0 0 in
    let! m01 := mat4_index true self 0 1 in
    let! m02 := mat4_index true self 0 2 in
    let! m03 := mat4_index true self 0 3 in
    let! m10 := mat4_index true self 1 0 in
    let! m11 := mat4_index true self 1 1 in
    let! m12 := mat4_index true self 1 2 in
    let! m13 := mat4_index true self 1 3 in
    let! m20 := mat4_index true self 2 0 in
    let! m21 := mat4_index true self 2 1 in
    let! m22 := mat4_index true self 2 2 in
    let! m23 := mat4_index true self 2 3 in
    let! m30 := mat4_index true self 3 0 in
    let! m31 := mat4_index true self 3 1 in
    let! m32 := mat4_index true self 3 2 in
    let! m33 := mat4_index true self 3 3 in
    let inv := mat4_default in
    let! inv := mat4_set true inv 0 0
      (m11 * m22 * m33 - m11 * m32 * m23 - m12 * m21 * m33 + m12 * m31 * m23 + m13 * m21 * m32 - m13 * m31 * m22) in
    let! inv := mat4_set true inv 0 1
      (-m01 * m22 * m33 + m01 * m32 * m23 + m02 * m21 * m33 - m02 * m31 * m23 - m03 * m21 * m32 + m03 * m31 * m22) in
    let! inv := mat4_set true inv 0 2
      (m01 * m12 * m33 - m01 * m32 * m13 - m02 * m11 * m33 + m02 * m31 * m13 + m03 * m11 * m32 - m03 * m31 * m12) in
    let! inv := mat4_set true inv 0 3
      (-m01 * m12 * m23 + m01 * m22 * m13 + m02 * m11 * m23 - m02 * m21 * m13 - m03 * m11 * m22 + m03 * m21 * m12) in
    let! inv := mat4_set true inv 1 0
      (-m10 * m22 * m33 + m10 * m32 * m23 + m12 * m20 * m33 - m12 * m30 * m23 - m13 * m20 * m32 + m13 * m30 * m22) in
    let! inv := mat4_set true inv 1 1
      (m00 * m22 * m33 - m00 * m32 * m23 - m02 * m20 * m33 + m02 * m30 * m23 + m03 * m20 * m32 - m03 * m30 * m22) in
    let! inv := mat4_set true inv 1 2
      (-m00 * m12 * m33 + m00 * m32 * m13 + m02 * m10 * m33 - m02 * m30 * m13 - m03 * m10 * m32 + m03 * m30 * m12) in
    let! inv := mat4_set true inv 1 3
      (m00 * m12 * m23 - m00 * m22 * m13 - m02 * m10 * m23 + m02 * m20 * m13 + m03 * m10 * m22 - m03 * m20 * m12) in
    let! inv := mat4_set true inv 2 0
      (m10 * m21 * m33 - m10 * m31 * m23 - m11 * m20 * m33 + m11 * m30 * m23 + m13 * m20 * m31 - m13 * m30 * m21) in
    let! inv := mat4_set true inv 2 1
      (-m00 * m21 * m33 + m00 * m31 * m23 + m01 * m20 * m33 - m01 * m30 * m23 - m03 * m20 * m31 + m03 * m30 * m21) in
    let! inv := mat4_set true inv 2 2
      (m00 * m11 * m33 - m00 * m31 * m13 - m01 * m10 * m33 + m01 * m30 * m13 + m03 * m10 * m31 - m03 * m30 * m11) in
    let! inv := mat4_set true inv 2 3
      (-m00 * m11 * m23 + m00 * m21 * m13 + m01 * m10 * m23 - m01 * m20 * m13 - m03 * m10 * m21 + m03 * m20 * m11) in
    let! inv := mat4_set true inv 3 0
      (-m10 * m21 * m32 + m10 * m31 * m22 + m11 * m20 * m32 - m11 * m30 * m22 - m12 * m20 * m31 + m12 * m30 * m21) in
    let! inv := mat4_set true inv 3 1
      (m00 * m21 * m32 - m00 * m31 * m22 - m01 * m20 * m32 + m01 * m30 * m22 + m02 * m20 * m31 - m02 * m30 * m21) in
    let! inv := mat4_set true inv 3 2
      (-m00 * m11 * m32 + m00 * m31 * m12 + m01 * m10 * m32 - m01 * m30 * m12 - m02 * m10 * m31 + m02 * m30 * m11) in
    let! inv := mat4_set true inv 3 3
      (m00 * m11 * m22 - m00 * m21 * m12 - m01 * m10 * m22 + m01 * m20 * m12 + m02 * m10 * m21 - m02 * m20 * m11) in
    let! i00 := mat4_index true inv 0 0 in
    let! i01 := mat4_index true inv 0 1 in
    let! i02 := mat4_index true inv 0 2 in
    let! i03 := mat4_index true inv 0 3 in
    let det := m00 * i00 + m10 * i01 + m20 * i02 + m30 * i03 in
    if nlt (nabs N det) (neps N) then Ok None
    else
    let det_inv := nlit N 1 1 / det in
    let! inv := for_range 16 (fun i inv =>
      let! a := mat4_raw inv i in mat4_raw_set inv i (a * det_inv)) inv in
    let! r := mat4_transpose inv in
    Ok (Some r).
  (** mat.rs:1658-1672 *)
  Definition mat4_is_equal (self other : mat4 N) (error : N) : res (option bool) :=
    if negb (Bool.eqb (m4_rm self) (m4_rm other)) then Ok (Some false)
    else
    let! r := for_ret (seq 0 16) (fun x =>
      let! a := mat4_raw self x in let! b := mat4_raw other x in
      let e := (nge a (b - error) && nle a (b + error))%bool in
      if negb e then Ok (Ret (Some false)) else Ok Next) in
    match r with Some o => Ok o | None => Ok (Some true) end.

  (** mat.rs:754-775  row vector times matrix *)
  Definition mat1x4_mul_mat4x4 (self : mat1x4 N) (other : mat4 N) : res (option (mat1x4 N)) :=
    let m := mat1x4_default in
    let! m :=
      if m4_rm other then
        for_range 4 (fun x m =>
          let! o0 := get16 (m4_val other) (x + 0)%nat in let! s0 := get4 (v1x4 self) 0 in
          let! o1 := get16 (m4_val other) (x + 4)%nat in let! s1 := get4 (v1x4 self) 1 in
          let! o2 := get16 (m4_val other) (x + 8)%nat in let! s2 := get4 (v1x4 self) 2 in
          let! o3 := get16 (m4_val other) (x + 12)%nat in let! s3 := get4 (v1x4 self) 3 in
          mat1x4_set m x (o0 * s0 + o1 * s1 + o2 * s2 + o3 * s3)) m
      else
        for_range 4 (fun y m =>
          let! o0 := get16 (m4_val other) (y * 4 + 0)%nat in let! s0 := get4 (v1x4 self) 0 in
          let! o1 := get16 (m4_val other) (y * 4 + 1)%nat in let! s1 := get4 (v1x4 self) 1 in
          let! o2 := get16 (m4_val other) (y * 4 + 2)%nat in let! s2 := get4 (v1x4 self) 2 in
          let! o3 := get16 (m4_val other) (y * 4 + 3)%nat in let! s3 := get4 (v1x4 self) 3 in
          mat1x4_set m y (o0 * s0 + o1 * s1 + o2 * s2 + o3 * s3)) m in
    Ok (Some m).

End Mat.
