(** SpecMat.v — specification vocabulary for matrices and vectors, independent of how the library stores them.
    A logical matrix is a function from row and column to a scalar; a stored matrix represents it if every in-range
    read through the public [index] method returns that entry, whatever the overflow-check mode of the build. *)
From Coq Require Import List ZArith NArith Bool.
Import ListNotations.
From Verif Require Import Base Num Vec Mat.

(** a logical matrix / vector *)
Definition lmat (T : Type) : Type := N -> N -> T.
Definition lvec (T : Type) : Type := N -> T.

(** equality of logical matrices on the index range *)
Definition lmat_eq {T} (n : N) (f g : lmat T) : Prop := forall i j, (i < n)%N -> (j < n)%N -> f i j = g i j.
Definition lvec_eq {T} (n : N) (f g : lvec T) : Prop := forall i, (i < n)%N -> f i = g i.

(** an array read row by row *)
Definition rows9 {T} (a : arr9 T) : lmat T := fun i j =>
  match a with A9 a0 a1 a2 a3 a4 a5 a6 a7 a8 =>
    match i, j with
    | 0, 0 => a0 | 0, 1 => a1 | 0, _ => a2
    | 1, 0 => a3 | 1, 1 => a4 | 1, _ => a5
    | _, 0 => a6 | _, 1 => a7 | _, _ => a8
    end%N
  end.
Definition rows16 {T} (a : arr16 T) : lmat T := fun i j =>
  match a with A16 a0 a1 a2 a3 a4 a5 a6 a7 a8 a9 a10 a11 a12 a13 a14 a15 =>
    match i, j with
    | 0, 0 => a0 | 0, 1 => a1 | 0, 2 => a2 | 0, _ => a3
    | 1, 0 => a4 | 1, 1 => a5 | 1, 2 => a6 | 1, _ => a7
    | 2, 0 => a8 | 2, 1 => a9 | 2, 2 => a10 | 2, _ => a11
    | _, 0 => a12 | _, 1 => a13 | _, 2 => a14 | _, _ => a15
    end%N
  end.
Definition comps3 {T} (a : arr3 T) : lvec T := fun i =>
  match a with A3 a0 a1 a2 => match i with 0 => a0 | 1 => a1 | _ => a2 end%N end.
Definition comps4 {T} (a : arr4 T) : lvec T := fun i =>
  match a with A4 a0 a1 a2 a3 => match i with 0 => a0 | 1 => a1 | 2 => a2 | _ => a3 end%N end.

Section SpecMat.
  Context {Nm : Num}.
  Local Open Scope num_scope.

  (** what the public read [index] returns, for either build mode *)
  Definition repr3 (m : mat3 Nm) (f : lmat Nm) : Prop :=
    forall chk i j, (i < 3)%N -> (j < 3)%N -> mat3_index chk m i j = Ok (f i j).
  Definition repr4 (m : mat4 Nm) (f : lmat Nm) : Prop :=
    forall chk i j, (i < 4)%N -> (j < 4)%N -> mat4_index chk m i j = Ok (f i j).
  (** vectors: [v[i]] *)
  Definition reprc3 (v : mat3x1 Nm) (f : lvec Nm) : Prop :=
    forall i, (i < 3)%N -> mat3x1_index v (N.to_nat i) = Ok (f i).
  Definition reprr3 (v : mat1x3 Nm) (f : lvec Nm) : Prop :=
    forall i, (i < 3)%N -> mat1x3_index v (N.to_nat i) = Ok (f i).
  Definition reprc4 (v : mat4x1 Nm) (f : lvec Nm) : Prop :=
    forall i, (i < 4)%N -> mat4x1_index v (N.to_nat i) = Ok (f i).
  Definition reprr4 (v : mat1x4 Nm) (f : lvec Nm) : Prop :=
    forall i, (i < 4)%N -> mat1x4_index v (N.to_nat i) = Ok (f i).

  (** sums evaluated left to right in the scalar arithmetic *)
  Definition sum3 (g : N -> Nm) : Nm := g 0%N + g 1%N + g 2%N.
  Definition sum4 (g : N -> Nm) : Nm := g 0%N + g 1%N + g 2%N + g 3%N.

  Definition lmul3 (f g : lmat Nm) : lmat Nm := fun i j => sum3 (fun k => f i k * g k j).
  Definition lmul4 (f g : lmat Nm) : lmat Nm := fun i j => sum4 (fun k => f i k * g k j).
  (** matrix * column vector *)
  Definition lmulv3 (f : lmat Nm) (v : lvec Nm) : lvec Nm := fun i => sum3 (fun k => f i k * v k).
  Definition lmulv4 (f : lmat Nm) (v : lvec Nm) : lvec Nm := fun i => sum4 (fun k => f i k * v k).
  (** row vector * matrix (factors in the order the library multiplies them) *)
  Definition lvmul3 (v : lvec Nm) (f : lmat Nm) : lvec Nm := fun j => sum3 (fun k => f k j * v k).
  Definition lvmul4 (v : lvec Nm) (f : lmat Nm) : lvec Nm := fun j => sum4 (fun k => f k j * v k).

  Definition ltrans {T} (f : lmat T) : lmat T := fun i j => f j i.
  Definition liden : lmat Nm := fun i j => if (i =? j)%N then n1 else n0.
  Definition lmap2 {T} (op : T -> T -> T) (f g : lmat T) : lmat T := fun i j => op (f i j) (g i j).
  Definition lmap {T} (op : T -> T) (f : lmat T) : lmat T := fun i j => op (f i j).
  Definition lset {T} (f : lmat T) (i0 j0 : N) (v : T) : lmat T :=
    fun i j => if ((i =? i0) && (j =? j0))%N then v else f i j.
End SpecMat.
