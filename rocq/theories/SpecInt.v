(** SpecInt.v — fixed-point data: floats that are multiples of a power of two with a bounded multiplier.  Integers are the case s = 0. *)
From Coq Require Import List ZArith NArith Bool Reals.
From Flocq Require Import Core BinarySingleNaN.
From Verif Require Import Base Vec Quat SpecGeom.
Local Open Scope R_scope.

Section SpecInt.
  Context {prec emax : Z}.
  Notation bf := (binary_float prec emax).
  (** x = n 2^s with |n| <= K *)
  Definition fixed (s : Z) (K : R) (x : bf) : Prop := is_finite x = true /\ exists n : Z, B2R x = IZR n * bpow radix2 s /\ Rabs (IZR n) <= K.
  (** x is finite and its value is v: no rounding has taken place *)
  Definition exactly (x : bf) (v : R) : Prop := is_finite x = true /\ B2R x = v.
  (** every entry of an n x n matrix, of a vector of n components, of a quaternion *)
  Definition fixm (n : N) (s : Z) (K : R) (f : N -> N -> bf) : Prop := forall i j, (i < n)%N -> (j < n)%N -> fixed s K (f i j).
  Definition fixc (n : N) (s : Z) (K : R) (f : N -> bf) : Prop := forall i, (i < n)%N -> fixed s K (f i).
  Definition fixq (s : Z) (K : R) (q : quat bf) : Prop := fixed s K (qx q) /\ fixed s K (qy q) /\ fixed s K (qz q) /\ fixed s K (qw q).
End SpecInt.
Definition fix3 {prec emax} (s : Z) (K : R) (v : mat3x1 (binary_float prec emax)) : Prop :=
  match v with M3x1 (A3 x y z) => fixed s K x /\ fixed s K y /\ fixed s K z end.
(** parallel to a coordinate axis, and not zero *)
Definition axial (v : V3) : Prop := v <> vzero /\ ((vy v = 0 /\ vz v = 0) \/ (vx v = 0 /\ vz v = 0) \/ (vx v = 0 /\ vy v = 0)).
(** one component of value w, the others zeros *)
Definition lone {prec emax} (w : R) (l : list (binary_float prec emax)) : Prop :=
  exists pre x post, l = (pre ++ x :: post)%list /\ exactly x w /\ Forall (fun y => exactly y 0) pre /\ Forall (fun y => exactly y 0) post.
(** the multiples of 2^s with multipliers up to 2^prec are floats *)
Definition room (prec emax s : Z) : Prop := (3 - emax - prec <= s)%Z /\ (s + prec < emax)%Z.

(** products over lists of reals *)
Fixpoint sumprod (l r : list R) : R := match l, r with a :: l', b :: r' => a * b + sumprod l' r' | _, _ => 0 end.
Definition cross_list (l r : list R) : list R :=
  match l, r with
  | (a :: b :: c :: nil)%list, (d :: e :: f :: nil)%list => (b * f - c * e :: c * d - a * f :: a * e - b * d :: nil)%list
  | _, _ => nil
  end.
