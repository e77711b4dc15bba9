(** SpecBound.v — specification vocabulary for boxes: points and boxes compared by the arithmetic's own <=. *)
From Coq Require Import Reals List NArith Bool.
From Verif Require Import Base Num Mat Bound Exact SpecMat SpecGeom Order.

Section SpecBound.
  Context {Nm : Num}.
  Definition lo (b : aabb Nm) (i : N) : Nm := comps3 (b_lower b) i.
  Definition up (b : aabb Nm) (i : N) : Nm := comps3 (b_upper b) i.
  (** lower <= upper on every axis (so no bound is NaN) *)
  Definition proper (b : aabb Nm) : Prop := forall i, (i < 3)%N -> nle (lo b i) (up b i) = true.
  (** the point [p] lies in [b] *)
  Definition inb (b : aabb Nm) (p : arr3 Nm) : Prop := forall i, (i < 3)%N ->
    nle (lo b i) (comps3 p i) = true /\ nle (comps3 p i) (up b i) = true.
  (** [b] has no NaN bound *)
  Definition nonan (b : aabb Nm) : Prop := forall i, (i < 3)%N -> nisnan (lo b i) = false /\ nisnan (up b i) = false.
  (** [a] encloses [b] *)
  Definition encloses (a b : aabb Nm) : Prop := forall i, (i < 3)%N ->
    nle (lo a i) (lo b i) = true /\ nle (up b i) (up a i) = true.
  (** the same bounds as numbers *)
  Definition same_box (a b : aabb Nm) : Prop := forall i, (i < 3)%N ->
    neqb (lo a i) (lo b i) = true /\ neqb (up a i) (up b i) = true.
End SpecBound.

(** a real point inside a box with extended real bounds *)
Definition comp (i : N) (v : V3) : R := match i with 0%N => vx v | 1%N => vy v | _ => vz v end.
Definition holds (eps : R) (zs : XR -> bool) (b : aabb (Exact eps zs)) (x : V3) : Prop := forall i, (i < 3)%N ->
  xle (lo b i) (Fin (comp i x)) /\ xle (Fin (comp i x)) (up b i).
