(** SpecRing.v — states of the GJK search that go round for ever (C109). *)
From Coq Require Import Reals ZArith.
From Flocq Require Import Core BinarySingleNaN.
From Verif Require Import Base Vec SpecGeom.
Local Open Scope R_scope.

(** the last point [q] and the direction [d], close to a ring around the x axis: q at x = 2/3 on the unit sphere about (1,0,0),
    d at right angles to q, with the x axis at one third of its length *)
Definition in_ring (q d : V3) : Prop :=
  610 / 1000 <= vx q <= 715 / 1000 /\ Rabs (vdot q q - 2 * vx q) <= / 500 /\
  1 <= vdot d d <= 3 /\ vx d <= 0 /\ Rabs (vdot d q) <= / 1000 /\
  841 / 10000 * vdot d d <= vx d * vx d <= 1482 / 10000 * vdot d d.
Definition small (m : R) (w : V3) : Prop := Rabs (vx w) <= m /\ Rabs (vy w) <= m /\ Rabs (vz w) <= m.
(** two centres apart by 1 and at most a thousandth more, along the x axis *)
Definition side_by_side (c c' : V3) : Prop := small 4 c /\ small 4 c' /\
  1 <= vx c - vx c' <= 1 + / 1000 /\ Rabs (vy c - vy c') <= / 50000 /\ Rabs (vz c - vz c') <= / 50000.
(** the first point of the simplex: just past the origin, by at least [8192] roundings [u] *)
Definition past_origin (u : R) (s : V3) : Prop := 8192 * u <= vx s <= 98 / 100000 /\ Rabs (vy s) <= vx s / 128 /\ Rabs (vz s) <= vx s / 128.

Section SpecRing.
  Context {prec emax : Z}.
  Definition at3 (v : mat3x1 (binary_float prec emax)) : V3 := match v with M3x1 (A3 x y z) => V (B2R x) (B2R y) (B2R z) end.
  Definition finite3 (v : mat3x1 (binary_float prec emax)) : Prop :=
    match v with M3x1 (A3 x y z) => is_finite x = true /\ is_finite y = true /\ is_finite z = true end.
End SpecRing.
