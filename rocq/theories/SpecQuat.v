(** SpecQuat.v — Hamilton's quaternions over the real numbers, as pairs of a vector and a scalar.  Nothing here refers to
    the model of the library. *)
From Coq Require Import Reals.
From Verif Require Import SpecGeom.
Local Open Scope R_scope.

Record H4 := H { hv : V3; hs : R }.

Definition hzero : H4 := H vzero 0.
Definition hone : H4 := H vzero 1.
Definition hi : H4 := H (V 1 0 0) 0.
Definition hj : H4 := H (V 0 1 0) 0.
Definition hk : H4 := H (V 0 0 1) 0.
Definition hadd (p q : H4) : H4 := H (vadd (hv p) (hv q)) (hs p + hs q).
Definition hsub (p q : H4) : H4 := H (vsub (hv p) (hv q)) (hs p - hs q).
Definition hscale (k : R) (q : H4) : H4 := H (vscale k (hv q)) (k * hs q).
Definition hneg (q : H4) : H4 := hscale (-1) q.
(** the product, in scalar and vector parts *)
Definition hmul (p q : H4) : H4 :=
  H (vadd (vadd (vscale (hs p) (hv q)) (vscale (hs q) (hv p))) (vcross (hv p) (hv q)))
    (hs p * hs q - vdot (hv p) (hv q)).
Definition hconj (q : H4) : H4 := H (vscale (-1) (hv q)) (hs q).
Definition hdot (p q : H4) : R := vdot (hv p) (hv q) + hs p * hs q.
Definition hlen (q : H4) : R := sqrt (hdot q q).
Definition hunit (q : H4) : Prop := hdot q q = 1.
(** rotation by a unit quaternion: the vector part of q p q* *)
Definition hrot (q : H4) (p : V3) : V3 := hv (hmul (hmul q (H p 0)) (hconj q)).
(** the direction of the vector part *)
Definition haxis_of (q : H4) : V3 := vscale (/ norm (hv q)) (hv q).
(** clamping to the unit interval *)
Definition clamp01 (t : R) : R := Rmax 0 (Rmin 1 t).
