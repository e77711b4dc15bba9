(** SpecFq.v — quaternions and vectors of floats as real quaternions and vectors; products of lists; the action of the
    rotation matrix. *)
From Coq Require Import Reals List ZArith.
From Flocq Require Import Core BinarySingleNaN.
From Verif Require Import Mat Quat SpecGeom SpecQuat.
Local Open Scope R_scope.

Definition qval {prec emax} (q : quat (binary_float prec emax)) : H4 := H (V (B2R (qx q)) (B2R (qy q)) (B2R (qz q))) (B2R (qw q)).
Definition qfin {prec emax} (q : quat (binary_float prec emax)) : Prop :=
  is_finite (qx q) = true /\ is_finite (qy q) = true /\ is_finite (qz q) = true /\ is_finite (qw q) = true.
(** the product 1 q1 q2 ... qn *)
Definition hprod (l : list H4) : H4 := fold_left hmul l hone.
(** distance of two quaternions *)
Definition hdist (p q : H4) : R := hlen (hsub p q).
(** v + 2 s (w x v) + 2 w x (w x v), for the quaternion with vector part w and scalar part s *)
Definition hact (q : H4) (v : V3) : V3 :=
  vadd v (vscale 2 (vadd (vscale (hs q) (vcross (hv q) v)) (vcross (hv q) (vcross (hv q) v)))).
(** the three unit vectors *)
Definition axis (j : N) : V3 := match j with 0%N => V 1 0 0 | 1%N => V 0 1 0 | _ => V 0 0 1 end.
