(** SpecRotM.v — the 4x4 matrix of the rotation by a quaternion. *)
From Coq Require Import Reals NArith.
From Verif Require Import SpecMat SpecReal SpecGeom SpecBound SpecQuat SpecFq.
Local Open Scope R_scope.

(** column j is the rotated unit vector j; the rest is as in the identity *)
Definition hmat (q : H4) : rmat := fun i j => if ((i <? 3) && (j <? 3))%N%bool then comp i (hrot q (axis j)) else if (i =? j)%N then 1 else 0.
