(** SpecPowL.v — exponents for which the power of a quaternion is well conditioned, and the error allowed (C130). *)
From Coq Require Import Reals ZArith.
From Flocq Require Import Core BinarySingleNaN.
From Verif Require Import Float SpecGeom SpecQuat SpecRound.
Local Open Scope R_scope.

(** length between 1/2 and 2, the vector part does not underflow and is at least 128 roundoffs of the whole *)
Definition pow_base (u : R) (emax : Z) (q : H4) : Prop :=
  / 2 <= hlen q <= 2 /\ bpow radix2 (6 - emax) <= vdot (hv q) (hv q) /\ 128 * u <= norm (hv q) / hlen q.
(** exponents t for which |q|^t is between e^-1/2 and e^1/2 and t does not magnify the error of the angle too much *)
Definition pow_range (u d B : R) (q : H4) (t : R) : Prop :=
  Rabs t * Rabs (ln (hlen q)) <= / 2 /\ Rabs t * (d + 32 * (u / (norm (hv q) / hlen q))) <= / 32 /\ 4 * Rabs t + 1 <= B.
Definition pow_err (u d : R) (q : H4) (t : R) : R := 6 * d + 21 * u + Rabs t * (4 * d + 140 * (u / (norm (hv q) / hlen q))).
