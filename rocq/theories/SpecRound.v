(** SpecRound.v — vocabulary for rounding-error statements: the unit roundoff, half the smallest subnormal, and the
    classical bound for a sum of [n] products with absolute values adding up to [A]. *)
From Coq Require Import Reals ZArith.
From Flocq Require Import Core BinarySingleNaN.
Local Open Scope R_scope.

(** u = 2^-prec: 2^-24 in f32, 2^-53 in f64 *)
Definition uro (prec : Z) : R := bpow radix2 (- prec).
(** half the smallest positive number of the format: 2^-150 in f32, 2^-1075 in f64 *)
Definition eta (prec emax : Z) : R := bpow radix2 (2 - emax - prec).
(** ((1+u)^n - 1) A + n (1+u)^(n-1) eta *)
Definition err (prec emax : Z) (n : nat) (A : R) : R :=
  ((1 + uro prec) ^ n - 1) * A + INR n * (1 + uro prec) ^ (n - 1) * eta prec emax.
(** the float [t] is finite and approximates the real [v] within [e] *)
Definition within {prec emax} (t : binary_float prec emax) (v e : R) : Prop :=
  is_finite t = true /\ Rabs (B2R t - v) <= e.
