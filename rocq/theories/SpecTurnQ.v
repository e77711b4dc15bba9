(** SpecTurnQ.v — points and directions that still have moderate coordinates after a turn (C133). *)
From Coq Require Import Reals ZArith.
From Flocq Require Import Core BinarySingleNaN.
From Verif Require Import Base Num Vec SpecGeom SpecBuild.
Local Open Scope R_scope.

(** a finite point at most 2^(emax/2-4) from the origin: 2^60 in f32, 2^508 in f64 *)
Definition roomy {prec emax} (p : mat3x1 (binary_float prec emax)) : Prop := fin3 p /\ norm (v3 p) <= bpow radix2 (emax / 2 - 4).
(** a direction of that size whose square does not underflow *)
Definition roomy_dir {prec emax} (n : mat3x1 (binary_float prec emax)) : Prop := roomy n /\ bpow radix2 (7 - emax) <= vdot (v3 n) (v3 n).
