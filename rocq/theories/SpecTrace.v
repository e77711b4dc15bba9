(** SpecTrace.v — the states (simplex, search direction) that the loop of the GJK query goes through, and the margin used
    for its answers in IEEE arithmetic. *)
From Coq Require Import Reals List ZArith.
From Flocq Require Import Core BinarySingleNaN.
From Verif Require Import Base Num Vec Mat Bound Shape Gjk SpecMat SpecGeom SpecRound.
Local Open Scope R_scope.

Inductive visits {Nm : Num} (a b : shape Nm) : list (mat3x1 Nm) -> mat3x1 Nm -> Prop :=
| visits_start s d : gjk_start a b = Ok (s, d) -> visits a b s d
| visits_step s d s' d' : visits a b s d -> gjk_iter a b s d = Ok (inr (s', d')) -> visits a b s' d'.

(** 17 u (|ca| + |cb| + |ra| + |rb|), and 2^(3 - emax/2) u for underflow *)
Definition gjk_margin (prec emax : Z) (ca cb : V3) (ra rb : R) : R :=
  17 * uro prec * (norm ca + norm cb + Rabs ra + Rabs rb) + uro prec * bpow radix2 (3 - emax / 2).
(** at or below 2^tiny_exp every triple product underflows to zero: 2^-53 in f32, 2^-362 in f64 *)
Definition tiny_exp (prec emax : Z) : Z := ((- 7 - emax - prec) / 3)%Z.
Definition tiny {prec emax} (x : binary_float prec emax) : Prop :=
  is_finite x = true /\ Rabs (B2R x) <= bpow radix2 (tiny_exp prec emax).
Definition tiny3 {prec emax} (p : mat3x1 (binary_float prec emax)) : Prop :=
  match p with M3x1 (A3 x y z) => tiny x /\ tiny y /\ tiny z end.
