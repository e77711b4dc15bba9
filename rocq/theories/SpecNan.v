(** SpecNan.v — the two arithmetics of the model as one predicate, and vectors with NaN or zero entries. *)
From Coq Require Import Reals List ZArith Bool.
From Flocq Require Import Core BinarySingleNaN.
From Verif Require Import Base Num Vec Float Exact.

(** exact arithmetic, or IEEE arithmetic of any format with any libm *)
Inductive library_arith : Num -> Prop :=
| la_exact eps zs : library_arith (Exact eps zs)
| la_ieee prec emax (Hp : Prec_gt_0 prec) (Hm : Prec_lt_emax prec emax) (lm : libm (binary_float prec emax)) :
    library_arith (@Ieee prec emax Hp Hm lm).

Section SpecNan.
  Context {Nm : Num}.
  (** some entry, every entry is NaN *)
  Definition some_nan (v : mat3x1 Nm) : Prop :=
    match v with M3x1 (A3 x y z) => nisnan x = true \/ nisnan y = true \/ nisnan z = true end.
  Definition all_nan (v : mat3x1 Nm) : Prop :=
    match v with M3x1 (A3 x y z) => nisnan x = true /\ nisnan y = true /\ nisnan z = true end.
  (** every entry compares equal to zero *)
  Definition zero3 (v : mat3x1 Nm) : Prop :=
    match v with M3x1 (A3 x y z) => neqb x n0 = true /\ neqb y n0 = true /\ neqb z n0 = true end.
  (** the unit vector stored for a direction *)
  Definition unit_of (d u : mat3x1 Nm) : Prop := mat3x1_normalize d = Ok (Some u).
End SpecNan.

(** directions whose squared length overflows or underflows *)
Local Open Scope R_scope.
Definition square_overflows {prec emax} (d : mat3x1 (binary_float prec emax)) : Prop :=
  match d with M3x1 (A3 x y z) => bpow radix2 emax <= B2R x * B2R x \/ bpow radix2 emax <= B2R y * B2R y \/ bpow radix2 emax <= B2R z * B2R z end.
Definition square_underflows {prec emax} (d : mat3x1 (binary_float prec emax)) : Prop :=
  match d with M3x1 (A3 x y z) => let m := bpow radix2 (2 - emax - prec) in B2R x * B2R x < m /\ B2R y * B2R y < m /\ B2R z * B2R z < m end.
