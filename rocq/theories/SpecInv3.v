(** SpecInv3.v — what the formulas of Mat3::inverse (/repo/lib/mat.rs:1143-1177) amount to over the reals, in terms of the
    minors: cofactors without their signs except that the middle row is negated, and outside the middle row only the second
    product of the minor is divided by the determinant. *)
From Coq Require Import Reals NArith.
From Verif Require Import SpecReal.
Local Open Scope R_scope.
Definition lop3 (f : rmat) : rmat := fun i j =>
  let k := minor2 f j i in
  if (i =? 1)%N then - rdet2 k / rdet3 f else k 0%N 0%N * k 1%N 1%N - k 0%N 1%N * k 1%N 0%N / rdet3 f.
