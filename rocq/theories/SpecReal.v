(** SpecReal.v — logical matrices over the real numbers: product, identity, determinant. *)
From Coq Require Import Reals NArith.
From Verif Require Import Base Num Exact SpecMat.
Local Open Scope R_scope.

Definition rmat : Type := N -> N -> R.

(** a real matrix as a matrix of exact scalars *)
Definition fin (f : rmat) : lmat XR := fun i j => Fin (f i j).
Definition finv (v : N -> R) : lvec XR := fun i => Fin (v i).

Definition rsum3 (g : N -> R) : R := g 0%N + g 1%N + g 2%N.
Definition rsum4 (g : N -> R) : R := g 0%N + g 1%N + g 2%N + g 3%N.
Definition rmul3 (f g : rmat) : rmat := fun i j => rsum3 (fun k => f i k * g k j).
Definition rmul4 (f g : rmat) : rmat := fun i j => rsum4 (fun k => f i k * g k j).
Definition rplus (f g : rmat) : rmat := fun i j => f i j + g i j.
Definition riden : rmat := fun i j => if (i =? j)%N then 1 else 0.
(** the diagonal matrix with entries 1, -1, 1 *)
Definition rflip : rmat := fun i j => if (i =? j)%N then (if (i =? 1)%N then -1 else 1) else 0.

(** Laplace expansion along the first row *)
Definition skip (c j : N) : N := if (j <? c)%N then j else (j + 1)%N.
Definition rdet2 (f : rmat) : R := f 0%N 0%N * f 1%N 1%N - f 0%N 1%N * f 1%N 0%N.
Definition minor (f : rmat) (c : N) : rmat := fun i j => f (i + 1)%N (skip c j).
Definition rdet3 (f : rmat) : R :=
  f 0%N 0%N * rdet2 (minor f 0) - f 0%N 1%N * rdet2 (minor f 1) + f 0%N 2%N * rdet2 (minor f 2).
Definition rdet4 (f : rmat) : R :=
  f 0%N 0%N * rdet3 (minor f 0) - f 0%N 1%N * rdet3 (minor f 1)
  + f 0%N 2%N * rdet3 (minor f 2) - f 0%N 3%N * rdet3 (minor f 3).

(** the adjugate by cofactors: row and column removed *)
Definition minor2 (f : rmat) (r c : N) : rmat := fun i j => f (skip r i) (skip c j).
Definition sgn (i j : N) : R := if N.even (i + j) then 1 else -1.
Definition radj3 (f : rmat) : rmat := fun i j => sgn i j * rdet2 (minor2 f j i).
Definition radj4 (f : rmat) : rmat := fun i j => sgn i j * rdet3 (minor2 f j i).
(** [g] is a two-sided inverse of [f] *)
Definition rinverse3 (f g : rmat) : Prop := lmat_eq 3 (rmul3 f g) riden /\ lmat_eq 3 (rmul3 g f) riden.
Definition rinverse4 (f g : rmat) : Prop := lmat_eq 4 (rmul4 f g) riden /\ lmat_eq 4 (rmul4 g f) riden.
