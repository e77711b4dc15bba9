(** SpecSpin.v — an orientation kept as a quaternion and as a matrix. *)
From Coq Require Import List Reals ZArith NArith.
From Verif Require Import SpecMat SpecReal SpecQuat SpecRun.
Local Open Scope R_scope.

(** the true orientation: the product of the unit quaternions along the given ones *)
Definition course (q : H4) (l : list H4) : H4 := fold_left hmul (map hdir l) (hdir q).
(** Euclidean length of row i *)
Definition rowlen (f : rmat) (i : N) : R := sqrt (rsum4 (fun j => f i j * f i j)).
(** all rows of f are within d of those of g *)
Definition rows_within (d : R) (f g : rmat) : Prop := forall i, (i < 4)%N -> rowlen (rminus f g) i <= d.
