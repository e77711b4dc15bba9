(** SpecRunV.v — a vector under one matrix after the other. *)
From Coq Require Import List Reals NArith.
Import ListNotations.
From Flocq Require Import BinarySingleNaN.
From Verif Require Import Base Num Vec Mat SpecMat SpecReal.
Local Open Scope R_scope.

(** f applied to v, over the reals, and a bound on all components *)
Definition rapp (f : rmat) (v : lvec R) : lvec R := fun i => rsum4 (fun k => f i k * v k).
Definition vmax (v : lvec R) (x : R) : Prop := forall i, (i < 4)%N -> Rabs (v i) <= x.
(** the last matrix of the list comes first: a1 (a2 (... v)) *)
Fixpoint vec_run {N : Num} (l : list (mat4 N)) (v : mat4x1 N) : res (option (mat4x1 N)) :=
  match l with
  | [] => Ok (Some v)
  | a :: l' => bind (vec_run l' v) (fun o => match o with Some w => mat4_mul_mat4x1 a w | None => Ok None end)
  end.
Definition vfin4 {prec emax} (f : lvec (binary_float prec emax)) : Prop := forall i, (i < 4)%N -> is_finite (f i) = true.
