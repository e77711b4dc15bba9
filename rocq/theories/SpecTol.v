(** SpecTol.v — the comparison with a tolerance of all eight types, and closeness of their entries in real numbers (C135). *)
From Coq Require Import Reals List ZArith.
From Flocq Require Import Core BinarySingleNaN.
From Verif Require Import Base Num Vec Mat PVec.
Local Open Scope R_scope.

(** the six vector types and the two matrix types *)
Inductive tkind := TV (k : vkind) | T3 | T4.
Definition tcar (T : Type) (k : tkind) : Type := match k with TV k => vcar T k | T3 => mat3 T | T4 => mat4 T end.
(** the stored entries *)
Definition tents {T : Type} {k : tkind} : tcar T k -> list T := match k with TV k => vcomps | T3 => fun a => list9 (m3_val a) | T4 => fun a => list16 (m4_val a) end.
(** the same storage layout (vectors have only one) *)
Definition tsame {T : Type} {k : tkind} : tcar T k -> tcar T k -> Prop := match k with TV k => fun _ _ => True | T3 => fun a b => m3_rm a = m3_rm b | T4 => fun a b => m4_rm a = m4_rm b end.
(** is_equal *)
Definition tequal {N : Num} {k : tkind} : tcar N k -> tcar N k -> N -> res (option bool) := match k with TV k => fun a b e => Ok (vec_is_equal a b e) | T3 => mat3_is_equal | T4 => mat4_is_equal end.
(** every entry finite; every entry at most M *)
Definition tfin {prec emax} (l : list (binary_float prec emax)) : Prop := Forall (fun x => is_finite x = true) l.
Definition tmax {prec emax} (M : R) (l : list (binary_float prec emax)) : Prop := Forall (fun x => Rabs (B2R x) <= M) l.
(** two floats that differ by at most [d], which may depend on them *)
Definition apart {prec emax} (d : R -> R -> R) (x y : binary_float prec emax) : Prop := Rabs (B2R x - B2R y) <= d (B2R x) (B2R y).
