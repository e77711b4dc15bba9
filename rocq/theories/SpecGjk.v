(** SpecGjk.v — when a binary search over an arc ends: dyadic positions. *)
From Coq Require Import Reals ZArith.
Local Open Scope R_scope.

(** [r] is an integer divided by a power of two *)
Definition dyadic (r : R) : Prop := exists (m : Z) (n : nat), r = IZR m / 2 ^ n.
