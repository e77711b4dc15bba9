(** SpecLog.v — the logarithm of a quaternion, and the accuracy of the platform's logarithm as a hypothesis. *)
From Coq Require Import Reals ZArith.
From Flocq Require Import Core BinarySingleNaN.
From Verif Require Import Float SpecGeom SpecQuat SpecRound.
Local Open Scope R_scope.

(** ln|q| + n a, where q = |q| (cos a + n sin a) *)
Definition hlog (q : H4) : H4 := H (vscale (acos (hs q / hlen q)) (haxis_of q)) (ln (hlen q)).
(** for finite positive numbers with a logarithm up to 4 the result is finite and wrong by at most [d] *)
Definition ln_acc {prec emax} (lm : libm (binary_float prec emax)) (d : R) : Prop :=
  forall x, is_finite x = true -> 0 < B2R x -> Rabs (ln (B2R x)) <= 4 -> within (lm_ln lm x) (ln (B2R x)) d.
(** the arc cosine of a number outside [-1,1] is not a number *)
Definition acos_nan {prec emax} (lm : libm (binary_float prec emax)) : Prop :=
  forall x, is_finite x = true -> 1 < Rabs (B2R x) -> is_nan (lm_acos lm x) = true.
