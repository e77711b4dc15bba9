(** SpecPow.v — powers of a quaternion, and the accuracy of the platform's powf as a hypothesis. *)
From Coq Require Import Reals ZArith.
From Flocq Require Import Core BinarySingleNaN.
From Verif Require Import Float SpecGeom SpecQuat SpecRound.
Local Open Scope R_scope.

(** |q|^t (cos t a + n sin t a), where q = |q| (cos a + n sin a) *)
Definition hpower (q : H4) (t : R) : H4 :=
  let a := acos (hs q / hlen q) in H (vscale (Rpower (hlen q) t * sin (t * a)) (haxis_of q)) (Rpower (hlen q) t * cos (t * a)).
(** for powers between 1/e and e of finite positive numbers the result is finite and wrong by at most [d] *)
Definition powf_acc {prec emax} (lm : libm (binary_float prec emax)) (d : R) : Prop :=
  forall x y, is_finite x = true -> is_finite y = true -> 0 < B2R x -> Rabs (B2R y * ln (B2R x)) <= 1 -> within (lm_powf lm x y) (Rpower (B2R x) (B2R y)) d.
