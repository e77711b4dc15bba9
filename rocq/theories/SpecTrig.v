(** SpecTrig.v — accuracy of the platform's libm, as a hypothesis; turns about an axis and points on a great circle. *)
From Coq Require Import Reals ZArith.
From Flocq Require Import Core BinarySingleNaN.
From Verif Require Import Float SpecGeom SpecQuat SpecRound.
Local Open Scope R_scope.

(** on finite arguments up to [B] the computed sine and cosine are finite and wrong by at most [d] *)
Definition sincos_acc {prec emax} (lm : libm (binary_float prec emax)) (B d : R) : Prop :=
  forall x, is_finite x = true -> Rabs (B2R x) <= B -> within (lm_sin lm x) (sin (B2R x)) d /\ within (lm_cos lm x) (cos (B2R x)) d.
(** the same for the arc cosine, on its whole domain *)
Definition acos_acc {prec emax} (lm : libm (binary_float prec emax)) (d : R) : Prop :=
  forall x, is_finite x = true -> -1 <= B2R x <= 1 -> within (lm_acos lm x) (acos (B2R x)) d.
(** the same for the angle of a point (x, y) of the upper half plane *)
Definition atan2_acc {prec emax} (lm : libm (binary_float prec emax)) (d : R) : Prop :=
  forall y x, is_finite y = true -> is_finite x = true -> 0 < B2R y -> within (lm_atan2 lm y x) (PI / 2 - atan (B2R x / B2R y)) d.
(** the unit quaternion of a turn by [t] about the unit vector [k] *)
Definition turn (k : V3) (t : R) : H4 := H (vscale (sin (t / 2)) k) (cos (t / 2)).
(** the point [t] of the way from [a] to [b] on their great circle, [w] being the angle between them *)
Definition arc_point (w t : R) (a b : H4) : H4 := hadd (hscale (sin ((1 - t) * w) / sin w) a) (hscale (sin (t * w) / sin w) b).
