(** SpecSteer.v — an orientation steered by turns given as axis and angle (C131). *)
From Coq Require Import List Reals ZArith.
Import ListNotations.
From Flocq Require Import BinarySingleNaN.
From Verif Require Import Base Num Vec Mat Quat SpecGeom SpecQuat SpecRound SpecBuild SpecFq SpecTrig SpecRun.
Local Open Scope R_scope.

(** one control: about a fixed axis (true) or about an axis carried along (false), the axis and the angle in radians *)
Definition control (A B : Type) : Type := (bool * A * B)%type.
Section Lib.
  Context {N : Num}.
  Definition steer_step (q : quat N) (c : control (mat3x1 N) N) : res (quat N) :=
    let '(w, k, a) := c in bind (quat_init_from_axis_angle_radian k a) (fun p => turn_step q (if w then Lead p else Trail p)).
  Fixpoint steer (l : list (control (mat3x1 N) N)) (q : quat N) : res (quat N) := match l with [] => Ok q | c :: l' => bind (steer_step q c) (steer l') end.
End Lib.
(** over the reals, with the axis made a unit vector *)
Definition hsteer (U : H4) (c : control V3 R) : H4 :=
  let '(w, k, a) := c in if w : bool then hmul (SpecTrig.turn (s_unit k) a) U else hmul U (SpecTrig.turn (s_unit k) a).
Definition cval {prec emax} (c : control (mat3x1 (binary_float prec emax)) (binary_float prec emax)) : control V3 R := let '(w, k, a) := c in (w, v3 k, B2R a).
(** the axis can be normalised and the angle is at most B *)
Definition cgood {prec emax} (B : R) (c : control (mat3x1 (binary_float prec emax)) (binary_float prec emax)) : Prop :=
  let '(w, k, a) := c in good_normal k /\ is_finite a = true /\ Rabs (B2R a) <= B.
Definition angles (l : list (control V3 R)) : R := fold_right Rplus 0 (map snd l).
