(** SpecDeep.v — pairs of balls of ordinary size, away from touching (C110, C111). *)
From Coq Require Import Reals ZArith.
From Flocq Require Import Core.
From Verif Require Import SpecGeom SpecRound.
Local Open Scope R_scope.

(** balls whose radii are not small against their distance from the origin, of a size far from the ends of the format *)
Definition ordinary (prec emax : Z) (c c' : V3) (r r' : R) : Prop :=
  0 <= r /\ 0 <= r' /\ bpow radix2 (- (emax / 8)) <= r + r' /\ norm c + norm c' + r + r' <= bpow radix2 (emax / 8) /\
  524288 * uro prec * (norm c + norm c' + r + r') <= r + r'.
(** the line through the centres is parallel to the x axis, or clearly not *)
Definition on_axis (c c' : V3) : Prop := vy c = vy c' /\ vz c = vz c'.
Definition off_axis (emax : Z) (c c' : V3) : Prop := bpow radix2 (- (emax / 8)) <= Rabs (vy c - vy c') \/ bpow radix2 (- (emax / 8)) <= Rabs (vz c - vz c').
(** one centre deep inside the other ball: closer than half of where the balls touch *)
Definition deep (c c' : V3) (r r' : R) : Prop := 2 * dist c c' <= r + r'.
(** clearly apart, but not by far; and not hidden behind one another's x end by less than a quarter of the radii *)
Definition apart (c c' : V3) (r r' : R) : Prop := 3 * (r + r') <= 2 * dist c c' /\ dist c c' <= 8 * (r + r').
Definition behind (c c' : V3) (r r' : R) : Prop := vx c - vx c' <= - (5 / 4 * (r + r')).
Definition not_behind (c c' : V3) (r r' : R) : Prop := - (3 / 4 * (r + r')) <= vx c - vx c'.
