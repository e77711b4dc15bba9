(** SpecRays.v — the region a ray's bounding box stands for, as a set of points. *)
From Coq Require Import Reals.
From Verif Require Import SpecGeom.
Local Open Scope R_scope.

(** coordinates reachable from [o] when moving along [d]: beyond [o] where [d] moves, equal to [o] where it does not *)
Definition reach (o d x : R) : Prop := (0 < d -> o <= x) /\ (d < 0 -> x <= o) /\ (d = 0 -> x = o).
Definition s_orthant (o d : V3) : pset := fun x =>
  reach (vx o) (vx d) (vx x) /\ reach (vy o) (vy d) (vy x) /\ reach (vz o) (vz d) (vz x).

(** the point of the ray from [o] along [d] at arc length [t] *)
Definition at_length (o d : V3) (t : R) : V3 := vadd o (vscale t (vscale (/ norm d) d)).
(** sine of the angle between two directions *)
Definition sine (d g : V3) : R := norm (vcross d g) / (norm d * norm g).
(** distance of [p] from the full line through [o] along [d] *)
Definition line_dist (o d p : V3) : R := norm (vcross d (vsub p o)) / norm d.
