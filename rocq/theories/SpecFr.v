(** SpecFr.v — the quadratic equation of a ray and a sphere over the reals: |o + t d' - c|^2 = r^2, d' the unit vector of d, is
    t^2 + 2 t b + c = 0. *)
From Coq Require Import Reals.
From Verif Require Import SpecGeom SpecBuild.
Local Open Scope R_scope.

Definition ray_b (o d c : V3) : R := vdot (vsub o c) (s_unit d).
Definition ray_c (o c : V3) (r : R) : R := vdot (vsub o c) (vsub o c) - r * r.
(** a quarter of the discriminant *)
Definition ray_disc (o d c : V3) (r : R) : R := ray_b o d c * ray_b o d c - ray_c o c r.
(** the point at distance [t] along the ray *)
Definition ray_at (o d : V3) (t : R) : V3 := vadd o (vscale t (s_unit d)).
