(** SpecGeom.v — specification vocabulary over the real numbers: vectors of R^3 and point sets.  Nothing here refers to
    the model of the library. *)
From Coq Require Import Reals List Lra.
Import ListNotations.
Local Open Scope R_scope.

Record V3 := V { vx : R; vy : R; vz : R }.

Definition vadd (u v : V3) : V3 := V (vx u + vx v) (vy u + vy v) (vz u + vz v).
Definition vsub (u v : V3) : V3 := V (vx u - vx v) (vy u - vy v) (vz u - vz v).
Definition vscale (k : R) (v : V3) : V3 := V (k * vx v) (k * vy v) (k * vz v).
Definition vdot (u v : V3) : R := vx u * vx v + vy u * vy v + vz u * vz v.
Definition vcross (u v : V3) : V3 :=
  V (vy u * vz v - vz u * vy v) (vz u * vx v - vx u * vz v) (vx u * vy v - vy u * vx v).
Definition vzero : V3 := V 0 0 0.
Definition norm (v : V3) : R := sqrt (vdot v v).
Definition dist (u v : V3) : R := norm (vsub u v).

(** point sets *)
Definition pset : Type := V3 -> Prop.
Definition s_point (p : V3) : pset := fun x => x = p.
(** half line from [o] in direction [d] *)
Definition s_ray (o d : V3) : pset := fun x => exists t, 0 <= t /\ x = vadd o (vscale t d).
Definition s_ball (c : V3) (r : R) : pset := fun x => dist x c <= r.
Definition s_surface (c : V3) (r : R) : pset := fun x => dist x c = r.
(** plane through [o] with normal [n] *)
Definition s_plane (o n : V3) : pset := fun x => vdot n (vsub x o) = 0.
Definition s_segment (a b : V3) : pset := fun x => exists t, 0 <= t <= 1 /\ x = vadd a (vscale t (vsub b a)).
(** axis-parallel cube with centre [c] and half edge [h] *)
Definition s_cube (c : V3) (h : R) : pset := fun x =>
  Rabs (vx x - vx c) <= h /\ Rabs (vy x - vy c) <= h /\ Rabs (vz x - vz c) <= h.
Definition s_triangle (a b c : V3) : pset := fun x =>
  exists s t, 0 <= s /\ 0 <= t /\ s + t <= 1 /\ x = vadd a (vadd (vscale s (vsub b a)) (vscale t (vsub c a))).
(** the unit normal of a triangle, right-handed *)
Definition tri_normal (a b c : V3) : V3 :=
  let w := vcross (vsub b a) (vsub c a) in vscale (/ norm w) w.
(** the triangle swept along its unit normal from 0 to [h] (h may be negative) *)
Definition s_prism (a b c : V3) (h : R) : pset := fun x =>
  exists y k, s_triangle a b c y /\ 0 <= k <= 1 /\ x = vadd y (vscale (k * h) (tri_normal a b c)).

Definition meets (p q : pset) : Prop := exists x, p x /\ q x.

(** rotation by angle [t] about the unit axis [k] (Rodrigues) *)
Definition rodrigues (k : V3) (t : R) (v : V3) : V3 :=
  vadd (vadd (vscale (cos t) v) (vscale (sin t) (vcross k v))) (vscale (vdot k v * (1 - cos t)) k).
