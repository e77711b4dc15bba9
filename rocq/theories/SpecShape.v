(** SpecShape.v — the shapes a program can build from finite numbers: constructor, then any [set_vicinity].
    Fresh shapes are included (see [fresh_*] in PShape.v: the constructors store the tolerance 10^-6). *)
From Coq Require Import Reals List.
Import ListNotations.
From Verif Require Import Base Num Vec Mat Bound Shape Exact SpecGeom.

Section SpecShape.
  Variable eps : R.
  Variable zs : XR -> bool.
  Notation E := (Exact eps zs).
  (** the slice [&[x, y, z]] *)
  Definition vl (p : V3) : list E := [Fin (vx p); Fin (vy p); Fin (vz p)].
  Definition is_point (p : V3) (e : R) (s : shape E) : Prop := exists x,
    point_init (vl p) = Ok x /\ s = shape_set_vicinity (SPoint x) (Fin e : E).
  Definition is_ray (o d : V3) (e : R) (s : shape E) : Prop := exists x,
    ray_init (vl o) (vl d) = Ok x /\ s = shape_set_vicinity (SRay x) (Fin e : E).
  Definition is_sphere (c : V3) (r : R) (e : R) (s : shape E) : Prop := exists x,
    sphere_init (vl c) (Fin r : E) = Ok x /\ s = shape_set_vicinity (SSphere x) (Fin e : E).
  Definition is_plane (o n : V3) (e : R) (s : shape E) : Prop := exists x,
    plane_init (vl o) (vl n) = Ok x /\ s = shape_set_vicinity (SPlane x) (Fin e : E).
  Definition is_line (a b : V3) (e : R) (s : shape E) : Prop := exists x,
    line_init (vl a) (vl b) = Ok x /\ s = shape_set_vicinity (SLine x) (Fin e : E).
  Definition is_box (c : V3) (h : R) (e : R) (s : shape E) : Prop := exists x,
    recbox_init (vl c) (Fin h : E) = Ok x /\ s = shape_set_vicinity (SBox x) (Fin e : E).
  Definition is_prism (a b c : V3) (h : R) (e : R) (s : shape E) : Prop := exists x,
    triprism_init (vl a ++ vl b ++ vl c) (Fin h : E) = Ok x /\ s = shape_set_vicinity (SPrism x) (Fin e : E).
  (** the base triangle is not degenerate *)
  Definition tri_ok (a b c : V3) : Prop := vcross (vsub b a) (vsub c a) <> vzero.
End SpecShape.
