(** SpecSim.v — moving and enlarging: the map x -> s x + t on descriptions of shapes, on answers. *)
From Coq Require Import Reals List.
From Verif Require Import Base Num Vec Mat Bound Shape Intersect Exact SpecGeom SpecShape.
Local Open Scope R_scope.

(** the data a shape is built from; the last number is the argument of [set_vicinity] *)
Inductive desc :=
| DPoint (p : V3) (e : R) | DRay (o d : V3) (e : R) | DSphere (c : V3) (r e : R) | DPlane (o n : V3) (e : R)
| DLine (a b : V3) (e : R) | DBox (c : V3) (h e : R) | DPrism (a b c : V3) (h e : R).
Definition builds (eps : R) (zs : XR -> bool) (D : desc) (x : shape (Exact eps zs)) : Prop :=
  match D with
  | DPoint p e => is_point eps zs p e x | DRay o d e => is_ray eps zs o d e x
  | DSphere c r e => is_sphere eps zs c r e x | DPlane o n e => is_plane eps zs o n e x
  | DLine a b e => is_line eps zs a b e x | DBox c h e => is_box eps zs c h e x
  | DPrism a b c h e => is_prism eps zs a b c h e x
  end.
(** positions go to s x + t, lengths and tolerances are multiplied by s, directions and normals stay *)
Definition moved (s : R) (t : V3) (D : desc) : desc :=
  let H p := vadd (vscale s p) t in
  match D with
  | DPoint p e => DPoint (H p) (s * e) | DRay o d e => DRay (H o) d (s * e)
  | DSphere c r e => DSphere (H c) (s * r) (s * e) | DPlane o n e => DPlane (H o) n (s * e)
  | DLine a b e => DLine (H a) (H b) (s * e) | DBox c h e => DBox (H c) (s * h) (s * e)
  | DPrism a b c h e => DPrism (H a) (H b) (H c) (s * h) (s * e)
  end.
(** coordinates that are not finite stay *)
Definition moved_x (s t : R) (x : XR) : XR := match x with Fin r => Fin (s * r + t) | _ => x end.
Definition moved_v {eps zs} (s : R) (t : V3) (v : mat3x1 (Exact eps zs)) : mat3x1 (Exact eps zs) :=
  match v with M3x1 (A3 x y z) => M3x1 (A3 (moved_x s (vx t) x) (moved_x s (vy t) y) (moved_x s (vz t) z)) end.
(** the answer of a query, with its location moved; a panic stays *)
Definition moved_hit {eps zs} (s : R) (t : V3) (r : res (bool * option (mat3x1 (Exact eps zs)))) : res (bool * option (mat3x1 (Exact eps zs))) :=
  match r with Ok (b, l) => Ok (b, match l with Some v => Some (moved_v s t v) | None => None end) | Panic k => Panic k end.
