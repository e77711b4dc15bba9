(** SpecSym.v — the symmetries of the coordinate axes: relabelling, quarter turns, mirror images; their action on descriptions of
    shapes and on answers. *)
From Coq Require Import Reals List.
Import ListNotations.
From Verif Require Import Base Num Vec Mat Bound Shape Intersect Exact SpecGeom SpecShape SpecSim.
Local Open Scope R_scope.

Inductive sym := Cyc | Quarter | Mirror.
Definition sym_p (g : sym) (p : V3) : V3 :=
  match g with Cyc => V (vy p) (vz p) (vx p) | Quarter => V (- vy p) (vx p) (vz p) | Mirror => V (- vx p) (vy p) (vz p) end.
(** a word of symmetries; words of Cyc and Quarter are the 24 rotations of the cube, all words its 48 symmetries *)
Definition syms_p (w : list sym) (p : V3) : V3 := fold_right sym_p p w.
Definition sym_d (w : list sym) (D : desc) : desc :=
  let H := syms_p w in
  match D with
  | DPoint p e => DPoint (H p) e | DRay o d e => DRay (H o) (H d) e | DSphere c r e => DSphere (H c) r e
  | DPlane o n e => DPlane (H o) (H n) e | DLine a b e => DLine (H a) (H b) e | DBox c h e => DBox (H c) h e
  | DPrism a b c h e => DPrism (H a) (H b) (H c) h e
  end.
Definition sym_v {eps zs} (g : sym) (v : mat3x1 (Exact eps zs)) : mat3x1 (Exact eps zs) :=
  match v with M3x1 (A3 x y z) =>
    match g with Cyc => @M3x1 (Exact eps zs) (@A3 (Exact eps zs) y z x) | Quarter => @M3x1 (Exact eps zs) (@A3 (Exact eps zs) (xneg y) x z)
    | Mirror => @M3x1 (Exact eps zs) (@A3 (Exact eps zs) (xneg x) y z) end end.
Definition sym_hit {eps zs} (w : list sym) (r : res (bool * option (mat3x1 (Exact eps zs)))) : res (bool * option (mat3x1 (Exact eps zs))) :=
  match r with Ok (b, l) => Ok (b, match l with Some v => Some (fold_right sym_v v w) | None => None end) | Panic k => Panic k end.
Definition is_prism_d (D : desc) : Prop := match D with DPrism _ _ _ _ _ => True | _ => False end.
Definition not_flat (D : desc) : Prop := match D with DPrism a b c _ _ => tri_ok a b c | _ => True end.
Definition ray_and_point (D1 D2 : desc) : Prop :=
  match D1, D2 with DRay _ _ _, DPoint _ _ | DPoint _ _, DRay _ _ _ => True | _, _ => False end.
