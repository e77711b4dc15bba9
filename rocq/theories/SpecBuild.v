(** SpecBuild.v — the shapes a program can build in any arithmetic: constructor, then any [set_vicinity]; and the real
    points denoted by vectors of floats. *)
From Coq Require Import Reals List ZArith.
From Flocq Require Import Core BinarySingleNaN.
Import ListNotations.
From Verif Require Import Base Num Vec Mat Bound Shape Float Exact Order FloatFacts SpecMat SpecGeom SpecBound.

Section SpecBuild.
  Context {Nm : Num}.
  (** the slice [&[x, y, z]] *)
  Definition sl (p : mat3x1 Nm) : list Nm := match p with M3x1 (A3 x y z) => [x; y; z] end.
  Definition mk_point (p : mat3x1 Nm) (e : Nm) (s : shape Nm) : Prop := exists x,
    point_init (sl p) = Ok x /\ s = shape_set_vicinity (SPoint x) e.
  Definition mk_ray (o d : mat3x1 Nm) (e : Nm) (s : shape Nm) : Prop := exists x,
    ray_init (sl o) (sl d) = Ok x /\ s = shape_set_vicinity (SRay x) e.
  Definition mk_sphere (c : mat3x1 Nm) (r e : Nm) (s : shape Nm) : Prop := exists x,
    sphere_init (sl c) r = Ok x /\ s = shape_set_vicinity (SSphere x) e.
  Definition mk_plane (o n : mat3x1 Nm) (e : Nm) (s : shape Nm) : Prop := exists x,
    plane_init (sl o) (sl n) = Ok x /\ s = shape_set_vicinity (SPlane x) e.
  Definition mk_line (a b : mat3x1 Nm) (e : Nm) (s : shape Nm) : Prop := exists x,
    line_init (sl a) (sl b) = Ok x /\ s = shape_set_vicinity (SLine x) e.
  Definition mk_box (c : mat3x1 Nm) (h e : Nm) (s : shape Nm) : Prop := exists x,
    recbox_init (sl c) h = Ok x /\ s = shape_set_vicinity (SBox x) e.
  Definition mk_prism (a b c : mat3x1 Nm) (h e : Nm) (s : shape Nm) : Prop := exists x,
    triprism_init (sl a ++ sl b ++ sl c) h = Ok x /\ s = shape_set_vicinity (SPrism x) e.
End SpecBuild.

(** a vector of floats as a point of R^3 *)
Definition v3 {prec emax} (p : mat3x1 (binary_float prec emax)) : V3 :=
  match p with M3x1 (A3 x y z) => V (B2R x) (B2R y) (B2R z) end.
Definition fin3 {prec emax} (p : mat3x1 (binary_float prec emax)) : Prop :=
  match p with M3x1 (A3 x y z) => is_finite x = true /\ is_finite y = true /\ is_finite z = true end.
(** coordinates of moderate size: at most 2^(emax/2-3), that is 2^61 in f32 and 2^509 in f64 *)
Definition moderate {prec emax} (p : mat3x1 (binary_float prec emax)) : Prop := fin3 p /\
  match p with M3x1 (A3 x y z) => let L := bpow radix2 (emax / 2 - 3) in Rabs (B2R x) <= L /\ Rabs (B2R y) <= L /\ Rabs (B2R z) <= L end%R.
(** the unit vector along [v] *)
Definition s_unit (v : V3) : V3 := vscale (/ norm v) v.
(** a normal vector of moderate size whose square does not underflow *)
Definition good_normal {prec emax} (n : mat3x1 (binary_float prec emax)) : Prop :=
  moderate n /\ (bpow radix2 (6 - emax) <= vdot (v3 n) (v3 n))%R.

(** convex hull of a list of points: weighted means *)
Fixpoint wsum (ws : list R) (ps : list V3) : V3 :=
  match ws, ps with w :: ws, p :: ps => vadd (vscale w p) (wsum ws ps) | _, _ => vzero end.
Definition s_hull (ps : list V3) : pset := fun x =>
  exists ws, length ws = length ps /\ (forall w, In w ws -> (0 <= w)%R) /\ fold_right Rplus 0%R ws = 1%R /\ x = wsum ws ps.

(** a real number in an IEEE format: rounded to nearest even, infinite if that is too large *)
Definition ieee (prec emax : Z) (r : R) : XR :=
  let t := round radix2 (SpecFloat.fexp prec emax) ZnearestE r in
  if Rlt_dec (Rabs t) (bpow radix2 emax) then Fin t else if Rlt_dec 0 t then PInf else NInf.
(** the real point [x], rounded, lies in the box of floats [b] *)
Definition rholds {prec emax} (b : aabb (binary_float prec emax)) (x : V3) : Prop := forall i, (i < 3)%N ->
  xle (b2x prec emax (comps3 (b_lower b) i)) (ieee prec emax (comp i x)) /\
  xle (ieee prec emax (comp i x)) (b2x prec emax (comps3 (b_upper b) i)).

(** [owns s x]: the real point [x] belongs to the shape [s] built from finite floats.  For a prism: to the convex hull of
    the six vertices it stores. *)
Section Owns.
  Context (prec emax : Z) {Hp : Prec_gt_0 prec} {Hm : Prec_lt_emax prec emax} (lm : libm (binary_float prec emax)).
  Notation F := (@Ieee prec emax Hp Hm lm).
  Definition six (t : triprism F) : list (mat3x1 F) := list3 (tp_base t) ++ list3 (tp_base2 t).
  Inductive owns (s : shape F) (x : V3) : Prop :=
  | own_point p e : mk_point p e s -> fin3 p -> s_point (v3 p) x -> owns s x
  | own_ray o d e : mk_ray o d e s -> fin3 o -> fin3 d -> s_ray (v3 o) (v3 d) x -> owns s x
  | own_sphere c (r : F) e : mk_sphere c r e s -> fin3 c -> is_finite (r : binary_float prec emax) = true ->
      s_ball (v3 c) (B2R r) x -> owns s x
  | own_plane o n e : mk_plane o n e s -> owns s x
  | own_line a b e : mk_line a b e s -> fin3 a -> fin3 b -> s_segment (v3 a) (v3 b) x -> owns s x
  | own_box c (h : F) e : mk_box c h e s -> fin3 c -> is_finite (h : binary_float prec emax) = true ->
      s_cube (v3 c) (B2R h) x -> owns s x
  | own_prism a b c h e t : mk_prism a b c h e s -> s = SPrism t -> (forall q, In q (six t) -> fin3 q) ->
      s_hull (map v3 (six t)) x -> owns s x.
End Owns.
