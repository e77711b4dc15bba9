(** SpecShift.v — moving a scene, in IEEE arithmetic. *)
From Coq Require Import List ZArith Bool Reals.
From Flocq Require Import Core BinarySingleNaN.
From Verif Require Import Base Num Vec Shape Intersect Float SpecRound SpecGeom SpecBuild SpecMirror SpecScale.

Section SpecShift.
  Context {prec emax : Z} {Hp : Prec_gt_0 prec} {Hm : Prec_lt_emax prec emax}.
  Notation bf := (binary_float prec emax).
  (** a multiple of 2^a that is at most 2^b *)
  Definition fixed (a b : Z) (x : bf) : Prop :=
    is_finite x = true /\ (Rabs (B2R x) <= bpow radix2 b)%R /\ exists m : Z, B2R x = (IZR m * bpow radix2 a)%R.
  (** any finite positions of points and rays; centres and radii of balls and cubes on the grid, as their bounds are computed
      from them; directions and tolerances are any floats.  No planes. *)
  Definition on_grid (a b : Z) (D : fdesc) : Prop :=
    match D with
    | FPoint p _ => fin3 p | FRay o _ _ => fin3 o | FSphere c r _ | FBox c r _ => all3 (fixed a b) c /\ fixed a b r
    | FPlane _ _ _ => False
    end.
  Definition shifted (s : V3) (v' v : mat3x1 bf) : Prop := v3 v' = vadd (v3 v) s.
  (** [D'] is [D] moved by the real vector [s] *)
  Definition shift_of (s : V3) (D' D : fdesc) : Prop :=
    match D', D with
    | FPoint p' e', FPoint p e => shifted s p' p /\ e' = e
    | FRay o' d' e', FRay o d e => shifted s o' o /\ d' = d /\ e' = e
    | FSphere c' r' e', FSphere c r e | FBox c' r' e', FBox c r e => shifted s c' c /\ r' = r /\ e' = e
    | _, _ => False
    end.
  (** two points are compared with the tolerance of the first added to a coordinate: these must be on the grid *)
  Definition grid_tolerance (a b : Z) (D E : fdesc (prec := prec) (emax := emax)) : Prop :=
    match D, E with FPoint p e, FPoint _ _ => all3 (fixed a b) p /\ fixed a b e | _, _ => True end.
  Definition moved_by (s : R) (x' x : bf) : Prop := (Rabs (B2R x' - B2R x - s) <= 2 * uro prec * (Rabs (B2R x) + Rabs (B2R x')))%R.
  (** the same flag, and the point moved by [s] up to rounding *)
  Definition moved_answer (s : V3) (a' a : res (bool * option (mat3x1 bf))) : Prop :=
    match a', a with
    | Ok (h', Some p'), Ok (h, Some p) => h' = h /\ (fin3 p' -> fin3 p ->
        match p', p with M3x1 (A3 x' y' z'), M3x1 (A3 x y z) => moved_by (vx s) x' x /\ moved_by (vy s) y' y /\ moved_by (vz s) z' z end)
    | _, _ => a' = a
    end.
End SpecShift.
