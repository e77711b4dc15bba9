(** SpecScale.v — a change of the unit of length by a power of two, in IEEE arithmetic. *)
From Coq Require Import List ZArith Bool Reals.
From Flocq Require Import Core BinarySingleNaN.
From Verif Require Import Base Num Vec Shape Intersect Float SpecBuild SpecMirror.

Section SpecScale.
  Context {prec emax : Z} {Hp : Prec_gt_0 prec} {Hm : Prec_lt_emax prec emax}.
  Notation bf := (binary_float prec emax).
  Definition all3 (P : bf -> Prop) (v : mat3x1 bf) : Prop := match v with M3x1 (A3 x y z) => P x /\ P y /\ P z end.
  (** a multiple of 2^-L that is at most 2^L *)
  Definition medium (L : Z) (x : bf) : Prop :=
    is_finite x = true /\ (Rabs (B2R x) <= bpow radix2 L)%R /\ exists m : Z, B2R x = (IZR m * bpow radix2 (- L))%R.
  (** [x'] is 2^k [x], exactly *)
  Definition times2 (k : Z) (x' x : bf) : Prop := is_finite x' = true /\ is_finite x = true /\ B2R x' = (B2R x * bpow radix2 k)%R.
  Definition times3 (k : Z) (v' v : mat3x1 bf) : Prop :=
    match v', v with M3x1 (A3 x' y' z'), M3x1 (A3 x y z) => times2 k x' x /\ times2 k y' y /\ times2 k z' z end.
  (** a direction: not zero *)
  Definition heading (L : Z) (v : mat3x1 bf) : Prop := all3 (medium L) v /\ ~ all3 (fun x => B2R x = 0%R) v.
  (** the data of a shape: medium coordinates, radii above 0 *)
  Definition plain (L : Z) (D : fdesc) : Prop :=
    match D with
    | FPoint p e => all3 (medium L) p /\ medium L e | FRay o d e | FPlane o d e => all3 (medium L) o /\ heading L d /\ medium L e
    | FSphere c r e | FBox c r e => all3 (medium L) c /\ medium L r /\ (0 < B2R r)%R /\ medium L e
    end.
  (** [D'] is [D] with all lengths times 2^k; a direction may be stretched by a power of two of its own *)
  Definition rescaled (L k : Z) (D' D : fdesc) : Prop :=
    match D', D with
    | FPoint p' e', FPoint p e => times3 k p' p /\ times2 k e' e
    | FRay o' d' e', FRay o d e | FPlane o' d' e', FPlane o d e =>
        times3 k o' o /\ (exists j, (Z.abs j <= L)%Z /\ times3 j d' d) /\ times2 k e' e
    | FSphere c' r' e', FSphere c r e | FBox c' r' e', FBox c r e => times3 k c' c /\ times2 k r' r /\ times2 k e' e
    | _, _ => False
    end.
  (** pairs left out: two rays; a ray with a direction in a coordinate plane, and a point *)
  Definition slanted (v : mat3x1 bf) : Prop := all3 (fun x => B2R x <> 0%R) v.
  Definition unit_free (D E : fdesc) : Prop :=
    match D, E with FRay _ _ _, FRay _ _ _ => False | FRay _ d _, FPoint _ _ | FPoint _ _, FRay _ d _ => slanted d | _, _ => True end.
  (** [a'] is the answer [a] in the other unit *)
  Definition same_answer (k : Z) (a' a : res (bool * option (mat3x1 bf))) : Prop :=
    match a', a with
    | Ok (h', Some p'), Ok (h, Some p) => h' = h /\ times3 k p' p
    | _, _ => a' = a
    end.
End SpecScale.
