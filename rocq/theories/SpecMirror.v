(** SpecMirror.v — mirror images of shapes and answers in IEEE arithmetic. *)
From Coq Require Import List ZArith Bool Reals.
From Flocq Require Import Core BinarySingleNaN.
From Verif Require Import Base Num Vec Shape Intersect Float SpecBuild.

(** a change of sign of any of the three coordinates *)
Record signs := Sg { sg0 : bool; sg1 : bool; sg2 : bool }.
Section SpecMirror.
  Context {prec emax : Z} {Hp : Prec_gt_0 prec} {Hm : Prec_lt_emax prec emax}.
  Notation bf := (binary_float prec emax).
  Definition sgn (b : bool) (x : bf) : bf := if b then Bopp x else x.
  Definition flip (s : signs) (v : mat3x1 bf) : mat3x1 bf :=
    match v with M3x1 (A3 x y z) => M3x1 (A3 (sgn (sg0 s) x) (sgn (sg1 s) y) (sgn (sg2 s) z)) end.
  (** equal, or both zeros: 0 and -0 are not told apart *)
  Definition alike (x y : bf) : Prop := x = y \/ (is_finite x = true /\ is_finite y = true /\ B2R x = 0%R /\ B2R y = 0%R).
  Definition alike3 (v w : mat3x1 bf) : Prop :=
    match v, w with M3x1 (A3 x y z), M3x1 (A3 x' y' z') => alike x x' /\ alike y y' /\ alike z z' end.
  (** a shape, as its constructor's arguments and the argument of set_vicinity; any floats, NaN and infinities included *)
  Inductive fdesc := FPoint (p : mat3x1 bf) (e : bf) | FRay (o d : mat3x1 bf) (e : bf) | FSphere (c : mat3x1 bf) (r e : bf)
    | FPlane (o n : mat3x1 bf) (e : bf) | FBox (c : mat3x1 bf) (h e : bf).
  Definition fbuilds (lm : libm bf) (D : fdesc) (x : shape (Ieee prec emax lm)) : Prop :=
    match D with
    | FPoint p e => mk_point (Nm := Ieee prec emax lm) p e x | FRay o d e => mk_ray (Nm := Ieee prec emax lm) o d e x
    | FSphere c r e => mk_sphere (Nm := Ieee prec emax lm) c r e x | FPlane o n e => mk_plane (Nm := Ieee prec emax lm) o n e x
    | FBox c h e => mk_box (Nm := Ieee prec emax lm) c h e x
    end.
  Definition image (s : signs) (D : fdesc) : fdesc :=
    match D with
    | FPoint p e => FPoint (flip s p) e | FRay o d e => FRay (flip s o) (flip s d) e | FSphere c r e => FSphere (flip s c) r e
    | FPlane o n e => FPlane (flip s o) (flip s n) e | FBox c h e => FBox (flip s c) h e
    end.
  Definition ball_and_point (D E : fdesc) : Prop :=
    match D, E with FSphere _ _ _, FPoint _ _ | FPoint _ _, FSphere _ _ _ => True | _, _ => False end.
  (** [a'] is the mirror image of the answer [a] *)
  Definition mirrored (s : signs) (a' a : res (bool * option (mat3x1 bf))) : Prop :=
    match a', a with
    | Ok (h', Some p'), Ok (h, Some p) => h' = h /\ alike3 p' (flip s p)
    | _, _ => a' = a
    end.
End SpecMirror.
