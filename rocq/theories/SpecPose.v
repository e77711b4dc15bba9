(** SpecPose.v — points carried through a chain of poses: turned by a quaternion, then moved by a vector (C134). *)
From Coq Require Import Reals List ZArith.
Import ListNotations.
From Flocq Require Import Core BinarySingleNaN.
From Verif Require Import Base Num Vec Quat SpecReal SpecGeom SpecBuild SpecQuat SpecFq SpecRun.
Local Open Scope R_scope.

(** with the library: rotate_vector, then plus *)
Fixpoint carry {N : Num} (l : list (quat N * mat3x1 N)) (p : mat3x1 N) : option (mat3x1 N) :=
  match l with
  | [] => Some p
  | (q, t) :: l' => match mat3x1_plus (quat_rotate_vector q p) t with Some p' => carry l' p' | None => None end
  end.
(** over the reals, with unit quaternions *)
Definition hcarry (l : list (H4 * V3)) (p : V3) : V3 := fold_left (fun p qt => vadd (hrot (fst qt) p) (snd qt)) l p.
(** the direction of the quaternion and the vector, as real numbers *)
Definition pose_val {prec emax} (qt : quat (binary_float prec emax) * mat3x1 (binary_float prec emax)) : H4 * V3 := (hdir (qval (fst qt)), v3 (snd qt)).
(** a quaternion of length 1 up to 9 roundoffs and a finite vector of length at most T *)
Definition pose_ok {prec emax} (T : R) (qt : quat (binary_float prec emax) * mat3x1 (binary_float prec emax)) : Prop := near (fst qt) /\ fin3 (snd qt) /\ norm (v3 (snd qt)) <= T.
