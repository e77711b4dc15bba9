(** SpecSwap.v — shapes and answers after exchanging two coordinates, in IEEE arithmetic (C114). *)
From Coq Require Import List ZArith Bool.
From Flocq Require Import Core BinarySingleNaN.
From Verif Require Import Base Num Vec Shape Float SpecMirror.

Section SpecSwap.
  Context {prec emax : Z}.
  Notation bf := (binary_float prec emax).
  (** exchange x and y; exchange y and z *)
  Definition sw_xy (v : mat3x1 bf) : mat3x1 bf := match v with M3x1 (A3 x y z) => M3x1 (A3 y x z) end.
  Definition sw_yz (v : mat3x1 bf) : mat3x1 bf := match v with M3x1 (A3 x y z) => M3x1 (A3 x z y) end.
  (** apply a map of vectors to every vector of a description *)
  Definition desc_map (f : mat3x1 bf -> mat3x1 bf) (D : fdesc (prec := prec) (emax := emax)) : fdesc (prec := prec) (emax := emax) :=
    match D with
    | FPoint p e => FPoint (f p) e | FRay o d e => FRay (f o) (f d) e | FSphere c r e => FSphere (f c) r e
    | FPlane o n e => FPlane (f o) (f n) e | FBox c h e => FBox (f c) h e
    end.
  (** and to the reported point *)
  Definition answer_map (f : mat3x1 bf -> mat3x1 bf) (a : res (bool * option (mat3x1 bf))) : res (bool * option (mat3x1 bf)) :=
    match a with Ok (h, Some p) => Ok (h, Some (f p)) | _ => a end.
  Definition ray_and_point (D E : fdesc (prec := prec) (emax := emax)) : Prop :=
    match D, E with FRay _ _ _, FPoint _ _ | FPoint _ _, FRay _ _ _ => True | _, _ => False end.
  (** one of the two is a point, the other a point, a sphere or a box: queries without arithmetic other than differences *)
  Definition by_comparison (D E : fdesc (prec := prec) (emax := emax)) : Prop :=
    match D, E with FPoint _ _, (FPoint _ _ | FSphere _ _ _ | FBox _ _ _) | (FSphere _ _ _ | FBox _ _ _), FPoint _ _ => True | _, _ => False end.
End SpecSwap.
