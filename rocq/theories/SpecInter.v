(** SpecInter.v — which pairs of shapes [get_intersect] supports, and what a well-formed answer is. *)
From Coq Require Import Bool.
From Verif Require Import Base Num Vec Mat Bound Shape Intersect.

(** the pairs of kinds with an implementation, in either order *)
Definition supported (a b : shape_type) : bool :=
  match a, b with
  | TPoint, TPoint | TRay, TRay | TSphere, TSphere => true
  | TPoint, TRay | TRay, TPoint | TPoint, TSphere | TSphere, TPoint | TPoint, TPlane | TPlane, TPoint => true
  | TPoint, TBox | TBox, TPoint | TPoint, TTriPrism | TTriPrism, TPoint => true
  | TRay, TSphere | TSphere, TRay | TRay, TPlane | TPlane, TRay | TSphere, TPlane | TPlane, TSphere => true
  | TLine, TTriPrism | TTriPrism, TLine => true
  | _, _ => false
  end.

(** a location is present exactly with a hit *)
Definition answer {Nm : Num} (h : bool * option (mat3x1 Nm)) : Prop := fst h = true <-> exists p, snd h = Some p.
