(** SpecPrismF.v — vocabulary for prism queries in IEEE arithmetic: points well inside and well outside a set, and a
    tolerance that grows with the flatness of the base triangle. *)
From Coq Require Import Reals ZArith.
From Verif Require Import SpecGeom SpecRound.
Local Open Scope R_scope.

(** the ball of radius [d] around [p] lies in [S] *)
Definition deep (S : pset) (d : R) (p : V3) : Prop := forall x, dist x p <= d -> S x.
(** every point of [S] is farther than [d] from [p] *)
Definition far (S : pset) (d : R) (p : V3) : Prop := forall x, S x -> d < dist x p.
(** all coordinates at most [K] in absolute value *)
Definition upto (K : R) (p : V3) : Prop := Rabs (vx p) <= K /\ Rabs (vy p) <= K /\ Rabs (vz p) <= K.
(** twice the area of a triangle *)
Definition area2 (a b c : V3) : R := norm (vcross (vsub b a) (vsub c a)).
(** 150000 u K (K^2 / 2A)^2 *)
Definition prism_tol (prec : Z) (K : R) (a b c : V3) : R := 150000 * uro prec * K * (K * K / area2 a b c * (K * K / area2 a b c)).
