(** SpecLaws.v — vectors and quaternions of floats compared component by component. *)
From Coq Require Import List ZArith Bool Reals.
From Flocq Require Import Core BinarySingleNaN.
From Verif Require Import Base Num Vec Quat Float SpecMirror PVec.

Section SpecLaws.
  Context {prec emax : Z} {Hp : Prec_gt_0 prec} {Hm : Prec_lt_emax prec emax}.
  Notation bf := (binary_float prec emax).
  Definition negated {k} (v' v : vcar bf k) : Prop := vcomps v' = map Bopp (vcomps v).
  (** the same up to the sign of zeros, the opposite up to the sign of zeros *)
  Definition same_v {k} (v' v : vcar bf k) : Prop := Forall2 alike (vcomps v') (vcomps v).
  Definition opp_v {k} (v' v : vcar bf k) : Prop := Forall2 (fun x' x => alike x' (Bopp x)) (vcomps v') (vcomps v).
  Definition same_q (p q : quat bf) : Prop := alike (qx p) (qx q) /\ alike (qy p) (qy q) /\ alike (qz p) (qz q) /\ alike (qw p) (qw q).
  Definition opp_q (p q : quat bf) : Prop :=
    alike (qx p) (Bopp (qx q)) /\ alike (qy p) (Bopp (qy q)) /\ alike (qz p) (Bopp (qz q)) /\ alike (qw p) (Bopp (qw q)).
End SpecLaws.
