(** SpecCtor.v — what a constructor that checks its slice lengths does: it works exactly when they are right, and otherwise
    stops at an assertion. *)
From Coq Require Import List.
From Verif Require Import Base.

Definition checks {A} (ok : Prop) (r : res A) : Prop := (ok /\ exists x, r = Ok x) \/ (~ ok /\ r = Panic PAssert).
