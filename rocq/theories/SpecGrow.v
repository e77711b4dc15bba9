(** SpecGrow.v — growing a shape: a larger radius, a larger edge, a larger tolerance. *)
From Coq Require Import Reals.
From Verif Require Import Base Num Vec Mat Bound Shape Intersect Exact Order SpecBuild.
Local Open Scope R_scope.

Section SpecGrow.
  Context {Nm : Num} (O : ordered Nm).
  (** finite numbers, 0 <= a <= b *)
  Definition le_fin (a b : Nm) : Prop := exists x y, emb O a = Fin x /\ emb O b = Fin y /\ 0 <= x <= y.
  (** the absolute value of a tolerance is what [set_vicinity] stores *)
  Inductive grows (s s' : shape Nm) : Prop :=
  | grow_sphere c r r' e e' : le_fin r r' -> mk_sphere c r e s -> mk_sphere c r' e' s' -> grows s s'
  | grow_box c h h' e e' : le_fin h h' -> mk_box c h e s -> mk_box c h' e' s' -> grows s s'
  | grow_point p e e' : le_fin (nabs Nm e) (nabs Nm e') -> mk_point p e s -> mk_point p e' s' -> grows s s'
  | grow_plane o n e e' : le_fin (nabs Nm e) (nabs Nm e') -> mk_plane o n e s -> mk_plane o n e' s' -> grows s s'
  | grow_ray o d e e' : le_fin (nabs Nm e) (nabs Nm e') -> mk_ray o d e s -> mk_ray o d e' s' -> grows s s'.
  Definition hits (r : res (bool * option (mat3x1 Nm))) : Prop := exists l, r = Ok (true, Some l).
End SpecGrow.
