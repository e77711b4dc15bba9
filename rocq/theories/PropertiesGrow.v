(** PropertiesGrow.v — C98: growing a shape never loses a hit. *)
From Coq Require Import Reals List ZArith Bool Lra.
From Flocq Require Import Core BinarySingleNaN.
Import ListNotations.
From Verif Require Import Base Num Vec Mat Bound Shape Intersect Float Exact FloatFacts FloatRound Order SpecGeom SpecShape SpecBuild SpecGrow ExactFacts PBuild PGrow.
Local Open Scope R_scope.

(** C98. Exact arithmetic: [x'] is [x] with a larger radius, edge or tolerance; [y] is any shape whatever. *)
Theorem C98_exact : forall eps zs (x x' y : shape (Exact eps zs)), grows (exact_ordered eps zs) x x' ->
  (hits (shape_get_intersect x y) -> hits (shape_get_intersect x' y)) /\ (hits (shape_get_intersect y x) -> hits (shape_get_intersect y x')).
Proof. intros eps zs. exact (grow_hits (exact_ordered eps zs) (exact_rounded eps zs)). Qed.
(** Every IEEE format, with no margin for rounding, overflow and NaN in the other data included. *)
Theorem C98_ieee : forall prec emax {Hp : Prec_gt_0 prec} {Hm : Prec_lt_emax prec emax} (lm : libm (binary_float prec emax)) (x x' y : shape (Ieee prec emax lm)),
  grows (ieee_ordered prec emax lm) x x' ->
  (hits (shape_get_intersect x y) -> hits (shape_get_intersect x' y)) /\ (hits (shape_get_intersect y x) -> hits (shape_get_intersect y x')).
Proof. intros prec emax Hp Hm lm. exact (grow_hits (ieee_ordered prec emax lm) (ieee_rounded prec emax lm)). Qed.
(** Prisms made higher and segments made longer, exact arithmetic. *)
Theorem C98_prism_point : forall eps zs a b c h h' e e' p f x x' y, tri_ok a b c -> 0 < h <= h' ->
  is_prism eps zs a b c h e x -> is_prism eps zs a b c h' e' x' -> is_point eps zs p f y ->
  hits (shape_get_intersect x y) -> hits (shape_get_intersect x' y).
Proof. exact prism_point_grows. Qed.
Theorem C98_prism_segment : forall eps zs a b c h h' e e' A B A' B' f f' x x' y y', tri_ok a b c -> 0 < h <= h' ->
  A <> B -> A' <> B' -> (forall z, s_segment A B z -> s_segment A' B' z) ->
  is_prism eps zs a b c h e x -> is_prism eps zs a b c h' e' x' -> is_line eps zs A B f y -> is_line eps zs A' B' f' y' ->
  hits (shape_get_intersect x y) -> hits (shape_get_intersect x' y').
Proof. exact prism_segment_grows. Qed.

(** a sphere of f64 numbers growing from radius 1 to radius 2 *)
Example C98_case_f64 : forall lm : libm f64, exists x x', grows (ieee_ordered 53 1024 lm) x x' /\
  mk_sphere (Nm := F64 lm) mat3x1_default n1 n0 x /\ mk_sphere (Nm := F64 lm) mat3x1_default n2 n0 x'.
Proof.
  intro lm. eexists. eexists. split; [| split; apply sphere_any; reflexivity].
  eapply grow_sphere; [| apply sphere_any; reflexivity | apply sphere_any; reflexivity]. exists 1, 2. split; [| split; [| lra]].
  - apply fv_b2x. exact (fv_lit_1 53 1024).
  - apply fv_b2x. exact (fv_lit_2 53 1024).
Qed.
Example C98_case_exact : forall eps zs, exists x x', grows (exact_ordered eps zs) x x' /\ is_ray eps zs (V 0 0 0) (V 1 1 1) 1 x /\ is_ray eps zs (V 0 0 0) (V 1 1 1) 2 x'.
Proof.
  intros eps zs. eexists. eexists. split; [| split; apply (ray_any_eq (ev eps zs (V 0 0 0)) (ev eps zs (V 1 1 1))); reflexivity].
  eapply grow_ray; [| apply ray_any_eq; reflexivity | apply ray_any_eq; reflexivity]. exists 1, 2. cbn. rewrite Rabs_R1, Rabs_pos_eq by lra. repeat split; lra.
Qed.
Print Assumptions C98_exact.
Print Assumptions C98_ieee.
Print Assumptions C98_prism_point.
Print Assumptions C98_prism_segment.
