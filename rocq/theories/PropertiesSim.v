(** PropertiesSim.v — C95, C96, C97: what the queries do when everything is moved, enlarged, or seen in other axes (exact arithmetic). *)
From Coq Require Import Reals List ZArith NArith Bool Lra.
Import ListNotations.
From Verif Require Import Base Num Vec Mat Bound Shape Intersect Gjk Exact SpecGeom SpecShape SpecSim SpecSym ExactFacts PSim PSimGjk PSym PGeo1.
Local Open Scope R_scope.

Section Sim.
  Context (eps : R) (zs : XR -> bool).
  Notation E := (Exact eps zs).
  Notation builds := (builds eps zs).

  (** C95. A query between two constructed shapes of any kinds, moved by x -> s x + t with s > 0: the same answer, panics included,
      with the location moved in the same way. *)
  Theorem C95_moved : forall s t D1 D2 x y x' y', 0 < s -> builds D1 x -> builds D2 y -> builds (moved s t D1) x' -> builds (moved s t D2) y' ->
    shape_get_intersect x' y' = moved_hit s t (shape_get_intersect x y).
  Proof. intros s t D1 D2 x y x' y' Hs. exact (sim eps zs s t Hs D1 D2 x y x' y'). Qed.
  (** every description can be built *)
  Example C95_built : forall D, exists x, builds D x.
  Proof. exact (builds_total eps zs). Qed.
  (** a hit, and where it goes *)
  Example C95_case : forall x y x' y', builds (DSphere (V 0 0 0) 3 0) x -> builds (DPoint (V 1 1 1) 0) y ->
    builds (DSphere (V 5 0 0) 6 0) x' -> builds (DPoint (V 7 2 2) 0) y' ->
    shape_get_intersect x y = Ok (true, Some (ev eps zs (V 1 1 1))) /\ shape_get_intersect x' y' = Ok (true, Some (ev eps zs (V 7 2 2))).
  Proof.
    intros x y x' y' X Y X' Y'.
    assert (shape_get_intersect x y = Ok (true, Some (ev eps zs (V 1 1 1)))) as H.
    { apply (sphere_point_iff eps zs (V 0 0 0) 3 0 (V 1 1 1) 0 x y X Y). unfold s_cube. cbn [vx vy vz]. repeat split; apply Rabs_le; lra. }
    split; [exact H |]. assert (2 > 0) as P by lra.
    rewrite (C95_moved 2 (V 5 0 0) (DSphere (V 0 0 0) 3 0) (DPoint (V 1 1 1) 0) x y x' y' P X Y).
    - rewrite H. cbn. unfold ExactFacts.ev. cbn [vx vy vz]. replace (2 * 1 + 5) with 7 by ring. replace (2 * 1 + 0) with 2 by ring. reflexivity.
    - cbn [moved]. replace (vadd (vscale 2 (V 0 0 0)) (V 5 0 0)) with (V 5 0 0) by (apply V3_eq; cbn; ring). replace (2 * 3) with 6 by ring. replace (2 * 0) with 0 by ring. exact X'.
    - cbn [moved]. replace (vadd (vscale 2 (V 1 1 1)) (V 5 0 0)) with (V 7 2 2) by (apply V3_eq; cbn; ring). replace (2 * 0) with 0 by ring. exact Y'.
  Qed.
  (** the tolerance has to be enlarged too: a plane and a point above it *)
  Theorem C95_tolerance : forall x y y', builds (DPlane (V 0 0 0) (V 0 0 1) 1) x -> builds (DPoint (V 0 0 1) 0) y -> builds (DPoint (V 0 0 2) 0) y' ->
    shape_get_intersect x y = Ok (true, Some (ev eps zs (V 0 0 1))) /\ shape_get_intersect x y' = Ok (false, None).
  Proof.
    intros x y y' X Y Y'. assert (V 0 0 1 <> vzero) as N by (intro C; injection C; lra). split.
    - apply (plane_point_iff eps zs (V 0 0 0) (V 0 0 1) 1 (V 0 0 1) 0 x y N X Y). exists (V 0 0 0). split; [unfold s_plane, vdot; cbn; lra |].
      unfold dist. replace (vsub (V 0 0 1) (V 0 0 0)) with (V 0 0 1) by (apply V3_eq; cbn; ring). unfold norm, vdot. cbn. replace (0 * 0 + 0 * 0 + 1 * 1) with 1 by ring. rewrite sqrt_1, Rabs_R1. lra.
    - apply (plane_point_iff eps zs (V 0 0 0) (V 0 0 1) 1 (V 0 0 2) 0 x y' N X Y'). intros [[a b c] [H1 H2]]. unfold s_plane, vdot in H1. cbn in H1. assert (c = 0) by lra. subst c.
      rewrite Rabs_R1 in H2. unfold dist, norm, vdot in H2. cbn in H2. assert (sqrt 4 <= 1) as K. { eapply Rle_trans; [| exact H2]. apply sqrt_le_1_alt. nra. }
      replace 4 with (2 * 2) in K by ring. rewrite sqrt_square in K by lra. lra.
  Qed.

  (** C96. The GJK query and the support functions, moved in the same way. *)
  Theorem C96_gjk : forall s t fuel D1 D2 x y x' y', 0 < s -> builds D1 x -> builds D2 y -> builds (moved s t D1) x' -> builds (moved s t D2) y' ->
    query_intersect fuel x' y' = query_intersect fuel x y.
  Proof. intros s t fuel D1 D2 x y x' y' Hs. exact (gjk_sim eps zs s t Hs fuel D1 D2 x y x' y'). Qed.
  Theorem C96_support : forall s t k u D x x', 0 < s -> 0 < k -> builds D x -> builds (moved s t D) x' ->
    shape_get_support x' (ev eps zs (vscale k u)) =
    match shape_get_support x (ev eps zs u) with Ok (Some p) => Ok (Some (moved_v s t p)) | r => r end.
  Proof.
    intros s t k u D x x' Hs Hk X X'. rewrite (support_sim eps zs s t Hs D x x' k u Hk X X'). destruct (shape_get_support x _) as [[p |] |]; reflexivity.
  Qed.
  Example C96_case : exists x x', builds (DSphere (V 0 0 0) 3 0) x /\ builds (moved 2 (V 5 0 0) (DSphere (V 0 0 0) 3 0)) x'.
  Proof. destruct (builds_total eps zs (DSphere (V 0 0 0) 3 0)) as [x X]. destruct (builds_total eps zs (moved 2 (V 5 0 0) (DSphere (V 0 0 0) 3 0))) as [x' X']. exists x, x'. split; assumption. Qed.

  (** C97. Renaming the axes cyclically, turning by a quarter, taking the mirror image: the full statement (with prisms turned but
      not mirrored, since their orientation is part of them) is false for a ray and a point ... *)
  Theorem C97_refuted : ~ forall w D1 D2 x y x' y', (is_prism_d D1 \/ is_prism_d D2 -> ~ In Mirror w) ->
    builds D1 x -> builds D2 y -> builds (sym_d w D1) x' -> builds (sym_d w D2) y' ->
    shape_get_intersect x' y' = sym_hit w (shape_get_intersect x y).
  Proof. exact (syms_refuted eps zs). Qed.
  (** ... and true of every other pair, prisms on three collinear points apart. Missing: those two cases. *)
  Theorem C97_partial : forall w D1 D2 x y x' y', ~ ray_and_point D1 D2 -> not_flat D1 -> not_flat D2 ->
    (is_prism_d D1 \/ is_prism_d D2 -> ~ In Mirror w) ->
    builds D1 x -> builds D2 y -> builds (sym_d w D1) x' -> builds (sym_d w D2) y' ->
    shape_get_intersect x' y' = sym_hit w (shape_get_intersect x y).
  Proof. exact (syms eps zs). Qed.
  (** the witness: along the diagonal, tolerance 2; the point (0,1,2) is hit, the point (1,2,0) missed *)
  Theorem C97_witness : forall x y y', builds (DRay (V 0 0 0) (V 1 1 1) 2) x -> builds (DPoint (V 0 1 2) 0) y -> builds (DPoint (V 1 2 0) 0) y' ->
    (exists l, shape_get_intersect x y = Ok (true, Some l)) /\ shape_get_intersect x y' = Ok (false, None).
  Proof. intros x y y' X Y Y'. split; [exact (r_hit eps zs x y X Y) | exact (r_miss eps zs x y' X Y')]. Qed.
  Example C97_case : ~ ray_and_point (DPrism (V 0 0 0) (V 1 0 0) (V 0 1 0) 1 0) (DLine (V 0 0 0) (V 1 1 1) 0) /\
    not_flat (DPrism (V 0 0 0) (V 1 0 0) (V 0 1 0) 1 0) /\ ~ In Mirror [Cyc; Quarter; Cyc].
  Proof.
    split; [exact (fun H => H) |]. split; [intro C; apply (f_equal vz) in C; cbn in C; lra |]. intros [H | [H | [H | []]]]; discriminate H.
  Qed.
End Sim.
Print Assumptions C95_moved.
Print Assumptions C95_tolerance.
Print Assumptions C96_gjk.
Print Assumptions C96_support.
Print Assumptions C97_refuted.
Print Assumptions C97_partial.
Print Assumptions C97_witness.
