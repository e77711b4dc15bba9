(** PRing3.v — two pairs of spheres, in f64 and f32, whose search enters the ring (C109). *)
From Coq Require Import Reals List ZArith Bool Lra Lia.
From Flocq Require Import Core BinarySingleNaN.
Import ListNotations.
From Verif Require Import Base Num Vec Mat Bound Shape Gjk Float FloatFacts SpecGeom SpecBuild SpecRound SpecRing PBuild PRing2.
Local Open Scope R_scope.

Definition lits (Nm : Num) (a b c : Z) (d : positive) : mat3x1 Nm := M3x1 (A3 (nlit Nm a d) (nlit Nm b d) (nlit Nm c d)).
Lemma apart_x c c' : 1 < vx c - vx c' -> forall p, ~ (s_ball c (/ 2) p /\ s_ball c' (/ 2) p).
Proof.
  assert (D : forall p o, Rabs (vx p - vx o) <= dist p o).
  { intros [x y z] [a b k]. unfold dist, norm, vdot, vsub. cbn [vx vy vz]. rewrite <- sqrt_Rsqr_abs. unfold Rsqr. apply sqrt_le_1_alt.
    pose proof (Rle_0_sqr (y - b)). pose proof (Rle_0_sqr (z - k)). unfold Rsqr in *. lra. }
  intros H p [A B]. unfold s_ball in *. pose proof (D p c) as X. pose proof (D p c') as Y. assert (X1 : Rabs (vx p - vx c) <= / 2) by lra. assert (Y1 : Rabs (vx p - vx c') <= / 2) by lra.
  apply Rabs_le_inv in X1, Y1. lra.
Qed.
Ltac lit_r := cbn [sfr SF2R vx vy vz]; unfold F2R; cbn [Fnum Fexp cond_Zopp Z.opp bpow radix_val radix2 Z.pow_pos Pos.iter Z.mul Pos.mul].

Lemma ring_f64 (lm : libm f64) : let F := F64 lm in let c := lits F 67112960 1 3 67108864 in let c' := lits F 0 0 0 1 in let h := nlit F 1 2 in
  (forall e e' x y, mk_sphere c h e x -> mk_sphere c' h e' y -> forall fuel, query_intersect fuel x y = OutOfFuel) /\
  (finite3 (c : mat3x1 f64) /\ finite3 (c' : mat3x1 f64) /\ B2R (h : f64) = / 2 /\ forall p, ~ (s_ball (at3 (c : mat3x1 f64)) (/ 2) p /\ s_ball (at3 (c' : mat3x1 f64)) (/ 2) p)).
Proof.
  intros F c c' h.
  assert (Fh : is_finite (h : f64) = true) by (vm_compute; reflexivity).
  assert (Sh : B2SF (h : f64) = ltac:(let v := eval vm_compute in (B2SF (nlit (F64 lm) 1 2 : f64)) in exact v)) by (vm_compute; reflexivity).
  assert (Vh : B2R (h : f64) = / 2) by (rewrite <- SF2R_B2SF, Sh; lit_r; lra).
  assert (Sc : sf3 53 1024 c = ltac:(let v := eval vm_compute in (sf3 53 1024 (lits (F64 lm) 67112960 1 3 67108864)) in exact v)) by (vm_compute; reflexivity).
  assert (Sc' : sf3 53 1024 c' = ltac:(let v := eval vm_compute in (sf3 53 1024 (lits (F64 lm) 0 0 0 1)) in exact v)) by (vm_compute; reflexivity).
  split.
  - intros e e' x y X Y. pose proof X as X'. pose proof Y as Y'. apply sphere_any in X', Y'.
    assert (G : view 53 1024 (go (Nm := F) 24 x y) = ltac:(let v := eval vm_compute in (view 53 1024 (go (Nm := F64 lm) 24 (SSphere (MkSphere (lits (F64 lm) 67112960 1 3 67108864) (nlit (F64 lm) 1 2) (cube_any (lits (F64 lm) 0 0 0 1) n0) n0)) (SSphere (MkSphere (lits (F64 lm) 0 0 0 1) (nlit (F64 lm) 1 2) (cube_any (lits (F64 lm) 0 0 0 1) n0) n0)))) in exact v)).
    { rewrite X', Y'. clear. vm_compute. reflexivity. }
    assert (U : uro 53 = bpow radix2 (-53)) by reflexivity.
    eapply (view_never 53 1024 lm c c' h h e e' x y 24 _ _ _ ltac:(lia) G); try assumption; try (rewrite ?Sc, ?Sc'; vm_compute; reflexivity).
    + rewrite Sc, Sc'. unfold side_by_side, small. lit_r. repeat split; try apply Rabs_le; lra.
    + rewrite U. unfold past_origin. lit_r. repeat split; try apply Rabs_le; lra.
    + unfold in_ring, vdot. lit_r. repeat split; try apply Rabs_le; lra.
  - split; [apply sf3_fin; rewrite Sc; reflexivity |]. split; [apply sf3_fin; rewrite Sc'; reflexivity |]. split; [exact Vh |].
    apply apart_x. rewrite !sf3_at, Sc, Sc'. lit_r. lra.
Qed.

Lemma ring_f32 (lm : libm f32) : let F := F32 lm in let c := lits F 1049600 1 3 1048576 in let c' := lits F 0 0 0 1 in let h := nlit F 1 2 in
  (forall e e' x y, mk_sphere c h e x -> mk_sphere c' h e' y -> forall fuel, query_intersect fuel x y = OutOfFuel) /\
  (finite3 (c : mat3x1 f32) /\ finite3 (c' : mat3x1 f32) /\ B2R (h : f32) = / 2 /\ forall p, ~ (s_ball (at3 (c : mat3x1 f32)) (/ 2) p /\ s_ball (at3 (c' : mat3x1 f32)) (/ 2) p)).
Proof.
  intros F c c' h.
  assert (Fh : is_finite (h : f32) = true) by (vm_compute; reflexivity).
  assert (Sh : B2SF (h : f32) = ltac:(let v := eval vm_compute in (B2SF (nlit (F32 lm) 1 2 : f32)) in exact v)) by (vm_compute; reflexivity).
  assert (Vh : B2R (h : f32) = / 2) by (rewrite <- SF2R_B2SF, Sh; lit_r; lra).
  assert (Sc : sf3 24 128 c = ltac:(let v := eval vm_compute in (sf3 24 128 (lits (F32 lm) 1049600 1 3 1048576)) in exact v)) by (vm_compute; reflexivity).
  assert (Sc' : sf3 24 128 c' = ltac:(let v := eval vm_compute in (sf3 24 128 (lits (F32 lm) 0 0 0 1)) in exact v)) by (vm_compute; reflexivity).
  split.
  - intros e e' x y X Y. pose proof X as X'. pose proof Y as Y'. apply sphere_any in X', Y'.
    assert (G : view 24 128 (go (Nm := F) 24 x y) = ltac:(let v := eval vm_compute in (view 24 128 (go (Nm := F32 lm) 24 (SSphere (MkSphere (lits (F32 lm) 1049600 1 3 1048576) (nlit (F32 lm) 1 2) (cube_any (lits (F32 lm) 0 0 0 1) n0) n0)) (SSphere (MkSphere (lits (F32 lm) 0 0 0 1) (nlit (F32 lm) 1 2) (cube_any (lits (F32 lm) 0 0 0 1) n0) n0)))) in exact v)).
    { rewrite X', Y'. clear. vm_compute. reflexivity. }
    assert (U : uro 24 = bpow radix2 (-24)) by reflexivity.
    eapply (view_never 24 128 lm c c' h h e e' x y 24 _ _ _ ltac:(lia) G); try assumption; try (rewrite ?Sc, ?Sc'; vm_compute; reflexivity).
    + rewrite Sc, Sc'. unfold side_by_side, small. lit_r. repeat split; try apply Rabs_le; lra.
    + rewrite U. unfold past_origin. lit_r. repeat split; try apply Rabs_le; lra.
    + unfold in_ring, vdot. lit_r. repeat split; try apply Rabs_le; lra.
  - split; [apply sf3_fin; rewrite Sc; reflexivity |]. split; [apply sf3_fin; rewrite Sc'; reflexivity |]. split; [exact Vh |].
    apply apart_x. rewrite !sf3_at, Sc, Sc'. lit_r. lra.
Qed.

(** a state in the ring, written out *)
Lemma ring_state_f64 (lm : libm f64) : let F := F64 lm in let s := lits F 1 0 0 16384 in let q := M3x1 (A3 (nlit F 2 3) (nlit F 943 1000) (nlit F 0 1)) in let d := lits F (-4433) 3134 12142 10000 in
  finite3 (s : mat3x1 f64) /\ finite3 (q : mat3x1 f64) /\ finite3 (d : mat3x1 f64) /\ past_origin (uro 53) (at3 (s : mat3x1 f64)) /\ in_ring (at3 (q : mat3x1 f64)) (at3 (d : mat3x1 f64)).
Proof.
  intros F s q d.
  assert (Ss : sf3 53 1024 s = ltac:(let v := eval vm_compute in (sf3 53 1024 (lits (F64 lm) 1 0 0 16384)) in exact v)) by (vm_compute; reflexivity).
  assert (Sq : sf3 53 1024 q = ltac:(let v := eval vm_compute in (sf3 53 1024 (M3x1 (A3 (nlit (F64 lm) 2 3) (nlit (F64 lm) 943 1000) (nlit (F64 lm) 0 1)))) in exact v)) by (vm_compute; reflexivity).
  assert (Sd : sf3 53 1024 d = ltac:(let v := eval vm_compute in (sf3 53 1024 (lits (F64 lm) (-4433) 3134 12142 10000)) in exact v)) by (vm_compute; reflexivity).
  split; [apply sf3_fin; rewrite Ss; reflexivity |]. split; [apply sf3_fin; rewrite Sq; reflexivity |]. split; [apply sf3_fin; rewrite Sd; reflexivity |].
  rewrite !sf3_at, Ss, Sq, Sd. change (uro 53) with (bpow radix2 (-53)). split.
  - unfold past_origin. lit_r. repeat split; try apply Rabs_le; lra.
  - unfold in_ring, vdot. lit_r. repeat split; try apply Rabs_le; lra.
Qed.
