(** PropertiesRing.v — C109: the GJK query does not end on every pair of finite spheres, in f32 and in f64.
    The other results on its termination (C67, C69, C89) say when it does end. *)
From Coq Require Import Reals List ZArith Bool Lra Lia.
From Flocq Require Import Core BinarySingleNaN.
Import ListNotations.
From Verif Require Import Base Num Vec Mat Bound Shape Gjk Float SpecGeom SpecBuild SpecRound SpecRing Exact SpecShape SpecGjk PBuild PRing2 PRing3 PropertiesGjk.
Local Open Scope R_scope.

(** Once in the ring, the search never leaves it: every format of at least 24 bits, every number of iterations. *)
Theorem C109_ring : forall prec emax {Hp : Prec_gt_0 prec} {Hm : Prec_lt_emax prec emax} (lm : libm (binary_float prec emax))
  (c c' : mat3x1 (Ieee prec emax lm)) (r r' e e' : binary_float prec emax) (s q d : mat3x1 (Ieee prec emax lm)) (x y : shape (Ieee prec emax lm)), (24 <= prec)%Z ->
  finite3 (prec := prec) (emax := emax) c -> finite3 (prec := prec) (emax := emax) c' -> finite3 (prec := prec) (emax := emax) s -> finite3 (prec := prec) (emax := emax) q -> finite3 (prec := prec) (emax := emax) d ->
  is_finite r = true -> B2R r = / 2 -> is_finite r' = true -> B2R r' = / 2 ->
  side_by_side (at3 (prec := prec) (emax := emax) c) (at3 (prec := prec) (emax := emax) c') -> past_origin (uro prec) (at3 (prec := prec) (emax := emax) s) ->
  in_ring (at3 (prec := prec) (emax := emax) q) (at3 (prec := prec) (emax := emax) d) ->
  mk_sphere (Nm := Ieee prec emax lm) c r e x -> mk_sphere (Nm := Ieee prec emax lm) c' r' e' y ->
  forall fuel, gjk_loop fuel x y [s; q] d = OutOfFuel.
Proof. exact @ring_never. Qed.
Print Assumptions C109_ring.

(** C109 is false of the code: "the query ends on every pair of finite spheres".  In f64, two spheres of radius 1/2 with a
    gap of 2^-14 between them: disjoint, and no number of iterations gives an answer. *)
Theorem C109_refuted_f64 (lm : libm f64) : let F := F64 lm in let c := lits F 67112960 1 3 67108864 in let c' := lits F 0 0 0 1 in let h := nlit F 1 2 in
  (forall e e' x y, mk_sphere c h e x -> mk_sphere c' h e' y -> forall fuel, query_intersect fuel x y = OutOfFuel) /\
  (finite3 (c : mat3x1 f64) /\ finite3 (c' : mat3x1 f64) /\ B2R (h : f64) = / 2 /\ forall p, ~ (s_ball (at3 (c : mat3x1 f64)) (/ 2) p /\ s_ball (at3 (c' : mat3x1 f64)) (/ 2) p)).
Proof. exact (ring_f64 lm). Qed.
Print Assumptions C109_refuted_f64.
(** The same in f32, with a gap of 2^-10. *)
Theorem C109_refuted_f32 (lm : libm f32) : let F := F32 lm in let c := lits F 1049600 1 3 1048576 in let c' := lits F 0 0 0 1 in let h := nlit F 1 2 in
  (forall e e' x y, mk_sphere c h e x -> mk_sphere c' h e' y -> forall fuel, query_intersect fuel x y = OutOfFuel) /\
  (finite3 (c : mat3x1 f32) /\ finite3 (c' : mat3x1 f32) /\ B2R (h : f32) = / 2 /\ forall p, ~ (s_ball (at3 (c : mat3x1 f32)) (/ 2) p /\ s_ball (at3 (c' : mat3x1 f32)) (/ 2) p)).
Proof. exact (ring_f32 lm). Qed.
Print Assumptions C109_refuted_f32.

(** In exact arithmetic the query on the f64 pair ends, with the right answer: only rounding keeps it going. *)
Theorem C109_exact eps zs ea eb a b : is_sphere eps zs (V (1 + / 16384) (/ 67108864) (3 / 67108864)) (/ 2) ea a -> is_sphere eps zs (V 0 0 0) (/ 2) eb b ->
  exists n, forall fuel, (n <= fuel)%nat -> query_intersect fuel a b = Done (Ok (Some false)).
Proof.
  intros A B. assert (N : ~ meets (s_ball (V (1 + / 16384) (/ 67108864) (3 / 67108864)) (/ 2)) (s_ball (V 0 0 0) (/ 2))).
  { intros (p & P & Q). apply (apart_x (V (1 + / 16384) (/ 67108864) (3 / 67108864)) (V 0 0 0)) with p; [cbn; lra | split; assumption]. }
  assert (X : 1 < dist (V (1 + / 16384) (/ 67108864) (3 / 67108864)) (V 0 0 0)).
  { unfold dist, norm, vdot, vsub. cbn [vx vy vz]. rewrite <- sqrt_1 at 1. apply sqrt_lt_1; lra. }
  assert (H2 : 0 <= / 2) by lra. destruct (C67_partial eps zs _ _ _ _ _ _ _ _ H2 H2 A B) as (n & _ & H); [lra | left; cbn; lra | lra | exists n; exact (H N)].
Qed.
Print Assumptions C109_exact.

(** cases: such spheres exist, so the theorems above speak about runs of the query; and a state in the ring, written out *)
Example C109_case_f64 (lm : libm f64) : exists x y : shape (F64 lm), forall fuel, query_intersect fuel x y = OutOfFuel.
Proof.
  destruct (C109_refuted_f64 lm) as [H _]. eexists. eexists. apply (H n0 n0); apply sphere_any; reflexivity.
Qed.
Example C109_case_f32 (lm : libm f32) : exists x y : shape (F32 lm), forall fuel, query_intersect fuel x y = OutOfFuel.
Proof.
  destruct (C109_refuted_f32 lm) as [H _]. eexists. eexists. apply (H n0 n0); apply sphere_any; reflexivity.
Qed.
Example C109_ring_case_f64 (lm : libm f64) : let F := F64 lm in let s := lits F 1 0 0 16384 in let q := M3x1 (A3 (nlit F 2 3) (nlit F 943 1000) (nlit F 0 1)) in let d := lits F (-4433) 3134 12142 10000 in
  finite3 (s : mat3x1 f64) /\ finite3 (q : mat3x1 f64) /\ finite3 (d : mat3x1 f64) /\ past_origin (uro 53) (at3 (s : mat3x1 f64)) /\ in_ring (at3 (q : mat3x1 f64)) (at3 (d : mat3x1 f64)).
Proof. exact (ring_state_f64 lm). Qed.
