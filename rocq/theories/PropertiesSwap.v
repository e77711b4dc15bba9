(** PropertiesSwap.v — C114: exchanging coordinates, in every IEEE format and for every float, NaN and infinities included. *)
From Coq Require Import Reals List ZArith Bool Lra Lia.
From Flocq Require Import Core BinarySingleNaN.
Import ListNotations.
From Verif Require Import Base Num Vec Mat Bound Shape Intersect Gjk Float FloatFacts SpecGeom SpecBuild SpecMirror SpecSwap PMirror PSwap PropertiesMirror.

(** C114. Exchange x and y in both shapes: the query gives the same answer with x and y exchanged, bit for bit.  A ray and a point are left out. *)
Theorem C114_xy_partial : forall prec emax {Hp : Prec_gt_0 prec} {Hm : Prec_lt_emax prec emax} (lm : libm (binary_float prec emax))
  (D G : fdesc (prec := prec) (emax := emax)) (x y x' y' : shape (Ieee prec emax lm)), ~ ray_and_point D G ->
  fbuilds lm D x -> fbuilds lm G y -> fbuilds lm (desc_map sw_xy D) x' -> fbuilds lm (desc_map sw_xy G) y' ->
  shape_get_intersect x' y' = answer_map sw_xy (shape_get_intersect x y).
Proof. exact @swap_query. Qed.
Print Assumptions C114_xy_partial.
(** Exchange y and z: proved for the queries of a point against points, spheres and boxes. *)
Theorem C114_yz_partial : forall prec emax {Hp : Prec_gt_0 prec} {Hm : Prec_lt_emax prec emax} (lm : libm (binary_float prec emax))
  (D G : fdesc (prec := prec) (emax := emax)) (x y x' y' : shape (Ieee prec emax lm)), by_comparison D G ->
  fbuilds lm D x -> fbuilds lm G y -> fbuilds lm (desc_map sw_yz D) x' -> fbuilds lm (desc_map sw_yz G) y' ->
  shape_get_intersect x' y' = answer_map sw_yz (shape_get_intersect x y).
Proof. exact @perm_query. Qed.
Print Assumptions C114_yz_partial.

(** ---- binary64 ---- *)
Section Bits.
  Context {Nm : Num}.
  Definition beam_v o d e : res (shape Nm) := let! x := ray_init o d in Ok (shape_set_vicinity (SRay x) e).
End Bits.
(** C114 is false of the code: the sum of squares is rounded from the left, so exchanging y and z turns a hit of two spheres into a miss
    (centres at the origin and (2/3, 1/3, 4/3), radii 0 and the computed distance). *)
Theorem C114_refuted_yz_f64 lm : let r := nlit (F64 lm) 6879362064066737 4503599627370496 in
  answer_flag (Nm := F64 lm) (ball (p3 0 0 0 1) r) (ball (p3 2 1 4 3) n0) = Some true /\
  answer_flag (Nm := F64 lm) (ball (p3 0 0 0 1) r) (ball (p3 2 4 1 3) n0) = Some false.
Proof. split; vm_compute; reflexivity. Qed.
(** and for a ray and a point: the parameters of x and z are not compared (vicinity 1) *)
Theorem C114_refuted_ray_f64 lm :
  answer_flag (Nm := F64 lm) (beam_v (p3 0 0 0 1) (p3 1 1 1 1) n1) (pt (p3 2 3 4 2)) = Some true /\
  answer_flag (Nm := F64 lm) (beam_v (p3 0 0 0 1) (p3 1 1 1 1) n1) (pt (p3 3 2 4 2)) = Some false.
Proof. split; vm_compute; reflexivity. Qed.
(** and for GJK, which starts along x: two unit balls ten apart *)
Theorem C114_refuted_gjk_f64 lm :
  gjk_flag (Nm := F64 lm) 9 (ball (p3 10 0 0 1) n1) (ball (p3 0 0 0 1) n1) = Some true /\
  gjk_flag (Nm := F64 lm) 9 (ball (p3 0 10 0 1) n1) (ball (p3 0 0 0 1) n1) = Some false.
Proof. split; vm_compute; reflexivity. Qed.
Print Assumptions C114_refuted_yz_f64.
Print Assumptions C114_refuted_ray_f64.
Print Assumptions C114_refuted_gjk_f64.

(** cases: every description builds a shape (C108_builds); here with hits *)
Example C114_case_f64 lm :
  answer_flag (Nm := F64 lm) (beam (p3 (-3) 1 0 2) (p3 3 (-1) 2 1)) (ball (p3 0 0 1 1) n1) = Some true /\
  answer_flag (Nm := F64 lm) (beam (p3 1 (-3) 0 2) (p3 (-1) 3 2 1)) (ball (p3 0 0 1 1) n1) = Some true.
Proof. split; vm_compute; reflexivity. Qed.
Example C114_builds_case (lm : libm f64) (c p : mat3x1 f64) (r e k : f64) : exists x y x' y', ~ ray_and_point (FSphere c r e) (FPoint p k) /\ by_comparison (FSphere c r e) (FPoint p k) /\
  fbuilds (Hp := f64_prec_gt_0) (Hm := f64_prec_lt_emax) lm (FSphere c r e) x /\ fbuilds (Hp := f64_prec_gt_0) (Hm := f64_prec_lt_emax) lm (FPoint p k) y /\ fbuilds (Hp := f64_prec_gt_0) (Hm := f64_prec_lt_emax) lm (FSphere (sw_yz c) r e) x' /\ fbuilds (Hp := f64_prec_gt_0) (Hm := f64_prec_lt_emax) lm (FPoint (sw_yz p) k) y'.
Proof.
  destruct (@C108_builds 53 1024 f64_prec_gt_0 f64_prec_lt_emax lm (FSphere c r e)) as [x X], (@C108_builds 53 1024 f64_prec_gt_0 f64_prec_lt_emax lm (FPoint p k)) as [y Y], (@C108_builds 53 1024 f64_prec_gt_0 f64_prec_lt_emax lm (FSphere (sw_yz c) r e)) as [x' X'], (@C108_builds 53 1024 f64_prec_gt_0 f64_prec_lt_emax lm (FPoint (sw_yz p) k)) as [y' Y'].
  exists x, y, x', y'. repeat split; try assumption. intros [].
Qed.
Example C114_point_case_f64 lm :
  answer_flag (Nm := F64 lm) (ball (p3 0 0 1 1) n1) (pt (p3 0 1 2 2)) = Some true /\ answer_flag (Nm := F64 lm) (ball (p3 0 1 0 1) n1) (pt (p3 0 2 1 2)) = Some true.
Proof. split; vm_compute; reflexivity. Qed.
