(** PropertiesMirror.v — C108: mirror images, in every IEEE format and for every float, NaN and infinities included.
    No range condition and no error margin: the answers agree bit for bit, up to the sign of zeros. *)
From Coq Require Import Reals List ZArith Bool Lra Lia.
From Flocq Require Import Core BinarySingleNaN.
Import ListNotations.
From Verif Require Import Base Num Vec Mat Bound Shape Intersect Gjk Float FloatFacts SpecGeom SpecBuild SpecMirror PMirror PMirror1 PMirror2 PMirror3.

(** C108. Change the sign of any of the three coordinates in both shapes: the query gives the mirror image of its answer. *)
Theorem C108_mirror : forall prec emax {Hp : Prec_gt_0 prec} {Hm : Prec_lt_emax prec emax} (lm : libm (binary_float prec emax)) (s : signs)
  (D G : fdesc (prec := prec) (emax := emax)) (x y x' y' : shape (Ieee prec emax lm)), ~ ball_and_point D G ->
  fbuilds lm D x -> fbuilds lm G y -> fbuilds lm (image s D) x' -> fbuilds lm (image s G) y' ->
  mirrored s (shape_get_intersect x' y') (shape_get_intersect x y).
Proof. exact @mirror_query. Qed.
Print Assumptions C108_mirror.
(** A ball and a point: the same, as long as no coordinate of the difference is computed as more than the radius, either way round. *)
Theorem C108_ball_point : forall prec emax {Hp : Prec_gt_0 prec} {Hm : Prec_lt_emax prec emax} (lm : libm (binary_float prec emax)) (s : signs)
  (c : mat3x1 (binary_float prec emax)) (r e : binary_float prec emax) (p : mat3x1 (binary_float prec emax)) (k : binary_float prec emax) (x y x' y' : shape (Ieee prec emax lm)),
  (match c, p with M3x1 (A3 u v w), M3x1 (A3 f g h) => let F := Ieee prec emax lm in
     ngt (N := F) (nsub F f u) r = false /\ ngt (N := F) (nsub F u f) r = false /\ ngt (N := F) (nsub F g v) r = false /\ ngt (N := F) (nsub F v g) r = false /\
     ngt (N := F) (nsub F h w) r = false /\ ngt (N := F) (nsub F w h) r = false end) ->
  fbuilds lm (FSphere c r e) x -> fbuilds lm (FPoint p k) y -> fbuilds lm (image s (FSphere c r e)) x' -> fbuilds lm (image s (FPoint p k)) y' ->
  mirrored s (shape_get_intersect x' y') (shape_get_intersect x y).
Proof. exact @mirror_ball_point. Qed.
Print Assumptions C108_ball_point.
(** The GJK query on two spheres: the same outcome after every number of iterations, for sign changes that keep the x axis. *)
Theorem C108_gjk : forall prec emax {Hp : Prec_gt_0 prec} {Hm : Prec_lt_emax prec emax} (lm : libm (binary_float prec emax)) (s : signs)
  (c : mat3x1 (Ieee prec emax lm)) r e (c' : mat3x1 (Ieee prec emax lm)) r' e' (x y x' y' : shape (Ieee prec emax lm)) fuel, sg0 s = false ->
  mk_sphere c r e x -> mk_sphere c' r' e' y -> mk_sphere (Nm := Ieee prec emax lm) (flip s c) r e x' -> mk_sphere (Nm := Ieee prec emax lm) (flip s c') r' e' y' ->
  query_intersect fuel x' y' = query_intersect fuel x y.
Proof. exact @mirror_gjk. Qed.
Print Assumptions C108_gjk.

(** ---- binary64 ---- *)
Section Bits.
  Context {Nm : Num}.
  Definition p3 (a b c : Z) (d : positive) : list Nm := [nlit Nm a d; nlit Nm b d; nlit Nm c d].
  Definition answer_flag (a b : res (shape Nm)) : option bool :=
    match a, b with Ok x, Ok y => match shape_get_intersect x y with Ok h => Some (fst h) | Panic _ => None end | _, _ => None end.
  Definition ball c r : res (shape Nm) := let! x := sphere_init c r in Ok (SSphere x).
  Definition pt p : res (shape Nm) := let! x := point_init p in Ok (SPoint x).
  Definition beam o d : res (shape Nm) := let! x := ray_init o d in Ok (SRay x).
  Definition gjk_flag n (a b : res (shape Nm)) : option bool :=
    match a, b with Ok x, Ok y => match query_intersect n x y with Done (Ok r) => r | _ => None end | _, _ => None end.
End Bits.
(** C108 is false of the code for a ball and a point: only the upper side of the ball is tested once the bounds overlap, so a
    point that the rounded bound lets in is a miss above the ball and, mirrored, a hit below it. *)
Theorem C108_refuted_f64 lm : let r := nlit (F64 lm) 3 18014398509481984 in
  answer_flag (Nm := F64 lm) (ball (p3 1 0 0 1) r) (pt (p3 4503599627370497 0 0 4503599627370496)) = Some false /\
  answer_flag (Nm := F64 lm) (ball (p3 (-1) 0 0 1) r) (pt (p3 (-4503599627370497) 0 0 4503599627370496)) = Some true.
Proof. split; vm_compute; reflexivity. Qed.
(** C108 is false of the code for GJK when the sign of x changes: with the centres on a parallel to the x axis the answer
    depends on which centre has the larger x. *)
Theorem C108_gjk_refuted_f64 lm :
  gjk_flag (Nm := F64 lm) 9 (ball (p3 10 0 0 1) n1) (ball (p3 0 0 0 1) n1) = Some true /\
  gjk_flag (Nm := F64 lm) 9 (ball (p3 (-10) 0 0 1) n1) (ball (p3 0 0 0 1) n1) = Some false.
Proof. split; vm_compute; reflexivity. Qed.
Print Assumptions C108_refuted_f64.
Print Assumptions C108_gjk_refuted_f64.

(** cases: every description builds a shape; here with hits *)
Example C108_builds prec emax {Hp : Prec_gt_0 prec} {Hm : Prec_lt_emax prec emax} lm D : exists x, fbuilds (prec := prec) (emax := emax) lm D x.
Proof.
  destruct D; cbn [fbuilds]; eexists; [apply PBuild.point_any | apply PBuild.ray_any_eq | apply PBuild.sphere_any | apply PBuild.plane_any | apply PBuild.box_any]; reflexivity.
Qed.
Example C108_case_f64 lm :
  answer_flag (Nm := F64 lm) (beam (p3 (-3) 1 0 2) (p3 3 (-1) 2 1)) (ball (p3 0 0 1 1) n1) = Some true /\
  answer_flag (Nm := F64 lm) (beam (p3 (-3) (-1) 0 2) (p3 3 1 2 1)) (ball (p3 0 0 1 1) n1) = Some true.
Proof. split; vm_compute; reflexivity. Qed.
Example C108_ball_point_case_f64 lm : let F := F64 lm in
  ngt (N := F) (nsub F n1 n0) n2 = false /\ ngt (N := F) (nsub F n0 n1) n2 = false /\ answer_flag (Nm := F) (ball (p3 0 0 0 1) n2) (pt (p3 1 0 0 1)) = Some true.
Proof. repeat split; vm_compute; reflexivity. Qed.
Example C108_gjk_case_f64 lm :
  gjk_flag (Nm := F64 lm) 9 (ball (p3 0 1 0 1) n1) (ball (p3 0 0 0 1) n1) = Some true /\ gjk_flag (Nm := F64 lm) 9 (ball (p3 0 (-1) 0 1) n1) (ball (p3 0 0 0 1) n1) = Some true.
Proof. split; vm_compute; reflexivity. Qed.
