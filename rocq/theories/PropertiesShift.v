(** PropertiesShift.v — C116: moving both shapes by the same vector, in IEEE arithmetic. *)
From Coq Require Import Reals List ZArith Bool Lra Lia.
From Flocq Require Import Core BinarySingleNaN.
Import ListNotations.
From Verif Require Import Base Num Vec Mat Bound Shape Intersect Gjk Float FloatFacts SpecRound SpecGeom SpecBuild SpecMirror SpecScale SpecShift PBuild PRing3 PShift
  PropertiesMirror PropertiesDeep PropertiesScale.

(** C116. Points, rays, balls and cubes; coordinates that are moved exactly, by any real vector.  Balls and cubes have centres and
    radii that are multiples of 2^a up to 2^b, with b + 2 <= a + prec; in f64 for instance multiples of 2^-30 up to 2^21.
    The query gives the same flag, and the point moved by the vector up to the rounding of that point. *)
Theorem C116_move : forall prec emax {Hp : Prec_gt_0 prec} {Hm : Prec_lt_emax prec emax} (lm : libm (binary_float prec emax)) (a b : Z) (s : V3),
  (9 < prec)%Z -> (3 - emax - prec <= a)%Z -> (b + 2 <= a + prec)%Z -> (b + 1 < emax)%Z -> (a <= b)%Z ->
  forall (D G D' G' : fdesc (prec := prec) (emax := emax)) (x y x' y' : shape (Ieee prec emax lm)), grid_tolerance a b D G -> grid_tolerance a b D' G' ->
  on_grid a b D -> on_grid a b G -> on_grid a b D' -> on_grid a b G' -> shift_of s D' D -> shift_of s G' G ->
  fbuilds lm D x -> fbuilds lm G y -> fbuilds lm D' x' -> fbuilds lm G' y' ->
  moved_answer s (shape_get_intersect x' y') (shape_get_intersect x y).
Proof. exact @shift_query. Qed.
Print Assumptions C116_move.

(** ---- binary64 ---- *)
Section Planes.
  Context {Nm : Num}.
  Definition sheet_v (e : Nm) (o d : list Nm) : res (shape Nm) := let! x := plane_init o d in Ok (shape_set_vicinity (SPlane x) e).
End Planes.
(** Planes are left out: C116 is false of the code for them, as the two inner products are rounded before they are subtracted.
    A plane through the origin and a point on it, tolerance 2^-53: a hit; both moved by (1,3,7): a miss. *)
Theorem C116_refuted_plane_f64 lm : let e := nlit (F64 lm) 1 (2 ^ 53)%positive in
  answer_flag (Nm := F64 lm) (sheet_v e (p3 0 0 0 1) (p3 1 2 3 1)) (pt (p3 1 1 (-1) 1)) = Some true /\
  answer_flag (Nm := F64 lm) (sheet_v e (p3 1 3 7 1) (p3 1 2 3 1)) (pt (p3 2 4 6 1)) = Some false.
Proof. split; vm_compute; reflexivity. Qed.
(** It is false off the grid, too: a ball of radius 3 * 2^-54 and a point 4 * 2^-54 below its centre; the bound of the ball is
    rounded, and at 1 it takes the point in. *)
Theorem C116_refuted_ball_f64 lm : let r := nlit (F64 lm) 3 18014398509481984 in
  answer_flag (Nm := F64 lm) (ball (p3 1 0 0 4503599627370496) r) (pt (p3 0 0 0 1)) = Some false /\
  answer_flag (Nm := F64 lm) (ball (p3 4503599627370497 0 0 4503599627370496) r) (pt (p3 1 0 0 1)) = Some true.
Proof. split; vm_compute; reflexivity. Qed.
Print Assumptions C116_refuted_plane_f64.
Print Assumptions C116_refuted_ball_f64.

(** cases: a ray at (-3,1,2) along (3,-1,-2) and the unit ball at the origin, both moved by (6,8,-4) *)
Local Open Scope R_scope.
Lemma fixed_of (x : f64) (m : Z) : is_finite x = true /\ B2R x = IZR m -> (Z.abs m <= 256)%Z -> fixed (-8) 8 x.
Proof. intros A B. destruct (medium_of x m A B) as (X & Y & Z). split; [exact X | split; [exact Y | exact Z]]. Qed.
Example C116_case_f64 (lm : libm f64) : let F := F64 lm in let s := V 6 8 (-4) in
  let D : fdesc (prec := 53) (emax := 1024) := FRay (lits F (-3) 1 2 1) (lits F 3 (-1) (-2) 1) (nlit F 0 1) in
  let G : fdesc (prec := 53) (emax := 1024) := FSphere (lits F 0 0 0 1) (nlit F 1 1) (nlit F 0 1) in
  let D' : fdesc (prec := 53) (emax := 1024) := FRay (lits F 3 9 (-2) 1) (lits F 3 (-1) (-2) 1) (nlit F 0 1) in
  let G' : fdesc (prec := 53) (emax := 1024) := FSphere (lits F 6 8 (-4) 1) (nlit F 1 1) (nlit F 0 1) in
  grid_tolerance (-8) 8 D G /\ grid_tolerance (-8) 8 D' G' /\ on_grid (-8) 8 D /\ on_grid (-8) 8 G /\ on_grid (-8) 8 D' /\ on_grid (-8) 8 G' /\ shift_of s D' D /\ shift_of s G' G /\
  answer_flag (Nm := F64 lm) (beam (p3 (-3) 1 2 1) (p3 3 (-1) (-2) 1)) (ball (p3 0 0 0 1) n1) = Some true.
Proof.
  intros F s D G D' G'.
  assert (V : forall m : Z, In m [0; 1; 2; -1; -2; 3; -3; 6; -4; 8; 9]%Z -> is_finite (nlit F m 1 : f64) = true /\ B2R (nlit F m 1 : f64) = IZR m).
  { intros m H. repeat (destruct H as [<- | H]; [unfold F; lv |]). destruct H. }
  assert (X : forall m : Z, In m [0; 1; 2; -1; -2; 3; -3; 6; -4; 8; 9]%Z -> fixed (-8) 8 (nlit F m 1 : f64)).
  { intros m H. apply (fixed_of _ m); [apply V; exact H |]. repeat (destruct H as [<- | H]; [lia |]). destruct H. }
  split; [exact I |]. split; [exact I |]. split; [repeat split; apply V; cbn; tauto |]. split; [split; [split; [| split] |]; apply X; cbn; tauto |].
  split; [repeat split; apply V; cbn; tauto |]. split; [split; [split; [| split] |]; apply X; cbn; tauto |].
  assert (Sh : forall a b c p q r : Z, In a [0; 1; 2; -1; -2; 3; -3; 6; -4; 8; 9]%Z -> In b [0; 1; 2; -1; -2; 3; -3; 6; -4; 8; 9]%Z -> In c [0; 1; 2; -1; -2; 3; -3; 6; -4; 8; 9]%Z -> In p [0; 1; 2; -1; -2; 3; -3; 6; -4; 8; 9]%Z -> In q [0; 1; 2; -1; -2; 3; -3; 6; -4; 8; 9]%Z -> In r [0; 1; 2; -1; -2; 3; -3; 6; -4; 8; 9]%Z ->
    IZR p = IZR a + 6 -> IZR q = IZR b + 8 -> IZR r = IZR c + -4 -> shifted (prec := 53) (emax := 1024) s (lits F p q r 1) (lits F a b c 1)).
  { intros a b c p q r Ia Ib Ic Ip Iq Ir E1 E2 E3. unfold shifted, lits, v3, vadd, s. cbn [vx vy vz]. rewrite (proj2 (V a Ia)), (proj2 (V b Ib)), (proj2 (V c Ic)), (proj2 (V p Ip)), (proj2 (V q Iq)), (proj2 (V r Ir)), E1, E2, E3. reflexivity. }
  split; [split; [apply Sh; try (cbn; tauto); lra | split; reflexivity] |]. split; [split; [apply Sh; try (cbn; tauto); lra | split; reflexivity] |].
  vm_compute; reflexivity.
Qed.
