(** PropertiesGeo.v — what the intersection queries report, against the point sets of SpecGeom: C42-C58.
    Exact arithmetic unless a theorem says otherwise.  The [_f64] theorems evaluate the same model with IEEE binary64. *)
From Coq Require Import Reals List ZArith NArith Bool Lra.
From Flocq Require Import Core BinarySingleNaN.
Import ListNotations.
From Verif Require Import Base Num Vec Mat Bound Shape Intersect Float Exact SpecMat SpecGeom SpecBound SpecShape SpecInter
  ExactFacts FloatFacts Order PInter PShape PGeo1 PGeo2 PGeo3 PGeo4.
Local Open Scope R_scope.

(** binary64 shapes built by the constructors, and the reported flag *)
Section Build.
  Context {Nm : Num}.
  Definition l3 (a b c : Z) (d : positive) : list Nm := [nlit Nm a d; nlit Nm b d; nlit Nm c d].
  Definition flag (a b : res (shape Nm)) : option bool :=
    match a, b with Ok x, Ok y => match shape_get_intersect x y with Ok h => Some (fst h) | Panic _ => None end | _, _ => None end.
  Definition b_point p : res (shape Nm) := let! x := point_init p in Ok (SPoint x).
  Definition b_ray o d : res (shape Nm) := let! x := ray_init o d in Ok (SRay x).
  Definition b_sphere c r : res (shape Nm) := let! x := sphere_init c r in Ok (SSphere x).
  Definition b_plane o n : res (shape Nm) := let! x := plane_init o n in Ok (SPlane x).
  Definition b_line p q : res (shape Nm) := let! x := line_init p q in Ok (SLine x).
  Definition b_prism t h : res (shape Nm) := let! x := triprism_init t h in Ok (SPrism x).
End Build.

Section Geo.
Variable eps : R.
Variable zs : XR -> bool.
Notation E := (Exact eps zs).
Notation ev := (ev eps zs).

(** ---- C42: point - point ---- *)
(** full statement: two points intersect exactly when all coordinates are within the receiver's vicinity.
    False: the bounding boxes of two different points never overlap. *)
Theorem C42_refuted : ~ (forall p q e f a b, is_point eps zs p e a -> is_point eps zs q f b ->
  Rabs (vx p - vx q) <= Rabs e -> Rabs (vy p - vy q) <= Rabs e -> Rabs (vz p - vz q) <= Rabs e ->
  exists l, shape_get_intersect a b = Ok (true, Some l)).
Proof.
  intro H. assert (Ha : is_point eps zs (V 0 0 0) 1 (SPoint (epoint eps zs (V 0 0 0) 1))) by (apply is_point_inv; reflexivity).
  assert (Hb : is_point eps zs (V (1 / 2) 0 0) 1 (SPoint (epoint eps zs (V (1 / 2) 0 0) 1))) by (apply is_point_inv; reflexivity).
  destruct (H _ _ _ _ _ _ Ha Hb) as [l Hl]; try (rewrite (Rabs_pos_eq 1) by lra; apply Rabs_le; simpl; lra).
  rewrite (proj2 (point_point_iff eps zs _ _ _ _ _ _ Ha Hb)) in Hl; [discriminate Hl |]. intro C. injection C. lra.
Qed.
(** what it does: equal points only *)
Theorem C42_partial p q e f a b : is_point eps zs p e a -> is_point eps zs q f b ->
  (p = q -> shape_get_intersect a b = Ok (true, Some (ev p))) /\ (p <> q -> shape_get_intersect a b = Ok (false, None)).
Proof. exact (point_point_iff eps zs p q e f a b). Qed.
Example C42_case : exists a b, is_point eps zs (V 1 2 3) 1 a /\ is_point eps zs (V 1 2 4) 1 b /\ shape_get_intersect a b = Ok (false, None).
Proof.
  eexists. eexists. assert (Ha := proj2 (is_point_inv eps zs (V 1 2 3) 1 _) eq_refl). assert (Hb := proj2 (is_point_inv eps zs (V 1 2 4) 1 _) eq_refl).
  split; [exact Ha | split; [exact Hb |]]. apply (C42_partial _ _ _ _ _ _ Ha Hb). intro C. injection C. lra.
Qed.

(** ---- C43, C44: sphere - point ---- *)
Theorem C43_sphere_point c r e p f a b : is_sphere eps zs c r e a -> is_point eps zs p f b -> s_ball c r p ->
  shape_get_intersect a b = Ok (true, Some (ev p)).
Proof. exact (sphere_point_complete eps zs c r e p f a b). Qed.
(** full statement of C44: a reported point lies in the ball.  False in the corners of the bounding cube. *)
Theorem C44_refuted : ~ (forall c r e p f a b l, is_sphere eps zs c r e a -> is_point eps zs p f b ->
  shape_get_intersect a b = Ok (true, Some l) -> s_ball c r p).
Proof. exact (sphere_point_refuted eps zs). Qed.
(** what it does: exactly the points of the bounding cube *)
Theorem C44_partial c r e p f a b : is_sphere eps zs c r e a -> is_point eps zs p f b ->
  (s_cube c r p -> shape_get_intersect a b = Ok (true, Some (ev p))) /\
  (~ s_cube c r p -> shape_get_intersect a b = Ok (false, None)).
Proof. exact (sphere_point_iff eps zs c r e p f a b). Qed.
Example C43_case : s_ball (V 1 1 1) 2 (V 1 1 3) /\ s_cube (V 1 1 1) 2 (V 3 3 3) /\ ~ s_cube (V 1 1 1) 2 (V 1 1 4) /\
  (exists s, is_sphere eps zs (V 1 1 1) 2 0 s) /\ exists s, is_point eps zs (V 1 1 3) 0 s.
Proof.
  split; [unfold s_ball, dist; rewrite (norm_val _ 2); [lra | lra | unfold vdot, vsub; simpl; ring] |].
  split; [unfold s_cube; simpl; repeat split; apply Rabs_le; lra |].
  split; [unfold s_cube; simpl; intros [_ [_ C]]; apply Rabs_le_inv in C; lra |].
  split; eexists; [apply is_sphere_inv | apply is_point_inv]; reflexivity.
Qed.

(** ---- C45: box - point ---- *)
Theorem C45_box_point c h e p f a b : is_box eps zs c h e a -> is_point eps zs p f b ->
  (s_cube c h p -> shape_get_intersect a b = Ok (true, Some (ev p))) /\
  (~ s_cube c h p -> shape_get_intersect a b = Ok (false, None)).
Proof. exact (box_point_iff eps zs c h e p f a b). Qed.
Example C45_case : s_cube (V 1 1 1) 2 (V 3 (-1) 1) /\ ~ s_cube (V 1 1 1) 2 (V 3 (-1) 4) /\ exists s, is_box eps zs (V 1 1 1) 2 0 s.
Proof.
  split; [unfold s_cube; simpl; repeat split; apply Rabs_le; lra |].
  split; [unfold s_cube; simpl; intros [_ [_ C]]; apply Rabs_le_inv in C; lra |]. eexists. apply is_box_inv. reflexivity.
Qed.

(** ---- C46: plane - point ---- *)
Theorem C46_plane_point o n e p f a b : n <> vzero -> is_plane eps zs o n e a -> is_point eps zs p f b ->
  let near := exists y, s_plane o n y /\ dist p y <= Rabs e in
  (near -> shape_get_intersect a b = Ok (true, Some (ev p))) /\ (~ near -> shape_get_intersect a b = Ok (false, None)).
Proof. exact (plane_point_iff eps zs o n e p f a b). Qed.
Example C46_case : V 0 0 3 <> vzero /\ (exists y, s_plane (V 1 1 1) (V 0 0 3) y /\ dist (V 0 0 2) y <= Rabs (-1)) /\
  exists s, is_plane eps zs (V 1 1 1) (V 0 0 3) (-1) s.
Proof.
  assert (Hn : V 0 0 3 <> vzero) by (intro C; injection C; lra). split; [exact Hn |]. split.
  - exists (V 0 0 1). split; [unfold s_plane, vdot, vsub; simpl; ring |]. unfold dist. rewrite (norm_val _ 1); [| lra | unfold vdot, vsub; simpl; ring].
    rewrite Rabs_left; lra.
  - eexists. apply is_plane_inv; [exact Hn | reflexivity].
Qed.

(** ---- C47: ray - point ---- *)
(** full statement: points of the ray are reported, and reported locations are on the ray near the point.  The first half is
    false for rays with a zero direction component. *)
Theorem C47_refuted : ~ (forall o d e p f a b, d <> vzero -> is_ray eps zs o d e a -> is_point eps zs p f b ->
  s_ray o d p -> exists l, shape_get_intersect a b = Ok (true, Some l)).
Proof. exact (ray_point_refuted eps zs). Qed.
Theorem C47_partial o d e p f a b : vx d <> 0 -> vy d <> 0 -> vz d <> 0 -> is_ray eps zs o d e a -> is_point eps zs p f b ->
  s_ray o d p -> shape_get_intersect a b = Ok (true, Some (ev p)).
Proof. exact (ray_point_on eps zs o d e p f a b). Qed.
(** every ray with a zero component misses every point *)
Theorem C47_zero_partial o d e p f a b : d <> vzero -> vx d = 0 \/ vy d = 0 \/ vz d = 0 ->
  is_ray eps zs o d e a -> is_point eps zs p f b -> shape_get_intersect a b = Ok (false, None).
Proof. exact (ray_point_zero eps zs o d e p f a b). Qed.
(** the second half, for every ray *)
Theorem C47_location o d e p f a b l : d <> vzero -> is_ray eps zs o d e a -> is_point eps zs p f b ->
  shape_get_intersect a b = Ok (true, Some l) ->
  exists x, l = ev x /\ s_ray o d x /\ Rabs (vx x - vx p) <= 2 * Rabs e /\ Rabs (vy x - vy p) <= 2 * Rabs e /\
    Rabs (vz x - vz p) <= 2 * Rabs e.
Proof. exact (ray_point_hit eps zs o d e p f a b l). Qed.
Example C47_case : exists a b, is_ray eps zs (V 1 0 0) (V 1 2 3) 1 a /\ is_point eps zs (V 3 4 6) 0 b /\
  shape_get_intersect a b = Ok (true, Some (ev (V 3 4 6))).
Proof.
  assert (Hd : V 1 2 3 <> vzero) by (intro C; injection C; lra).
  assert (Ha := proj2 (is_ray_inv eps zs (V 1 0 0) (V 1 2 3) 1 _ Hd) eq_refl). assert (Hb := proj2 (is_point_inv eps zs (V 3 4 6) 0 _) eq_refl).
  eexists. eexists. split; [exact Ha | split; [exact Hb |]].
  apply (C47_partial (V 1 0 0) (V 1 2 3) 1 (V 3 4 6) 0 _ _ ltac:(simpl; lra) ltac:(simpl; lra) ltac:(simpl; lra) Ha Hb). exists 2. split; [lra | apply V3_eq; simpl; ring].
Qed.

(** ---- C48: ray - sphere ---- *)
Theorem C48_first_hit o d e c r f a b : d <> vzero -> 0 <= r -> is_ray eps zs o d e a -> is_sphere eps zs c r f b ->
  (meets (s_ray o d) (s_surface c r) -> exists x, shape_get_intersect a b = Ok (true, Some (ev x)) /\
     s_ray o d x /\ s_surface c r x /\ forall y, s_ray o d y -> s_surface c r y -> dist o x <= dist o y) /\
  (~ meets (s_ray o d) (s_surface c r) -> shape_get_intersect a b = Ok (false, None)).
Proof. exact (ray_sphere_first eps zs o d e c r f a b). Qed.
Example C48_case : V 2 0 0 <> vzero /\ meets (s_ray (V 0 0 0) (V 2 0 0)) (s_surface (V 5 3 0) 5) /\
  (exists s, is_ray eps zs (V 0 0 0) (V 2 0 0) 0 s) /\ exists s, is_sphere eps zs (V 5 3 0) 5 0 s.
Proof.
  assert (Hd : V 2 0 0 <> vzero) by (intro C; injection C; lra). split; [exact Hd |]. split; [| split; eexists; [apply is_ray_inv; [exact Hd | reflexivity] | apply is_sphere_inv; reflexivity]].
  exists (V 1 0 0). split; [exists (1 / 2); split; [lra | apply V3_eq; simpl; field] |]. unfold s_surface, dist. apply norm_val; [lra |]. unfold vdot, vsub. simpl. ring.
Qed.

(** ---- C49: ray - plane ---- *)
Theorem C49_front o d e q n f a b : d <> vzero -> n <> vzero -> is_ray eps zs o d e a -> is_plane eps zs q n f b ->
  vdot n d < 0 ->
  (forall x, s_ray o d x /\ s_plane q n x <-> shape_get_intersect a b = Ok (true, Some (ev x))) /\
  (~ meets (s_ray o d) (s_plane q n) -> shape_get_intersect a b = Ok (false, None)).
Proof. exact (ray_plane_front eps zs o d e q n f a b). Qed.
Theorem C49_inside o d e q n f a b : d <> vzero -> n <> vzero -> is_ray eps zs o d e a -> is_plane eps zs q n f b ->
  vdot n d = 0 ->
  (s_plane q n o -> shape_get_intersect a b = Ok (true, Some (ev o))) /\
  (~ s_plane q n o -> shape_get_intersect a b = Ok (false, None)).
Proof. exact (ray_plane_inside eps zs o d e q n f a b). Qed.
Theorem C49_back o d e q n f a b : d <> vzero -> n <> vzero -> is_ray eps zs o d e a -> is_plane eps zs q n f b ->
  0 < vdot n d -> shape_get_intersect a b = Ok (false, None).
Proof. exact (ray_plane_back eps zs o d e q n f a b). Qed.
Example C49_case : exists a b, is_ray eps zs (V 0 0 4) (V 1 0 (-2)) 0 a /\ is_plane eps zs (V 7 7 0) (V 0 0 3) 0 b /\
  shape_get_intersect a b = Ok (true, Some (ev (V 2 0 0))).
Proof.
  assert (Hd : V 1 0 (-2) <> vzero) by (intro C; injection C; lra). assert (Hn : V 0 0 3 <> vzero) by (intro C; injection C; lra).
  assert (Ha := proj2 (is_ray_inv eps zs (V 0 0 4) (V 1 0 (-2)) 0 _ Hd) eq_refl). assert (Hb := proj2 (is_plane_inv eps zs (V 7 7 0) (V 0 0 3) 0 _ Hn) eq_refl).
  eexists. eexists. split; [exact Ha | split; [exact Hb |]]. apply (C49_front _ _ _ _ _ _ _ _ Hd Hn Ha Hb).
  - unfold vdot; simpl; lra.
  - split; [exists 2; split; [lra | apply V3_eq; simpl; ring] | unfold s_plane, vdot, vsub; simpl; ring].
Qed.

(** ---- C50, C51: ray - ray ---- *)
Theorem C50_found o d e p g f a b x : d <> vzero -> g <> vzero -> is_ray eps zs o d e a -> is_ray eps zs p g f b ->
  ~ near_parallel d g -> s_ray o d x -> s_ray p g x -> shape_get_intersect a b = Ok (true, Some (ev x)).
Proof. exact (ray_ray_found eps zs o d e p g f a b x). Qed.
Theorem C50_collinear o d e p g f a b : d <> vzero -> g <> vzero -> is_ray eps zs o d e a -> is_ray eps zs p g f b ->
  vcross d g = vzero -> meets (s_ray o d) (s_ray p g) ->
  exists x, shape_get_intersect a b = Ok (true, Some (ev x)) /\ s_ray o d x /\ s_ray p g x.
Proof. exact (ray_ray_collinear eps zs o d e p g f a b). Qed.
Example C50_case : ~ near_parallel (V 1 0 0) (V 0 2 0) /\ s_ray (V 0 0 0) (V 1 0 0) (V 3 0 0) /\ s_ray (V 3 (-4) 0) (V 0 2 0) (V 3 0 0) /\
  vcross (V 1 2 3) (V (-2) (-4) (-6)) = vzero /\ meets (s_ray (V 0 0 0) (V 1 2 3)) (s_ray (V 1 2 3) (V (-2) (-4) (-6))).
Proof.
  split.
  - unfold near_parallel. cbv zeta. rewrite (norm_val (V 1 0 0) 1), (norm_val (V 0 2 0) 2) by (try lra; unfold vdot; simpl; ring). simpl.
    intros [_ [_ C]]. apply Rabs_le_inv in C. lra.
  - repeat split.
    + exists 3. split; [lra | apply V3_eq; simpl; ring].
    + exists 2. split; [lra | apply V3_eq; simpl; ring].
    + apply V3_eq; simpl; ring.
    + exists (V 1 2 3). split; [exists 1 | exists 0]; (split; [lra | apply V3_eq; simpl; ring]).
Qed.
(** full statement of C51: a reported location lies on both rays.  False: skew rays with overlapping bounds are reported. *)
Theorem C51_refuted : ~ (forall o d e p g f a b x, d <> vzero -> g <> vzero -> is_ray eps zs o d e a -> is_ray eps zs p g f b ->
  shape_get_intersect a b = Ok (true, Some (ev x)) -> s_ray o d x /\ s_ray p g x).
Proof. exact (ray_ray_refuted eps zs). Qed.
(** what holds: the location is on the receiver *)
Theorem C51_partial o d e p g f a b l : d <> vzero -> g <> vzero -> is_ray eps zs o d e a -> is_ray eps zs p g f b ->
  shape_get_intersect a b = Ok (true, Some l) -> exists x, l = ev x /\ s_ray o d x.
Proof. exact (ray_ray_on_self eps zs o d e p g f a b l). Qed.

(** ---- C52: sphere - sphere ---- *)
Theorem C52_sphere_sphere a r e b s f x y : 0 <= r -> 0 <= s -> r + s <> 0 -> is_sphere eps zs a r e x -> is_sphere eps zs b s f y ->
  (dist a b <= r + s -> exists p, shape_get_intersect x y = Ok (true, Some (ev p)) /\ s_ball a r p /\ s_ball b s p) /\
  (r + s < dist a b -> shape_get_intersect x y = Ok (false, None)) /\ shape_get_intersect x y = shape_get_intersect y x.
Proof. exact (sphere_sphere_iff eps zs a r e b s f x y). Qed.
(** and the distance criterion is the meeting of the balls *)
Theorem C52_meets a r b s : 0 <= r -> 0 <= s -> (meets (s_ball a r) (s_ball b s) <-> dist b a <= r + s).
Proof. exact (balls_meet a r b s). Qed.
Example C52_case : dist (V 0 0 0) (V 3 4 0) <= 2 + 3 /\ 1 + 3 < dist (V 0 0 0) (V 3 4 0).
Proof. unfold dist. rewrite (norm_val _ 5); [lra | lra | unfold vdot, vsub; simpl; ring]. Qed.

(** ---- C53, C54: sphere - plane ---- *)
Theorem C53_complete c r e o n f a b : 0 <= r -> n <> vzero -> is_sphere eps zs c r e a -> is_plane eps zs o n f b ->
  meets (s_ball c r) (s_plane o n) -> exists l, shape_get_intersect a b = Ok (true, Some l).
Proof. exact (sphere_plane_complete eps zs c r e o n f a b). Qed.
Theorem C53_location c r e o n f a b l : 0 <= r -> n <> vzero -> is_sphere eps zs c r e a -> is_plane eps zs o n f b ->
  shape_get_intersect a b = Ok (true, Some l) -> exists x k, l = ev x /\ s_plane o n x /\ vsub c x = vscale k n.
Proof. exact (sphere_plane_location eps zs c r e o n f a b l). Qed.
Example C53_case : V 0 0 1 <> vzero /\ meets (s_ball (V 0 0 1) 2) (s_plane (V 9 9 0) (V 0 0 1)).
Proof.
  split; [intro C; injection C; lra |]. exists (V 0 0 0). split; [| unfold s_plane, vdot, vsub; simpl; ring].
  unfold s_ball, dist. rewrite (norm_val _ 1); [lra | lra | unfold vdot, vsub; simpl; ring].
Qed.
(** full statement of C54: a reported ball meets the plane.  False: balls behind the plane are reported. *)
Theorem C54_refuted : ~ (forall c r e o n f a b l, 0 <= r -> n <> vzero -> is_sphere eps zs c r e a -> is_plane eps zs o n f b ->
  shape_get_intersect a b = Ok (true, Some l) -> meets (s_ball c r) (s_plane o n)).
Proof. exact (sphere_plane_refuted eps zs). Qed.
(** what it does: reports exactly the balls that reach the closed half space behind the plane *)
Theorem C54_partial c r e o n f a b : 0 <= r -> n <> vzero -> is_sphere eps zs c r e a -> is_plane eps zs o n f b ->
  ((exists x, s_ball c r x /\ vdot n (vsub x o) <= 0) <-> exists l, shape_get_intersect a b = Ok (true, Some l)).
Proof. exact (sphere_plane_halfspace eps zs c r e o n f a b). Qed.

(** ---- C55, C56: prism - point ---- *)
Theorem C55_prism_point a b c h e p f s q : tri_ok a b c -> 0 < h -> is_prism eps zs a b c h e s -> is_point eps zs p f q ->
  (s_prism a b c h p -> shape_get_intersect s q = Ok (true, Some (ev p))) /\
  (~ s_prism a b c h p -> shape_get_intersect s q = Ok (false, None)).
Proof. exact (prism_point_iff eps zs a b c h e p f s q). Qed.
Example C55_case : tri_ok (V 0 0 0) (V 2 0 0) (V 0 2 0) /\ s_prism (V 0 0 0) (V 2 0 0) (V 0 2 0) 3 (V 1 1 2) /\
  exists s, is_prism eps zs (V 0 0 0) (V 2 0 0) (V 0 2 0) 3 0 s.
Proof.
  assert (Hok : tri_ok (V 0 0 0) (V 2 0 0) (V 0 2 0)) by (intro C; injection C; simpl; lra). split; [exact Hok |]. split.
  - exists (V 1 1 0), (2 / 3). split; [exists (1 / 2), (1 / 2); repeat split; try lra; apply V3_eq; simpl; field |]. split; [lra |].
    unfold tri_normal. cbv zeta. rewrite (norm_val _ 4); [| lra | unfold vdot, vcross, vsub; simpl; ring]. apply V3_eq; simpl; field.
  - eexists. apply is_prism_inv; [exact Hok | reflexivity].
Qed.
(** full statement of C56: for negative height the points of the swept prism are reported.  False: none is. *)
Theorem C56_refuted : ~ (forall a b c h e p f s q, tri_ok a b c -> h < 0 -> is_prism eps zs a b c h e s -> is_point eps zs p f q ->
  s_prism a b c h p -> exists l, shape_get_intersect s q = Ok (true, Some l)).
Proof. exact (prism_negative_refuted eps zs). Qed.
Theorem C56_always_wrong_refuted a b c h e p f s q : tri_ok a b c -> h < 0 -> is_prism eps zs a b c h e s -> is_point eps zs p f q ->
  shape_get_intersect s q = Ok (false, None).
Proof. exact (prism_point_negative eps zs a b c h e p f s q). Qed.
(** height 0: exactly the points of the bounding box of the triangle *)
Theorem C56_flat_partial a b c e p f s q : tri_ok a b c -> is_prism eps zs a b c 0 e s -> is_point eps zs p f q ->
  exists B, shape_get_bound s = BBox B /\ (holds eps zs B p -> shape_get_intersect s q = Ok (true, Some (ev p))) /\
    (~ holds eps zs B p -> shape_get_intersect s q = Ok (false, None)).
Proof. exact (prism_point_flat eps zs a b c e p f s q). Qed.

(** ---- C57, C58: prism - segment ---- *)
Theorem C57_prism_segment a b c h e A B f s l : tri_ok a b c -> 0 < h -> A <> B -> is_prism eps zs a b c h e s -> is_line eps zs A B f l ->
  (meets (s_prism a b c h) (s_segment A B) -> exists x, shape_get_intersect s l = Ok (true, Some (ev x)) /\ s_prism a b c h x /\ s_segment A B x /\
     (~ s_prism a b c h A -> ~ s_prism a b c h B -> forall y, s_prism a b c h y -> s_segment A B y -> dist A x <= dist A y)) /\
  (~ meets (s_prism a b c h) (s_segment A B) -> shape_get_intersect s l = Ok (false, None)).
Proof. exact (prism_segment eps zs a b c h e A B f s l). Qed.
(** a prism of negative height misses every segment *)
Theorem C57_negative a b c h e A B f s l : tri_ok a b c -> h < 0 -> A <> B -> is_prism eps zs a b c h e s -> is_line eps zs A B f l ->
  shape_get_intersect s l = Ok (false, None).
Proof. exact (prism_segment_negative eps zs a b c h e A B f s l). Qed.
Example C57_case : V (-5) 1 2 <> V 7 1 2 /\ meets (s_prism (V 0 0 0) (V 2 0 0) (V 0 2 0) 3) (s_segment (V (-5) 1 2) (V 7 1 2)) /\
  exists l, is_line eps zs (V (-5) 1 2) (V 7 1 2) 0 l.
Proof.
  split; [intro C; injection C; lra |]. split; [| eexists; apply is_line_inv; reflexivity].
  exists (V 1 1 2). split; [apply C55_case |]. exists (1 / 2). split; [lra | apply V3_eq; simpl; field].
Qed.
(** full statement of C58: a segment with equal ends outside the prism is not reported.  False inside the bounding box. *)
Theorem C58_refuted : ~ (forall a b c h e A f s l p, tri_ok a b c -> 0 < h -> is_prism eps zs a b c h e s -> is_line eps zs A A f l ->
  ~ s_prism a b c h A -> shape_get_intersect s l <> Ok (true, p)).
Proof. exact (degenerate_refuted eps zs). Qed.
(** what it does: outside the prism but inside its bounding box it answers a hit at (NaN, NaN, NaN) *)
Theorem C58_partial a b c h e A f s l : tri_ok a b c -> 0 < h -> is_prism eps zs a b c h e s -> is_line eps zs A A f l ->
  (s_prism a b c h A -> shape_get_intersect s l = Ok (true, Some (ev A))) /\
  (~ s_prism a b c h A -> exists Bx, shape_get_bound s = BBox Bx /\
     (holds eps zs Bx A -> shape_get_intersect s l = Ok (true, Some (M3x1 (A3 NaN NaN NaN : arr3 E)))) /\
     (~ holds eps zs Bx A -> shape_get_intersect s l = Ok (false, None))).
Proof. exact (prism_degenerate eps zs a b c h e A f s l). Qed.
End Geo.
Print Assumptions C42_refuted.
Print Assumptions C42_partial.
Print Assumptions C43_sphere_point.
Print Assumptions C44_refuted.
Print Assumptions C44_partial.
Print Assumptions C45_box_point.
Print Assumptions C46_plane_point.
Print Assumptions C47_refuted.
Print Assumptions C47_partial.
Print Assumptions C47_zero_partial.
Print Assumptions C47_location.
Print Assumptions C48_first_hit.
Print Assumptions C49_front.
Print Assumptions C49_inside.
Print Assumptions C49_back.
Print Assumptions C50_found.
Print Assumptions C50_collinear.
Print Assumptions C51_refuted.
Print Assumptions C51_partial.
Print Assumptions C52_sphere_sphere.
Print Assumptions C52_meets.
Print Assumptions C53_complete.
Print Assumptions C53_location.
Print Assumptions C54_refuted.
Print Assumptions C54_partial.
Print Assumptions C55_prism_point.
Print Assumptions C56_refuted.
Print Assumptions C56_always_wrong_refuted.
Print Assumptions C56_flat_partial.
Print Assumptions C57_prism_segment.
Print Assumptions C57_negative.
Print Assumptions C58_refuted.
Print Assumptions C58_partial.

(** ---- IEEE ---- *)
Section GeoIeee.
Context (prec emax : Z) {Hp : Prec_gt_0 prec} {Hm : Prec_lt_emax prec emax} (lm : libm (binary_float prec emax)).
Notation F := (@Ieee prec emax Hp Hm lm).
Local Open Scope num_scope.
(** the box query in every format: exactly the points within the rounded bounds *)
Theorem C45_box_point_ieee (c0 c1 c2 h p0 p1 p2 : F) B P : recbox_init [c0; c1; c2] h = Ok B -> point_init [p0; p1; p2] = Ok P ->
  (forall c p : F, In (c, p) [(c0, p0); (c1, p1); (c2, p2)] -> nisnan (c - h) = false /\ nisnan (c + h) = false /\ nisnan p = false) ->
  let isin := forall c p : F, In (c, p) [(c0, p0); (c1, p1); (c2, p2)] -> nle (c - h) p = true /\ nle p (c + h) = true in
  (isin -> shape_get_intersect (SBox B) (SPoint P) = Ok (true, Some (M3x1 (A3 p0 p1 p2)))) /\
  (~ isin -> shape_get_intersect (SBox B) (SPoint P) = Ok (false, None)).
Proof. exact (box_point_iff_any (ieee_ordered prec emax lm) c0 c1 c2 h p0 p1 p2 B P). Qed.
(** a point with only NaN coordinates is reported inside every box *)
Theorem C45_nan_point (c0 c1 c2 h p0 p1 p2 : F) B P : recbox_init [c0; c1; c2] h = Ok B -> point_init [p0; p1; p2] = Ok P ->
  nisnan p0 = true -> nisnan p1 = true -> nisnan p2 = true ->
  shape_get_intersect (SBox B) (SPoint P) = Ok (true, Some (M3x1 (A3 p0 p1 p2))).
Proof.
  intros HB HP N0 N1 N2. rewrite (box_point_any (ieee_ordered prec emax lm) _ _ _ _ _ _ _ _ _ HB HP).
  rewrite !(not_out_nan (ieee_ordered prec emax lm)) by assumption. reflexivity.
Qed.
(** in every format, whatever the vicinities, only points with equal coordinates are reported *)
Theorem C42_equal_ieee_partial (p0 p1 p2 q0 q1 q2 : F) P Q e f : point_init [p0; p1; p2] = Ok P -> point_init [q0; q1; q2] = Ok Q ->
  nisnan p0 = false -> nisnan p1 = false -> nisnan p2 = false -> nisnan q0 = false -> nisnan q1 = false -> nisnan q2 = false ->
  (exists l, shape_get_intersect (shape_set_vicinity (SPoint P) e) (shape_set_vicinity (SPoint Q) f) = Ok (true, l)) ->
  neqb p0 q0 = true /\ neqb p1 q1 = true /\ neqb p2 q2 = true.
Proof. exact (point_point_any (ieee_ordered prec emax lm) p0 p1 p2 q0 q1 q2 P Q e f). Qed.
End GeoIeee.
Print Assumptions C45_box_point_ieee.
Print Assumptions C45_nan_point.
Print Assumptions C42_equal_ieee_partial.
Example C45_ieee_case lm : exists B P, @recbox_init (F64 lm) [n0; n0; n0] n1 = Ok B /\ @point_init (F64 lm) [n1; n0; n1] = Ok P /\
  shape_get_intersect (SBox B) (SPoint P) = Ok (true, Some (M3x1 (A3 n1 n0 n1))).
Proof. eexists. eexists. split; [reflexivity | split; [reflexivity |]]. reflexivity. Qed.

(** the refutations in binary64, by evaluation *)
Theorem C44_refuted_f64 lm : flag (Nm := F64 lm) (b_sphere (l3 0 0 0 1) n1) (b_point (l3 1 1 1 1)) = Some true.
Proof. vm_compute. reflexivity. Qed.
Theorem C47_refuted_f64 lm : flag (Nm := F64 lm) (b_ray (l3 0 0 0 1) (l3 1 0 0 1)) (b_point (l3 1 0 0 1)) = Some false.
Proof. vm_compute. reflexivity. Qed.
Theorem C51_refuted_f64 lm : flag (Nm := F64 lm) (b_ray (l3 0 0 0 1) (l3 1 0 0 1)) (b_ray (l3 4 0 5 4) (l3 0 (-3) (-4) 1)) = Some true.
Proof. vm_compute. reflexivity. Qed.
Theorem C54_refuted_f64 lm : flag (Nm := F64 lm) (b_sphere (l3 (-5) 0 0 1) n1) (b_plane (l3 0 0 0 1) (l3 1 0 0 1)) = Some true.
Proof. vm_compute. reflexivity. Qed.
Theorem C56_refuted_f64 lm : flag (Nm := F64 lm) (b_prism (l3 0 0 0 1 ++ l3 1 0 0 1 ++ l3 0 1 0 1) (nlit (F64 lm) (-1) 1)) (b_point (l3 1 1 (-2) 4)) = Some false.
Proof. vm_compute. reflexivity. Qed.
Theorem C58_refuted_f64 lm : flag (Nm := F64 lm) (b_prism (l3 0 0 0 1 ++ l3 1 0 0 1 ++ l3 1 1 0 1) n1) (b_line (l3 1 9 5 10) (l3 1 9 5 10)) = Some true.
Proof. vm_compute. reflexivity. Qed.
Print Assumptions C44_refuted_f64.
Print Assumptions C47_refuted_f64.
Print Assumptions C51_refuted_f64.
Print Assumptions C54_refuted_f64.
Print Assumptions C56_refuted_f64.
Print Assumptions C58_refuted_f64.
