(** PropertiesTurnQ.v — C133: queries about shapes turned together by a quaternion, in IEEE arithmetic. *)
From Coq Require Import Reals List ZArith NArith Bool Lra Lia.
From Flocq Require Import Core BinarySingleNaN.
Import ListNotations.
From Verif Require Import Base Num Vec Mat Quat Shape Intersect Float FloatFacts SpecMat SpecReal SpecRound SpecGeom SpecQuat SpecBuild SpecFq SpecRun SpecFr SpecTurnQ ExactFacts PBuild PRound PIeee2 PIeee3 PPrismF PTurnQ PropertiesLoc PropertiesRun.
Local Open Scope R_scope.

Section TurnQ.
Context (prec emax : Z) {Hp : Prec_gt_0 prec} {Hm : Prec_lt_emax prec emax} (lm : libm (binary_float prec emax)).
Notation bf := (binary_float prec emax).
Notation F := (@Ieee prec emax Hp Hm lm).
Notation u := (uro prec).
Notation et := (eta prec emax).
Notation val := (@B2R prec emax).
Notation w3 p := (v3 (p : mat3x1 bf)).
Notation turned q p := (quat_rotate_vector (q : quat F) (p : mat3x1 F)).
Notation gi := (@shape_get_intersect F).
(** Two spheres and the same two after their centres have been turned by rotate_vector with a quaternion of length 1 up to 9 roundoffs: outside a
    margin that grows with the distance of the centres from the origin the answers are the same and right; *)
Theorem C133_spheres (q : quat F) (a b : mat3x1 F) (r s : F) e f e' f' (x y x' y' : shape F) : (9 < prec)%Z -> near (q : quat bf) -> roomy (a : mat3x1 bf) -> roomy (b : mat3x1 bf) -> radius prec emax lm r -> radius prec emax lm s ->
  mk_sphere a r e x -> mk_sphere b s f y -> mk_sphere (turned q a) r e' x' -> mk_sphere (turned q b) s f' y' ->
  let D := dist (w3 b) (w3 a) in let G := val (r : bf) + val (s : bf) in let m := 38 * u * (norm (w3 a) + norm (w3 b)) + 56 * et in
  ((1 + u) ^ 4 * (D + m + 2 * sqrt et) <= (1 - u) * G -> exists p p', gi x y = Ok (true, Some p) /\ gi x' y' = Ok (true, Some p')) /\
  ((1 + u) * G < (1 - u) ^ 4 * (D - m) - 2 * sqrt et -> gi x y = Ok (false, None) /\ gi x' y' = Ok (false, None)).
Proof. exact (turn_spheres prec emax lm q a b r s e f e' f' x y x' y'). Qed.
(** and when both are hits, the place reported afterwards is the turned place, up to rounding. *)
Theorem C133_spheres_place (q : quat F) (a b : mat3x1 F) (r s : F) e f e' f' (x y x' y' : shape F) p p' : (9 < prec)%Z -> near (q : quat bf) -> roomy (a : mat3x1 bf) -> roomy (b : mat3x1 bf) -> radius prec emax lm r -> radius prec emax lm s -> 0 < val (r : bf) + val (s : bf) ->
  mk_sphere a r e x -> mk_sphere b s f y -> mk_sphere (turned q a) r e' x' -> mk_sphere (turned q b) s f' y' -> gi x y = Ok (true, Some p) -> gi x' y' = Ok (true, Some p') ->
  fin3 (p : mat3x1 bf) /\ fin3 (p' : mat3x1 bf) /\ dist (w3 p') (w3 (turned q p)) <= 92 * u * (norm (w3 a) + norm (w3 b)) + 92 * et.
Proof. exact (turn_spheres_loc prec emax lm q a b r s e f e' f' x y x' y' p p'). Qed.
(** a plane (its point and its normal turned) and a point *)
Theorem C133_plane_point (q : quat F) (o n p : mat3x1 F) (e : F) f f' (a b a' b' : shape F) : (9 < prec)%Z -> near (q : quat bf) -> roomy_dir (n : mat3x1 bf) -> roomy (o : mat3x1 bf) -> roomy (p : mat3x1 bf) -> is_finite (e : bf) = true ->
  mk_plane o n e a -> mk_point p f b -> mk_plane (turned q o) (turned q n) e a' -> mk_point (turned q p) f' b' ->
  let t := Rabs (vdot (s_unit (w3 n)) (vsub (w3 p) (w3 o))) in let M := 134 * u * (norm (w3 p) + norm (w3 o)) + 71 * et in
  (t + M <= Rabs (val (e : bf)) -> gi a b = Ok (true, Some p) /\ gi a' b' = Ok (true, Some (turned q p))) /\
  (Rabs (val (e : bf)) < t - M -> gi a b = Ok (false, None) /\ gi a' b' = Ok (false, None)).
Proof. exact (turn_plane_point prec emax lm q o n p e f f' a b a' b'). Qed.
(** a sphere and a plane *)
Theorem C133_sphere_plane (q : quat F) (c o n : mat3x1 F) (r : F) e f e' f' (a b a' b' : shape F) : (9 < prec)%Z -> near (q : quat bf) -> roomy_dir (n : mat3x1 bf) -> roomy (o : mat3x1 bf) -> roomy (c : mat3x1 bf) -> is_finite (r : bf) = true -> 0 <= val (r : bf) ->
  mk_sphere c r e a -> mk_plane o n f b -> mk_sphere (turned q c) r e' a' -> mk_plane (turned q o) (turned q n) f' b' ->
  let t := vdot (s_unit (w3 n)) (vsub (w3 c) (w3 o)) in let M := 134 * u * (norm (w3 c) + norm (w3 o)) + 71 * et in
  (t + M <= val (r : bf) -> exists p p', gi a b = Ok (true, Some p) /\ gi a' b' = Ok (true, Some p')) /\
  (val (r : bf) < t - M -> gi a b = Ok (false, None) /\ gi a' b' = Ok (false, None)).
Proof. exact (turn_sphere_plane prec emax lm q c o n r e f e' f' a b a' b'). Qed.
(** a ray (its origin and its direction turned) and a plane *)
Theorem C133_ray_plane (q : quat F) (o d p n : mat3x1 F) e f e' f' (a b a' b' : shape F) : (9 < prec)%Z -> near (q : quat bf) -> roomy (o : mat3x1 bf) -> roomy_dir (d : mat3x1 bf) -> roomy (p : mat3x1 bf) -> roomy_dir (n : mat3x1 bf) ->
  mk_ray o d e a -> mk_plane p n f b -> mk_ray (turned q o) (turned q d) e' a' -> mk_plane (turned q p) (turned q n) f' b' ->
  let s := vdot (s_unit (w3 n)) (vsub (w3 p) (w3 o)) in let c := vdot (s_unit (w3 n)) (s_unit (w3 d)) in let M := 134 * u * (norm (w3 p) + norm (w3 o)) + 75 * et in
  (c < - (177 * u) -> s <= - M -> exists x x', gi a b = Ok (true, Some x) /\ gi a' b' = Ok (true, Some x')) /\
  (c < - (177 * u) -> M <= s -> gi a b = Ok (false, None) /\ gi a' b' = Ok (false, None)) /\
  (177 * u < c -> gi a b = Ok (false, None) /\ gi a' b' = Ok (false, None)).
Proof. exact (turn_ray_plane prec emax lm q o d p n e f e' f' a b a' b'). Qed.
(** a ray and a sphere; B, C and D are the coefficients of the quadratic equation and a quarter of its discriminant *)
Theorem C133_ray_sphere (q : quat F) (o d c : mat3x1 F) (r : F) e f e' f' (a z a' z' : shape F) : (9 < prec)%Z -> near (q : quat bf) -> roomy (o : mat3x1 bf) -> roomy_dir (d : mat3x1 bf) -> roomy (c : mat3x1 bf) -> is_finite (r : bf) = true -> 0 <= val (r : bf) <= bpow radix2 (emax / 2 - 3) ->
  mk_ray o d e a -> mk_sphere c r f z -> mk_ray (turned q o) (turned q d) e' a' -> mk_sphere (turned q c) r f' z' ->
  let n := dist (w3 o) (w3 c) in let M := n * n + val (r : bf) * val (r : bf) in
  let B := ray_b (w3 o) (w3 d) (w3 c) in let C := ray_c (w3 o) (w3 c) (val (r : bf)) in let D := ray_disc (w3 o) (w3 d) (w3 c) (val (r : bf)) in
  let W := 120 * u * (norm (w3 o) + norm (w3 c)) + 61 * et in let Z := W * (2 * n + W) in
  (38 * u * M + 20 * et + 3 * Z <= D -> B <= - (13 * u * n + 4 * et + 2 * W) \/ C <= - (7 * u * M + 6 * et + 2 * Z) ->
     exists p p', gi a z = Ok (true, Some p) /\ gi a' z' = Ok (true, Some p')) /\
  (D < - (38 * u * M + 20 * et + 3 * Z) -> gi a z = Ok (false, None) /\ gi a' z' = Ok (false, None)) /\
  (13 * u * n + 4 * et + 2 * W < B -> 7 * u * M + 6 * et + 2 * Z < C -> gi a z = Ok (false, None) /\ gi a' z' = Ok (false, None)).
Proof. exact (turn_ray_sphere prec emax lm q o d c r e f e' f' a z a' z'). Qed.
End TurnQ.
Print Assumptions C133_spheres.
Print Assumptions C133_spheres_place.
Print Assumptions C133_plane_point.
Print Assumptions C133_sphere_plane.
Print Assumptions C133_ray_plane.
Print Assumptions C133_ray_sphere.

(** ---- cases in binary64, for every quaternion of length 1 up to 9 roundoffs, e.g. a third of a turn ---- *)
Section Cases.
  Variable lm : libm f64.
  Notation F := (F64 lm).
  Notation at3 x y z := (z3 F x y z).
  Lemma case_quat : near (third lm : quat f64).
  Proof. destruct (third_len lm) as [A B]. split; [exact A |]. rewrite B, Rminus_diag_eq, Rabs_R0 by reflexivity. pose proof (u_pos 53). lra. Qed.
  Lemma case_small : 0 < uro 53 <= / 9000000000000000 /\ 0 < eta 53 1024 <= / 9000000000000000 /\ 0 <= sqrt (eta 53 1024) <= / 1000000.
  Proof.
    assert (E1 : eta 53 1024 <= bpow radix2 (-60)) by (unfold eta; apply bpow_le; lia). assert (E2 : bpow radix2 (-60) <= / 1000000 * / 1000000) by (cbn; lra). assert (E3 : bpow radix2 (-60) <= / 9000000000000000) by (cbn; lra). pose proof (et_pos 53 1024) as E0. split; [split; [apply u_pos | unfold uro; cbn; lra] |]. split; [split; [exact E0 |]; lra |]. split; [apply sqrt_pos |].
    apply Rsqr_incr_0_var; [| lra]. unfold Rsqr. rewrite sqrt_sqrt by lra. lra.
  Qed.
  Lemma case_norm v k : 0 <= k -> vdot v v = k * k -> norm v = k.
  Proof. intros K E. unfold norm. rewrite E. apply sqrt_square, K. Qed.
  Lemma case_at x y z k : (Z.abs x < 512)%Z -> (Z.abs y < 512)%Z -> (Z.abs z < 512)%Z -> 0 <= k <= 1000 -> IZR x * IZR x + IZR y * IZR y + IZR z * IZR z = k * k ->
    roomy (at3 x y z : mat3x1 f64) /\ v3 (at3 x y z : mat3x1 f64) = V (IZR x) (IZR y) (IZR z) /\ norm (v3 (at3 x y z : mat3x1 f64)) = k.
  Proof.
    intros X Y Z K E. destruct (@z3_ok 53 1024 f64_prec_gt_0 f64_prec_lt_emax lm eq_refl x y z X Y Z) as [A B]. assert (N : norm (v3 (at3 x y z : mat3x1 f64)) = k) by (refine (eq_ind_r (fun v => norm v = k) _ B); apply case_norm; [lra | exact E]).
    split; [split; [exact A |] | split; [exact B | exact N]]. rewrite N. apply Rle_trans with (bpow radix2 10); [change (bpow radix2 10) with 1024; lra | apply bpow_le; reflexivity || (vm_compute; discriminate)].
  Qed.
  Lemma case_lit z : (Z.abs z < 512)%Z -> is_finite (nlit F z 1 : f64) = true /\ B2R (nlit F z 1 : f64) = IZR z.
  Proof. exact (@lit_z 53 1024 f64_prec_gt_0 f64_prec_lt_emax lm eq_refl z). Qed.
  (** balls of radius 3 and 2 at (100,0,0) and (104,0,0) meet before and after the turn; balls of radius 2 and 1 at the same places do not *)
  Example C133_case_spheres (q : quat F) : near (q : quat f64) -> let a := at3 100 0 0 in let b := at3 104 0 0 in
    (forall x y x' y', mk_sphere a (nlit F 3 1) n0 x -> mk_sphere b (nlit F 2 1) n0 y -> mk_sphere (quat_rotate_vector q a) (nlit F 3 1) n0 x' -> mk_sphere (quat_rotate_vector q b) (nlit F 2 1) n0 y' ->
      exists p p', shape_get_intersect x y = Ok (true, Some p) /\ shape_get_intersect x' y' = Ok (true, Some p') /\ dist (v3 (p' : mat3x1 f64)) (v3 (quat_rotate_vector q p : mat3x1 f64)) <= / 100000000000) /\
    (forall x y x' y', mk_sphere a (nlit F 2 1) n0 x -> mk_sphere b (nlit F 1 1) n0 y -> mk_sphere (quat_rotate_vector q a) (nlit F 2 1) n0 x' -> mk_sphere (quat_rotate_vector q b) (nlit F 1 1) n0 y' ->
      shape_get_intersect x y = Ok (false, None) /\ shape_get_intersect x' y' = Ok (false, None)).
  Proof.
    intros Nq a b. destruct case_small as (U & T & S). destruct (case_at 100 0 0 100 eq_refl eq_refl eq_refl ltac:(lra) ltac:(lra)) as (Ra & Va & Na). destruct (case_at 104 0 0 104 eq_refl eq_refl eq_refl ltac:(lra) ltac:(lra)) as (Rb & Vb & Nb). fold a in Ra, Va, Na. fold b in Rb, Vb, Nb.
    assert (D : dist (v3 (b : mat3x1 f64)) (v3 (a : mat3x1 f64)) = 4) by (rewrite Va, Vb; apply case_norm; [lra |]; unfold vdot, vsub; cbn [vx vy vz]; lra).
    assert (RD : forall z, (0 <= z < 4)%Z -> radius 53 1024 lm (nlit F z 1)). { intros z Hz. destruct (case_lit z ltac:(lia)) as [A B]. split; [exact A |]. rewrite B. split; [rewrite <- abs_IZR; apply Rle_trans with 4; [apply IZR_le; lia | change 4 with (bpow radix2 2); apply bpow_le; lia] | apply IZR_le; lia]. }
    set (w := uro 53) in *. set (t := eta 53 1024) in *. assert (P4 : 1 <= (1 + w) ^ 4 <= 1001 / 1000) by (split; [apply pow_R1_Rle; lra | cbn [pow]; assert (0 <= w * w <= / 1000000) by nra; nra]). assert (M4 : 999 / 1000 <= (1 - w) ^ 4) by (cbn [pow]; assert (0 <= w * w <= / 1000000) by nra; nra).
    split; intros x y x' y' X Y X' Y'.
    - assert (G : B2R (nlit F 3 1 : f64) + B2R (nlit F 2 1 : f64) = 5) by (rewrite (proj2 (case_lit 3 eq_refl)), (proj2 (case_lit 2 eq_refl)); lra).
      destruct (@C133_spheres 53 1024 f64_prec_gt_0 f64_prec_lt_emax lm q a b _ _ _ _ _ _ x y x' y' eq_refl Nq Ra Rb (RD 3%Z ltac:(lia)) (RD 2%Z ltac:(lia)) X Y X' Y') as [(p & p' & I & I') _].
      + refine (eq_ind_r (fun g => _ <= (1 - uro 53) * g) _ G). refine (eq_ind_r (fun dd => (1 + uro 53) ^ 4 * (dd + _ + _) <= _) _ D). refine (eq_ind_r (fun k => (1 + uro 53) ^ 4 * (4 + (38 * uro 53 * (k + _) + _) + _) <= _) _ Na). refine (eq_ind_r (fun k => (1 + uro 53) ^ 4 * (4 + (38 * uro 53 * (100 + k) + _) + _) <= _) _ Nb). fold w t. nra.
      + exists p, p'. split; [exact I |]. split; [exact I' |].
        destruct (@C133_spheres_place 53 1024 f64_prec_gt_0 f64_prec_lt_emax lm q a b _ _ _ _ _ _ x y x' y' p p' eq_refl Nq Ra Rb (RD 3%Z ltac:(lia)) (RD 2%Z ltac:(lia)) (eq_ind_r (fun g => 0 < g) (IZR_lt 0 5 eq_refl) G) X Y X' Y' I I') as (_ & _ & K).
        eapply Rle_trans; [exact K |]. refine (eq_ind_r (fun k => 92 * uro 53 * (k + _) + _ <= _) _ Na). refine (eq_ind_r (fun k => 92 * uro 53 * (100 + k) + _ <= _) _ Nb). fold w t. lra.
    - assert (G : B2R (nlit F 2 1 : f64) + B2R (nlit F 1 1 : f64) = 3) by (rewrite (proj2 (case_lit 2 eq_refl)), (proj2 (case_lit 1 eq_refl)); lra).
      apply (@C133_spheres 53 1024 f64_prec_gt_0 f64_prec_lt_emax lm q a b _ _ _ _ _ _ x y x' y' eq_refl Nq Ra Rb (RD 2%Z ltac:(lia)) (RD 1%Z ltac:(lia)) X Y X' Y').
      refine (eq_ind_r (fun g => (1 + uro 53) * g < _) _ G). refine (eq_ind_r (fun dd => _ < (1 - uro 53) ^ 4 * (dd - _) - _) _ D). refine (eq_ind_r (fun k => _ < (1 - uro 53) ^ 4 * (4 - (38 * uro 53 * (k + _) + _)) - _) _ Na). refine (eq_ind_r (fun k => _ < (1 - uro 53) ^ 4 * (4 - (38 * uro 53 * (100 + k) + _)) - _) _ Nb). fold w t. nra.
  Qed.
  (** the ray from (0,0,10) towards (3,4,-12) and the plane through the origin with normal (0,0,2) *)
  Example C133_case_ray (q : quat F) : near (q : quat f64) -> let o := at3 0 0 10 in let d := at3 3 4 (-12) in let p := at3 0 0 0 in let n := at3 0 0 2 in
    forall a b a' b', mk_ray o d n0 a -> mk_plane p n n0 b -> mk_ray (quat_rotate_vector q o) (quat_rotate_vector q d) n0 a' -> mk_plane (quat_rotate_vector q p) (quat_rotate_vector q n) n0 b' ->
    exists x x', shape_get_intersect a b = Ok (true, Some x) /\ shape_get_intersect a' b' = Ok (true, Some x').
  Proof.
    intros Nq o d p n a b a' b' A B A' B'. destruct case_small as (U & T & S).
    destruct (case_at 0 0 10 10 eq_refl eq_refl eq_refl ltac:(lra) ltac:(lra)) as (Ro & Vo & No). destruct (case_at 3 4 (-12) 13 eq_refl eq_refl eq_refl ltac:(lra) ltac:(lra)) as (Rd & Vd & Nd). destruct (case_at 0 0 0 0 eq_refl eq_refl eq_refl ltac:(lra) ltac:(lra)) as (Rp & Vp & Np). destruct (case_at 0 0 2 2 eq_refl eq_refl eq_refl ltac:(lra) ltac:(lra)) as (Rn & Vn & Nn).
    fold o in Ro, Vo, No. fold d in Rd, Vd, Nd. fold p in Rp, Vp, Np. fold n in Rn, Vn, Nn.
    assert (B1 : bpow radix2 (7 - 1024) <= 1) by (change 1 with (bpow radix2 0); apply bpow_le; lia).
    assert (Gd : roomy_dir (d : mat3x1 f64)) by (split; [exact Rd |]; rewrite Vd; unfold vdot; cbn [vx vy vz]; lra). assert (Gn : roomy_dir (n : mat3x1 f64)) by (split; [exact Rn |]; rewrite Vn; unfold vdot; cbn [vx vy vz]; lra).
    assert (Cs : vdot (s_unit (v3 (n : mat3x1 f64))) (s_unit (v3 (d : mat3x1 f64))) = - 12 / 13) by (unfold s_unit; rewrite Nn, Nd, Vn, Vd; unfold vdot, vscale; cbn [vx vy vz]; lra).
    assert (Ss : vdot (s_unit (v3 (n : mat3x1 f64))) (vsub (v3 (p : mat3x1 f64)) (v3 (o : mat3x1 f64))) = - 10) by (unfold s_unit; rewrite Nn, Vn, Vp, Vo; unfold vdot, vscale, vsub; cbn [vx vy vz]; lra).
    apply (@C133_ray_plane 53 1024 f64_prec_gt_0 f64_prec_lt_emax lm q o d p n _ _ _ _ a b a' b' eq_refl Nq Ro Gd Rp Gn A B A' B').
    - refine (eq_ind_r (fun c => c < - (177 * uro 53)) _ Cs). lra.
    - refine (eq_ind_r (fun c => c <= _) _ Ss). refine (eq_ind_r (fun k => _ <= - (134 * uro 53 * (k + _) + _)) _ Np). refine (eq_ind_r (fun k => _ <= - (134 * uro 53 * (0 + k) + _)) _ No). lra.
  Qed.
  (** the point (3,4,12) and the planes through the origin with normal (0,0,2), with tolerances 13 and 11 *)
  Example C133_case_plane (q : quat F) : near (q : quat f64) -> let p := at3 3 4 12 in let o := at3 0 0 0 in let n := at3 0 0 2 in forall e a b a' b',
    mk_plane o n e a -> mk_point p n0 b -> mk_plane (quat_rotate_vector q o) (quat_rotate_vector q n) e a' -> mk_point (quat_rotate_vector q p) n0 b' ->
    (e = nlit F 13 1 -> shape_get_intersect a b = Ok (true, Some p) /\ shape_get_intersect a' b' = Ok (true, Some (quat_rotate_vector q p))) /\
    (e = nlit F 11 1 -> shape_get_intersect a b = Ok (false, None) /\ shape_get_intersect a' b' = Ok (false, None)).
  Proof.
    intros Nq p o n e a b a' b' A B A' B'. destruct case_small as (U & T & S).
    destruct (case_at 3 4 12 13 eq_refl eq_refl eq_refl ltac:(lra) ltac:(lra)) as (Rp & Vp & Np). destruct (case_at 0 0 0 0 eq_refl eq_refl eq_refl ltac:(lra) ltac:(lra)) as (Ro & Vo & No). destruct (case_at 0 0 2 2 eq_refl eq_refl eq_refl ltac:(lra) ltac:(lra)) as (Rn & Vn & Nn).
    fold o in Ro, Vo, No. fold p in Rp, Vp, Np. fold n in Rn, Vn, Nn.
    assert (B1 : bpow radix2 (7 - 1024) <= 1) by (change 1 with (bpow radix2 0); apply bpow_le; lia). assert (Gn : roomy_dir (n : mat3x1 f64)) by (split; [exact Rn |]; rewrite Vn; unfold vdot; cbn [vx vy vz]; lra).
    assert (Ss : Rabs (vdot (s_unit (v3 (n : mat3x1 f64))) (vsub (v3 (p : mat3x1 f64)) (v3 (o : mat3x1 f64)))) = 12) by (unfold s_unit; rewrite Nn, Vn, Vp, Vo; unfold vdot, vscale, vsub; cbn [vx vy vz]; rewrite Rabs_pos_eq; lra).
    split; intro E; subst e.
    - destruct (case_lit 13 eq_refl) as [F1 V1]. apply (@C133_plane_point 53 1024 f64_prec_gt_0 f64_prec_lt_emax lm q o n p _ _ _ a b a' b' eq_refl Nq Gn Ro Rp F1 A B A' B').
      refine (eq_ind_r (fun v => _ <= Rabs v) _ V1). rewrite (Rabs_pos_eq 13) by lra. refine (eq_ind_r (fun c => c + _ <= _) _ Ss). refine (eq_ind_r (fun k => _ + (134 * uro 53 * (k + _) + _) <= _) _ Np). refine (eq_ind_r (fun k => _ + (134 * uro 53 * (13 + k) + _) <= _) _ No). lra.
    - destruct (case_lit 11 eq_refl) as [F1 V1]. apply (@C133_plane_point 53 1024 f64_prec_gt_0 f64_prec_lt_emax lm q o n p _ _ _ a b a' b' eq_refl Nq Gn Ro Rp F1 A B A' B').
      refine (eq_ind_r (fun v => Rabs v < _) _ V1). rewrite (Rabs_pos_eq 11) by lra. refine (eq_ind_r (fun c => _ < c - _) _ Ss). refine (eq_ind_r (fun k => _ < _ - (134 * uro 53 * (k + _) + _)) _ Np). refine (eq_ind_r (fun k => _ < _ - (134 * uro 53 * (13 + k) + _)) _ No). lra.
  Qed.
  (** the ray from (0,0,20) towards (3,4,-12) and the ball of radius 10 at the origin: hit; the same ray and the ball of radius 1: missed *)
  Example C133_case_ray_sphere (q : quat F) : near (q : quat f64) -> let o := at3 0 0 20 in let d := at3 3 4 (-12) in let c := at3 0 0 0 in forall r a z a' z',
    mk_ray o d n0 a -> mk_sphere c r n0 z -> mk_ray (quat_rotate_vector q o) (quat_rotate_vector q d) n0 a' -> mk_sphere (quat_rotate_vector q c) r n0 z' ->
    (r = nlit F 10 1 -> exists p p', shape_get_intersect a z = Ok (true, Some p) /\ shape_get_intersect a' z' = Ok (true, Some p')) /\
    (r = nlit F 1 1 -> shape_get_intersect a z = Ok (false, None) /\ shape_get_intersect a' z' = Ok (false, None)).
  Proof.
    intros Nq o d c r a z a' z' A Y A' Y'. destruct case_small as (U & T & S).
    destruct (case_at 0 0 20 20 eq_refl eq_refl eq_refl ltac:(lra) ltac:(lra)) as (Ro & Vo & No). destruct (case_at 3 4 (-12) 13 eq_refl eq_refl eq_refl ltac:(lra) ltac:(lra)) as (Rd & Vd & Nd). destruct (case_at 0 0 0 0 eq_refl eq_refl eq_refl ltac:(lra) ltac:(lra)) as (Rc & Vc & Nc).
    fold o in Ro, Vo, No. fold d in Rd, Vd, Nd. fold c in Rc, Vc, Nc.
    assert (B1 : bpow radix2 (7 - 1024) <= 1) by (change 1 with (bpow radix2 0); apply bpow_le; lia). assert (B4 : 16 <= bpow radix2 (1024 / 2 - 3)) by (change 16 with (bpow radix2 4); apply bpow_le; vm_compute; discriminate).
    assert (Gd : roomy_dir (d : mat3x1 f64)) by (split; [exact Rd |]; rewrite Vd; unfold vdot; cbn [vx vy vz]; lra).
    assert (Bs : ray_b (v3 (o : mat3x1 f64)) (v3 (d : mat3x1 f64)) (v3 (c : mat3x1 f64)) = - 240 / 13) by (unfold ray_b, s_unit; rewrite Nd, Vd, Vo, Vc; unfold vdot, vscale, vsub; cbn [vx vy vz]; lra).
    assert (Cs : forall x, ray_c (v3 (o : mat3x1 f64)) (v3 (c : mat3x1 f64)) x = 400 - x * x) by (intro x; unfold ray_c; rewrite Vo, Vc; unfold vdot, vsub; cbn [vx vy vz]; lra).
    assert (Ds : forall x, ray_disc (v3 (o : mat3x1 f64)) (v3 (d : mat3x1 f64)) (v3 (c : mat3x1 f64)) x = 57600 / 169 - 400 + x * x) by (intro x; unfold ray_disc; rewrite Bs, Cs; lra).
    assert (Ns : dist (v3 (o : mat3x1 f64)) (v3 (c : mat3x1 f64)) = 20) by (rewrite Vo, Vc; apply case_norm; [lra |]; unfold vdot, vsub; cbn [vx vy vz]; lra).
    set (w := uro 53) in *. set (t := eta 53 1024) in *. set (W := 120 * w * (20 + 0) + 61 * t). assert (W1 : 0 <= W <= / 1000000000) by (unfold W; lra). assert (Z1 : 0 <= W * (2 * 20 + W) <= / 1000000) by nra.
    split; intro E; subst r.
    - destruct (case_lit 10 eq_refl) as [F1 V1]. destruct (@C133_ray_sphere 53 1024 f64_prec_gt_0 f64_prec_lt_emax lm q o d c _ _ _ _ _ a z a' z' eq_refl Nq Ro Gd Rc F1 ltac:(refine (eq_ind_r (fun v => 0 <= v <= _) _ V1); lra) A Y A' Y') as (H & _).
      revert H. cbv zeta. rewrite V1, No, Nc, Ns, Bs, Cs, Ds. fold w t W. intro H. apply H; [lra | left; lra].
    - destruct (case_lit 1 eq_refl) as [F1 V1]. destruct (@C133_ray_sphere 53 1024 f64_prec_gt_0 f64_prec_lt_emax lm q o d c _ _ _ _ _ a z a' z' eq_refl Nq Ro Gd Rc F1 ltac:(refine (eq_ind_r (fun v => 0 <= v <= _) _ V1); lra) A Y A' Y') as (_ & H & _).
      revert H. cbv zeta. rewrite V1, No, Nc, Ns, Ds. fold w t W. intro H. apply H. lra.
  Qed.
  (** balls of radius 13 and 11 at (3,4,12) and the plane through the origin with normal (0,0,2) *)
  Example C133_case_sphere_plane (q : quat F) : near (q : quat f64) -> let p := at3 3 4 12 in let o := at3 0 0 0 in let n := at3 0 0 2 in forall r a b a' b',
    mk_sphere p r n0 a -> mk_plane o n n0 b -> mk_sphere (quat_rotate_vector q p) r n0 a' -> mk_plane (quat_rotate_vector q o) (quat_rotate_vector q n) n0 b' ->
    (r = nlit F 13 1 -> exists x x', shape_get_intersect a b = Ok (true, Some x) /\ shape_get_intersect a' b' = Ok (true, Some x')) /\
    (r = nlit F 11 1 -> shape_get_intersect a b = Ok (false, None) /\ shape_get_intersect a' b' = Ok (false, None)).
  Proof.
    intros Nq p o n r a b a' b' A B A' B'. destruct case_small as (U & T & S).
    destruct (case_at 3 4 12 13 eq_refl eq_refl eq_refl ltac:(lra) ltac:(lra)) as (Rp & Vp & Np). destruct (case_at 0 0 0 0 eq_refl eq_refl eq_refl ltac:(lra) ltac:(lra)) as (Ro & Vo & No). destruct (case_at 0 0 2 2 eq_refl eq_refl eq_refl ltac:(lra) ltac:(lra)) as (Rn & Vn & Nn).
    fold o in Ro, Vo, No. fold p in Rp, Vp, Np. fold n in Rn, Vn, Nn.
    assert (B1 : bpow radix2 (7 - 1024) <= 1) by (change 1 with (bpow radix2 0); apply bpow_le; lia). assert (Gn : roomy_dir (n : mat3x1 f64)) by (split; [exact Rn |]; rewrite Vn; unfold vdot; cbn [vx vy vz]; lra).
    assert (Ss : vdot (s_unit (v3 (n : mat3x1 f64))) (vsub (v3 (p : mat3x1 f64)) (v3 (o : mat3x1 f64))) = 12) by (unfold s_unit; rewrite Nn, Vn, Vp, Vo; unfold vdot, vscale, vsub; cbn [vx vy vz]; lra).
    split; intro E; subst r.
    - destruct (case_lit 13 eq_refl) as [F1 V1]. destruct (@C133_sphere_plane 53 1024 f64_prec_gt_0 f64_prec_lt_emax lm q p o n _ _ _ _ _ a b a' b' eq_refl Nq Gn Ro Rp F1 ltac:(refine (eq_ind_r (fun v => 0 <= v) _ V1); lra) A B A' B') as (H & _).
      revert H. cbv zeta. rewrite V1, No, Np, Ss. intro H. apply H. lra.
    - destruct (case_lit 11 eq_refl) as [F1 V1]. destruct (@C133_sphere_plane 53 1024 f64_prec_gt_0 f64_prec_lt_emax lm q p o n _ _ _ _ _ a b a' b' eq_refl Nq Gn Ro Rp F1 ltac:(refine (eq_ind_r (fun v => 0 <= v) _ V1); lra) A B A' B') as (_ & H).
      revert H. cbv zeta. rewrite V1, No, Np, Ss. intro H. apply H. lra.
  Qed.
End Cases.
