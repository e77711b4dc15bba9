(** PropertiesLoc.v — C113: where spheres hit spheres and planes, in IEEE arithmetic. *)
From Coq Require Import Reals List ZArith Bool Lra Lia.
From Flocq Require Import Core BinarySingleNaN.
Import ListNotations.
From Verif Require Import Base Num Vec Mat Bound Shape Intersect Float FloatFacts SpecGeom SpecBuild SpecRound SpecShape SpecNan ExactFacts PBuild PIeee2 PRing3 PLoc.
Local Open Scope R_scope.

Section C113.
Context (prec emax : Z) {Hp : Prec_gt_0 prec} {Hm : Prec_lt_emax prec emax} (lm : libm (binary_float prec emax)).
Notation F := (@Ieee prec emax Hp Hm lm).
Notation fin x := (is_finite (x : binary_float prec emax) = true).
Notation u := (uro prec).
Notation et := (eta prec emax).
(** a radius at most a quarter of the largest power of two *)
Definition radius (r : F) : Prop := fin r /\ Rabs (B2R r) <= bpow radix2 (emax - 2) /\ 0 <= B2R r.

(** the reported point divides the segment of the centres in the ratio of the radii, up to rounding *)
Theorem C113_spheres (a b : mat3x1 F) (r s : F) e f (x y : shape F) p : (9 < prec)%Z -> moderate a -> moderate b -> radius r -> radius s -> 0 < B2R r + B2R s ->
  mk_sphere a r e x -> mk_sphere b s f y -> shape_get_intersect x y = Ok (true, Some p) ->
  fin3 p /\ dist (v3 p) (vadd (v3 a) (vscale (B2R r / (B2R r + B2R s)) (vsub (v3 b) (v3 a)))) <= 6 * u * dist (v3 b) (v3 a) + u * norm (v3 a) + 3 * et.
Proof. intros P Ma Mb (R1 & R2 & R3) (S1 & S2 & S3). exact (sphere_sphere_loc prec emax lm a b r s e f x y p P Ma Mb (conj R1 R2) (conj S1 S2) R3 S3). Qed.
(** so it belongs to both balls, up to rounding *)
Theorem C113_both (a b : mat3x1 F) (r s : F) e f (x y : shape F) p : (9 < prec)%Z -> moderate a -> moderate b -> radius r -> radius s -> 0 < B2R r + B2R s ->
  mk_sphere a r e x -> mk_sphere b s f y -> shape_get_intersect x y = Ok (true, Some p) ->
  let M := 7 * u * dist (v3 b) (v3 a) + u * norm (v3 a) + 3 * sqrt et in
  s_ball (v3 a) ((1 + 6 * u) * B2R r + M) (v3 p) /\ s_ball (v3 b) ((1 + 6 * u) * B2R s + M) (v3 p).
Proof. intros P Ma Mb (R1 & R2 & R3) (S1 & S2 & S3) PR X Y H. exact (sphere_sphere_in prec emax lm a b r s e f x y p P Ma Mb (conj R1 R2) (conj S1 S2) R3 S3 PR X Y H). Qed.
(** if both radii are zero and the centres are the same, a hit is reported at a place that is not a number *)
Theorem C113_zero (a b : mat3x1 F) (r s : F) e f (x y : shape F) : fin3 a -> fin3 b -> v3 a = v3 b -> fin r -> fin s -> B2R r = 0 -> B2R s = 0 ->
  mk_sphere a r e x -> mk_sphere b s f y -> exists p, shape_get_intersect x y = Ok (true, Some p) /\ all_nan p.
Proof. exact (sphere_sphere_zero prec emax lm a b r s e f x y). Qed.
(** the reported point of a sphere and a plane is the foot of the perpendicular from the centre, up to rounding; it is on the plane, up to rounding *)
Theorem C113_plane (c : mat3x1 F) (r : F) e (o n : mat3x1 F) f (a b : shape F) p : (9 < prec)%Z -> good_normal n -> moderate o -> moderate c ->
  mk_sphere c r e a -> mk_plane o n f b -> shape_get_intersect a b = Ok (true, Some p) ->
  let N := s_unit (v3 n) in let E := 26 * u * (norm (v3 c) + norm (v3 o)) + 13 * et in
  fin3 p /\ dist (v3 p) (vsub (v3 c) (vscale (vdot N (vsub (v3 c) (v3 o))) N)) <= E /\ Rabs (vdot N (vsub (v3 p) (v3 o))) <= E.
Proof.
  intros P Gn Mo Mc A B H N E. destruct (sphere_plane_loc prec emax lm c r e o n f a b p P Gn Mo Mc A B H) as [F1 D1]. split; [exact F1 |]. split; [exact D1 |].
  exact (sphere_plane_on prec emax lm c r e o n f a b p P Gn Mo Mc A B H).
Qed.
End C113.
Print Assumptions C113_spheres.
Print Assumptions C113_both.
Print Assumptions C113_zero.
Print Assumptions C113_plane.
(** cases in f64: spheres of radius 1 and 2 with centres at the origin and (2,0,0) meet in a finite point within 2^-40 of (2/3,0,0) *)
Ltac lit_vals F prec emax := repeat match goal with |- context [@B2R prec emax (nlit F ?a ?b)] => let H := fresh "S" in let v := eval vm_compute in (B2SF (nlit F a b : binary_float prec emax)) in
  assert (H : B2SF (nlit F a b : binary_float prec emax) = v) by (vm_compute; reflexivity); rewrite <- (SF2R_B2SF prec emax (nlit F a b)), H; clear H end; cbn [SF2R]; unfold F2R; cbn [Fnum Fexp cond_Zopp Z.opp bpow radix_val radix2 Z.pow_pos Pos.iter Z.mul Pos.mul].
Lemma lits_mod (lm : libm f64) x y z : let F := F64 lm in Rabs (B2R (nlit F x 1 : f64)) <= 8 -> Rabs (B2R (nlit F y 1 : f64)) <= 8 -> Rabs (B2R (nlit F z 1 : f64)) <= 8 -> fin3 (lits F x y z 1 : mat3x1 f64) -> moderate (lits F x y z 1 : mat3x1 f64).
Proof.
  intros F X Y Z Fi. split; [exact Fi |]. assert (B : 8 <= bpow radix2 (1024 / 2 - 3)) by (change 8 with (bpow radix2 3); apply bpow_le; vm_compute; discriminate). unfold lits. cbv zeta. repeat split; eapply Rle_trans; eassumption.
Qed.
Example C113_case_f64 (lm : libm f64) : let F := F64 lm in let c := lits F 0 0 0 1 in let c' := lits F 2 0 0 1 in let r := nlit F 1 1 in let s := nlit F 2 1 in
  exists x y p, mk_sphere c r n0 x /\ mk_sphere c' s n0 y /\ shape_get_intersect x y = Ok (true, Some p) /\ fin3 (p : mat3x1 f64) /\ dist (v3 (p : mat3x1 f64)) (V (2 / 3) 0 0) <= bpow radix2 (-40).
Proof.
  intros F c c' r s. set (x := SSphere (MkSphere c r (cube_any c r) (nabs F n0)) : shape F). set (y := SSphere (MkSphere c' s (cube_any c' s) (nabs F n0)) : shape F).
  assert (X : mk_sphere c r n0 x) by (apply sphere_any; reflexivity). assert (Y : mk_sphere c' s n0 y) by (apply sphere_any; reflexivity).
  assert (Vc : v3 (c : mat3x1 f64) = V 0 0 0) by (unfold c, lits, v3, F; lit_vals (F64 lm) 53%Z 1024%Z; f_equal; lra).
  assert (Vc' : v3 (c' : mat3x1 f64) = V 2 0 0) by (unfold c', lits, v3, F; lit_vals (F64 lm) 53%Z 1024%Z; f_equal; lra).
  assert (Vr : B2R (r : f64) = 1) by (unfold r, F; lit_vals (F64 lm) 53%Z 1024%Z; lra). assert (Vs : B2R (s : f64) = 2) by (unfold s, F; lit_vals (F64 lm) 53%Z 1024%Z; lra).
  assert (Fc : fin3 (c : mat3x1 f64)) by (clear; vm_compute; repeat split; reflexivity). assert (Fc' : fin3 (c' : mat3x1 f64)) by (clear; vm_compute; repeat split; reflexivity).
  assert (Mc : moderate (c : mat3x1 f64)) by (apply lits_mod; [.. | exact Fc]; lit_vals (F64 lm) 53%Z 1024%Z; rewrite Rabs_pos_eq; lra).
  assert (Mc' : moderate (c' : mat3x1 f64)) by (apply lits_mod; [.. | exact Fc']; lit_vals (F64 lm) 53%Z 1024%Z; rewrite Rabs_pos_eq; lra).
  assert (B4 : 4 <= bpow radix2 (1024 - 2)) by (change 4 with (bpow radix2 2); apply bpow_le; lia).
  assert (Rr : radius 53 1024 lm r) by (split; [clear; vm_compute; reflexivity |]; rewrite Vr, Rabs_pos_eq; lra).
  assert (Rs : radius 53 1024 lm s) by (split; [clear; vm_compute; reflexivity |]; rewrite Vs, Rabs_pos_eq; lra).
  assert (H : exists p, shape_get_intersect x y = Ok (true, Some p)).
  { assert (H : match shape_get_intersect x y with Ok (true, Some _) => true | _ => false end = true) by (clear; vm_compute; reflexivity).
    destruct (shape_get_intersect x y) as [[[] [p |]] |]; try discriminate H. exists p. reflexivity. }
  destruct H as [p H]. exists x, y, p. split; [exact X |]. split; [exact Y |]. split; [exact H |].
  destruct (C113_spheres 53 1024 lm c c' r s (@n0 F) (@n0 F) x y p ltac:(lia) Mc Mc' Rr Rs ltac:(rewrite Vr, Vs; lra) X Y H) as [Fp D]. split; [exact Fp |].
  rewrite Vc, Vc', Vr, Vs in D. replace (vadd (V 0 0 0) (vscale (1 / (1 + 2)) (vsub (V 2 0 0) (V 0 0 0)))) with (V (2 / 3) 0 0) in D by (unfold vadd, vscale, vsub; cbn [vx vy vz]; f_equal; lra).
  assert (N1 : dist (V 2 0 0) (V 0 0 0) = 2).
  { unfold dist, norm, vdot, vsub. cbn [vx vy vz]. replace ((2 - 0) * (2 - 0) + (0 - 0) * (0 - 0) + (0 - 0) * (0 - 0)) with (2 * 2) by ring. apply sqrt_square. lra. }
  assert (N0 : norm (V 0 0 0) = 0) by (unfold norm, vdot; cbn [vx vy vz]; rewrite Rmult_0_l, !Rplus_0_r; apply sqrt_0). rewrite N1, N0 in D.
  assert (U : uro 53 <= / 64 * bpow radix2 (-40)). { unfold uro. change (/ 64) with (bpow radix2 (-6)). rewrite <- bpow_plus. apply bpow_le. lia. }
  assert (T : eta 53 1024 <= / 64 * bpow radix2 (-40)). { unfold eta. change (/ 64) with (bpow radix2 (-6)). rewrite <- bpow_plus. apply bpow_le. lia. }
  pose proof (bpow_gt_0 radix2 (-40)). lra.
Qed.
(** a sphere of radius 2 about (0,0,1) and the plane z = 0: within 2^-40 of the origin *)
Example C113_plane_case_f64 (lm : libm f64) : let F := F64 lm in let c := lits F 0 0 1 1 in let o := lits F 0 0 0 1 in
  exists x y p, mk_sphere c (nlit F 2 1) n0 x /\ mk_plane o c n0 y /\ shape_get_intersect x y = Ok (true, Some p) /\ fin3 (p : mat3x1 f64) /\ dist (v3 (p : mat3x1 f64)) (V 0 0 0) <= bpow radix2 (-40).
Proof.
  intros F c o. set (x := SSphere (MkSphere c (nlit F 2 1) (cube_any c (nlit F 2 1)) (nabs F n0)) : shape F).
  assert (X : mk_sphere c (nlit F 2 1) n0 x) by (apply sphere_any; reflexivity). assert (Y : exists y, mk_plane o c n0 y) by (eexists; apply plane_any; reflexivity). destruct Y as [y Y].
  assert (Vc : v3 (c : mat3x1 f64) = V 0 0 1) by (unfold c, lits, v3, F; lit_vals (F64 lm) 53%Z 1024%Z; f_equal; lra).
  assert (Vo : v3 (o : mat3x1 f64) = V 0 0 0) by (unfold o, lits, v3, F; lit_vals (F64 lm) 53%Z 1024%Z; f_equal; lra).
  assert (Fc : fin3 (c : mat3x1 f64)) by (clear; vm_compute; repeat split; reflexivity). assert (Fo : fin3 (o : mat3x1 f64)) by (clear; vm_compute; repeat split; reflexivity).
  assert (Mc : moderate (c : mat3x1 f64)) by (apply lits_mod; [.. | exact Fc]; lit_vals (F64 lm) 53%Z 1024%Z; rewrite Rabs_pos_eq; lra).
  assert (Mo : moderate (o : mat3x1 f64)) by (apply lits_mod; [.. | exact Fo]; lit_vals (F64 lm) 53%Z 1024%Z; rewrite Rabs_pos_eq; lra).
  assert (N1 : norm (V 0 0 1) = 1) by (unfold norm, vdot; cbn [vx vy vz]; replace (0 * 0 + 0 * 0 + 1 * 1) with 1 by ring; apply sqrt_1).
  assert (N0 : norm (V 0 0 0) = 0) by (unfold norm, vdot; cbn [vx vy vz]; rewrite Rmult_0_l, !Rplus_0_r; apply sqrt_0).
  assert (G : good_normal (c : mat3x1 f64)).
  { split; [exact Mc |]. rewrite Vc. unfold vdot. cbn [vx vy vz]. replace (0 * 0 + 0 * 0 + 1 * 1) with (bpow radix2 0) by (simpl; ring). apply bpow_le. lia. }
  assert (H : exists p, shape_get_intersect x y = Ok (true, Some p)).
  { apply plane_any in Y. subst y. match goal with |- exists p, ?t = _ => assert (H : match t with Ok (true, Some _) => true | _ => false end = true) by (clear; vm_compute; reflexivity); destruct t as [[[] [p |]] |]; try discriminate H; exists p; reflexivity end. }
  destruct H as [p H]. exists x, y, p. split; [exact X |]. split; [exact Y |]. split; [exact H |].
  destruct (C113_plane 53 1024 lm c (nlit F 2 1) (@n0 F) o c (@n0 F) x y p ltac:(lia) G Mo Mc X Y H) as (Fp & D & _). split; [exact Fp |].
  unfold s_unit in D. rewrite Vc, Vo, N1, N0 in D. replace (vsub (V 0 0 1) _) with (V 0 0 0) in D by (unfold vsub, vscale, vdot; cbn [vx vy vz]; f_equal; field).
  assert (U : uro 53 <= / 64 * bpow radix2 (-40)). { unfold uro. change (/ 64) with (bpow radix2 (-6)). rewrite <- bpow_plus. apply bpow_le. lia. }
  assert (T : eta 53 1024 <= / 64 * bpow radix2 (-40)). { unfold eta. change (/ 64) with (bpow radix2 (-6)). rewrite <- bpow_plus. apply bpow_le. lia. }
  pose proof (bpow_gt_0 radix2 (-40)). lra.
Qed.
Example C113_zero_case_f64 (lm : libm f64) : let F := F64 lm in let c := lits F 1 2 3 1 in exists x p, mk_sphere c (@n0 F) n0 x /\ shape_get_intersect x x = Ok (true, Some p) /\ all_nan p.
Proof.
  intros F c. assert (X : exists x, mk_sphere c (@n0 F) n0 x) by (eexists; apply sphere_any; reflexivity). destruct X as [x X]. exists x.
  assert (Z : B2R (@n0 F : f64) = 0) by reflexivity. assert (Fc : fin3 (c : mat3x1 f64)) by (clear; vm_compute; repeat split; reflexivity).
  destruct (C113_zero 53 1024 lm c c (@n0 F) (@n0 F) (@n0 F) (@n0 F) x x Fc Fc eq_refl eq_refl eq_refl Z Z X X) as (p & H1 & H2). exists p. split; [exact X |]. split; assumption.
Qed.
