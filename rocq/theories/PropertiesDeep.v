(** PropertiesDeep.v — C110-C112: the GJK query on deeply overlapping balls and on balls clearly apart, in IEEE arithmetic. *)
From Coq Require Import Reals List ZArith Bool Lra Lia.
From Flocq Require Import Core BinarySingleNaN.
Import ListNotations.
From Verif Require Import Base Num Vec Mat Bound Shape Gjk Float FloatFacts SpecGeom SpecBuild SpecRound SpecShape SpecDeep ExactFacts PGeo1 PBuild PRing3 PDeep2.
Local Open Scope R_scope.

(** Two balls of ordinary size, one centre deep inside the other ball: the query ends within two iterations and answers that they meet,
    in every IEEE format and whatever libm does; and they do meet. *)
Theorem C110_deep : forall prec emax {Hp : Prec_gt_0 prec} {Hm : Prec_lt_emax prec emax} (lm : libm (binary_float prec emax))
  (c c' : mat3x1 (Ieee prec emax lm)) (r r' e e' : binary_float prec emax) (x y : shape (Ieee prec emax lm)), (9 < prec)%Z -> (128 <= emax)%Z ->
  mk_sphere (Nm := Ieee prec emax lm) c r e x -> mk_sphere (Nm := Ieee prec emax lm) c' r' e' y ->
  fin3 (prec := prec) (emax := emax) c -> fin3 (prec := prec) (emax := emax) c' -> is_finite r = true -> is_finite r' = true ->
  let C := v3 (prec := prec) (emax := emax) c in let C' := v3 (prec := prec) (emax := emax) c' in
  ordinary prec emax C C' (B2R r) (B2R r') -> deep C C' (B2R r) (B2R r') -> on_axis C C' \/ off_axis emax C C' ->
  (forall fuel, (2 <= fuel)%nat -> query_intersect fuel x y = Done (Ok (Some true))) /\ meets (s_ball C (B2R r)) (s_ball C' (B2R r')).
Proof.
  intros prec emax Hp Hm lm c c' r r' e e' x y HP HE X Y Fc Fc' Fr Fr' C C' (R1 & R2 & KL & SL & US) D O. unfold deep in D. split.
  - intros fuel HF. apply sphere_any in X as ->, Y as ->.
    assert (US' : 262144 * uro prec * (norm C + norm C' + B2R r + B2R r') <= B2R r + B2R r').
    { assert (0 <= uro prec * (norm C + norm C' + B2R r + B2R r')). { apply Rmult_le_pos; [apply bpow_ge_0 |]. pose proof (norm_pos C). pose proof (norm_pos C'). lra. } lra. }
    apply (deep_query prec emax lm c c' r r' HP HE Fc Fc' Fr Fr' R1 R2 KL SL US'); [fold C C'; lra | | exact HF].
    destruct O as [[Oy Oz] | O]; [left; fold C C'; unfold vsub; cbn [vx vy vz]; lra | right; exact O].
  - apply balls_meet; [exact R1 | exact R2 |]. rewrite dist_sym. pose proof (norm_pos (vsub C C')) as N. unfold dist in *. lra.
Qed.
Print Assumptions C110_deep.

(** Two balls of ordinary size that are clearly apart: the query ends within three iterations and answers that they do not meet; and they
    do not.  Left out: balls further apart than eight times the radii, and those whose x coordinates differ by about the sum of the
    radii in the one direction (between [behind] and [not_behind]). *)
Theorem C111_apart : forall prec emax {Hp : Prec_gt_0 prec} {Hm : Prec_lt_emax prec emax} (lm : libm (binary_float prec emax))
  (c c' : mat3x1 (Ieee prec emax lm)) (r r' e e' : binary_float prec emax) (x y : shape (Ieee prec emax lm)), (9 < prec)%Z -> (128 <= emax)%Z ->
  mk_sphere (Nm := Ieee prec emax lm) c r e x -> mk_sphere (Nm := Ieee prec emax lm) c' r' e' y ->
  fin3 (prec := prec) (emax := emax) c -> fin3 (prec := prec) (emax := emax) c' -> is_finite r = true -> is_finite r' = true ->
  let C := v3 (prec := prec) (emax := emax) c in let C' := v3 (prec := prec) (emax := emax) c' in
  ordinary prec emax C C' (B2R r) (B2R r') -> apart C C' (B2R r) (B2R r') ->
  behind C C' (B2R r) (B2R r') \/ not_behind C C' (B2R r) (B2R r') /\ off_axis emax C C' ->
  (forall fuel, (3 <= fuel)%nat -> query_intersect fuel x y = Done (Ok (Some false))) /\ ~ meets (s_ball C (B2R r)) (s_ball C' (B2R r')).
Proof.
  intros prec emax Hp Hm lm c c' r r' e e' x y HP HE X Y Fc Fc' Fr Fr' C C' (R1 & R2 & KL & SL & US) [D1 D2] O. split.
  - intros fuel HF. apply sphere_any in X as ->, Y as ->.
    assert (US' : 262144 * uro prec * (norm C + norm C' + B2R r + B2R r') <= B2R r + B2R r').
    { assert (0 <= uro prec * (norm C + norm C' + B2R r + B2R r')). { apply Rmult_le_pos; [apply bpow_ge_0 |]. pose proof (norm_pos C). pose proof (norm_pos C'). lra. } lra. }
    apply (apart_query prec emax lm c c' r r' HP HE Fc Fc' Fr Fr' R1 R2 KL SL US' US); [fold C C'; lra | fold C C'; lra | | exact HF].
    destruct O as [O | [O1 O2]]; [left; exact O | right; split; [exact O1 | exact O2]].
  - rewrite balls_meet by assumption. rewrite dist_sym. assert (0 < B2R r + B2R r') by (eapply Rlt_le_trans; [apply bpow_gt_0 | exact KL]). lra.
Qed.
Print Assumptions C111_apart.

(** C112 is false of the code: "the query is right on balls of ordinary size that are clearly apart", without the condition on the axis.
    When the line through the centres is parallel to the x axis and the first ball is not behind, the answer is that the balls meet,
    however far apart they are; and the same query the other way round answers the opposite. *)
Theorem C112_axis : forall prec emax {Hp : Prec_gt_0 prec} {Hm : Prec_lt_emax prec emax} (lm : libm (binary_float prec emax))
  (c c' : mat3x1 (Ieee prec emax lm)) (r r' e e' : binary_float prec emax) (x y : shape (Ieee prec emax lm)), (9 < prec)%Z -> (128 <= emax)%Z ->
  mk_sphere (Nm := Ieee prec emax lm) c r e x -> mk_sphere (Nm := Ieee prec emax lm) c' r' e' y ->
  fin3 (prec := prec) (emax := emax) c -> fin3 (prec := prec) (emax := emax) c' -> is_finite r = true -> is_finite r' = true ->
  let C := v3 (prec := prec) (emax := emax) c in let C' := v3 (prec := prec) (emax := emax) c' in
  ordinary prec emax C C' (B2R r) (B2R r') -> on_axis C C' -> not_behind C C' (B2R r) (B2R r') ->
  forall fuel, (1 <= fuel)%nat -> query_intersect fuel x y = Done (Ok (Some true)).
Proof.
  intros prec emax Hp Hm lm c c' r r' e e' x y HP HE X Y Fc Fc' Fr Fr' C C' (R1 & R2 & KL & SL & US) [Oy Oz] N fuel HF. apply sphere_any in X as ->, Y as ->. unfold not_behind in N.
  assert (US' : 262144 * uro prec * (norm C + norm C' + B2R r + B2R r') <= B2R r + B2R r').
  { assert (0 <= uro prec * (norm C + norm C' + B2R r + B2R r')). { apply Rmult_le_pos; [apply bpow_ge_0 |]. pose proof (norm_pos C). pose proof (norm_pos C'). lra. } lra. }
  assert (0 < B2R r + B2R r') by (eapply Rlt_le_trans; [apply bpow_gt_0 | exact KL]).
  apply (axis_query prec emax lm c c' r r' HP HE Fc Fc' Fr Fr' R1 R2 KL SL US'); [..| exact HF]; fold C C'; unfold vsub; cbn [vx vy vz]; lra.
Qed.
Print Assumptions C112_axis.
Ltac lit_vals F prec emax := repeat match goal with |- context [@B2R prec emax (nlit F ?a ?b)] => let H := fresh "S" in let v := eval vm_compute in (B2SF (nlit F a b : binary_float prec emax)) in
  assert (H : B2SF (nlit F a b : binary_float prec emax) = v) by (vm_compute; reflexivity); rewrite <- (SF2R_B2SF prec emax (nlit F a b)), H; clear H end; cbn [SF2R]; unfold F2R; cbn [Fnum Fexp cond_Zopp Z.opp bpow radix_val radix2 Z.pow_pos Pos.iter Z.mul Pos.mul].
Lemma axis_case prec emax : (24 <= prec)%Z -> (128 <= emax)%Z -> ordinary prec emax (V 3 0 0) (V 0 0 0) (1 / 2) (1 / 2) /\ apart (V 3 0 0) (V 0 0 0) (1 / 2) (1 / 2) /\ ordinary prec emax (V 0 0 0) (V 3 0 0) (1 / 2) (1 / 2) /\ apart (V 0 0 0) (V 3 0 0) (1 / 2) (1 / 2).
Proof.
  intros HP HE. assert (L : (16 <= emax / 8)%Z) by (apply Z.div_le_lower_bound; lia).
  assert (N : norm (V 3 0 0) = 3) by (unfold norm, vdot; cbn [vx vy vz]; replace (3 * 3 + 0 * 0 + 0 * 0) with (3 * 3) by ring; apply sqrt_square; lra).
  assert (N' : norm (V (-3) 0 0) = 3) by (unfold norm, vdot; cbn [vx vy vz]; replace (-3 * -3 + 0 * 0 + 0 * 0) with (3 * 3) by ring; apply sqrt_square; lra).
  assert (Z : norm (V 0 0 0) = 0) by (unfold norm, vdot; cbn [vx vy vz]; rewrite Rmult_0_l, !Rplus_0_r; apply sqrt_0).
  assert (B : bpow radix2 (- (emax / 8)) <= / 4) by (change (/ 4) with (bpow radix2 (-2)); apply bpow_le; lia). assert (B' : 4 <= bpow radix2 (emax / 8)) by (change 4 with (bpow radix2 2); apply bpow_le; lia).
  assert (U : uro prec <= / 16777216) by (change (/ 16777216) with (bpow radix2 (-24)); apply bpow_le; lia).
  assert (E : vsub (V 3 0 0) (V 0 0 0) = V 3 0 0) by (unfold vsub; cbn [vx vy vz]; f_equal; lra). assert (E' : vsub (V 0 0 0) (V 3 0 0) = V (-3) 0 0) by (unfold vsub; cbn [vx vy vz]; f_equal; lra).
  split; [| split; [| split]]; [| unfold apart, dist; rewrite E, N; lra | | unfold apart, dist; rewrite E', N'; lra]; repeat split; rewrite ?Z, ?N; lra.
Qed.
(** centres (3,0,0) and the origin, radii 1/2: the query answers that they meet, swapped it answers that they do not *)
Theorem C112_refuted_f64 (lm : libm f64) : let F := F64 lm in let h := nlit F 1 2 in let c := lits F 3 0 0 1 in let c' := lits F 0 0 0 1 in
  exists x y, mk_sphere c h n0 x /\ mk_sphere c' h n0 y /\ (forall fuel, (1 <= fuel)%nat -> query_intersect fuel x y = Done (Ok (Some true))) /\
  (forall fuel, (3 <= fuel)%nat -> query_intersect fuel y x = Done (Ok (Some false))) /\ ~ meets (s_ball (v3 (c : mat3x1 f64)) (B2R (h : f64))) (s_ball (v3 (c' : mat3x1 f64)) (B2R (h : f64))).
Proof.
  intros F h c c'. exists (SSphere (MkSphere c h (cube_any c h) (nabs F n0))), (SSphere (MkSphere c' h (cube_any c' h) (nabs F n0))).
  assert (X : mk_sphere c h n0 (SSphere (MkSphere c h (cube_any c h) (nabs F n0)))) by (apply sphere_any; reflexivity). assert (Y : mk_sphere c' h n0 (SSphere (MkSphere c' h (cube_any c' h) (nabs F n0)))) by (apply sphere_any; reflexivity).
  split; [exact X |]. split; [exact Y |].
  assert (Vc : v3 (c : mat3x1 f64) = V 3 0 0) by (unfold c, lits, v3, F; lit_vals (F64 lm) 53%Z 1024%Z; f_equal; lra).
  assert (Vc' : v3 (c' : mat3x1 f64) = V 0 0 0) by (unfold c', lits, v3, F; lit_vals (F64 lm) 53%Z 1024%Z; f_equal; lra).
  assert (Vh : B2R (h : f64) = 1 / 2) by (unfold h, F; lit_vals (F64 lm) 53%Z 1024%Z; lra).
  assert (Fc : fin3 (c : mat3x1 f64)) by (clear; vm_compute; repeat split; reflexivity). assert (Fc' : fin3 (c' : mat3x1 f64)) by (clear; vm_compute; repeat split; reflexivity). assert (Fh : is_finite (h : f64) = true) by (clear; vm_compute; reflexivity).
  destruct (axis_case 53 1024 ltac:(lia) ltac:(lia)) as (O & D & O' & D').
  assert (A1 := C112_axis 53 1024 lm c c' h h (@n0 F) (@n0 F) _ _ ltac:(lia) ltac:(lia) X Y Fc Fc' Fh Fh).
  assert (A2 := C111_apart 53 1024 lm c' c h h (@n0 F) (@n0 F) _ _ ltac:(lia) ltac:(lia) Y X Fc' Fc Fh Fh). cbv zeta in A1, A2. rewrite Vc, Vc', Vh in A1, A2.
  split; [apply A1; [exact O | split; reflexivity | unfold not_behind; cbn [vx]; lra] |]. destruct (A2 O' D') as [B1 B2]; [left; unfold behind; cbn [vx]; lra |].
  split; [exact B1 |]. rewrite Vc, Vc', Vh. intros (p & P1 & P2). apply B2. exists p. split; assumption.
Qed.
Print Assumptions C112_refuted_f64.
Theorem C112_refuted_f32 (lm : libm f32) : let F := F32 lm in let h := nlit F 1 2 in let c := lits F 3 0 0 1 in let c' := lits F 0 0 0 1 in
  exists x y, mk_sphere c h n0 x /\ mk_sphere c' h n0 y /\ (forall fuel, (1 <= fuel)%nat -> query_intersect fuel x y = Done (Ok (Some true))) /\
  (forall fuel, (3 <= fuel)%nat -> query_intersect fuel y x = Done (Ok (Some false))) /\ ~ meets (s_ball (v3 (c : mat3x1 f32)) (B2R (h : f32))) (s_ball (v3 (c' : mat3x1 f32)) (B2R (h : f32))).
Proof.
  intros F h c c'. exists (SSphere (MkSphere c h (cube_any c h) (nabs F n0))), (SSphere (MkSphere c' h (cube_any c' h) (nabs F n0))).
  assert (X : mk_sphere c h n0 (SSphere (MkSphere c h (cube_any c h) (nabs F n0)))) by (apply sphere_any; reflexivity). assert (Y : mk_sphere c' h n0 (SSphere (MkSphere c' h (cube_any c' h) (nabs F n0)))) by (apply sphere_any; reflexivity).
  split; [exact X |]. split; [exact Y |].
  assert (Vc : v3 (c : mat3x1 f32) = V 3 0 0) by (unfold c, lits, v3, F; lit_vals (F32 lm) 24%Z 128%Z; f_equal; lra).
  assert (Vc' : v3 (c' : mat3x1 f32) = V 0 0 0) by (unfold c', lits, v3, F; lit_vals (F32 lm) 24%Z 128%Z; f_equal; lra).
  assert (Vh : B2R (h : f32) = 1 / 2) by (unfold h, F; lit_vals (F32 lm) 24%Z 128%Z; lra).
  assert (Fc : fin3 (c : mat3x1 f32)) by (clear; vm_compute; repeat split; reflexivity). assert (Fc' : fin3 (c' : mat3x1 f32)) by (clear; vm_compute; repeat split; reflexivity). assert (Fh : is_finite (h : f32) = true) by (clear; vm_compute; reflexivity).
  destruct (axis_case 24 128 ltac:(lia) ltac:(lia)) as (O & D & O' & D').
  assert (A1 := C112_axis 24 128 lm c c' h h (@n0 F) (@n0 F) _ _ ltac:(lia) ltac:(lia) X Y Fc Fc' Fh Fh).
  assert (A2 := C111_apart 24 128 lm c' c h h (@n0 F) (@n0 F) _ _ ltac:(lia) ltac:(lia) Y X Fc' Fc Fh Fh). cbv zeta in A1, A2. rewrite Vc, Vc', Vh in A1, A2.
  split; [apply A1; [exact O | split; reflexivity | unfold not_behind; cbn [vx]; lra] |]. destruct (A2 O' D') as [B1 B2]; [left; unfold behind; cbn [vx]; lra |].
  split; [exact B1 |]. rewrite Vc, Vc', Vh. intros (p & P1 & P2). apply B2. exists p. split; assumption.
Qed.
Print Assumptions C112_refuted_f32.

(** cases: radii 1/2, one centre at the origin, the other at (1/4,1/4,0) or at (2,1,0) *)
Lemma near_half x y z : x * x + y * y + z * z <= 1 / 4 -> norm (V x y z) <= 1 / 2.
Proof. intro H. unfold norm, vdot. cbn [vx vy vz]. replace (1 / 2) with (sqrt (1 / 4)); [apply sqrt_le_1_alt; exact H |]. replace (1 / 4) with ((1 / 2) * (1 / 2)) by field. apply sqrt_square. lra. Qed.
Lemma plain_case prec emax : (24 <= prec)%Z -> (128 <= emax)%Z -> ordinary prec emax (V (1 / 4) (1 / 4) 0) (V 0 0 0) (1 / 2) (1 / 2) /\ deep (V (1 / 4) (1 / 4) 0) (V 0 0 0) (1 / 2) (1 / 2) /\ off_axis emax (V (1 / 4) (1 / 4) 0) (V 0 0 0).
Proof.
  intros HP HE. assert (L : (16 <= emax / 8)%Z) by (apply Z.div_le_lower_bound; lia). assert (N : norm (V (1 / 4) (1 / 4) 0) <= 1 / 2) by (apply near_half; lra).
  assert (Z : norm (V 0 0 0) = 0) by (unfold norm, vdot; cbn [vx vy vz]; rewrite Rmult_0_l, !Rplus_0_r; apply sqrt_0).
  assert (B : bpow radix2 (- (emax / 8)) <= / 4) by (change (/ 4) with (bpow radix2 (-2)); apply bpow_le; lia). assert (B' : 4 <= bpow radix2 (emax / 8)) by (change 4 with (bpow radix2 2); apply bpow_le; lia).
  assert (U : uro prec <= / 16777216) by (change (/ 16777216) with (bpow radix2 (-24)); apply bpow_le; lia). pose proof (norm_pos (V (1 / 4) (1 / 4) 0)) as N0. pose proof (bpow_gt_0 radix2 (- prec)) as U0. fold (uro prec) in U0.
  split; [| split].
  - repeat split; rewrite ?Z; try lra. set (n := norm _) in *. assert (uro prec * (n + 0 + 1 / 2 + 1 / 2) <= / 16777216 * 2) by (apply Rmult_le_compat; lra). lra.
  - unfold deep, dist. replace (vsub (V (1 / 4) (1 / 4) 0) (V 0 0 0)) with (V (1 / 4) (1 / 4) 0); [lra |]. unfold vsub. cbn [vx vy vz]. f_equal; lra.
  - left. cbn [vx vy vz]. rewrite Rabs_pos_eq; lra.
Qed.
Example C110_case_f64 (lm : libm f64) : let F := F64 lm in let h := nlit F 1 2 in let c := lits F 1 1 0 4 in let c' := lits F 0 0 0 1 in
  exists x y, mk_sphere c h n0 x /\ mk_sphere c' h n0 y /\ forall fuel, (2 <= fuel)%nat -> query_intersect fuel x y = Done (Ok (Some true)).
Proof.
  intros F h c c'. eexists. eexists. split; [apply sphere_any; reflexivity |]. split; [apply sphere_any; reflexivity |].
  assert (Vc : v3 (c : mat3x1 f64) = V (1 / 4) (1 / 4) 0) by (unfold c, lits, v3, F; lit_vals (F64 lm) 53%Z 1024%Z; f_equal; lra).
  assert (Vc' : v3 (c' : mat3x1 f64) = V 0 0 0) by (unfold c', lits, v3, F; lit_vals (F64 lm) 53%Z 1024%Z; f_equal; lra).
  assert (Vh : B2R (h : f64) = 1 / 2) by (unfold h, F; lit_vals (F64 lm) 53%Z 1024%Z; lra).
  destruct (plain_case 53 1024 ltac:(lia) ltac:(lia)) as (O & D & X).
  refine (proj1 (C110_deep 53 1024 lm c c' h h (@n0 F) (@n0 F) _ _ ltac:(lia) ltac:(lia) (proj2 (sphere_any _ _ _ _) eq_refl) (proj2 (sphere_any _ _ _ _) eq_refl) _ _ _ _ _ _ _)); rewrite ?Vc, ?Vc', ?Vh; try assumption; [.. | right; exact X];
    clear; vm_compute; repeat split; reflexivity.
Qed.
Example C110_case_f32 (lm : libm f32) : let F := F32 lm in let h := nlit F 1 2 in let c := lits F 1 1 0 4 in let c' := lits F 0 0 0 1 in
  exists x y, mk_sphere c h n0 x /\ mk_sphere c' h n0 y /\ forall fuel, (2 <= fuel)%nat -> query_intersect fuel x y = Done (Ok (Some true)).
Proof.
  intros F h c c'. eexists. eexists. split; [apply sphere_any; reflexivity |]. split; [apply sphere_any; reflexivity |].
  assert (Vc : v3 (c : mat3x1 f32) = V (1 / 4) (1 / 4) 0) by (unfold c, lits, v3, F; lit_vals (F32 lm) 24%Z 128%Z; f_equal; lra).
  assert (Vc' : v3 (c' : mat3x1 f32) = V 0 0 0) by (unfold c', lits, v3, F; lit_vals (F32 lm) 24%Z 128%Z; f_equal; lra).
  assert (Vh : B2R (h : f32) = 1 / 2) by (unfold h, F; lit_vals (F32 lm) 24%Z 128%Z; lra).
  destruct (plain_case 24 128 ltac:(lia) ltac:(lia)) as (O & D & X).
  refine (proj1 (C110_deep 24 128 lm c c' h h (@n0 F) (@n0 F) _ _ ltac:(lia) ltac:(lia) (proj2 (sphere_any _ _ _ _) eq_refl) (proj2 (sphere_any _ _ _ _) eq_refl) _ _ _ _ _ _ _)); rewrite ?Vc, ?Vc', ?Vh; try assumption; [.. | right; exact X];
    clear; vm_compute; repeat split; reflexivity.
Qed.
Lemma far_case prec emax : (24 <= prec)%Z -> (128 <= emax)%Z -> ordinary prec emax (V 2 1 0) (V 0 0 0) (1 / 2) (1 / 2) /\ apart (V 2 1 0) (V 0 0 0) (1 / 2) (1 / 2) /\ not_behind (V 2 1 0) (V 0 0 0) (1 / 2) (1 / 2) /\ off_axis emax (V 2 1 0) (V 0 0 0).
Proof.
  intros HP HE. assert (L : (16 <= emax / 8)%Z) by (apply Z.div_le_lower_bound; lia).
  assert (N : 2 <= norm (V 2 1 0) <= 3).
  { unfold norm, vdot. cbn [vx vy vz]. replace 2 with (sqrt (2 * 2)) at 1 by (apply sqrt_square; lra). replace 3 with (sqrt (3 * 3)) by (apply sqrt_square; lra). split; apply sqrt_le_1_alt; lra. }
  assert (Z : norm (V 0 0 0) = 0) by (unfold norm, vdot; cbn [vx vy vz]; rewrite Rmult_0_l, !Rplus_0_r; apply sqrt_0).
  assert (B : bpow radix2 (- (emax / 8)) <= / 4) by (change (/ 4) with (bpow radix2 (-2)); apply bpow_le; lia). assert (B' : 4 <= bpow radix2 (emax / 8)) by (change 4 with (bpow radix2 2); apply bpow_le; lia).
  assert (U : uro prec <= / 16777216) by (change (/ 16777216) with (bpow radix2 (-24)); apply bpow_le; lia). pose proof (bpow_gt_0 radix2 (- prec)) as U0. fold (uro prec) in U0.
  split; [| split; [| split]].
  - repeat split; rewrite ?Z; try lra. set (n := norm _) in *. assert (uro prec * (n + 0 + 1 / 2 + 1 / 2) <= / 16777216 * 4) by (apply Rmult_le_compat; lra). lra.
  - unfold apart, dist. replace (vsub (V 2 1 0) (V 0 0 0)) with (V 2 1 0); [lra |]. unfold vsub. cbn [vx vy vz]. f_equal; lra.
  - unfold not_behind. cbn [vx]. lra.
  - left. cbn [vx vy vz]. rewrite Rabs_pos_eq; lra.
Qed.
Example C111_case_f64 (lm : libm f64) : let F := F64 lm in let h := nlit F 1 2 in let c := lits F 2 1 0 1 in let c' := lits F 0 0 0 1 in
  exists x y, mk_sphere c h n0 x /\ mk_sphere c' h n0 y /\ forall fuel, (3 <= fuel)%nat -> query_intersect fuel x y = Done (Ok (Some false)).
Proof.
  intros F h c c'. eexists. eexists. split; [apply sphere_any; reflexivity |]. split; [apply sphere_any; reflexivity |].
  assert (Vc : v3 (c : mat3x1 f64) = V 2 1 0) by (unfold c, lits, v3, F; lit_vals (F64 lm) 53%Z 1024%Z; f_equal; lra).
  assert (Vc' : v3 (c' : mat3x1 f64) = V 0 0 0) by (unfold c', lits, v3, F; lit_vals (F64 lm) 53%Z 1024%Z; f_equal; lra).
  assert (Vh : B2R (h : f64) = 1 / 2) by (unfold h, F; lit_vals (F64 lm) 53%Z 1024%Z; lra).
  destruct (far_case 53 1024 ltac:(lia) ltac:(lia)) as (O & D & X).
  refine (proj1 (C111_apart 53 1024 lm c c' h h (@n0 F) (@n0 F) _ _ ltac:(lia) ltac:(lia) (proj2 (sphere_any _ _ _ _) eq_refl) (proj2 (sphere_any _ _ _ _) eq_refl) _ _ _ _ _ _ _)); rewrite ?Vc, ?Vc', ?Vh; try assumption; [.. | right; exact X];
    clear; vm_compute; repeat split; reflexivity.
Qed.
Example C111_case_f32 (lm : libm f32) : let F := F32 lm in let h := nlit F 1 2 in let c := lits F 2 1 0 1 in let c' := lits F 0 0 0 1 in
  exists x y, mk_sphere c h n0 x /\ mk_sphere c' h n0 y /\ forall fuel, (3 <= fuel)%nat -> query_intersect fuel x y = Done (Ok (Some false)).
Proof.
  intros F h c c'. eexists. eexists. split; [apply sphere_any; reflexivity |]. split; [apply sphere_any; reflexivity |].
  assert (Vc : v3 (c : mat3x1 f32) = V 2 1 0) by (unfold c, lits, v3, F; lit_vals (F32 lm) 24%Z 128%Z; f_equal; lra).
  assert (Vc' : v3 (c' : mat3x1 f32) = V 0 0 0) by (unfold c', lits, v3, F; lit_vals (F32 lm) 24%Z 128%Z; f_equal; lra).
  assert (Vh : B2R (h : f32) = 1 / 2) by (unfold h, F; lit_vals (F32 lm) 24%Z 128%Z; lra).
  destruct (far_case 24 128 ltac:(lia) ltac:(lia)) as (O & D & X).
  refine (proj1 (C111_apart 24 128 lm c c' h h (@n0 F) (@n0 F) _ _ ltac:(lia) ltac:(lia) (proj2 (sphere_any _ _ _ _) eq_refl) (proj2 (sphere_any _ _ _ _) eq_refl) _ _ _ _ _ _ _)); rewrite ?Vc, ?Vc', ?Vh; try assumption; [.. | right; exact X];
    clear; vm_compute; repeat split; reflexivity.
Qed.
