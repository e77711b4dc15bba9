(** PropertiesPose.v — C134: points and spheres carried through a chain of poses, in IEEE arithmetic. *)
From Coq Require Import Reals List ZArith NArith Bool Lra Lia.
From Flocq Require Import Core BinarySingleNaN.
Import ListNotations.
From Verif Require Import Base Num Vec Mat Quat Shape Intersect Float FloatFacts SpecMat SpecReal SpecRound SpecGeom SpecQuat SpecBuild SpecFq SpecRun SpecFr SpecTurnQ SpecPose ExactFacts PBuild PRound PIeee2 PIeee3 PPrismF PTurnQ PPose PropertiesLoc PropertiesRun PropertiesTurnQ.
Local Open Scope R_scope.

Section Pose.
Context (prec emax : Z) {Hp : Prec_gt_0 prec} {Hm : Prec_lt_emax prec emax} (lm : libm (binary_float prec emax)).
Notation bf := (binary_float prec emax).
Notation F := (@Ieee prec emax Hp Hm lm).
Notation u := (uro prec).
Notation et := (eta prec emax).
Notation val := (@B2R prec emax).
Notation w3 p := (v3 (p : mat3x1 bf)).
Notation trues l := (map (fun qt : quat F * mat3x1 F => pose_val (qt : quat bf * mat3x1 bf)) l).
Notation okl T l := (Forall (fun qt : quat F * mat3x1 F => pose_ok T (qt : quat bf * mat3x1 bf)) l).
Notation gi := (@shape_get_intersect F).

(** the chain of n poses never overflows, and the point computed is within n (40 u B + 29 eta) of the true one, B bounding the length of the path *)
Theorem C134_point (T B : R) (l : list (quat F * mat3x1 F)) (p : mat3x1 F) : (9 < prec)%Z -> okl T l -> 0 <= T -> B <= bpow radix2 (emax / 2 - 4) -> let n := INR (length l) in let E := 40 * u * B + 29 * et in
    fin3 (p : mat3x1 bf) -> norm (w3 p) + n * T <= B -> n * E <= B / 100 ->
    exists p', carry l p = Some p' /\ fin3 (p' : mat3x1 bf) /\ dist (w3 p') (hcarry (trues l) (w3 p)) <= n * E /\ norm (w3 p') <= 101 / 100 * B.
Proof. exact (carry_point prec emax lm T B l p). Qed.
(** the chain keeps distances up to twice that *)
Theorem C134_distance (T B : R) (l : list (quat F * mat3x1 F)) (p r : mat3x1 F) : (9 < prec)%Z -> okl T l -> 0 <= T -> B <= bpow radix2 (emax / 2 - 4) -> let n := INR (length l) in let E := 40 * u * B + 29 * et in
    fin3 (p : mat3x1 bf) -> fin3 (r : mat3x1 bf) -> norm (w3 p) + n * T <= B -> norm (w3 r) + n * T <= B -> n * E <= B / 100 ->
    exists p' r', carry l p = Some p' /\ carry l r = Some r' /\ moderate (p' : mat3x1 bf) /\ moderate (r' : mat3x1 bf) /\ Rabs (dist (w3 p') (w3 r') - dist (w3 p) (w3 r)) <= 2 * n * E.
Proof. exact (carry_dist prec emax lm T B l p r). Qed.
(** two spheres carried through the same chain: same and right answers outside the margin *)
Theorem C134_spheres (T B : R) (l : list (quat F * mat3x1 F)) (a b : mat3x1 F) (r s : F) e f e' f' (x y x' y' : shape F) : (9 < prec)%Z -> okl T l -> 0 <= T -> B <= bpow radix2 (emax / 2 - 4) -> let n := INR (length l) in let E := 40 * u * B + 29 * et in
    fin3 (a : mat3x1 bf) -> fin3 (b : mat3x1 bf) -> norm (w3 a) + n * T <= B -> norm (w3 b) + n * T <= B -> n * E <= B / 100 -> radius prec emax lm r -> radius prec emax lm s ->
    exists a' b', carry l a = Some a' /\ carry l b = Some b' /\ (mk_sphere a r e x -> mk_sphere b s f y -> mk_sphere a' r e' x' -> mk_sphere b' s f' y' ->
    let D := dist (w3 b) (w3 a) in let G := val (r : bf) + val (s : bf) in
    ((1 + u) ^ 4 * (D + 2 * n * E + 2 * sqrt et) <= (1 - u) * G -> exists p p', gi x y = Ok (true, Some p) /\ gi x' y' = Ok (true, Some p')) /\
    ((1 + u) * G < (1 - u) ^ 4 * (D - 2 * n * E) - 2 * sqrt et -> gi x y = Ok (false, None) /\ gi x' y' = Ok (false, None))).
Proof. exact (carry_spheres prec emax lm T B l a b r s e f e' f' x y x' y'). Qed.
End Pose.
Print Assumptions C134_point.
Print Assumptions C134_distance.
Print Assumptions C134_spheres.

Section Cases.
  Variable lm : libm f64.
  Notation F := (F64 lm).
  Notation at3 x y z := (z3 F x y z).
  Notation okl T l := (Forall (fun qt : quat F * mat3x1 F => pose_ok T (qt : quat f64 * mat3x1 f64)) l).
  (** a thousand times: a third of a turn, then a step (3,4,12) of length 13 *)
  Lemma case_chain : okl 13 (repeat (third lm, at3 3 4 12) 1000).
  Proof.
    apply Forall_forall. intros qt H. apply repeat_spec in H. subst qt. destruct (case_at lm 3 4 12 13 eq_refl eq_refl eq_refl ltac:(lra) ltac:(lra)) as ((A & _) & _ & N). split; [exact (case_quat lm) |]. split; [exact A |]. right. exact N.
  Qed.
  Lemma case_len (l : list (quat F * mat3x1 F)) : (length l <= 1000)%nat -> 0 <= INR (length l) <= 1000.
  Proof. intro H. split; [apply pos_INR |]. rewrite INR_IZR_INZ. apply IZR_le. lia. Qed.
  Lemma case_bound l (n := INR (@length (quat F * mat3x1 F) l)) : (length l <= 1000)%nat -> 14000 <= bpow radix2 (1024 / 2 - 4) /\ 0 <= n * 13 <= 13000 /\ 0 <= n * (40 * uro 53 * 14000 + 29 * eta 53 1024) <= / 10000000.
  Proof.
    intro H. destruct (case_len l H) as [N0 N1]. fold n in N0, N1. destruct case_small as (U & T & S). split; [apply Rle_trans with (bpow radix2 14); [change (bpow radix2 14) with 16384; lra | apply bpow_le; vm_compute; discriminate] |]. split; [lra |]. set (E := 40 * uro 53 * 14000 + 29 * eta 53 1024). assert (E0 : 0 <= E <= / 10000000000) by (unfold E; lra). split; [apply Rmult_le_pos; lra |]. apply Rle_trans with (1000 * E); [apply Rmult_le_compat_r; lra | lra].
  Qed.
  (** through any chain of at most 1000 such poses the point (0,3,4) is carried to within 10^-7 of its true place *)
  Example C134_case_point (l : list (quat F * mat3x1 F)) : okl 13 l -> (length l <= 1000)%nat -> exists p', carry l (at3 0 3 4) = Some p' /\ dist (v3 (p' : mat3x1 f64)) (hcarry (map (fun qt : quat F * mat3x1 F => pose_val (qt : quat f64 * mat3x1 f64)) l) (V 0 3 4)) <= / 10000000.
  Proof.
    intros Fl HL. destruct (case_at lm 0 3 4 5 eq_refl eq_refl eq_refl ltac:(lra) ltac:(lra)) as ((A & _) & V & N). destruct (case_bound l HL) as (B & T & E). set (n := INR (length l)) in *.
    destruct (@C134_point 53 1024 f64_prec_gt_0 f64_prec_lt_emax lm 13 14000 l (at3 0 3 4) eq_refl Fl ltac:(lra) B A) as (p' & H1 & _ & H3 & _); [refine (eq_ind_r (fun k => k + _ <= _) _ N); change (INR (length l)) with n; lra | change (INR (length l)) with n; lra |].
    exists p'. split; [exact H1 |]. eapply Rle_trans; [| apply E]. refine (eq_ind _ (fun v => dist _ (hcarry _ v) <= _) H3 _ V).
  Qed.
  (** balls of radius 3 and 2 at (100,0,0) and (104,0,0) meet before and after the chain; balls of radius 2 and 1 there do not *)
  Example C134_case_spheres (l : list (quat F * mat3x1 F)) : okl 13 l -> (length l <= 1000)%nat -> let a := at3 100 0 0 in let b := at3 104 0 0 in exists a' b', carry l a = Some a' /\ carry l b = Some b' /\
    (forall x y x' y', mk_sphere a (nlit F 3 1) n0 x -> mk_sphere b (nlit F 2 1) n0 y -> mk_sphere a' (nlit F 3 1) n0 x' -> mk_sphere b' (nlit F 2 1) n0 y' ->
      exists p p', shape_get_intersect x y = Ok (true, Some p) /\ shape_get_intersect x' y' = Ok (true, Some p')) /\
    (forall x y x' y', mk_sphere a (nlit F 2 1) n0 x -> mk_sphere b (nlit F 1 1) n0 y -> mk_sphere a' (nlit F 2 1) n0 x' -> mk_sphere b' (nlit F 1 1) n0 y' ->
      shape_get_intersect x y = Ok (false, None) /\ shape_get_intersect x' y' = Ok (false, None)).
  Proof.
    intros Fl HL a b. destruct case_small as (U & T & S). destruct (case_at lm 100 0 0 100 eq_refl eq_refl eq_refl ltac:(lra) ltac:(lra)) as ((Ra & _) & Va & Na). destruct (case_at lm 104 0 0 104 eq_refl eq_refl eq_refl ltac:(lra) ltac:(lra)) as ((Rb & _) & Vb & Nb). fold a in Ra, Va, Na. fold b in Rb, Vb, Nb.
    assert (D : dist (v3 (b : mat3x1 f64)) (v3 (a : mat3x1 f64)) = 4) by (rewrite Va, Vb; apply case_norm; [lra |]; unfold vdot, vsub; cbn [vx vy vz]; lra).
    assert (RD : forall z, (0 <= z < 4)%Z -> radius 53 1024 lm (nlit F z 1)). { intros z Hz. destruct (case_lit lm z ltac:(lia)) as [A B]. split; [exact A |]. rewrite B. split; [rewrite <- abs_IZR; apply Rle_trans with 4; [apply IZR_le; lia | change 4 with (bpow radix2 2); apply bpow_le; lia] | apply IZR_le; lia]. }
    destruct (case_bound l HL) as (B & T1 & E). set (n := INR (length l)) in *.
    assert (NA : norm (v3 (a : mat3x1 f64)) + n * 13 <= 14000) by (refine (eq_ind_r (fun k => k + _ <= _) _ Na); lra). assert (NB : norm (v3 (b : mat3x1 f64)) + n * 13 <= 14000) by (refine (eq_ind_r (fun k => k + _ <= _) _ Nb); lra).
    assert (EB : n * (40 * uro 53 * 14000 + 29 * eta 53 1024) <= 14000 / 100) by lra.
    pose proof (fun r s x y x' y' => @C134_spheres 53 1024 f64_prec_gt_0 f64_prec_lt_emax lm 13 14000 l a b r s n0 n0 n0 n0 x y x' y' eq_refl Fl ltac:(lra) B Ra Rb NA NB EB) as H.
    destruct (@C134_distance 53 1024 f64_prec_gt_0 f64_prec_lt_emax lm 13 14000 l a b eq_refl Fl ltac:(lra) B Ra Rb NA NB EB) as (a' & b' & Ea & Eb & _). exists a', b'. split; [exact Ea |]. split; [exact Eb |].
    set (w := uro 53) in *. set (t := eta 53 1024) in *. assert (P4 : 1 <= (1 + w) ^ 4 <= 1001 / 1000) by (split; [apply pow_R1_Rle; lra | cbn [pow]; assert (0 <= w * w <= / 1000000) by nra; nra]). assert (M4 : 999 / 1000 <= (1 - w) ^ 4) by (cbn [pow]; assert (0 <= w * w <= / 1000000) by nra; nra).
    assert (E2 : 0 <= 2 * n * (40 * w * 14000 + 29 * t) <= 2 / 10000000) by (rewrite Rmult_assoc; lra). set (m := 2 * n * (40 * w * 14000 + 29 * t)) in *.
    split; intros x y x' y' X Y X' Y'.
    - destruct (H (nlit F 3 1) (nlit F 2 1) x y x' y' (RD 3%Z ltac:(lia)) (RD 2%Z ltac:(lia))) as (a1 & b1 & E3 & E4 & H5). assert (a1 = a') by congruence. assert (b1 = b') by congruence. subst a1 b1. destruct (H5 X Y X' Y') as [H6 _]. apply H6. clear H H5 H6.
      assert (G : B2R (nlit F 3 1 : f64) + B2R (nlit F 2 1 : f64) = 5) by (rewrite (proj2 (case_lit lm 3 eq_refl)), (proj2 (case_lit lm 2 eq_refl)); lra).
      refine (eq_ind_r (fun g => _ <= (1 - uro 53) * g) _ G). refine (eq_ind_r (fun dd => (1 + uro 53) ^ 4 * (dd + _ + _) <= _) _ D). change (INR (length l)) with n. fold w t m. nra.
    - destruct (H (nlit F 2 1) (nlit F 1 1) x y x' y' (RD 2%Z ltac:(lia)) (RD 1%Z ltac:(lia))) as (a1 & b1 & E3 & E4 & H5). assert (a1 = a') by congruence. assert (b1 = b') by congruence. subst a1 b1. destruct (H5 X Y X' Y') as [_ H6]. apply H6. clear H H5 H6.
      assert (G : B2R (nlit F 2 1 : f64) + B2R (nlit F 1 1 : f64) = 3) by (rewrite (proj2 (case_lit lm 2 eq_refl)), (proj2 (case_lit lm 1 eq_refl)); lra).
      refine (eq_ind_r (fun g => (1 + uro 53) * g < _) _ G). refine (eq_ind_r (fun dd => _ < (1 - uro 53) ^ 4 * (dd - _) - _) _ D). change (INR (length l)) with n. fold w t m. nra.
  Qed.
End Cases.
