(** PMirror2.v — intersection queries on mirror images (C108). *)
From Coq Require Import Reals List ZArith NArith Bool Lra Lia.
From Flocq Require Import Core BinarySingleNaN.
Import ListNotations.
From Verif Require Import Base Num Vec Mat Bound Shape Intersect Gjk Float FloatFacts FloatRound Order SpecMat SpecGeom SpecBound SpecBuild SpecMirror
  PMat PBound PShape PInter PBuild PRound PIeee1 PIeee2 PMirror PMirror1.

Section Mirror2.
  Context (prec emax : Z) {Hp : Prec_gt_0 prec} {Hm : Prec_lt_emax prec emax} (lm : libm (binary_float prec emax)).
  Notation bf := (binary_float prec emax).
  Notation F := (@Ieee prec emax Hp Hm lm).
  Notation E := (E prec emax).
  Notation Ev := (Ev prec emax lm).
  Notation vec := (mat3x1 F).
  Variable s : signs.
  Notation fl := (flip s).
  Lemma mir_hit (p p' : vec) : Ev s p' p -> mirrored s (Ok (true, Some p')) (Ok (true, Some p)).
  Proof.
    destruct p as [[x y z]], p' as [[x' y' z']]. intros (A & B & C). cbn in A, B, C. cbn. split; [reflexivity |].
    repeat split; apply zr_alike; assumption.
  Qed.
  Lemma mir_refl : mirrored s (Ok (miss (N := F))) (Ok (miss (N := F))).
  Proof. reflexivity. Qed.
  Lemma mir_panic k : mirrored (prec := prec) (emax := emax) s (Panic k) (Panic k).
  Proof. reflexivity. Qed.
  Lemma mir_if (b b' : bool) x x' y y' : b' = b -> mirrored (prec := prec) (emax := emax) s x' x -> mirrored s y' y -> mirrored s (if b' then x' else y') (if b then x else y).
  Proof. intros ->. destruct b; auto. Qed.
  Lemma E_if (b b' : bool) (x x' y y' : F) : b' = b -> E false x' x -> E false y' y -> E false (if b' then x' else y') (if b then x else y).
  Proof. intros ->. destruct b; auto. Qed.
  Lemma within_mag (e x : F) (v v' : vec) u : Ev u v' v -> within e (vmag v') x = within e (vmag v) x.
  Proof. intro H. rewrite (mag_E prec emax lm u v v' H). reflexivity. Qed.
  Ltac ev := match goal with |- Ev _ (flip _ _) _ => apply Ev_flip end.
  Lemma Ef (v : vec) : Ev s (flip s v) v. Proof. apply Ev_flip. Qed.

  Lemma mir_ray_ray o d rb rb' e o2 d2 rb2 rb2' e2 :
    mirrored s (ray_ray (N := F) (MkRay (fl o) (fl d) rb' e) (shape_get_shape_data (N := F) (SRay (MkRay (fl o2) (fl d2) rb2' e2))))
      (ray_ray (N := F) (MkRay o d rb e) (shape_get_shape_data (N := F) (SRay (MkRay o2 d2 rb2 e2)))).
  Proof.
    rewrite !(ray_ray_any (Nm := F)). cbv zeta.
    pose proof (Ef o) as Po. pose proof (Ef d) as Pd. pose proof (Ef o2) as Po2. pose proof (Ef d2) as Pd2.
    pose proof (Ev_minus prec emax lm s _ _ _ _ Pd2 Pd) as Pc. pose proof (Ev_cross_same prec emax lm s _ _ _ _ Pd Pd2) as Pv. pose proof (Ev_minus prec emax lm s _ _ _ _ Po2 Po) as Pl.
    apply mir_if; [| apply mir_refl | apply mir_if; [| apply mir_if; [| apply mir_refl | apply mir_if] | apply mir_if; [| apply mir_refl |]]].
    - f_equal. apply (within_E prec emax lm (xorb (sg0 s) (xorb (sg1 s) (sg2 s)))); [| apply E_zero].
      apply (E_dot prec emax lm _ (ax s) s); try assumption; destruct s as [[] [] []]; reflexivity.
    - apply (near0_E prec emax lm (ax s)). exact Pv.
    - f_equal. apply (within_mag _ _ _ _ (ax s)). apply Ev_cross_same; assumption.
    - rewrite (mag_E prec emax lm s _ _ Pl), (mag_E prec emax lm s _ _ Pd). f_equal. f_equal. f_equal.
      rewrite (lt_E prec emax lm _ _ _ _ (E_dot_same prec emax lm s _ _ _ _ Pl Pd) (E_zero prec emax lm false)). reflexivity.
    - apply mir_hit. exact Po.
    - apply mir_hit. apply Ev_at; try assumption. rewrite (mag_E prec emax lm s _ _ Pl), (mag_E prec emax lm s _ _ Pd).
      rewrite (lt_E prec emax lm _ _ _ _ (E_dot_same prec emax lm s _ _ _ _ Pl Pd) (E_zero prec emax lm false)). apply E_refl.
    - rewrite (mag_E prec emax lm _ _ _ (Ev_cross_same prec emax lm s _ _ _ _ Pl Pd2)), (mag_E prec emax lm _ _ _ Pv). reflexivity.
    - apply mir_hit. apply Ev_at; try assumption. rewrite (mag_E prec emax lm _ _ _ (Ev_cross_same prec emax lm s _ _ _ _ Pl Pd2)), (mag_E prec emax lm _ _ _ Pv). apply E_refl.
  Qed.
  Lemma mir_ray_point o d rb rb' e p pb pb' pe :
    mirrored s (ray_point (N := F) (MkRay (fl o) (fl d) rb' e) (shape_get_shape_data (N := F) (SPoint (MkPoint (fl p) pb' pe))))
      (ray_point (N := F) (MkRay o d rb e) (shape_get_shape_data (N := F) (SPoint (MkPoint p pb pe)))).
  Proof.
    rewrite !(ray_point_any (Nm := F)). cbv zeta.
    pose proof (Ef o) as Po. pose proof (Ef d) as Pd. pose proof (Ef p) as Pp. pose proof (Ev_minus prec emax lm s _ _ _ _ Pp Po) as (A & B & C).
    destruct (c_flip prec emax lm s d) as (-> & -> & ->).
    apply (E_div prec emax lm _ (sg0 s) _ _ (c0 (Nm := F) d)) in A. apply (E_div prec emax lm _ (sg1 s) _ _ (c1 (Nm := F) d)) in B. apply (E_div prec emax lm _ (sg2 s) _ _ (c2 (Nm := F) d)) in C. rewrite xorb_nilpotent in A, B, C.
    apply mir_if; [| apply mir_refl | apply mir_if; [| | apply mir_refl]].
    - f_equal; f_equal; apply (within_E prec emax lm false); assumption.
    - apply ge_E; [exact A | apply E_zero].
    - apply mir_hit. apply Ev_at; assumption.
  Qed.
  Lemma mir_ray_sphere o d rb rb' e p r pb pb' pe :
    mirrored s (ray_sphere (N := F) (MkRay (fl o) (fl d) rb' e) (shape_get_shape_data (N := F) (SSphere (MkSphere (fl p) r pb' pe))))
      (ray_sphere (N := F) (MkRay o d rb e) (shape_get_shape_data (N := F) (SSphere (MkSphere p r pb pe)))).
  Proof.
    rewrite !(ray_sphere_any (Nm := F)). cbv zeta.
    pose proof (Ef o) as Po. pose proof (Ef d) as Pd. pose proof (Ef p) as Pp. pose proof (Ev_minus prec emax lm s _ _ _ _ Po Pp) as Pl.
    pose proof (E_dot_same prec emax lm s _ _ _ _ Pl Pd) as Pb. pose proof (E_minus prec emax lm false _ _ _ _ (E_dot_same prec emax lm s _ _ _ _ Pl Pl) (E_refl prec emax (nmul F r r))) as Pc.
    pose proof (E_minus prec emax lm false _ _ _ _ (E_mult prec emax lm false false _ _ _ _ Pb Pb) Pc) as Pq.
    pose proof (E_sqrt prec emax lm _ _ Pq) as Ps. pose proof (E_opp prec emax lm false _ _ Pb) as Pn.
    pose proof (E_minus prec emax lm false _ _ _ _ Pn Ps) as P1. pose proof (E_plus prec emax lm false _ _ _ _ Pn Ps) as P2. pose proof (E_zero prec emax lm false) as Z0.
    apply mir_if; [| apply mir_refl | apply mir_if; [| apply mir_refl |]].
    - f_equal; apply gt_E; assumption.
    - apply lt_E; assumption.
    - apply mir_hit. apply Ev_at; try assumption. repeat (apply E_if; [apply lt_E; assumption | assumption |]). assumption.
  Qed.
  Lemma mir_ray_plane o d rb rb' e p n pb pb' pe :
    mirrored s (ray_plane (N := F) (MkRay (fl o) (fl d) rb' e) (shape_get_shape_data (N := F) (SPlane (MkPlane (fl p) (fl n) pb' pe))))
      (ray_plane (N := F) (MkRay o d rb e) (shape_get_shape_data (N := F) (SPlane (MkPlane p n pb pe)))).
  Proof.
    rewrite !(ray_plane_any (Nm := F)). cbv zeta. rewrite !dot_flip.
    pose proof (Ef o) as Po. pose proof (Ef d) as Pd.
    apply mir_if; [reflexivity | apply mir_if; [reflexivity | apply mir_hit; exact Po | apply mir_refl] | apply mir_if; [reflexivity | apply mir_refl |]].
    apply mir_if; [reflexivity | apply mir_refl |]. apply mir_hit, Ev_at; try assumption. apply E_refl.
  Qed.
  Lemma mir_sphere_sphere o r rb rb' e p r2 pb pb' pe :
    mirrored s (sphere_sphere (N := F) (MkSphere (fl o) r rb' e) (shape_get_shape_data (N := F) (SSphere (MkSphere (fl p) r2 pb' pe))))
      (sphere_sphere (N := F) (MkSphere o r rb e) (shape_get_shape_data (N := F) (SSphere (MkSphere p r2 pb pe)))).
  Proof.
    rewrite !(sphere_sphere_any (Nm := F)). cbv zeta. pose proof (Ef o) as Po. pose proof (Ef p) as Pp. pose proof (Ev_minus prec emax lm s _ _ _ _ Pp Po) as Pl.
    rewrite (mag_E prec emax lm s _ _ Pl). apply mir_if; [reflexivity | apply mir_refl |]. apply mir_hit, Ev_plus; [exact Po |]. apply Ev_times; [exact Pl | apply E_refl].
  Qed.
  Lemma mir_sphere_plane o r rb rb' e p n pb pb' pe :
    mirrored s (sphere_plane (N := F) (MkSphere (fl o) r rb' e) (shape_get_shape_data (N := F) (SPlane (MkPlane (fl p) (fl n) pb' pe))))
      (sphere_plane (N := F) (MkSphere o r rb e) (shape_get_shape_data (N := F) (SPlane (MkPlane p n pb pe)))).
  Proof.
    rewrite !(sphere_plane_any (Nm := F)). cbv zeta. rewrite !dot_flip. apply mir_if; [reflexivity | apply mir_refl |]. apply mir_hit, Ev_at; try apply Ef. apply E_refl.
  Qed.
  Lemma mir_plane_point o n rb rb' e p pb pb' pe :
    mirrored s (plane_point (N := F) (MkPlane (fl o) (fl n) rb' e) (shape_get_shape_data (N := F) (SPoint (MkPoint (fl p) pb' pe))))
      (plane_point (N := F) (MkPlane o n rb e) (shape_get_shape_data (N := F) (SPoint (MkPoint p pb pe)))).
  Proof. rewrite !(plane_point_any (Nm := F)). rewrite !dot_flip. apply mir_if; [reflexivity | apply mir_refl |]. apply mir_hit, Ef. Qed.
  Lemma mir_point_point o rb rb' e p pb pb' pe :
    mirrored s (point_point (N := F) (MkPoint (fl o) rb' e) (shape_get_shape_data (N := F) (SPoint (MkPoint (fl p) pb' pe))))
      (point_point (N := F) (MkPoint o rb e) (shape_get_shape_data (N := F) (SPoint (MkPoint p pb pe)))).
  Proof.
    rewrite !(point_point_any (Nm := F)). destruct (Ef o) as (A & B & C). destruct (Ef p) as (A' & B' & C').
    rewrite (within_E prec emax lm _ _ _ _ _ _ A A'), (within_E prec emax lm _ _ _ _ _ _ B B'), (within_E prec emax lm _ _ _ _ _ _ C C').
    apply mir_if; [reflexivity | apply mir_refl |]. apply mir_hit, Ef.
  Qed.

  (** bounds *)
  Definition side (b : bool) (l' u' l u : F) : Prop := if b then E true l' u /\ E true u' l else E false l' l /\ E false u' u.
  Definition Eb (B' B : aabb F) : Prop :=
    match B', B with AABB (A3 l0' l1' l2') (A3 u0' u1' u2'), AABB (A3 l0 l1 l2) (A3 u0 u1 u2) =>
      side (sg0 s) l0' u0' l0 u0 /\ side (sg1 s) l1' u1' l1 u1 /\ side (sg2 s) l2' u2' l2 u2 end.
  Lemma apart_side b (l' u' l u m' w' m w : F) : side b l' u' l u -> side b m' w' m w -> (ngt l' w' || nlt u' m')%bool = (ngt l w || nlt u m)%bool.
  Proof.
    destruct b; intros [A B] [C D].
    - destruct (swap_E prec emax lm _ _ _ _ A D) as (-> & _). destruct (swap_E prec emax lm _ _ _ _ B C) as (_ & -> & _). apply orb_comm.
    - rewrite (gt_E prec emax lm _ _ _ _ A D), (lt_E prec emax lm _ _ _ _ B C). reflexivity.
  Qed.
  Lemma apart_E (A A' B B' : aabb F) : Eb A' A -> Eb B' B -> aabb_intersect A' (BBox B') = aabb_intersect A (BBox B).
  Proof.
    destruct A as [[l0 l1 l2] [u0 u1 u2]], A' as [[l0' l1' l2'] [u0' u1' u2']], B as [[m0 m1 m2] [w0 w1 w2]], B' as [[m0' m1' m2'] [w0' w1' w2']].
    intros (X & Y & Z) (X' & Y' & Z'). rewrite !intersect_eval. unfold apart, lo, up. cbn.
    pose proof (apart_side _ _ _ _ _ _ _ _ _ X X') as P. pose proof (apart_side _ _ _ _ _ _ _ _ _ Y Y') as Q. pose proof (apart_side _ _ _ _ _ _ _ _ _ Z Z') as R.
    cbn in P, Q, R. rewrite P, Q, R. reflexivity.
  Qed.
  Lemma side_point b (x : F) : side b (sgn b x) (sgn b x) x x.
  Proof. destruct b; split; reflexivity. Qed.
  Lemma side_cube b (x r : F) : side b (nsub F (sgn b x) r) (nadd F (sgn b x) r) (nsub F x r) (nadd F x r).
  Proof. destruct b; cbn [side sgn]; [| split; reflexivity]. destruct (plus_minus_E prec emax lm x (Bopp x) r (E_sgn prec emax true x)) as [A B]. split; assumption. Qed.
  Lemma side_whole b : side b (nninf F) (ninf F) (nninf F) (ninf F).
  Proof. destruct b; split; reflexivity. Qed.
  Lemma side_ray b (d x : F) : side b (rl (Nm := F) (sgn b d) (sgn b x)) (ru (Nm := F) (sgn b d) (sgn b x)) (rl d x) (ru d x).
  Proof.
    destruct b; [| split; reflexivity]. unfold rl, ru. destruct (swap_E prec emax lm d (Bopp d) n0 n0 (E_sgn prec emax true d) (E_zero prec emax lm true)) as (A & B & _).
    cbn [sgn]. rewrite A, B. unfold ngt, nlt. destruct (ncmp F d n0) as [[| |] |]; split; reflexivity.
  Qed.
  Lemma Eb_point (p : vec) : Eb (AABB (v3x1 (fl p)) (v3x1 (fl p))) (AABB (v3x1 p) (v3x1 p)).
  Proof. destruct p as [[x y z]]. cbn [flip v3x1 Eb]. repeat split; apply side_point. Qed.
  Lemma Eb_cube (c : vec) (r : F) : Eb (cube_any (Nm := F) (fl c) r) (cube_any c r).
  Proof. destruct c as [[x y z]]. cbn [flip cube_any Eb]. repeat split; apply side_cube. Qed.
  Lemma Eb_whole : Eb whole_any whole_any.
  Proof. repeat split; apply side_whole. Qed.
  Lemma Eb_ray (o d : vec) : Eb (ray_any (Nm := F) (fl o) (fl d)) (ray_any o d).
  Proof. destruct o as [[x y z]], d as [[u v w]]. cbn [flip ray_any Eb]. repeat split; apply side_ray. Qed.

  Definition bd (x : shape F) : aabb F := match shape_get_bound x with BBox b => b | BSphere => aabb_default end.
  Lemma overlap_E (x x' y y' : shape F) : Eb (bd x') (bd x) -> Eb (bd y') (bd y) -> overlap x' y' = overlap x y.
  Proof.
    intros A B. unfold overlap. change (ibound_intersect (shape_get_bound x') (shape_get_bound y')) with (aabb_intersect (bd x') (BBox (bd y'))).
    change (ibound_intersect (shape_get_bound x) (shape_get_bound y)) with (aabb_intersect (bd x) (BBox (bd y))). rewrite (apart_E _ _ _ _ A B). reflexivity.
  Qed.
  Theorem mirror_query (D G : fdesc (prec := prec) (emax := emax)) (x y x' y' : shape F) : ~ ball_and_point D G ->
    fbuilds lm D x -> fbuilds lm G y -> fbuilds lm (image s D) x' -> fbuilds lm (image s G) y' ->
    mirrored s (shape_get_intersect x' y') (shape_get_intersect x y).
  Proof.
    intros N HD HG HD' HG'. rewrite !(intersect_core (ieee_ordered prec emax lm)).
    destruct D, G; cbn [image fbuilds] in HD, HG, HD', HG';
      repeat match goal with
      | H : mk_point _ _ _ |- _ => apply point_any in H
      | H : mk_sphere _ _ _ _ |- _ => apply sphere_any in H
      | H : mk_box _ _ _ _ |- _ => apply box_any in H
      | H : mk_plane _ _ _ _ |- _ => apply plane_any in H
      | H : mk_ray _ _ _ _ |- _ => apply ray_any_eq in H
      end;
      subst; rewrite ?nrm_flip;
      (apply mir_if; [apply overlap_E; first [apply Eb_point | apply Eb_cube | apply Eb_whole | apply Eb_ray]
      | cbn [core pt_ori] | apply mir_refl]);
      try (exfalso; apply N; exact I);
      first [apply mir_panic | apply mir_ray_ray | apply mir_ray_point | apply mir_ray_sphere | apply mir_ray_plane | apply mir_sphere_sphere
        | apply mir_sphere_plane | apply mir_plane_point | apply mir_point_point | (apply mir_hit; apply Ef)].
  Qed.
End Mirror2.

Section BallPoint.
  Context {Nm : Num}.
  Lemma sphere_point_any o r rb e (p : mat3x1 Nm) pb pe : sphere_point (MkSphere o r rb e) (shape_get_shape_data (SPoint (MkPoint p pb pe))) =
    let d := vminus p o in if ngt (c0 d) r then Ok miss else if ngt (c1 d) r then Ok miss else if ngt (c2 d) r then Ok miss else Ok (true, Some p).
  Proof.
    destruct o as [[]], p as [[]]. unfold sphere_point. cbn.
    repeat (match goal with |- context [ngt ?x ?y] => destruct (ngt x y); cbn; [reflexivity |] end). reflexivity.
  Qed.
End BallPoint.
Section Mirror2b.
  Context (prec emax : Z) {Hp : Prec_gt_0 prec} {Hm : Prec_lt_emax prec emax} (lm : libm (binary_float prec emax)).
  Notation bf := (binary_float prec emax).
  Notation F := (@Ieee prec emax Hp Hm lm).
  Lemma swap_minus (b : bool) (x y r : F) : ngt (nsub F x y) r = false -> ngt (nsub F y x) r = false -> ngt (nsub F (sgn b x) (sgn b y)) r = false.
  Proof.
    intros A B. destruct b; [| exact A]. rewrite <- B. apply gt_E; [| apply E_refl]. cbn [sgn]. rewrite !nsub_F. cbn [nneg Ieee]. rewrite opp_opp.
    cbn [nadd Ieee]. rewrite (FloatFacts.Bplus_comm prec emax). apply E_refl.
  Qed.
  Theorem mirror_ball_point s (c : mat3x1 bf) (r e : bf) (p : mat3x1 bf) (k : bf) (x y x' y' : shape F) :
    (match c, p with M3x1 (A3 u v w), M3x1 (A3 f g h) =>
       ngt (N := F) (nsub F f u) r = false /\ ngt (N := F) (nsub F u f) r = false /\ ngt (N := F) (nsub F g v) r = false /\ ngt (N := F) (nsub F v g) r = false /\
       ngt (N := F) (nsub F h w) r = false /\ ngt (N := F) (nsub F w h) r = false end) ->
    fbuilds lm (FSphere c r e) x -> fbuilds lm (FPoint p k) y -> fbuilds lm (image s (FSphere c r e)) x' -> fbuilds lm (image s (FPoint p k)) y' ->
    mirrored s (shape_get_intersect x' y') (shape_get_intersect x y).
  Proof.
    intros H HD HG HD' HG'. rewrite !(intersect_core (ieee_ordered prec emax lm)). cbn [image fbuilds] in *.
    apply sphere_any in HD, HD'. apply point_any in HG, HG'. subst.
    apply mir_if; [apply (overlap_E prec emax lm s); [apply Eb_cube | apply Eb_point] | cbn [core] | reflexivity].
    rewrite !(sphere_point_any (Nm := F)). cbv zeta.
    destruct c as [[u v w]], p as [[f g h]]. destruct H as (A & A' & B & B' & C & C'). cbn [flip vminus c0 c1 c2]. rewrite A, B, C.
    rewrite (swap_minus _ _ _ _ A A'), (swap_minus _ _ _ _ B B'), (swap_minus _ _ _ _ C C').
    apply mir_hit. apply (Ev_flip prec emax lm s (M3x1 (A3 f g h))).
  Qed.
End Mirror2b.
