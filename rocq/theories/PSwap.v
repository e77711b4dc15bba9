(** PSwap.v — intersection queries after exchanging two coordinates (C114). *)
From Coq Require Import Reals List ZArith NArith Bool Lra Lia.
From Flocq Require Import Core BinarySingleNaN.
Import ListNotations.
From Verif Require Import Base Num Vec Mat Bound Shape Intersect Gjk Float FloatFacts FloatRound Order SpecMat SpecGeom SpecBound SpecBuild SpecMirror SpecSwap
  PMat PBound PShape PInter PBuild PRound PIeee1 PIeee2 PMirror PMirror1 PMirror2.

Section AnySwap.
  Context {Nm : Num}.
  Lemma apart_perm (l0 l1 l2 u0 u1 u2 m0 m1 m2 w0 w1 w2 : Nm) :
    aabb_intersect (AABB (A3 l1 l0 l2) (A3 u1 u0 u2)) (BBox (AABB (A3 m1 m0 m2) (A3 w1 w0 w2))) = aabb_intersect (AABB (A3 l0 l1 l2) (A3 u0 u1 u2)) (BBox (AABB (A3 m0 m1 m2) (A3 w0 w1 w2))) /\
    aabb_intersect (AABB (A3 l0 l2 l1) (A3 u0 u2 u1)) (BBox (AABB (A3 m0 m2 m1) (A3 w0 w2 w1))) = aabb_intersect (AABB (A3 l0 l1 l2) (A3 u0 u1 u2)) (BBox (AABB (A3 m0 m1 m2) (A3 w0 w1 w2))).
  Proof.
    rewrite !intersect_eval. unfold apart, lo, up. cbn.
    destruct (ngt l0 w0 || nlt u0 m0)%bool, (ngt l1 w1 || nlt u1 m1)%bool, (ngt l2 w2 || nlt u2 m2)%bool; split; reflexivity.
  Qed.
End AnySwap.
Section Swap.
  Context (prec emax : Z) {Hp : Prec_gt_0 prec} {Hm : Prec_lt_emax prec emax} (lm : libm (binary_float prec emax)).
  Notation bf := (binary_float prec emax).
  Notation F := (@Ieee prec emax Hp Hm lm).
  Notation Ev := (Ev prec emax lm).
  Notation vec := (mat3x1 F).
  Notation sw := (sw_xy (prec := prec) (emax := emax)).
  Notation rot := (sw_yz (prec := prec) (emax := emax)).
  Notation all := (Sg true true true).
  Lemma plus_c (x y : F) : nadd F x y = nadd F y x. Proof. apply FloatFacts.Bplus_comm. Qed.
  Lemma sw_minus (v w : vec) : vminus (Nm := F) (sw v) (sw w) = sw (vminus (Nm := F) v w). Proof. destruct v as [[]], w as [[]]. reflexivity. Qed.
  Lemma sw_plus (v w : vec) : vplus (Nm := F) (sw v) (sw w) = sw (vplus (Nm := F) v w). Proof. destruct v as [[]], w as [[]]. reflexivity. Qed.
  Lemma sw_times (v : vec) (t : F) : vtimes (Nm := F) (sw v) t = sw (vtimes (Nm := F) v t). Proof. destruct v as [[]]. reflexivity. Qed.
  Lemma sw_at (d o : vec) (t : F) : vat (Nm := F) (sw d) t (sw o) = sw (vat (Nm := F) d t o). Proof. unfold vat. rewrite sw_times, sw_plus. reflexivity. Qed.
  Lemma sw_dot (v w : vec) : vdotn (Nm := F) (sw v) (sw w) = vdotn (Nm := F) v w.
  Proof. destruct v as [[x y z]], w as [[p q r]]. unfold vdotn. cbn [sw_xy c0 c1 c2]. rewrite (plus_c (nmul F y q)). reflexivity. Qed.
  Lemma sw_mag (v : vec) : vmag (Nm := F) (sw v) = vmag (Nm := F) v.
  Proof. destruct v as [[x y z]]. unfold vmag. cbn [sw_xy c0 c1 c2]. rewrite (plus_c (npowi2 (y : F))). reflexivity. Qed.
  Lemma sw_nrm (v : vec) : nrm (Nm := F) (sw v) = sw (nrm (Nm := F) v).
  Proof. destruct v as [[x y z]]. unfold nrm. cbn [sw_xy]. rewrite (plus_c (npowi2 (y : F))). reflexivity. Qed.
  Lemma sw_sw (v : vec) : sw (sw v) = v. Proof. destruct v as [[]]. reflexivity. Qed.
  Lemma minus_anti (x y : F) : E prec emax true (nsub F x y) (nsub F y x).
  Proof.
    rewrite !nsub_F. assert (A : E prec emax true (nneg F (nneg F x)) (nneg F x)) by (cbn [nneg Ieee]; apply (E_sgn prec emax true)).
    assert (A' : E prec emax true x (nneg F x)) by (cbn [nneg Ieee] in *; rewrite (opp_opp prec emax) in A; exact A).
    rewrite plus_c. apply E_plus; [cbn [nneg Ieee]; apply (E_sgn prec emax true) | exact A'].
  Qed.
  Lemma mul_c (x y : F) : nmul F x y = nmul F y x. Proof. apply mult_comm. Qed.
  Lemma sw_cross (v w : vec) : Ev all (vcrossn (Nm := F) (sw v) (sw w)) (sw (vcrossn (Nm := F) v w)).
  Proof.
    destruct v as [[x y z]], w as [[p q r]]. repeat split; cbn [sw_xy vcrossn c0 c1 c2 sg0 sg1 sg2]; apply minus_anti.
  Qed.
  Lemma mag_cross (v w : vec) : vmag (Nm := F) (vcrossn (Nm := F) (sw v) (sw w)) = vmag (Nm := F) (vcrossn (Nm := F) v w).
  Proof. rewrite (mag_E prec emax lm all _ _ (sw_cross v w)). apply sw_mag. Qed.
  Lemma near_cross (e : F) (v w : vec) : near0 (Nm := F) e (vcrossn (Nm := F) (sw v) (sw w)) = near0 (Nm := F) e (vcrossn (Nm := F) v w).
  Proof.
    rewrite (near0_E prec emax lm all _ _ _ (sw_cross v w)). destruct (vcrossn (Nm := F) v w) as [[x y z]]. unfold near0. cbn [sw_xy c0 c1 c2].
    repeat match goal with |- context [nge (N := F) ?a ?b] => destruct (nge (N := F) a b); cbn [andb] | |- context [nle (N := F) ?a ?b] => destruct (nle (N := F) a b); cbn [andb] end; reflexivity.
  Qed.
  Lemma triple_cross (e : F) (v w c : vec) : within (N := F) e (vdotn (Nm := F) (vcrossn (Nm := F) (sw v) (sw w)) (sw c)) n0 = within (N := F) e (vdotn (Nm := F) (vcrossn (Nm := F) v w) c) n0.
  Proof.
    rewrite <- (sw_dot (vcrossn (Nm := F) v w) c). apply (within_E prec emax lm true); [| apply E_zero].
    apply (E_dot prec emax lm true all (Sg false false false)); try reflexivity; [apply sw_cross |]. repeat split; apply E_refl.
  Qed.

  Definition am := answer_map (prec := prec) (emax := emax).
  Lemma am_if f (b : bool) x y : (if b then am f x else am f y) = am f (if b then x else y). Proof. destruct b; reflexivity. Qed.
  Ltac sws := rewrite ?sw_minus, ?sw_dot, ?sw_mag, ?sw_times, ?sw_plus, ?sw_at, ?mag_cross, ?near_cross, ?triple_cross.
  Ltac ifs := repeat match goal with |- context [if ?b then _ else _] => destruct b end; reflexivity.
  Lemma sw_ray_ray o d rb rb' e o2 d2 rb2 rb2' e2 :
    ray_ray (N := F) (MkRay (sw o) (sw d) rb' e) (shape_get_shape_data (N := F) (SRay (MkRay (sw o2) (sw d2) rb2' e2))) =
    am sw (ray_ray (N := F) (MkRay o d rb e) (shape_get_shape_data (N := F) (SRay (MkRay o2 d2 rb2 e2)))).
  Proof.
    rewrite !(ray_ray_any (Nm := F)). cbv zeta. sws.
    set (f1 := negb _). set (f2 := near0 _ _). set (f3 := negb _). set (f4 := nlt (N := F) _ n0). set (t := nmul F _ _). 
    ifs.
  Qed.
  Lemma sw_ray_sphere o d rb rb' e p r pb pb' pe :
    ray_sphere (N := F) (MkRay (sw o) (sw d) rb' e) (shape_get_shape_data (N := F) (SSphere (MkSphere (sw p) r pb' pe))) =
    am sw (ray_sphere (N := F) (MkRay o d rb e) (shape_get_shape_data (N := F) (SSphere (MkSphere p r pb pe)))).
  Proof. rewrite !(ray_sphere_any (Nm := F)). cbv zeta. sws. destruct (_ && _)%bool; [reflexivity |]. destruct (nlt (N := F) (nsub F (nmul F _ _) _) n0); reflexivity. Qed.
  Lemma sw_ray_plane o d rb rb' e p n pb pb' pe :
    ray_plane (N := F) (MkRay (sw o) (sw d) rb' e) (shape_get_shape_data (N := F) (SPlane (MkPlane (sw p) (sw n) pb' pe))) =
    am sw (ray_plane (N := F) (MkRay o d rb e) (shape_get_shape_data (N := F) (SPlane (MkPlane p n pb pe)))).
  Proof. rewrite !(ray_plane_any (Nm := F)). cbv zeta. sws. ifs. Qed.
  Lemma sw_sphere_sphere o r rb rb' e p r2 pb pb' pe :
    sphere_sphere (N := F) (MkSphere (sw o) r rb' e) (shape_get_shape_data (N := F) (SSphere (MkSphere (sw p) r2 pb' pe))) =
    am sw (sphere_sphere (N := F) (MkSphere o r rb e) (shape_get_shape_data (N := F) (SSphere (MkSphere p r2 pb pe)))).
  Proof. rewrite !(sphere_sphere_any (Nm := F)). cbv zeta. sws. ifs. Qed.
  Lemma sw_sphere_plane o r rb rb' e p n pb pb' pe :
    sphere_plane (N := F) (MkSphere (sw o) r rb' e) (shape_get_shape_data (N := F) (SPlane (MkPlane (sw p) (sw n) pb' pe))) =
    am sw (sphere_plane (N := F) (MkSphere o r rb e) (shape_get_shape_data (N := F) (SPlane (MkPlane p n pb pe)))).
  Proof. rewrite !(sphere_plane_any (Nm := F)). cbv zeta. sws. ifs. Qed.
  Lemma sw_plane_point o n rb rb' e p pb pb' pe :
    plane_point (N := F) (MkPlane (sw o) (sw n) rb' e) (shape_get_shape_data (N := F) (SPoint (MkPoint (sw p) pb' pe))) =
    am sw (plane_point (N := F) (MkPlane o n rb e) (shape_get_shape_data (N := F) (SPoint (MkPoint p pb pe)))).
  Proof. rewrite !(plane_point_any (Nm := F)). sws. ifs. Qed.
  Lemma perm_point_point (f : vec -> vec) o rb rb' e p pb pb' pe : f = sw \/ f = rot ->
    point_point (N := F) (MkPoint (f o) rb' e) (shape_get_shape_data (N := F) (SPoint (MkPoint (f p) pb' pe))) =
    am f (point_point (N := F) (MkPoint o rb e) (shape_get_shape_data (N := F) (SPoint (MkPoint p pb pe)))).
  Proof.
    intros [-> | ->]; rewrite !(point_point_any (Nm := F)); destruct o as [[x y z]], p as [[q r t]]; cbn [sw_xy sw_yz c0 c1 c2];
      destruct (within (N := F) e x q), (within (N := F) e y r), (within (N := F) e z t); reflexivity.
  Qed.
  Lemma perm_sphere_point (f : vec -> vec) o (r : F) rb rb' e p pb pb' pe : f = sw \/ f = rot ->
    sphere_point (N := F) (MkSphere (f o) r rb' e) (shape_get_shape_data (N := F) (SPoint (MkPoint (f p) pb' pe))) =
    am f (sphere_point (N := F) (MkSphere o r rb e) (shape_get_shape_data (N := F) (SPoint (MkPoint p pb pe)))).
  Proof.
    intros [-> | ->]; rewrite !(sphere_point_any (Nm := F)); destruct o as [[x y z]], p as [[q u t]]; cbv zeta; cbn [sw_xy sw_yz vminus c0 c1 c2];
      destruct (ngt (N := F) (nsub F q x) r), (ngt (N := F) (nsub F u y) r), (ngt (N := F) (nsub F t z) r); reflexivity.
  Qed.

  (** bounds *)
  Definition pm (f : vec -> vec) (B : aabb F) : aabb F := match B with AABB l u => AABB (v3x1 (f (M3x1 l))) (v3x1 (f (M3x1 u))) end.
  Lemma apart_pm f (A B : aabb F) : f = sw \/ f = rot -> aabb_intersect (pm f A) (BBox (pm f B)) = aabb_intersect A (BBox B).
  Proof.
    intros [-> | ->]; destruct A as [[l0 l1 l2] [u0 u1 u2]], B as [[m0 m1 m2] [w0 w1 w2]]; [exact (proj1 (apart_perm (Nm := F) l0 l1 l2 u0 u1 u2 m0 m1 m2 w0 w1 w2)) | exact (proj2 (apart_perm (Nm := F) l0 l1 l2 u0 u1 u2 m0 m1 m2 w0 w1 w2))].
  Qed.
  Lemma overlap_pm f (x x' y y' : shape F) : f = sw \/ f = rot -> bd prec emax lm x' = pm f (bd prec emax lm x) -> bd prec emax lm y' = pm f (bd prec emax lm y) -> overlap x' y' = overlap x y.
  Proof.
    intros Hf A B. unfold overlap. change (ibound_intersect (shape_get_bound x') (shape_get_bound y')) with (aabb_intersect (bd prec emax lm x') (BBox (bd prec emax lm y'))).
    change (ibound_intersect (shape_get_bound x) (shape_get_bound y)) with (aabb_intersect (bd prec emax lm x) (BBox (bd prec emax lm y))). rewrite A, B, (apart_pm f _ _ Hf). reflexivity.
  Qed.
  Lemma pm_point f (p : vec) : f = sw \/ f = rot -> AABB (v3x1 (f p)) (v3x1 (f p)) = pm f (AABB (v3x1 p) (v3x1 p)).
  Proof. intros [-> | ->]; destruct p as [[x y z]]; reflexivity. Qed.
  Lemma pm_cube f (c : vec) (r : F) : f = sw \/ f = rot -> cube_any (Nm := F) (f c) r = pm f (cube_any (Nm := F) c r).
  Proof. intros [-> | ->]; destruct c as [[x y z]]; reflexivity. Qed.
  Lemma pm_whole f : f = sw \/ f = rot -> whole_any (Nm := F) = pm f (whole_any (Nm := F)).
  Proof. intros [-> | ->]; reflexivity. Qed.
  Lemma pm_ray (o d : vec) : ray_any (Nm := F) (sw o) (sw d) = pm sw (ray_any (Nm := F) o d).
  Proof. destruct o as [[x y z]], d as [[u v w]]. reflexivity. Qed.

  Theorem swap_query (D G : fdesc (prec := prec) (emax := emax)) (x y x' y' : shape F) : ~ ray_and_point D G ->
    fbuilds lm D x -> fbuilds lm G y -> fbuilds lm (desc_map sw D) x' -> fbuilds lm (desc_map sw G) y' ->
    shape_get_intersect x' y' = am sw (shape_get_intersect x y).
  Proof.
    intros N HD HG HD' HG'. rewrite !(intersect_core (ieee_ordered prec emax lm)). rewrite <- am_if.
    destruct D, G; cbn [desc_map fbuilds] in HD, HG, HD', HG';
      repeat match goal with
      | H : mk_point _ _ _ |- _ => apply point_any in H
      | H : mk_sphere _ _ _ _ |- _ => apply sphere_any in H
      | H : mk_box _ _ _ _ |- _ => apply box_any in H
      | H : mk_plane _ _ _ _ |- _ => apply plane_any in H
      | H : mk_ray _ _ _ _ |- _ => apply ray_any_eq in H
      end;
      subst; rewrite ?sw_nrm; (match goal with |- (if overlap ?x' ?y' then _ else _) = (if overlap ?x ?y then _ else _) => rewrite (overlap_pm sw x x' y y'); [| left; reflexivity | first [apply pm_ray | (apply (pm_point sw); left; reflexivity) | (apply (pm_cube sw); left; reflexivity) | (apply (pm_whole sw); left; reflexivity)] | first [apply pm_ray | (apply (pm_point sw); left; reflexivity) | (apply (pm_cube sw); left; reflexivity) | (apply (pm_whole sw); left; reflexivity)]] end);
      (match goal with |- (if ?b then _ else _) = (if ?b then _ else _) => destruct b; [cbn [core pt_ori] | reflexivity] end);
      try (exfalso; apply N; exact I);
      first [reflexivity | apply sw_ray_ray | apply sw_ray_sphere | apply sw_ray_plane | apply sw_sphere_sphere
        | apply sw_sphere_plane | apply sw_plane_point | (apply (perm_point_point sw); left; reflexivity) | (apply (perm_sphere_point sw); left; reflexivity)].
  Qed.
  Theorem perm_query (D G : fdesc (prec := prec) (emax := emax)) (x y x' y' : shape F) : by_comparison D G ->
    fbuilds lm D x -> fbuilds lm G y -> fbuilds lm (desc_map rot D) x' -> fbuilds lm (desc_map rot G) y' ->
    shape_get_intersect x' y' = am rot (shape_get_intersect x y).
  Proof.
    intros N HD HG HD' HG'. rewrite !(intersect_core (ieee_ordered prec emax lm)). rewrite <- am_if.
    destruct D, G; try contradiction; cbn [desc_map fbuilds] in HD, HG, HD', HG';
      repeat match goal with
      | H : mk_point _ _ _ |- _ => apply point_any in H
      | H : mk_sphere _ _ _ _ |- _ => apply sphere_any in H
      | H : mk_box _ _ _ _ |- _ => apply box_any in H
      end;
      subst; (match goal with |- (if overlap ?x' ?y' then _ else _) = (if overlap ?x ?y then _ else _) => rewrite (overlap_pm rot x x' y y'); [| right; reflexivity | first [(apply (pm_point rot); right; reflexivity) | (apply (pm_cube rot); right; reflexivity)] | first [(apply (pm_point rot); right; reflexivity) | (apply (pm_cube rot); right; reflexivity)]] end);
      (match goal with |- (if ?b then _ else _) = (if ?b then _ else _) => destruct b; [cbn [core pt_ori] | reflexivity] end);
      first [reflexivity | (apply (perm_point_point rot); right; reflexivity) | (apply (perm_sphere_point rot); right; reflexivity)].
  Qed.
End Swap.
