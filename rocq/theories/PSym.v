(** PSym.v — get_intersect commutes with the symmetries of the axes, except for a ray and a point (C97). *)
From Coq Require Import Reals List ZArith NArith Bool Lra Lia Classical.
Import ListNotations.
From Verif Require Import Base Num Vec Mat Bound Shape Intersect Exact SpecMat SpecGeom SpecBound SpecShape SpecBuild SpecSim SpecSym ExactFacts Order PMat PBound PInter PBuild PSim PShape PGeo1.
Local Open Scope R_scope.

(** ---- scalars ---- *)
Lemma xneg_neg a : xneg (xneg a) = a. Proof. destruct a; cbn; try reflexivity. f_equal. ring. Qed.
Lemma inf_sign_neg r : inf_sign (- r) = xneg (inf_sign r).
Proof. unfold inf_sign. destruct (Rlt_dec 0 (- r)), (Rlt_dec (- r) 0), (Rlt_dec 0 r), (Rlt_dec r 0); cbn; try reflexivity; exfalso; lra. Qed.
Lemma xneg_mul_l a b : xmul (xneg a) b = xneg (xmul a b).
Proof. destruct a, b; cbn; rewrite ?Ropp_involutive, ?inf_sign_neg, ?xneg_neg; try reflexivity; rewrite ?Ropp_involutive; try (f_equal; ring). Qed.
Lemma xmul_comm a b : xmul a b = xmul b a.
Proof. destruct a, b; cbn; try reflexivity. f_equal. ring. Qed.
Lemma xneg_mul_r a b : xmul a (xneg b) = xneg (xmul a b).
Proof. rewrite xmul_comm, xneg_mul_l, xmul_comm. reflexivity. Qed.
Lemma xadd_comm a b : xadd a b = xadd b a.
Proof. destruct a, b; cbn; try reflexivity. f_equal. ring. Qed.
Lemma xadd_assoc a b c : xadd (xadd a b) c = xadd a (xadd b c).
Proof. destruct a, b, c; cbn; try reflexivity. f_equal. ring. Qed.
Lemma xneg_add a b : xadd (xneg a) (xneg b) = xneg (xadd a b).
Proof. destruct a, b; cbn; try reflexivity. f_equal. ring. Qed.
Lemma xneg_sub a b : xsub (xneg a) (xneg b) = xneg (xsub a b).
Proof. destruct a, b; cbn; try reflexivity. f_equal. ring. Qed.
Lemma xsub_swap a b : xsub a b = xneg (xsub b a).
Proof. destruct a, b; cbn; try reflexivity. f_equal. ring. Qed.
Lemma xneg_cmp a b : xcmp (xneg a) (xneg b) = xcmp b a.
Proof.
  destruct a, b; cbn; try reflexivity. f_equal. destruct (Rlt_dec r0 r), (Rlt_dec (- r) (- r0)); try reflexivity; try (exfalso; lra).
  destruct (Rlt_dec r r0), (Rlt_dec (- r0) (- r)); try reflexivity; exfalso; lra.
Qed.
Lemma xneg_sq a : xmul (xneg a) (xneg a) = xmul a a.
Proof. rewrite xneg_mul_l, xneg_mul_r, xneg_neg. reflexivity. Qed.
Lemma xneg_div zs a b : b <> Fin 0 -> xdiv zs (xneg a) b = xneg (xdiv zs a b).
Proof.
  intro Hb. destruct a, b; cbn; try reflexivity; try (destruct (Req_EM_T r0 0); [subst; contradiction |]); try (destruct (Req_EM_T r 0); [subst; contradiction |]);
    cbn; rewrite ?inf_sign_neg, ?xneg_neg; try reflexivity; f_equal; try ring. field. assumption.
Qed.

Section Sym.
  Context (eps : R) (zs : XR -> bool) (g : sym).
  Notation E := (Exact eps zs).
  Notation P := (@sym_v eps zs g).
  Notation evE := (ev eps zs).
  Ltac vec3 := apply (f_equal (@M3x1 E)), (f_equal3 (@A3 E)).
  Ltac ops := cbn [c0 c1 c2 sym_v nmul nadd nsub nneg ndiv nsqrt Exact].
  Definition vneg (v : mat3x1 E) : mat3x1 E := match v with M3x1 (A3 x y z) => @M3x1 E (@A3 E (xneg x) (xneg y) (xneg z)) end.
  Lemma p_minus a b : vminus (P a) (P b) = P (vminus a b).
  Proof. destruct a as [[]], b as [[]]. unfold vminus. destruct g; ops; vec3; rewrite ?xneg_sub; reflexivity. Qed.
  Lemma p_plus a b : vplus (P a) (P b) = P (vplus a b).
  Proof. destruct a as [[]], b as [[]]. unfold vplus. destruct g; ops; vec3; rewrite ?xneg_add; reflexivity. Qed.
  Lemma p_times a k : vtimes (P a) k = P (vtimes a k).
  Proof. destruct a as [[]]. unfold vtimes. destruct g; ops; vec3; rewrite ?xneg_mul_l; reflexivity. Qed.
  Lemma p_dot a b : vdotn (P a) (P b) = vdotn a b.
  Proof.
    destruct a as [[x y z]], b as [[u v w]]. unfold vdotn. destruct g; ops; rewrite ?xneg_mul_l, ?xneg_mul_r, ?xneg_neg; try reflexivity.
    - rewrite xadd_comm, <- xadd_assoc. reflexivity.
    - f_equal. apply xadd_comm.
  Qed.
  Lemma p_mag a : vmag (P a) = vmag a.
  Proof.
    destruct a as [[x y z]]. unfold vmag, npowi2. destruct g; ops; f_equal; rewrite ?xneg_sq; try reflexivity.
    - rewrite xadd_comm, <- xadd_assoc. reflexivity.
    - f_equal. apply xadd_comm.
  Qed.
  Lemma p_cross a b : g <> Mirror -> vcrossn (P a) (P b) = P (vcrossn a b).
  Proof.
    intro Hg. destruct a as [[x y z]], b as [[u v w]]. unfold vcrossn. destruct g; [| | contradiction]; ops; vec3; rewrite ?xneg_mul_l, ?xneg_mul_r; try reflexivity.
    - apply xsub_swap.
    - rewrite xneg_sub, xsub_swap, xneg_neg. reflexivity.
    - rewrite xneg_sub, <- xsub_swap. reflexivity.
  Qed.
  Lemma p_cross_m a b : g = Mirror -> vcrossn (P a) (P b) = vneg (P (vcrossn a b)).
  Proof.
    intro Hg. destruct a as [[x y z]], b as [[u v w]]. unfold vcrossn. rewrite Hg. cbn [vneg]. ops. vec3; rewrite ?xneg_neg, ?xneg_mul_l, ?xneg_mul_r, ?xneg_sub; try reflexivity.
  Qed.
  Lemma mag_neg v : vmag (vneg v) = vmag v.
  Proof. destruct v as [[x y z]]. unfold vmag, npowi2. cbn [vneg]. ops. rewrite !xneg_sq. reflexivity. Qed.
  Lemma p_cross_mag a b : vmag (vcrossn (P a) (P b)) = vmag (vcrossn a b).
  Proof. destruct g eqn:G; [rewrite <- (p_mag (vcrossn a b)), <- p_cross by congruence; now rewrite G | rewrite <- (p_mag (vcrossn a b)), <- p_cross by congruence; now rewrite G |].
    rewrite <- G, p_cross_m, mag_neg by exact G. apply p_mag. Qed.
  (** comparisons *)
  Lemma n_gt (x y : E) : @ngt E (xneg x) (xneg y) = @nlt E x y.
  Proof. unfold ngt, nlt. cbn [ncmp Exact]. rewrite xneg_cmp. destruct x, y; cbn; try reflexivity. destruct (Rlt_dec r r0), (Rlt_dec r0 r); try reflexivity. exfalso; lra. Qed.
  Lemma n_lt (x y : E) : @nlt E (xneg x) (xneg y) = @ngt E x y.
  Proof. rewrite <- (xneg_neg x), <- (xneg_neg y) at 2. symmetry. apply n_gt. Qed.
  Lemma n_ge (x y : E) : @nge E (xneg x) (xneg y) = @nle E x y.
  Proof. unfold nge, nle. cbn [ncmp Exact]. rewrite xneg_cmp. destruct x, y; cbn; try reflexivity. destruct (Rlt_dec r r0), (Rlt_dec r0 r); try reflexivity. exfalso; lra. Qed.
  Lemma n_le (x y : E) : @nle E (xneg x) (xneg y) = @nge E x y.
  Proof. rewrite <- (xneg_neg x), <- (xneg_neg y) at 2. symmetry. apply n_ge. Qed.
  Lemma n_within (w x y : E) : @Shape.within E w (xneg x) (xneg y) = @Shape.within E w x y.
  Proof.
    unfold Shape.within. cbn [nadd nsub Exact]. assert (xadd (xneg x) w = xneg (xsub x w)) as -> by (destruct x, w; cbn; try reflexivity; f_equal; ring).
    assert (xsub (xneg x) w = xneg (xadd x w)) as -> by (destruct x, w; cbn; try reflexivity; f_equal; ring). rewrite n_ge, n_le. apply andb_comm.
  Qed.
  Definition near0 (e x : E) : bool := (nge x (nsub E n0 e) && nle x (nadd E n0 e))%bool.
  Lemma near0_neg e x : near0 e (xneg x) = near0 e x.
  Proof.
    unfold near0. change (@n0 E) with (Fin 0). cbn [nadd nsub Exact]. set (h := xadd (Fin 0) e).
    assert (xsub (Fin 0) e = xneg h) as -> by (unfold h; destruct e; cbn; try reflexivity; f_equal; ring).
    assert (nle (xneg x : E) (h : E) = nge (x : E) (xneg h : E)) as -> by (rewrite <- (xneg_neg h) at 1; apply n_le). rewrite n_ge. apply andb_comm.
  Qed.
  Lemma is_equal_e v e : mat3x1_is_equal v mat3x1_default e = Some (near0 e (c0 v) && near0 e (c1 v) && near0 e (c2 v))%bool.
  Proof. destruct v as [[x y z]]. unfold mat3x1_is_equal, mat3x1_default, near0. cbn [c0 c1 c2]. rewrite !andb_assoc. reflexivity. Qed.
  Lemma p_equal v e : mat3x1_is_equal (P v) mat3x1_default e = mat3x1_is_equal v mat3x1_default e.
  Proof. rewrite !is_equal_e. f_equal. destruct v as [[x y z]]. destruct g; ops; rewrite ?near0_neg; destruct (near0 e x), (near0 e y), (near0 e z); reflexivity. Qed.
  Lemma neg_equal v e : mat3x1_is_equal (vneg v) mat3x1_default e = mat3x1_is_equal v mat3x1_default e.
  Proof. rewrite !is_equal_e. f_equal. destruct v as [[x y z]]. cbn [vneg]. ops. rewrite !near0_neg. reflexivity. Qed.
  Lemma p_cross_equal a b e : mat3x1_is_equal (vcrossn (P a) (P b)) mat3x1_default e = mat3x1_is_equal (vcrossn a b) mat3x1_default e.
  Proof.
    assert (g = Mirror \/ g <> Mirror) as [G | G] by (destruct g; [right | right | left]; congruence).
    - rewrite p_cross_m, neg_equal by exact G. apply p_equal.
    - rewrite p_cross by exact G. apply p_equal.
  Qed.
  Lemma p_nrm v : nrm (P v) = P (nrm v).
  Proof.
    assert (forall u : mat3x1 E, nrm u = M3x1 (A3 (ndiv E (c0 u) (vmag u)) (ndiv E (c1 u) (vmag u)) (ndiv E (c2 u) (vmag u)))) as Q by (intros [[]]; reflexivity).
    rewrite !Q, p_mag. assert (vmag v = Fin 0 \/ vmag v <> Fin 0) as [Z | Z].
    { destruct (vmag v) as [r | | |]; try (right; discriminate). destruct (Req_dec r 0) as [-> | N]; [left; reflexivity | right; congruence]. }
    - apply mag_zero in Z as ->. rewrite (ev_mag eps zs vzero), norm_vzero. destruct g; cbn; rewrite ?Ropp_0; destruct (Req_EM_T 0 0); try contradiction; reflexivity.
    - destruct v as [[x y z]]. destruct g; ops; vec3; rewrite ?xneg_div by exact Z; reflexivity.
  Qed.

  (** ---- shapes ---- *)
  Definition pb (b : aabb E) : aabb E := match b with AABB (A3 x y z) (A3 u v w) =>
    match g with Cyc => AABB (A3 y z x) (A3 v w u) | Quarter => @AABB E (@A3 E (xneg v) x z) (@A3 E (xneg y) u w) | Mirror => @AABB E (@A3 E (xneg u) y z) (@A3 E (xneg x) v w) end end.
  Definition psh (x : shape E) : shape E :=
    match x with
    | SPoint (MkPoint o b w) => SPoint (MkPoint (P o) (pb b) w)
    | SRay (MkRay o d b w) => SRay (MkRay (P o) (P d) (pb b) w)
    | SSphere (MkSphere o r b w) => SSphere (MkSphere (P o) r (pb b) w)
    | SPlane (MkPlane o n b w) => SPlane (MkPlane (P o) (P n) (pb b) w)
    | SLine (MkLine p q b w) => SLine (MkLine (P p) (P q) (pb b) w)
    | SBox (MkBox o r b w) => SBox (MkBox (P o) r (pb b) w)
    | SPrism (MkPrism p q h b w) => SPrism (MkPrism (ma eps zs P p) (ma eps zs P q) (P h) (pb b) w)
    end.
  Definition boxes (x y : aabb E) : bool := (negb (apart x y 0) && negb (apart x y 1) && negb (apart x y 2))%bool.
  Lemma pb_boxes x y : boxes (pb x) (pb y) = boxes x y.
  Proof.
    destruct x as [[x0 x1 x2] [u0 u1 u2]], y as [[y0 y1 y2] [w0 w1 w2]]. unfold boxes, apart. cbn [pb]. destruct g; cbn [lo up b_lower b_upper comps3]; rewrite ?n_gt, ?n_lt.
    - destruct (_ || _)%bool, (_ || _)%bool, (_ || _)%bool; reflexivity.
    - rewrite (orb_comm (nlt u1 y1)). destruct (_ || _)%bool, (_ || _)%bool, (_ || _)%bool; reflexivity.
    - rewrite (orb_comm (nlt u0 y0)). reflexivity.
  Qed.
  Lemma p_overlap x y : overlap (psh x) (psh y) = overlap x y.
  Proof.
    assert (forall x, shape_get_bound (psh x) = BBox (pb match shape_get_bound x with BBox b => b | BSphere => whole_any end)) as Q by (intros [[]|[]|[]|[]|[]|[]|[]]; reflexivity).
    unfold overlap. rewrite !Q. unfold shape_get_bound. rewrite !ibb, !intersect_eval. apply pb_boxes.
  Qed.
  Notation ph := (@sym_hit eps zs [g]).
  Lemma ph_if (c : bool) x y : ph (if c then x else y) = if c then ph x else ph y. Proof. destruct c; reflexivity. Qed.
  Ltac done := cbn [sym_hit fold_right]; rewrite <- ?p_plus, <- ?p_times; reflexivity.
  Ltac cases := repeat (rewrite ph_if; match goal with |- (if ?c then _ else _) = (if ?c then _ else _) => destruct c; [try reflexivity; try done | try reflexivity; try done] end).

  Lemma q_point_point (o q : mat3x1 E) (B B' G G' : aabb E) (w f : E) :
    point_point (MkPoint (P o) B' w) (shape_get_shape_data (SPoint (MkPoint (P q) G' f))) = ph (point_point (MkPoint o B w) (shape_get_shape_data (SPoint (MkPoint q G f)))).
  Proof.
    destruct o as [[x y z]], q as [[a b c]]. unfold point_point. cbn [shape_get_shape_data pt_ori pt_vic]. rewrite !index0, !index1, !index2.
    destruct g; cbn [sym_v c0 c1 c2 vec_data list3 v3x1 idx nth_error bind]; rewrite ?n_within;
      destruct (Shape.within w x a), (Shape.within w y b), (Shape.within w z c); reflexivity.
  Qed.
  Lemma q_ray_sphere (o d c : mat3x1 E) (B B' G G' : aabb E) (w r f : E) :
    ray_sphere (MkRay (P o) (P d) B' w) (shape_get_shape_data (SSphere (MkSphere (P c) r G' f))) =
    ph (ray_sphere (MkRay o d B w) (shape_get_shape_data (SSphere (MkSphere c r G f)))).
  Proof.
    unfold ray_sphere. cbn [shape_get_shape_data sp_ori sp_radius ray_dir ray_ori]. rewrite !vec0', !idx3'. cbn [bind]. pures. rewrite p_minus, !p_dot. cases.
  Qed.
  Lemma q_ray_plane (o d q n : mat3x1 E) (B B' G G' : aabb E) (w w' f f' : E) :
    ray_plane (MkRay (P o) (P d) B' w') (shape_get_shape_data (SPlane (MkPlane (P q) (P n) G' f'))) =
    ph (ray_plane (MkRay o d B w) (shape_get_shape_data (SPlane (MkPlane q n G f)))).
  Proof.
    unfold ray_plane. cbn [shape_get_shape_data pl_offset pl_normal ray_dir ray_ori]. rewrite !vec0', !vec3'. cbn [bind]. pures. rewrite !p_dot. cases.
  Qed.
  Lemma q_sphere_plane (o q n : mat3x1 E) (B B' G G' : aabb E) (r w w' f f' : E) :
    sphere_plane (MkSphere (P o) r B' w') (shape_get_shape_data (SPlane (MkPlane (P q) (P n) G' f'))) =
    ph (sphere_plane (MkSphere o r B w) (shape_get_shape_data (SPlane (MkPlane q n G f)))).
  Proof.
    unfold sphere_plane. cbn [shape_get_shape_data pl_offset pl_normal sp_ori sp_radius]. rewrite !vec0', !vec3'. cbn [bind]. pures. rewrite !p_dot. cases.
  Qed.
  Lemma q_plane_point (o n q : mat3x1 E) (B B' G G' : aabb E) (w f : E) :
    plane_point (MkPlane (P o) (P n) B' w) (shape_get_shape_data (SPoint (MkPoint (P q) G' f))) =
    ph (plane_point (MkPlane o n B w) (shape_get_shape_data (SPoint (MkPoint q G f)))).
  Proof.
    unfold plane_point. cbn [shape_get_shape_data pl_offset pl_normal pl_vic pt_ori]. rewrite !vec0. cbn [bind]. pures. rewrite !p_dot. cases.
  Qed.
  Lemma q_sphere_sphere (c q : mat3x1 E) (B B' G G' : aabb E) (r p w f : E) :
    sphere_sphere (MkSphere (P c) r B' w) (shape_get_shape_data (SSphere (MkSphere (P q) p G' f))) =
    ph (sphere_sphere (MkSphere c r B w) (shape_get_shape_data (SSphere (MkSphere q p G f)))).
  Proof.
    unfold sphere_sphere. cbn [shape_get_shape_data sp_ori sp_radius]. rewrite !vec0', !idx3'. cbn [bind]. pures. rewrite p_minus, p_mag. cases.
  Qed.
  Lemma q_ray_ray (o q d h : mat3x1 E) (B B' G G' : aabb E) (w : E) (f : E) : okd eps zs d -> okd eps zs h ->
    ray_ray (MkRay (P o) (P d) B' w) (shape_get_shape_data (SRay (MkRay (P q) (P h) G' f))) =
    ph (ray_ray (MkRay o d B w) (shape_get_shape_data (SRay (MkRay q h G f)))).
  Proof.
    intros Hd Hh. unfold ray_ray. cbn [shape_get_shape_data ray_ori ray_dir ray_vic]. rewrite !vec0', !vec3'. cbn [bind]. pures. rewrite !p_minus.
    assert (vdotn (vcrossn (P d) (P h)) (P (vminus h d)) = vdotn (vcrossn d h) (vminus h d)) as ->.
    { destruct Hd as [-> | [u [_ ->]]].
      - destruct h as [[[] [] []]], g; reflexivity.
      - destruct Hh as [-> | [v [_ ->]]]; [destruct g, u; reflexivity |]. unfold vdotn. destruct g; cbn; f_equal; ring. }
    rewrite ph_if. destruct (negb _); [reflexivity |]. rewrite p_cross_equal, !p_cross_mag, !p_mag, p_dot.
    destruct (mat3x1_is_equal (vcrossn d h) mat3x1_default (nlit E 1 10000)) as [par |]; [| reflexivity]. cbn [unwrap bind]. cases.
  Qed.

  (** ---- prisms: orientation matters, so no mirror ---- *)
  Definition rot : Prop := g <> Mirror.
  Definition pt (x y : mat3x1 E * mat3x1 E) : Prop := fst x = P (fst y) /\ snd x = P (snd y).
  Lemma p_inside l' l p : Forall2 pt l' l -> all_inside l' (P p) = all_inside l p.
  Proof.
    induction 1 as [| [v' n'] [v n] l' l [H1 H2] H IH]; [reflexivity |]. cbn [fst snd] in H1, H2. subst. unfold all_inside in *. cbn [iter_all fst snd]. pures.
    rewrite p_minus, p_dot. destruct (negb _); [exact IH | reflexivity].
  Qed.
  Lemma p_tests (p q : arr3 (mat3x1 E)) h (B B' : aabb E) (w w' : E) : rot -> exists l l',
    triprism_tests (@MkPrism E (ma eps zs P p) (ma eps zs P q) (P h) B' w') = Ok l' /\ triprism_tests (MkPrism p q h B w) = Ok l /\ Forall2 pt l' l.
  Proof.
    intro R. destruct p as [p0 p1 p2], q as [q0 q1 q2]. unfold triprism_tests, side_normal. cbn [tp_nh tp_base tp_base2 ma]. pures.
    rewrite !p_minus, p_times, !p_cross by exact R. eexists. eexists. split; [reflexivity |]. split; [reflexivity |].
    repeat (constructor; [split; reflexivity |]). constructor.
  Qed.
  Lemma q_prism_point (p q : arr3 (mat3x1 E)) h z (B B' G G' : aabb E) (w w' f f' : E) : rot ->
    triprism_point (@MkPrism E (ma eps zs P p) (ma eps zs P q) (P h) B' w') (shape_get_shape_data (SPoint (@MkPoint E (P z) G' f'))) =
    ph (triprism_point (MkPrism p q h B w) (shape_get_shape_data (SPoint (MkPoint z G f)))).
  Proof.
    intro R. unfold triprism_point. cbn [shape_get_shape_data pt_ori]. rewrite !vec0. cbn [bind].
    destruct (p_tests p q h B B' w w' R) as [l [l' [-> [-> F]]]]. cbn [bind]. rewrite (p_inside l' l z F).
    destruct (all_inside l z) as [[] |]; reflexivity.
  Qed.
  Definition pplane (x y : plane E) : Prop := exists q n G f f', x = @MkPlane E (P q) (P n) (pb G) f' /\ y = MkPlane q n G f.
  Lemma p_ray_plane_get (a d q n : mat3x1 E) (B G : aabb E) (w w' f f' : E) :
    ray_get_intersect (@MkRay E (P a) (P d) (pb B) w') (SPlane (@MkPlane E (P q) (P n) (pb G) f')) = ph (ray_get_intersect (MkRay a d B w) (SPlane (MkPlane q n G f))).
  Proof.
    unfold ray_get_intersect. rewrite !overlap_eval. cbn [bind shape_get_type].
    assert (overlap (SRay (@MkRay E (P a) (P d) (pb B) w')) (SPlane (@MkPlane E (P q) (P n) (pb G) f')) = overlap (SRay (MkRay a d B w)) (SPlane (MkPlane q n G f))) as ->.
    { unfold overlap, shape_get_bound. cbn [ray_bound pl_bound]. rewrite !ibb, !intersect_eval. apply pb_boxes. }
    rewrite ph_if. destruct (negb _); [reflexivity |]. apply q_ray_plane.
  Qed.
  Lemma p_facets a d (B : aabb E) (w w' mag : E) l' l fs' fs : Forall2 pt l' l -> Forall2 pplane fs' fs ->
    let body r a mag tests i :=
          let! res := ray_get_intersect r (SPlane i) in
          if fst res then
            let! collide_point := unwrap (snd res) in
            let! df := unwrap (mat3x1_minus collide_point a) in
            let! mag2 := unwrap (mat3x1_magnitude df) in
            let! is_point_inside := all_inside tests collide_point in
            if (negb is_point_inside || ngt mag2 mag)%bool then Ok Next
            else Ok (Ret (snd res))
          else Ok Next in
    for_ret fs' (body (@MkRay E (P a) (P d) (pb B) w') (P a) mag l') =
    match for_ret fs (body (MkRay a d B w) a mag l) with
    | Ok (Some (Some x)) => Ok (Some (Some (P x))) | r => r end.
  Proof.
    intros T F body. induction F as [| x' x fs' fs [q [n [G [f [f' [-> ->]]]]]] F IH]; [reflexivity |]. cbn [for_ret].
    unfold body at 1 3. rewrite (p_ray_plane_get a d q n B G w w' f f').
    pose proof (ray_plane_get (MkRay a d B w) (MkPlane q n G f)) as [[hb ho] [-> An]]. cbn [sym_hit fold_right bind fst snd]. unfold SpecInter.answer in An. cbn [fst snd] in An.
    destruct hb; [| exact IH]. destruct (proj1 An eq_refl) as [c ->]. pures. rewrite (p_inside l' l c T).
    destruct (all_inside_ok l c) as [ins ->]. cbn [bind]. rewrite p_minus, p_mag. destruct (_ || _)%bool; cbn [bind]; [exact IH | reflexivity].
  Qed.
  Lemma n_gt0 (d : E) : @ngt E (xneg d) n0 = @nlt E d n0.
  Proof. change (@n0 E) with (Fin 0). rewrite <- (n_gt d (Fin 0)). cbn [xneg]. rewrite Ropp_0. reflexivity. Qed.
  Lemma n_lt0 (d : E) : @nlt E (xneg d) n0 = @ngt E d n0.
  Proof. change (@n0 E) with (Fin 0). rewrite <- (n_lt d (Fin 0)). cbn [xneg]. rewrite Ropp_0. reflexivity. Qed.
  Lemma gt_not_lt (d : E) : (ngt d n0 && nlt d n0)%bool = false.
  Proof. unfold ngt, nlt. destruct (ncmp E d n0) as [[] |]; reflexivity. Qed.
  Lemma p_rl (d v : E) : rl (xneg d : E) (xneg v : E) = xneg (ru d v).
  Proof. unfold rl, ru. rewrite n_gt0, n_lt0. pose proof (gt_not_lt d). destruct (ngt d n0), (nlt d n0); try discriminate; reflexivity. Qed.
  Lemma p_ru (d v : E) : ru (xneg d : E) (xneg v : E) = xneg (rl d v).
  Proof. unfold rl, ru. rewrite n_gt0, n_lt0. pose proof (gt_not_lt d). destruct (ngt d n0), (nlt d n0); try discriminate; reflexivity. Qed.
  Lemma p_ray_any (o d : mat3x1 E) : ray_any (P o) (P d) = pb (ray_any o d).
  Proof. destruct o as [[x y z]], d as [[a b c]]. unfold ray_any, pb. destruct g; cbn [sym_v]; rewrite ?p_rl, ?p_ru; reflexivity. Qed.
  Lemma p_whole : @whole_any E = pb whole_any. Proof. unfold pb. destruct g; reflexivity. Qed.
  Lemma q_prism_line (p q : arr3 (mat3x1 E)) h y z (B B' G G' : aabb E) (w w' f f' : E) : rot ->
    triprism_line (@MkPrism E (ma eps zs P p) (ma eps zs P q) (P h) B' w') (shape_get_shape_data (SLine (@MkLine E (P y) (P z) G' f'))) =
    ph (triprism_line (MkPrism p q h B w) (shape_get_shape_data (SLine (MkLine y z G f)))).
  Proof.
    intros R. unfold triprism_line. cbn [shape_get_shape_data ln_a ln_b]. rewrite !vec0', !vec3'. cbn [bind].
    destruct (p_tests p q h B B' w w' R) as [l [l' [-> [-> T]]]]. cbn [bind]. rewrite !(p_inside l' l _ T).
    destruct (all_inside_ok l y) as [iy ->]. destruct (all_inside_ok l z) as [iz ->]. cbn [bind]. rewrite ph_if. destruct iy; [reflexivity |]. rewrite ph_if. destruct iz; [reflexivity |].
    unfold side_normal. cbn [tp_nh tp_base tp_base2]. pures. rewrite p_minus, p_mag, !ray_init_e, p_nrm. cbn [bind]. rewrite p_ray_any.
    destruct p as [p0 p1 p2], q as [q0 q1 q2]. cbn [ma]. pures. rewrite !plane_of_e. cbn [bind]. rewrite !p_minus, p_times, !p_cross, !p_nrm by exact R.
    match goal with |- bind (for_ret ?fs' _) _ = ph (bind (for_ret ?fs _) _) =>
      pose proof (p_facets y (nrm (vminus z y)) (ray_any y (vminus z y)) vicinity0 vicinity0 (vmag (vminus z y)) l' l fs' fs T) as X end.
    cbn zeta in X. rewrite X; clear X.
    - match goal with |- context [for_ret ?l ?f] => destruct (for_ret l f) as [[[c |] |] | k] end; reflexivity.
    - repeat (constructor; [eexists; eexists; eexists; eexists; eexists; split; [rewrite <- p_whole; reflexivity | reflexivity] |]). constructor.
  Qed.

  (** ---- all pairs but ray and point, sphere and point ---- *)
  Definition prism_s (x : shape E) : Prop := match x with SPrism _ => True | _ => False end.
  Definition round_or_ray (x y : shape E) : Prop := match x, y with SRay _, SPoint _ | SPoint _, SRay _ | SSphere _, SPoint _ | SPoint _, SSphere _ => True | _, _ => False end.
  Definition wfr (x : shape E) : Prop := match x with SRay (MkRay _ d _ _) => okd eps zs d | _ => True end.
  Lemma core_sym x y : wfr x -> wfr y -> ~ round_or_ray x y -> (prism_s x \/ prism_s y -> rot) -> core (psh x) (psh y) = ph (core x y).
  Proof.
    destruct x as [[]|[]|[]|[]|[]|[]|[]], y as [[]|[]|[]|[]|[]|[]|[]]; cbn [wfr round_or_ray prism_s]; intros Hx Hy N K; cbn [core]; try reflexivity; try (exfalso; apply N; exact I); cbn [psh];
      try (apply q_prism_line; tauto); try (apply q_prism_point; tauto).
    - apply q_point_point.
    - apply q_plane_point.
    - apply q_ray_ray; assumption.
    - apply q_ray_sphere.
    - apply q_ray_plane.
    - apply q_ray_sphere.
    - apply q_sphere_sphere.
    - apply q_sphere_plane.
    - apply q_plane_point.
    - apply q_ray_plane.
    - apply q_sphere_plane.
  Qed.
  Lemma intersect_sym1 x y : wfr x -> wfr y -> ~ round_or_ray x y -> (prism_s x \/ prism_s y -> rot) -> shape_get_intersect (psh x) (psh y) = ph (shape_get_intersect x y).
  Proof.
    intros Hx Hy N K. rewrite !(intersect_core (exact_ordered eps zs)), p_overlap, core_sym by assumption. rewrite ph_if. reflexivity.
  Qed.

  (** ---- built shapes ---- *)
  Definition notnan (x : E) : Prop := x <> NaN.
  Lemma mins_neg (x : E) l : notnan x -> Forall notnan l -> mins (xneg x : E) (map (xneg : E -> E) l) = xneg (maxs x l).
  Proof.
    unfold mins, maxs. revert x. induction l as [| y l IH]; intros x Hx Hl; [reflexivity |]. inversion Hl as [| ? ? Hy Hl']; subst. cbn [fold_left map].
    assert ((match ncmp E (xneg x : E) (xneg y : E) with Some Gt => (xneg y : E) | _ => (xneg x : E) end) = xneg (match ncmp E x y with Some Gt => x | _ => y end)) as ->.
    { cbn [ncmp Exact]. rewrite xneg_cmp. destruct x as [a | | |], y as [b | | |]; cbn; try reflexivity; try (exfalso; apply Hx; reflexivity); try (exfalso; apply Hy; reflexivity).
      destruct (Rlt_dec b a), (Rlt_dec a b); cbn; try reflexivity; try (exfalso; lra). f_equal. lra. }
    apply IH; [destruct (ncmp E x y) as [[] |]; assumption | assumption].
  Qed.
  Lemma maxs_neg (x : E) l : notnan x -> Forall notnan l -> maxs (xneg x : E) (map (xneg : E -> E) l) = xneg (mins x l).
  Proof.
    intros Hx Hl. rewrite <- (xneg_neg (maxs (Nm:=E) (xneg x : E) (map (xneg : E -> E) l))), <- mins_neg.
    - rewrite xneg_neg, map_map. f_equal. f_equal. rewrite <- (map_id l) at 2. apply map_ext. apply xneg_neg.
    - destruct x; discriminate || (exfalso; apply Hx; reflexivity).
    - clear Hx. induction Hl as [| [] l H Hl IH]; cbn; constructor; try assumption; try discriminate.
  Qed.
  Lemma p_hull p l : fin eps zs p -> Forall (fin eps zs) l -> hull_any (P p) (map P l) = pb (hull_any p l).
  Proof.
    intros [u ->] Hl. unfold hull_any, pb. rewrite !map_map.
    assert (Forall notnan (map (@c0 E) l) /\ Forall notnan (map (@c1 E) l)) as [N0 N1].
    { split; induction Hl as [| x l [v ->] Hl IH]; constructor; try assumption; discriminate. }
    assert (forall v : mat3x1 E, c0 (P v) = match g with Cyc => c1 v | Quarter => xneg (c1 v) | Mirror => xneg (c0 v) end) as C0 by (intros [[]]; destruct g; reflexivity).
    assert (forall v : mat3x1 E, c1 (P v) = match g with Cyc => c2 v | Quarter => c0 v | Mirror => c1 v end) as C1 by (intros [[]]; destruct g; reflexivity).
    assert (forall v : mat3x1 E, c2 (P v) = match g with Cyc => c0 v | Quarter => c2 v | Mirror => c2 v end) as C2 by (intros [[]]; destruct g; reflexivity).
    rewrite (map_ext _ _ C0), (map_ext _ _ C1), (map_ext _ _ C2), C0, C1, C2. destruct g; [reflexivity | |].
    - rewrite <- (map_map (@c1 E) (xneg : E -> E)), mins_neg, maxs_neg by (assumption || discriminate). reflexivity.
    - rewrite <- (map_map (@c0 E) (xneg : E -> E)), mins_neg, maxs_neg by (assumption || discriminate). reflexivity.
  Qed.
  Lemma p_cube (c : mat3x1 E) (r : E) : cube_any (P c) r = pb (cube_any c r).
  Proof.
    destruct c as [[x y z]]. unfold cube_any, pb. destruct g; cbn [sym_v nadd nsub Exact]; [reflexivity | |];
      f_equal; f_equal; [destruct y, r | destruct y, r | destruct x, r | destruct x, r]; cbn; try reflexivity; f_equal; ring.
  Qed.
  Lemma p_hvec a b c (h : E) : rot -> hvec (P a) (P b) (P c) h = P (hvec a b c h).
  Proof. intro R. unfold hvec. rewrite !p_minus, p_cross, p_nrm by exact R. apply p_times. Qed.
  Lemma p_ev p : evE (sym_p g p) = P (evE p). Proof. destruct g; reflexivity. Qed.
  Lemma builds_sym D x y : not_flat D -> (is_prism_d D -> rot) -> builds eps zs D x -> builds eps zs (sym_d [g] D) y -> wfr x /\ y = psh x.
  Proof.
    destruct D as [p e | o d e | c r e | o n e | a b e | c h e | a b c h e]; cbn [builds sym_d syms_p fold_right not_flat is_prism_d]; intros Fl K Hx Hy.
    - apply (point_any (evE p) (Fin e)) in Hx. apply (point_any (evE (sym_p g p)) (Fin e)) in Hy. subst. split; [exact I |]. rewrite p_ev. cbn [psh]. unfold pb. destruct g; reflexivity.
    - apply (ray_any_eq (evE o) (evE d) (Fin e)) in Hx. apply (ray_any_eq (evE (sym_p g o)) (evE (sym_p g d)) (Fin e)) in Hy. subst.
      split; [apply nrm_okd |]. rewrite !p_ev, p_nrm, p_ray_any. reflexivity.
    - apply (sphere_any (evE c) (Fin r) (Fin e)) in Hx. apply (sphere_any (evE (sym_p g c)) (Fin r) (Fin e)) in Hy. subst.
      split; [exact I |]. rewrite p_ev, p_cube. reflexivity.
    - apply (plane_any (evE o) (evE n) (Fin e)) in Hx. apply (plane_any (evE (sym_p g o)) (evE (sym_p g n)) (Fin e)) in Hy. subst.
      split; [exact I |]. rewrite !p_ev, p_nrm. cbn [psh]. rewrite <- p_whole. reflexivity.
    - apply (line_any (evE a) (evE b) (Fin e)) in Hx. apply (line_any (evE (sym_p g a)) (evE (sym_p g b)) (Fin e)) in Hy. subst.
      split; [exact I |]. rewrite !p_ev. cbn [psh]. rewrite <- p_hull; [reflexivity | eexists; reflexivity | repeat constructor; eexists; reflexivity].
    - apply (box_any (evE c) (Fin h) (Fin e)) in Hx. apply (box_any (evE (sym_p g c)) (Fin h) (Fin e)) in Hy. subst.
      split; [exact I |]. rewrite p_ev, p_cube. reflexivity.
    - apply (prism_any (evE a) (evE b) (evE c) (Fin h) (Fin e)) in Hx. apply (prism_any (evE (sym_p g a)) (evE (sym_p g b)) (evE (sym_p g c)) (Fin h) (Fin e)) in Hy. subst.
      split; [exact I |]. rewrite !p_ev, p_hvec by (apply K; exact I). set (w := hvec (evE a) (evE b) (evE c) (Fin h)) in *.
      assert (fin eps zs w) as [u W].
      { destruct (hvec_ok eps zs a b c h) as [N | F]; [| exact F]. exfalso. cbn zeta in N. unfold hvec in N.
        change (vcrossn (vminus (evE b) (evE a)) (vminus (evE c) (evE a))) with (evE (vcross (vsub b a) (vsub c a))) in N.
        pose proof (ev_normalize eps zs _ Fl) as Q. rewrite normalize_nrm in Q. apply (f_equal (fun o => match o with Ok (Some x) => x | _ => nanv eps zs end)) in Q.
        cbn beta iota in Q. rewrite Q in N. discriminate N. }
      rewrite !p_plus. cbn [psh ma]. rewrite <- p_hull; [reflexivity | eexists; reflexivity |].
      rewrite W. repeat (constructor; [first [eexists; reflexivity | exists (vadd a u); reflexivity | exists (vadd b u); reflexivity | exists (vadd c u); reflexivity] |]). constructor.
  Qed.
  (** sphere and point *)
  Lemma abs_neg x y : Rabs (- x - - y) = Rabs (x - y).
  Proof. rewrite <- Rabs_Ropp. f_equal. ring. Qed.
  Lemma cube_sym c r p : s_cube (sym_p g c) r (sym_p g p) <-> s_cube c r p.
  Proof. unfold s_cube. destruct g; cbn [sym_p vx vy vz]; rewrite ?abs_neg; tauto. Qed.
  Lemma sphere_point_sym c r e p f x y x' y' : is_sphere eps zs c r e x -> is_point eps zs p f y -> is_sphere eps zs (sym_p g c) r e x' -> is_point eps zs (sym_p g p) f y' ->
    shape_get_intersect x' y' = ph (shape_get_intersect x y).
  Proof.
    intros X Y X' Y'. pose proof (sphere_point_iff eps zs c r e p f x y X Y) as [A B]. pose proof (sphere_point_iff eps zs (sym_p g c) r e (sym_p g p) f x' y' X' Y') as [A' B'].
    rewrite cube_sym in A', B'. destruct (classic (s_cube c r p)) as [H | H].
    - rewrite A, A' by exact H. cbn [sym_hit fold_right]. rewrite <- p_ev. reflexivity.
    - rewrite B, B' by exact H. reflexivity.
  Qed.
  Lemma sym1 D1 D2 x y x' y' : ~ ray_and_point D1 D2 -> not_flat D1 -> not_flat D2 -> (is_prism_d D1 \/ is_prism_d D2 -> rot) ->
    builds eps zs D1 x -> builds eps zs D2 y -> builds eps zs (sym_d [g] D1) x' -> builds eps zs (sym_d [g] D2) y' ->
    shape_get_intersect x' y' = ph (shape_get_intersect x y).
  Proof.
    intros N F1 F2 K X Y X' Y'.
    destruct (builds_sym D1 x x' F1 (fun H => K (or_introl H)) X X') as [Wx Ex]. destruct (builds_sym D2 y y' F2 (fun H => K (or_intror H)) Y Y') as [Wy Ey].
    assert ((exists c r e p f, D1 = DSphere c r e /\ D2 = DPoint p f) \/ (exists c r e p f, D2 = DSphere c r e /\ D1 = DPoint p f) \/
            ~ match D1, D2 with DSphere _ _ _, DPoint _ _ | DPoint _ _, DSphere _ _ _ => True | _, _ => False end) as [S | [S | S]].
    { destruct D1, D2; cbn; try (right; right; exact (fun H => H)); [right; left | left]; repeat eexists. }
    - destruct S as [c [r [e [p [f [-> ->]]]]]]. exact (sphere_point_sym c r e p f x y x' y' X Y X' Y').
    - destruct S as [c [r [e [p [f [-> ->]]]]]].
      assert (shape_get_type x <> shape_get_type y /\ shape_get_type x' <> shape_get_type y') as [T T'].
      { cbn [builds sym_d] in *. apply (point_any (evE p) (Fin f)) in X. apply (sphere_any (evE c) (Fin r) (Fin e)) in Y. subst. split; discriminate. }
      rewrite (intersect_symmetric (exact_ordered eps zs) x y T), (intersect_symmetric (exact_ordered eps zs) x' y' T').
      exact (sphere_point_sym c r e p f y x y' x' Y X Y' X').
    - subst x' y'. apply intersect_sym1; try assumption.
      + intro C. apply N. clear - C S X Y.
        destruct D1 as [p e | o d e | c r e | o n e | a b e | c h e | a b c h e]; cbn [builds] in X;
          [apply (point_any (evE p) (Fin e)) in X | apply (ray_any_eq (evE o) (evE d) (Fin e)) in X | apply (sphere_any (evE c) (Fin r) (Fin e)) in X
          | apply (plane_any (evE o) (evE n) (Fin e)) in X | apply (line_any (evE a) (evE b) (Fin e)) in X | apply (box_any (evE c) (Fin h) (Fin e)) in X
          | apply (prism_any (evE a) (evE b) (evE c) (Fin h) (Fin e)) in X]; subst x;
        (destruct D2 as [p' e' | o' d' e' | c' r' e' | o' n' e' | a' b' e' | c' h' e' | a' b' c' h' e']; cbn [builds] in Y;
          [apply (point_any (evE p') (Fin e')) in Y | apply (ray_any_eq (evE o') (evE d') (Fin e')) in Y | apply (sphere_any (evE c') (Fin r') (Fin e')) in Y
          | apply (plane_any (evE o') (evE n') (Fin e')) in Y | apply (line_any (evE a') (evE b') (Fin e')) in Y | apply (box_any (evE c') (Fin h') (Fin e')) in Y
          | apply (prism_any (evE a') (evE b') (evE c') (Fin h') (Fin e')) in Y]); subst y; cbn in *; try contradiction; try exact I; try (exfalso; apply S; exact I).
      + intro H. apply K. clear - H X Y. destruct H as [H | H]; [left | right].
        * destruct D1 as [p e | o d e | c r e | o n e | a b e | c h e | a b c h e]; cbn [builds] in X;
          [apply (point_any (evE p) (Fin e)) in X | apply (ray_any_eq (evE o) (evE d) (Fin e)) in X | apply (sphere_any (evE c) (Fin r) (Fin e)) in X
          | apply (plane_any (evE o) (evE n) (Fin e)) in X | apply (line_any (evE a) (evE b) (Fin e)) in X | apply (box_any (evE c) (Fin h) (Fin e)) in X
          | exact I]; subst x; contradiction.
        * destruct D2 as [p e | o d e | c r e | o n e | a b e | c h e | a b c h e]; cbn [builds] in Y;
          [apply (point_any (evE p) (Fin e)) in Y | apply (ray_any_eq (evE o) (evE d) (Fin e)) in Y | apply (sphere_any (evE c) (Fin r) (Fin e)) in Y
          | apply (plane_any (evE o) (evE n) (Fin e)) in Y | apply (line_any (evE a) (evE b) (Fin e)) in Y | apply (box_any (evE c) (Fin h) (Fin e)) in Y
          | exact I]; subst y; contradiction.
  Qed.
End Sym.

(** ---- words ---- *)
Section Words.
  Context (eps : R) (zs : XR -> bool).
  Notation E := (Exact eps zs).
  Notation evE := (ev eps zs).
  Lemma builds_total D : exists x, builds eps zs D x.
  Proof.
    destruct D as [p e | o d e | c r e | o n e | a b e | c h e | a b c h e]; eexists; cbn [builds].
    - apply (point_any (evE p) (Fin e)). reflexivity.
    - apply (ray_any_eq (evE o) (evE d) (Fin e)). reflexivity.
    - apply (sphere_any (evE c) (Fin r) (Fin e)). reflexivity.
    - apply (plane_any (evE o) (evE n) (Fin e)). reflexivity.
    - apply (line_any (evE a) (evE b) (Fin e)). reflexivity.
    - apply (box_any (evE c) (Fin h) (Fin e)). reflexivity.
    - apply (prism_any (evE a) (evE b) (evE c) (Fin h) (Fin e)). reflexivity.
  Qed.
  Lemma builds_inj D x y : builds eps zs D x -> builds eps zs D y -> x = y.
  Proof.
    destruct D as [p e | o d e | c r e | o n e | a b e | c h e | a b c h e]; cbn [builds]; intros X Y.
    - apply (point_any (evE p) (Fin e)) in X, Y. congruence.
    - apply (ray_any_eq (evE o) (evE d) (Fin e)) in X, Y. congruence.
    - apply (sphere_any (evE c) (Fin r) (Fin e)) in X, Y. congruence.
    - apply (plane_any (evE o) (evE n) (Fin e)) in X, Y. congruence.
    - apply (line_any (evE a) (evE b) (Fin e)) in X, Y. congruence.
    - apply (box_any (evE c) (Fin h) (Fin e)) in X, Y. congruence.
    - apply (prism_any (evE a) (evE b) (evE c) (Fin h) (Fin e)) in X, Y. congruence.
  Qed.
  Lemma sym_d_cons g w D : sym_d (g :: w) D = sym_d [g] (sym_d w D). Proof. destruct D; reflexivity. Qed.
  Lemma sym_d_nil D : sym_d [] D = D. Proof. destruct D; reflexivity. Qed.
  Lemma is_prism_sym w D : is_prism_d (sym_d w D) <-> is_prism_d D. Proof. destruct D; reflexivity. Qed.
  Lemma ray_point_sym w D1 D2 : ray_and_point (sym_d w D1) (sym_d w D2) <-> ray_and_point D1 D2. Proof. destruct D1, D2; reflexivity. Qed.
  Lemma sym_p_sub g a b : vsub (sym_p g a) (sym_p g b) = sym_p g (vsub a b).
  Proof. destruct a, b, g; cbn; apply V3_eq; cbn; ring. Qed.
  Lemma sym_p_cross g a b : g <> Mirror -> vcross (sym_p g a) (sym_p g b) = sym_p g (vcross a b).
  Proof. intro N. destruct a, b, g; [| | contradiction]; cbn; apply V3_eq; cbn; ring. Qed.
  Lemma sym_p_zero g a : sym_p g a = vzero -> a = vzero.
  Proof. destruct a as [x y z], g; intro H; injection H; intros; apply V3_eq; cbn; lra. Qed.
  Lemma flat_sym w D : ~ In Mirror w \/ ~ is_prism_d D -> not_flat D -> not_flat (sym_d w D).
  Proof.
    intros K H. destruct D; try exact I. destruct K as [K | K]; [| exfalso; apply K; exact I]. cbn [sym_d not_flat] in *.
    induction w as [| g w IH]; [exact H |]. cbn [syms_p fold_right].
    assert (g <> Mirror) as G by (intro G; apply K; left; exact G). specialize (IH (fun M => K (or_intror M))). intro Z. apply IH.
    rewrite !sym_p_sub, sym_p_cross in Z by exact G. exact (sym_p_zero g _ Z).
  Qed.
  Lemma hit_cons g w r : @sym_hit eps zs (g :: w) r = sym_hit [g] (sym_hit w r).
  Proof. destruct r as [[b [v |]] | k]; reflexivity. Qed.
  Theorem syms w D1 D2 x y x' y' : ~ ray_and_point D1 D2 -> not_flat D1 -> not_flat D2 -> (is_prism_d D1 \/ is_prism_d D2 -> ~ In Mirror w) ->
    builds eps zs D1 x -> builds eps zs D2 y -> builds eps zs (sym_d w D1) x' -> builds eps zs (sym_d w D2) y' ->
    shape_get_intersect x' y' = sym_hit w (shape_get_intersect x y).
  Proof.
    intros N F1 F2 K X Y. revert x' y'. induction w as [| g w IH]; intros x' y' X' Y'.
    - rewrite sym_d_nil in X', Y'. rewrite (builds_inj D1 x' x X' X), (builds_inj D2 y' y Y' Y). destruct (shape_get_intersect x y) as [[b [v |]] | k]; reflexivity.
    - destruct (builds_total (sym_d w D1)) as [x1 X1]. destruct (builds_total (sym_d w D2)) as [y1 Y1].
      assert (is_prism_d D1 \/ is_prism_d D2 -> ~ In Mirror w) as Kw by (intros H M; exact (K H (or_intror M))).
      rewrite hit_cons, <- (IH Kw x1 y1 X1 Y1). rewrite sym_d_cons in X', Y'.
      apply (sym1 eps zs g (sym_d w D1) (sym_d w D2) x1 y1 x' y'); try assumption.
      + rewrite ray_point_sym. exact N.
      + apply flat_sym; [| exact F1]. destruct D1; try (right; exact (fun H => H)). left. apply Kw. left. exact I.
      + apply flat_sym; [| exact F2]. destruct D2; try (right; exact (fun H => H)). left. apply Kw. right. exact I.
      + rewrite !is_prism_sym. intros H M. apply (K H). left. exact M.
  Qed.
End Words.

(** ---- a ray and a point: relabelling the axes changes the answer ---- *)
Section Refute.
  Context (eps : R) (zs : XR -> bool).
  Lemma n111 : 0 < norm (V 1 1 1) /\ norm (V 1 1 1) * norm (V 1 1 1) = 3.
  Proof.
    assert (V 1 1 1 <> vzero) as N by (intro C; injection C; lra). split; [exact (norm_nz _ N) |]. unfold norm. rewrite sqrt_sqrt; unfold vdot; simpl; lra.
  Qed.
  Lemma tq111 p g : g (V 0 0 0) = 0 -> g (PShape.unit (V 1 1 1)) = / norm (V 1 1 1) -> tq (V 0 0 0) (V 1 1 1) p g = g p * norm (V 1 1 1).
  Proof. intros H1 H2. unfold tq. rewrite H1, H2. pose proof n111. field. lra. Qed.
  Lemma r_hit x y : builds eps zs (DRay (V 0 0 0) (V 1 1 1) 2) x -> builds eps zs (DPoint (V 0 1 2) 0) y -> exists l, shape_get_intersect x y = Ok (true, Some l).
  Proof.
    cbn [builds]. intros X Y. assert (V 1 1 1 <> vzero) as N by (intro C; injection C; lra).
    apply (is_ray_inv eps zs _ _ _ x N) in X. rewrite is_point_inv in Y. subst. destruct n111 as [N1 N2].
    rewrite (ray_point_eval eps zs) by first [exact N | cbn; lra | eapply overlap_with_point; [reflexivity | apply rbox_nonan |];
      intros i Hi; destruct i as [| [[|[]|] | [|[]|] |]]; try discriminate Hi; cbn; unfold rlo, rup; destruct (Rlt_dec 0 1); simpl; lra].
    rewrite !tq111 by (try reflexivity; unfold PShape.unit, vscale; cbn [vx vy vz]; lra). cbn [vx vy vz]. rewrite (Rabs_pos_eq 2) by lra.
    destruct (Rle_dec _ 2) as [_ | K]; [| exfalso; apply K, Rabs_le; nra]. destruct (Rle_dec _ 2) as [_ | K]; [| exfalso; apply K, Rabs_le; nra].
    destruct (Rle_dec _ _) as [_ | K]; [eexists; reflexivity | exfalso; apply K; lra].
  Qed.
  Lemma r_miss x y : builds eps zs (DRay (V 0 0 0) (V 1 1 1) 2) x -> builds eps zs (DPoint (V 1 2 0) 0) y -> shape_get_intersect x y = Ok (false, None).
  Proof.
    cbn [builds]. intros X Y. assert (V 1 1 1 <> vzero) as N by (intro C; injection C; lra).
    apply (is_ray_inv eps zs _ _ _ x N) in X. rewrite is_point_inv in Y. subst. destruct n111 as [N1 N2].
    destruct (overlap (SRay (eray eps zs (V 0 0 0) (V 1 1 1) 2)) (SPoint (epoint eps zs (V 1 2 0) 0))) eqn:Eo; [| apply miss_of, Eo].
    rewrite (ray_point_eval eps zs) by first [exact N | exact Eo | cbn; lra].
    rewrite !tq111 by (try reflexivity; unfold PShape.unit, vscale; cbn [vx vy vz]; lra). cbn [vx vy vz]. rewrite (Rabs_pos_eq 2) by lra.
    destruct (Rle_dec _ 2) as [_ | K]; [| reflexivity]. destruct (Rle_dec (Rabs (2 * norm (V 1 1 1) - 0 * norm (V 1 1 1))) 2) as [K | _]; [| reflexivity].
    exfalso. apply Rabs_le_inv in K. nra.
  Qed.
  Lemma syms_refuted : ~ forall w D1 D2 x y x' y', (is_prism_d D1 \/ is_prism_d D2 -> ~ In Mirror w) ->
    builds eps zs D1 x -> builds eps zs D2 y -> builds eps zs (sym_d w D1) x' -> builds eps zs (sym_d w D2) y' ->
    shape_get_intersect x' y' = sym_hit w (shape_get_intersect x y).
  Proof.
    intro H. destruct (builds_total eps zs (DRay (V 0 0 0) (V 1 1 1) 2)) as [x X]. destruct (builds_total eps zs (DPoint (V 0 1 2) 0)) as [y Y].
    destruct (builds_total eps zs (DPoint (V 1 2 0) 0)) as [y' Y']. assert (K : is_prism_d (DRay (V 0 0 0) (V 1 1 1) 2) \/ is_prism_d (DPoint (V 0 1 2) 0) -> ~ In Mirror [Cyc]) by (intros [[] | []]).
    specialize (H [Cyc] _ _ x y x y' K X Y X Y'). destruct (r_hit x y X Y) as [l Hl]. rewrite (r_miss x y' X Y'), Hl in H. discriminate H.
  Qed.
End Refute.
