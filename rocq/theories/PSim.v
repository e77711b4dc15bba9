(** PSim.v — get_intersect commutes with moving and enlarging (C95). *)
From Coq Require Import Reals List ZArith NArith Bool Lra Lia.
Import ListNotations.
From Verif Require Import Base Num Vec Mat Bound Shape Intersect Exact SpecMat SpecGeom SpecBound SpecShape SpecBuild SpecSim ExactFacts Order PMat PBound PInter PBuild.
Local Open Scope R_scope.

(** ---- scalars ---- *)
Definition xs (k : R) (x : XR) : XR := match x with Fin r => Fin (k * r) | _ => x end.
Lemma inf_sign_pos k r : 0 < k -> inf_sign (k * r) = inf_sign r.
Proof.
  intro Hk. unfold inf_sign. destruct (Rlt_dec 0 r).
  - destruct (Rlt_dec 0 (k * r)); [reflexivity | exfalso; nra].
  - destruct (Rlt_dec 0 (k * r)); [exfalso; nra |]. destruct (Rlt_dec r 0), (Rlt_dec (k * r) 0); try reflexivity; exfalso; nra.
Qed.
Lemma xs_add k a b : xadd (xs k a) (xs k b) = xs k (xadd a b).
Proof. destruct a, b; cbn; try reflexivity. f_equal. ring. Qed.
Lemma xs_neg k a : xneg (xs k a) = xs k (xneg a).
Proof. destruct a; cbn; try reflexivity. f_equal. ring. Qed.
Lemma xs_sub k a b : xsub (xs k a) (xs k b) = xs k (xsub a b).
Proof. destruct a, b; cbn; try reflexivity. f_equal. ring. Qed.
Lemma xs_mul j k a b : 0 < j -> 0 < k -> xmul (xs j a) (xs k b) = xs (j * k) (xmul a b).
Proof.
  intros Hj Hk. assert (forall r, xs (j * k) (inf_sign r) = inf_sign r) as Q.
  { intro r. unfold inf_sign. destruct (Rlt_dec 0 r); [reflexivity |]. destruct (Rlt_dec r 0); reflexivity. }
  assert (forall u v : R, - (u * v) = u * - v) as Z by (intros; ring).
  destruct a, b; cbn; rewrite ?Z, ?inf_sign_pos, ?Q by assumption; try reflexivity. f_equal. ring.
Qed.
Lemma xs_mul_r k a b : 0 < k -> xmul a (xs k b) = xs k (xmul a b).
Proof. intro Hk. pose proof (xs_mul 1 k a b Rlt_0_1 Hk) as H. replace (1 * k) with k in H by ring. rewrite <- H. f_equal. destruct a; cbn; try reflexivity. f_equal. ring. Qed.
Lemma xs_mul_l k a b : 0 < k -> xmul (xs k a) b = xs k (xmul a b).
Proof. intro Hk. pose proof (xs_mul k 1 a b Hk Rlt_0_1) as H. replace (k * 1) with k in H by ring. rewrite <- H. f_equal. destruct b; cbn; try reflexivity. f_equal. ring. Qed.
Lemma xs_xs j k a : xs j (xs k a) = xs (j * k) a.
Proof. destruct a; cbn; try reflexivity. f_equal. ring. Qed.
Lemma xs_1 a : xs 1 a = a.
Proof. destruct a; cbn; try reflexivity. f_equal. ring. Qed.
Lemma xs_sqrt k a : 0 < k -> xsqrt (xs (k * k) a) = xs k (xsqrt a).
Proof.
  intro Hk. assert (0 < k * k) as Hkk by nra. assert (sqrt (k * k) = k) as Q by (apply sqrt_square; lra). revert Hkk Q. generalize (k * k) as j. intros j Hj Q.
  destruct a; cbn; try reflexivity. destruct (Rlt_dec r 0), (Rlt_dec (j * r) 0); cbn; try reflexivity; try (exfalso; nra).
  f_equal. rewrite sqrt_mult_alt, Q by lra. reflexivity.
Qed.
Lemma xs_cmp k a b : 0 < k -> xcmp (xs k a) (xs k b) = xcmp a b.
Proof.
  intro Hk. destruct a, b; cbn; try reflexivity. f_equal.
  destruct (Rlt_dec r r0), (Rlt_dec (k * r) (k * r0)); try reflexivity; try (exfalso; nra).
  destruct (Rlt_dec r0 r), (Rlt_dec (k * r0) (k * r)); try reflexivity; exfalso; nra.
Qed.
Lemma xs_div1 zs k a b : 0 < k -> b <> Fin 0 -> xdiv zs a (xs k b) = xs (/ k) (xdiv zs a b).
Proof.
  intros Hk Hb. assert (forall r, xs (/ k) (inf_sign r) = inf_sign r) as Q.
  { intro r. unfold inf_sign. destruct (Rlt_dec 0 r); [reflexivity |]. destruct (Rlt_dec r 0); reflexivity. }
  assert (forall u v : R, - (u * v) = u * - v) as Z by (intros; ring).
  destruct a, b; cbn; rewrite ?Z, ?inf_sign_pos by assumption;
    try (destruct (Req_EM_T r0 0); [subst; contradiction |]; destruct (Req_EM_T (k * r0) 0); [exfalso; nra |]);
    try (destruct (Req_EM_T r 0); [subst; contradiction |]; destruct (Req_EM_T (k * r) 0); [exfalso; nra |]);
    cbn; rewrite ?Q; try reflexivity.
  - f_equal. field. split; lra.
  - f_equal. ring.
  - f_equal. ring.
Qed.
Lemma xs_div2 zs k a b : 0 < k -> b <> Fin 0 -> xdiv zs (xs k a) b = xs k (xdiv zs a b).
Proof.
  intros Hk Hb. assert (forall r, xs k (inf_sign r) = inf_sign r) as Q.
  { intro r. unfold inf_sign. destruct (Rlt_dec 0 r); [reflexivity |]. destruct (Rlt_dec r 0); reflexivity. }
  destruct a, b; cbn; 
    try (destruct (Req_EM_T r0 0); [subst; contradiction |]);
    try (destruct (Req_EM_T r 0); [subst; contradiction |]);
    cbn; rewrite ?Q; try reflexivity.
  - f_equal. field. assumption.
  - f_equal. ring.
  - f_equal. ring.
Qed.
Lemma xs_div zs j k a b : 0 < j -> 0 < k -> b <> Fin 0 -> xdiv zs (xs j a) (xs k b) = xs (j * / k) (xdiv zs a b).
Proof. intros Hj Hk Hb. rewrite xs_div1, xs_div2, xs_xs by assumption. f_equal. ring. Qed.
(** positions *)
Notation xh := moved_x.
Lemma xh_sub s t a b : xsub (xh s t a) (xh s t b) = xs s (xsub a b).
Proof. destruct a, b; cbn; try reflexivity. f_equal. ring. Qed.
Lemma xh_add s t a b : xadd (xh s t a) (xs s b) = xh s t (xadd a b).
Proof. destruct a, b; cbn; try reflexivity. f_equal. ring. Qed.
Lemma xh_add' s t a b : xadd (xs s b) (xh s t a) = xh s t (xadd b a).
Proof. destruct a, b; cbn; try reflexivity. f_equal. ring. Qed.
Lemma xh_minus s t a b : xsub (xh s t a) (xs s b) = xh s t (xsub a b).
Proof. destruct a, b; cbn; try reflexivity. f_equal. ring. Qed.
Lemma xh_cmp s t a b : 0 < s -> xcmp (xh s t a) (xh s t b) = xcmp a b.
Proof.
  intro Hk. destruct a, b; cbn; try reflexivity. f_equal.
  destruct (Rlt_dec r r0), (Rlt_dec (s * r + t) (s * r0 + t)); try reflexivity; try (exfalso; nra).
  destruct (Rlt_dec r0 r), (Rlt_dec (s * r0 + t) (s * r + t)); try reflexivity; exfalso; nra.
Qed.

(** ---- vector operations in any arithmetic ---- *)
Section Any.
  Context {Nm : Num}.
  Local Open Scope num_scope.
  Definition vdotn (a b : mat3x1 Nm) : Nm := c0 a * c0 b + c1 a * c1 b + c2 a * c2 b.
  Definition vmag (a : mat3x1 Nm) : Nm := nsqrt Nm (npowi2 (c0 a) + npowi2 (c1 a) + npowi2 (c2 a)).
  Lemma minus_e (a b : mat3x1 Nm) : mat3x1_minus a b = Some (vminus a b). Proof. destruct a as [[]], b as [[]]. reflexivity. Qed.
  Lemma plus_e (a b : mat3x1 Nm) : mat3x1_plus a b = Some (vplus a b). Proof. destruct a as [[]], b as [[]]. reflexivity. Qed.
  Lemma cross_e (a b : mat3x1 Nm) : mat3x1_cross a b = Some (vcrossn a b). Proof. destruct a as [[]], b as [[]]. reflexivity. Qed.
  Lemma dot_e (a b : mat3x1 Nm) : mat3x1_dot a b = Some (vdotn a b). Proof. destruct a as [[]], b as [[]]. reflexivity. Qed.
  Lemma scale_e (a : mat3x1 Nm) (k : Nm) : mat3x1_scale a k = Some (vtimes a k). Proof. destruct a as [[]]. reflexivity. Qed.
  Lemma mag_e (a : mat3x1 Nm) : mat3x1_magnitude a = Some (vmag a). Proof. destruct a as [[]]. reflexivity. Qed.
  Definition vdivn (a b : mat3x1 Nm) : mat3x1 Nm := M3x1 (A3 (c0 a / c0 b) (c1 a / c1 b) (c2 a / c2 b)).
  Lemma div_e (a b : mat3x1 Nm) : mat3x1_div a b = Some (vdivn a b). Proof. destruct a as [[]], b as [[]]. reflexivity. Qed.
  Lemma index0 (a : mat3x1 Nm) : mat3x1_index a 0 = Ok (c0 a). Proof. destruct a as [[]]. reflexivity. Qed.
  Lemma index1 (a : mat3x1 Nm) : mat3x1_index a 1 = Ok (c1 a). Proof. destruct a as [[]]. reflexivity. Qed.
  Lemma index2 (a : mat3x1 Nm) : mat3x1_index a 2 = Ok (c2 a). Proof. destruct a as [[]]. reflexivity. Qed.
  Lemma along_e (d : mat3x1 Nm) t o : along d t o = Ok (vplus (vtimes d t) o). Proof. destruct d as [[]], o as [[]]. reflexivity. Qed.
  Lemma norm_e (d : mat3x1 Nm) : normalize_unwrap d = Ok (nrm d). Proof. destruct d as [[]]. reflexivity. Qed.
  Lemma vec0 (v : mat3x1 Nm) : vec_at (vec_data v) 0 = Ok v. Proof. destruct v as [[]]. reflexivity. Qed.
  Lemma vec0' (v : mat3x1 Nm) l : vec_at (vec_data v ++ l) 0 = Ok v. Proof. destruct v as [[]]. reflexivity. Qed.
  Lemma vec3' (v w : mat3x1 Nm) : vec_at (vec_data v ++ vec_data w) 3 = Ok w. Proof. destruct v as [[]], w as [[]]. reflexivity. Qed.
  Lemma idx3' (v : mat3x1 Nm) x : idx (vec_data v ++ [x]) 3 = Ok x. Proof. destruct v as [[]]. reflexivity. Qed.
End Any.
Ltac pure := rewrite ?minus_e, ?plus_e, ?cross_e, ?dot_e, ?scale_e, ?mag_e, ?along_e, ?norm_e, ?div_e, ?index0, ?index1, ?index2; cbn [unwrap bind].
Ltac pures := repeat (progress pure).

(** ---- vectors ---- *)
Section Sim.
  Context (eps : R) (zs : XR -> bool) (s : R) (t : V3) (Hs : 0 < s).
  Notation E := (Exact eps zs).
  Definition vs (k : R) (v : mat3x1 E) : mat3x1 E := match v with M3x1 (A3 x y z) => @M3x1 E (@A3 E (xs k x) (xs k y) (xs k z)) end.
  Notation vh := (@moved_v eps zs s t).
  Lemma ss : 0 < s * s. Proof. nra. Qed.
  Ltac vec3 := apply (f_equal (@M3x1 E)), (f_equal3 (@A3 E)).
  Lemma vs_vs j k (a : mat3x1 E) : vs j (vs k a) = vs (j * k) a.
  Proof. destruct a as [[x y z]]. unfold vs. now rewrite !xs_xs. Qed.
  Lemma vs_1 (a : mat3x1 E) : vs 1 a = a.
  Proof. destruct a as [[x y z]]. unfold vs. now rewrite !xs_1. Qed.
  Lemma h_minus (a b : mat3x1 E) : vminus (vh a) (vh b) = vs s (vminus a b).
  Proof. destruct a as [[a0 a1 a2]], b as [[b0 b1 b2]]. vec3; apply xh_sub. Qed.
  Lemma h_plus (a b : mat3x1 E) : vplus (vh a) (vs s b) = vh (vplus a b).
  Proof. destruct a as [[a0 a1 a2]], b as [[b0 b1 b2]]. vec3; apply xh_add. Qed.
  Lemma h_plus' (a b : mat3x1 E) : vplus (vs s b) (vh a) = vh (vplus b a).
  Proof. destruct a as [[a0 a1 a2]], b as [[b0 b1 b2]]. vec3; apply xh_add'. Qed.
  Lemma s_minus k (a b : mat3x1 E) : vminus (vs k a) (vs k b) = vs k (vminus a b).
  Proof. destruct a as [[a0 a1 a2]], b as [[b0 b1 b2]]. vec3; apply xs_sub. Qed.
  Lemma s_dot j k (a b : mat3x1 E) : 0 < j -> 0 < k -> vdotn (vs j a) (vs k b) = xs (j * k) (vdotn a b).
  Proof. intros. destruct a as [[a0 a1 a2]], b as [[b0 b1 b2]]. unfold vdotn, vcrossn, vtimes. cbn [c0 c1 c2 vs nmul nadd nsub Exact]. rewrite !xs_mul, !xs_add by assumption. reflexivity. Qed.
  Lemma s_dot_l k (a b : mat3x1 E) : 0 < k -> vdotn (vs k a) b = xs k (vdotn a b).
  Proof. intros. destruct a as [[a0 a1 a2]], b as [[b0 b1 b2]]. unfold vdotn, vcrossn, vtimes. cbn [c0 c1 c2 vs nmul nadd nsub Exact]. rewrite !xs_mul_l, !xs_add by assumption. reflexivity. Qed.
  Lemma s_cross j k (a b : mat3x1 E) : 0 < j -> 0 < k -> vcrossn (vs j a) (vs k b) = vs (j * k) (vcrossn a b).
  Proof. intros. destruct a as [[a0 a1 a2]], b as [[b0 b1 b2]]. unfold vdotn, vcrossn, vtimes. cbn [c0 c1 c2 vs nmul nadd nsub Exact]. rewrite !xs_mul, !xs_sub by assumption. reflexivity. Qed.
  Lemma s_cross_l k (a b : mat3x1 E) : 0 < k -> vcrossn (vs k a) b = vs k (vcrossn a b).
  Proof. intros. destruct a as [[a0 a1 a2]], b as [[b0 b1 b2]]. unfold vdotn, vcrossn, vtimes. cbn [c0 c1 c2 vs nmul nadd nsub Exact]. rewrite !xs_mul_l, !xs_sub by assumption. reflexivity. Qed.
  Lemma s_cross_r k (a b : mat3x1 E) : 0 < k -> vcrossn a (vs k b) = vs k (vcrossn a b).
  Proof. intros. destruct a as [[a0 a1 a2]], b as [[b0 b1 b2]]. unfold vdotn, vcrossn, vtimes. cbn [c0 c1 c2 vs nmul nadd nsub Exact]. rewrite !xs_mul_r, !xs_sub by assumption. reflexivity. Qed.
  Lemma s_times k (a : mat3x1 E) (x : E) : 0 < k -> vtimes a (xs k x : E) = vs k (vtimes a x).
  Proof. intros. destruct a as [[a0 a1 a2]]. unfold vdotn, vcrossn, vtimes. cbn [c0 c1 c2 vs nmul nadd nsub Exact]. rewrite !xs_mul_r by assumption. reflexivity. Qed.
  Lemma s_times_l k (a : mat3x1 E) (x : E) : 0 < k -> vtimes (vs k a) x = vs k (vtimes a x).
  Proof. intros. destruct a as [[a0 a1 a2]]. unfold vdotn, vcrossn, vtimes. cbn [c0 c1 c2 vs nmul nadd nsub Exact]. rewrite !xs_mul_l by assumption. reflexivity. Qed.
  Lemma s_mag k (a : mat3x1 E) : 0 < k -> vmag (vs k a) = xs k (vmag a).
  Proof.
    intros Hk. destruct a as [[a0 a1 a2]]. unfold vmag, npowi2. cbn [c0 c1 c2 vs]. cbn [nmul nadd nsqrt Exact].
    rewrite !xs_mul, !xs_add by assumption. apply xs_sqrt. exact Hk.
  Qed.
  Lemma mag_zero (a : mat3x1 E) : vmag a = Fin 0 -> a = ev eps zs vzero.
  Proof.
    destruct a as [[a0 a1 a2]]. unfold vmag, npowi2. cbn [c0 c1 c2]. cbn [nmul nadd nsqrt Exact]. intro H.
    destruct a0 as [x | | |], a1 as [y | | |], a2 as [z | | |]; try discriminate H.
    change (nsqrt E (Fin (vdot (V x y z) (V x y z))) = Fin 0) in H. rewrite nsqrt_fin in H by apply vdot_pos. injection H as H.
    change (norm (V x y z) = 0) in H. apply norm_zero in H. injection H as -> -> ->. reflexivity.
  Qed.
  Lemma s_nrm k (a : mat3x1 E) : 0 < k -> nrm (vs k a) = nrm a.
  Proof.
    intro Hk. pose proof (s_mag k a Hk) as M. assert (forall v : mat3x1 E, nrm v = M3x1 (A3 (ndiv E (c0 v) (vmag v)) (ndiv E (c1 v) (vmag v)) (ndiv E (c2 v) (vmag v)))) as Q.
    { intros [[x y z]]. reflexivity. }
    rewrite !Q, M. destruct (vmag a) as [m | | |] eqn:X.
    - destruct (Req_EM_T m 0) as [-> | Z].
      + apply mag_zero in X as ->. cbn -[Req_EM_T Rmult]. rewrite !Rmult_0_r. reflexivity.
      + destruct a as [[x y z]]. cbn [c0 c1 c2 vs ndiv Exact]. vec3; (rewrite xs_div; [| assumption | assumption | congruence]);
        rewrite Rinv_r by lra; apply xs_1.
    - destruct a as [[x y z]]. destruct x, y, z; cbn; rewrite ?Rmult_0_r; reflexivity.
    - destruct a as [[x y z]]. destruct x, y, z; cbn; rewrite ?Rmult_0_r; reflexivity.
    - destruct a as [[x y z]]. destruct x, y, z; cbn; rewrite ?Rmult_0_r; reflexivity.
  Qed.

  (** ---- comparisons ---- *)
  Lemma c_gt k (x y : E) : 0 < k -> @ngt E (xs k x) (xs k y) = @ngt E x y.
  Proof. intro Hk. unfold ngt. cbn [ncmp Exact]. now rewrite xs_cmp. Qed.
  Lemma c_lt k (x y : E) : 0 < k -> @nlt E (xs k x) (xs k y) = @nlt E x y.
  Proof. intro Hk. unfold nlt. cbn [ncmp Exact]. now rewrite xs_cmp. Qed.
  Lemma cmp0 k (x : XR) : 0 < k -> xcmp (xs k x) (Fin 0) = xcmp x (Fin 0).
  Proof. intro Hk. rewrite <- (xs_cmp k x (Fin 0) Hk). cbn [xs]. rewrite Rmult_0_r. reflexivity. Qed.
  Lemma c_gt0 k (x : E) : 0 < k -> @ngt E (xs k x) n0 = @ngt E x n0.
  Proof. intro Hk. unfold ngt. change (@n0 E) with (Fin 0). cbn [ncmp Exact]. now rewrite cmp0. Qed.
  Lemma c_lt0 k (x : E) : 0 < k -> @nlt E (xs k x) n0 = @nlt E x n0.
  Proof. intro Hk. unfold nlt. change (@n0 E) with (Fin 0). cbn [ncmp Exact]. now rewrite cmp0. Qed.
  Lemma c_ge0 k (x : E) : 0 < k -> @nge E (xs k x) n0 = @nge E x n0.
  Proof. intro Hk. unfold nge. change (@n0 E) with (Fin 0). cbn [ncmp Exact]. now rewrite cmp0. Qed.
  Lemma c_eq0 k (x : E) : 0 < k -> @neqb E (xs k x) n0 = @neqb E x n0.
  Proof. intro Hk. unfold neqb. change (@n0 E) with (Fin 0). cbn [ncmp Exact]. now rewrite cmp0. Qed.
  Lemma c_within k (w x y : E) : 0 < k -> @Shape.within E (xs k w) (xs k x) (xs k y) = @Shape.within E w x y.
  Proof. intro Hk. unfold Shape.within, nge, nle. cbn [nadd nsub ncmp Exact]. now rewrite xs_add, xs_sub, !xs_cmp. Qed.
  Lemma c_within0 k (w x : E) : 0 < k -> @Shape.within E (xs k w) (xs k x) n0 = @Shape.within E w x n0.
  Proof. intro Hk. rewrite <- (c_within k w x n0 Hk). change (@n0 E) with (Fin 0). cbn [xs]. rewrite Rmult_0_r. reflexivity. Qed.
  Lemma c_within_h k (w x y : E) : @Shape.within E (xs s w) (moved_x s k x) (moved_x s k y) = @Shape.within E w x y.
  Proof. unfold Shape.within, nge, nle. cbn [nadd nsub ncmp Exact]. now rewrite xh_add, xh_minus, !xh_cmp. Qed.

  (** ---- shapes ---- *)
  Definition mb (b : aabb E) : aabb E := match b with AABB (A3 x y z) (A3 u v w) =>
    AABB (A3 (xh s (vx t) x) (xh s (vy t) y) (xh s (vz t) z)) (A3 (xh s (vx t) u) (xh s (vy t) v) (xh s (vz t) w)) end.
  Definition ma (f : mat3x1 E -> mat3x1 E) (a : arr3 (mat3x1 E)) : arr3 (mat3x1 E) := match a with A3 x y z => A3 (f x) (f y) (f z) end.
  Definition msh (x : shape E) : shape E :=
    match x with
    | SPoint (MkPoint o b w) => SPoint (@MkPoint E (vh o) (mb b) (xs s w))
    | SRay (MkRay o d b w) => SRay (@MkRay E (vh o) d (mb b) (xs s w))
    | SSphere (MkSphere o r b w) => SSphere (@MkSphere E (vh o) (xs s r) (mb b) (xs s w))
    | SPlane (MkPlane o n b w) => SPlane (@MkPlane E (vh o) n (mb b) (xs s w))
    | SLine (MkLine p q b w) => SLine (@MkLine E (vh p) (vh q) (mb b) (xs s w))
    | SBox (MkBox o r b w) => SBox (@MkBox E (vh o) (xs s r) (mb b) (xs s w))
    | SPrism (MkPrism p q h b w) => SPrism (@MkPrism E (ma vh p) (ma vh q) (vs s h) (mb b) (xs s w))
    end.
  Lemma mb_apart (x y : aabb E) i : (i < 3)%N -> apart (mb x) (mb y) i = apart x y i.
  Proof.
    intro Hi. destruct x as [[x0 x1 x2] [u0 u1 u2]], y as [[y0 y1 y2] [w0 w1 w2]]. unfold apart, ngt, nlt.
    cases3 i Hi; cbn [lo up mb b_lower b_upper comps3 ncmp Exact]; rewrite !xh_cmp by exact Hs; reflexivity.
  Qed.
  Lemma mb_bound x : shape_get_bound (msh x) = BBox (mb match shape_get_bound x with BBox b => b | BSphere => whole_any end).
  Proof. destruct x as [[]|[]|[]|[]|[]|[]|[]]; reflexivity. Qed.
  Lemma m_overlap x y : overlap (msh x) (msh y) = overlap x y.
  Proof.
    unfold overlap. rewrite !mb_bound. unfold shape_get_bound. rewrite !ibb, !intersect_eval, !mb_apart by reflexivity. reflexivity.
  Qed.
  Notation mh := (@moved_hit eps zs s t).
  Lemma mh_if (c : bool) x y : mh (if c then x else y) = if c then mh x else mh y. Proof. destruct c; reflexivity. Qed.

  Lemma sss : 0 < s * s * s. Proof. pose proof ss. nra. Qed.
  Ltac pos := exact Hs || exact ss || exact sss.
  Ltac xpush := repeat first [rewrite xs_mul by pos | rewrite xs_neg | rewrite xs_add | rewrite xs_sub | rewrite xs_sqrt by pos
    | rewrite c_gt0 by pos | rewrite c_lt0 by pos | rewrite c_ge0 by pos | rewrite c_eq0 by pos | rewrite c_gt by pos | rewrite c_lt by pos | rewrite c_within by pos | rewrite c_within0 by pos].
  (** ---- kernels that need nothing ---- *)
  Lemma k_ray_sphere (o d c : mat3x1 E) (B G : aabb E) (w r g : E) : ray_sphere (@MkRay E (vh o) d (mb B) (xs s w)) (shape_get_shape_data (msh (SSphere (MkSphere c r G g)))) =
    mh (ray_sphere (MkRay o d B w) (shape_get_shape_data (SSphere (MkSphere c r G g)))).
  Proof.
    unfold ray_sphere. cbn [shape_get_shape_data msh sp_ori sp_radius ray_dir ray_ori]. rewrite !vec0', !idx3'. cbn [bind]. pures.
    rewrite h_minus, s_dot_l, s_dot by exact Hs. set (v := vminus o c). set (bb := vdotn v d). set (rr := vdotn v v).
    cbn [nmul nsub nneg nsqrt nadd Exact]. xpush. rewrite mh_if. destruct (_ && _)%bool; [reflexivity |]. rewrite mh_if. destruct (nlt _ _); [reflexivity |].
    cbn [moved_hit]. rewrite <- h_plus'. do 4 f_equal.
    rewrite <- s_times by exact Hs. f_equal. destruct (nlt _ n0); [reflexivity |]. destruct (nlt _ n0); [reflexivity |]. destruct (nlt _ _); reflexivity.
  Qed.

  Lemma k_point_point (o q : mat3x1 E) (B G : aabb E) (w g : E) :
    point_point (@MkPoint E (vh o) (mb B) (xs s w)) (shape_get_shape_data (msh (SPoint (MkPoint q G g)))) =
    mh (point_point (MkPoint o B w) (shape_get_shape_data (SPoint (MkPoint q G g)))).
  Proof.
    destruct o as [[x y z]], q as [[a b c]]. unfold point_point. cbn [shape_get_shape_data msh pt_ori pt_vic moved_v vec_data list3 v3x1 mat3x1_index get3 idx nth_error bind].
    rewrite !c_within_h, mh_if. destruct (_ || _)%bool; reflexivity.
  Qed.
  Lemma k_sphere_point (o q : mat3x1 E) (B G : aabb E) (r w g : E) :
    sphere_point (@MkSphere E (vh o) (xs s r) (mb B) (xs s w)) (shape_get_shape_data (msh (SPoint (MkPoint q G g)))) =
    mh (sphere_point (MkSphere o r B w) (shape_get_shape_data (SPoint (MkPoint q G g)))).
  Proof.
    unfold sphere_point. cbn [shape_get_shape_data msh pt_ori sp_ori sp_radius]. rewrite !vec0. cbn [bind]. pures. rewrite h_minus.
    destruct (vminus q o) as [[x y z]]. cbn [vs seq for_ret].
    rewrite !index0, !index1, !index2. cbn [bind c0 c1 c2]. rewrite !c_gt by exact Hs.
    destruct (ngt x r); [reflexivity |]. cbn [bind]. destruct (ngt y r); [reflexivity |]. cbn [bind]. destruct (ngt z r); reflexivity.
  Qed.

  (** ---- planes: the normal is finite or NaN ---- *)
  Definition nanv : mat3x1 E := @M3x1 E (@A3 E NaN NaN NaN).
  Notation evE := (ev eps zs).
  Definition okn (n o q : mat3x1 E) : Prop := n = nanv \/ exists u x y, n = evE u /\ o = evE x /\ q = evE y.
  Lemma dot_nan v : vdotn v nanv = NaN.
  Proof. destruct v as [[x y z]]. unfold vdotn, nanv. cbn [c0 c1 c2]. cbn [nmul nadd Exact]. destruct x, y, z; reflexivity. Qed.
  Lemma nan_dot v : vdotn nanv v = NaN.
  Proof. destruct v as [[x y z]]. unfold vdotn, nanv. cbn [c0 c1 c2]. cbn [nmul nadd Exact]. destruct x, y, z; reflexivity. Qed.
  Lemma okn_sub n o q : okn n o q -> nsub E (vdotn (vh o) n) (vdotn n (vh q)) = xs s (nsub E (vdotn o n) (vdotn n q)).
  Proof.
    intros [-> | [u [x [y [-> [-> ->]]]]]]; [rewrite !dot_nan; reflexivity |]. unfold vdotn. cbn. f_equal. ring.
  Qed.
  Lemma okn_sub' n o q : okn n o q -> nsub E (vdotn n (vh o)) (vdotn n (vh q)) = xs s (nsub E (vdotn n o) (vdotn n q)).
  Proof.
    intros [-> | [u [x [y [-> [-> ->]]]]]]; [rewrite !nan_dot; reflexivity |]. unfold vdotn. cbn. f_equal. ring.
  Qed.
  Lemma okn_eq n o q : okn n o q -> neqb (vdotn (vh q) n) (vdotn (vh o) n) = neqb (vdotn q n) (vdotn o n).
  Proof.
    intros [-> | [u [x [y [-> [-> ->]]]]]]; [rewrite !dot_nan; reflexivity |].
    change (vdotn (vh (evE y)) (evE u)) with (Fin (vdot (vadd (vscale s y) t) u) : E).
    change (vdotn (vh (evE x)) (evE u)) with (Fin (vdot (vadd (vscale s x) t) u) : E).
    change (vdotn (evE y) (evE u)) with (Fin (vdot y u) : E). change (vdotn (evE x) (evE u)) with (Fin (vdot x u) : E). rewrite !neqb_fin.
    assert (vdot (vadd (vscale s y) t) u - vdot (vadd (vscale s x) t) u = s * (vdot y u - vdot x u)) as Q by (unfold vdot, vadd, vscale; cbn; ring).
    destruct (Req_EM_T (vdot y u) (vdot x u)), (Req_EM_T (vdot (vadd (vscale s y) t) u) (vdot (vadd (vscale s x) t) u)); try reflexivity; exfalso; nra.
  Qed.
  Lemma nan_at v d : vplus (vtimes d (NaN : E)) v = nanv.
  Proof. destruct v as [[x y z]], d as [[a b c]]. unfold vplus, vtimes, nanv. cbn [c0 c1 c2]. cbn [nmul nadd Exact]. destruct x, y, z, a, b, c; reflexivity. Qed.
  Lemma neqb0 (x : E) : neqb x n0 = false -> x <> Fin 0.
  Proof. intros H ->. change (@n0 E) with (Fin 0 : E) in H. rewrite neqb_fin in H. destruct (Req_EM_T 0 0); [discriminate H | contradiction]. Qed.
  Lemma k_ray_plane (o d q n : mat3x1 E) (B B' G G' : aabb E) (w w' g g' : E) : okn n q o ->
    ray_plane (@MkRay E (vh o) d B' w') (shape_get_shape_data (SPlane (@MkPlane E (vh q) n G' g'))) =
    mh (ray_plane (MkRay o d B w) (shape_get_shape_data (SPlane (MkPlane q n G g)))).
  Proof.
    intro Ok. unfold ray_plane. cbn [shape_get_shape_data pl_offset pl_normal ray_dir ray_ori]. rewrite !vec0', !vec3'. cbn [bind]. pures.
    rewrite (okn_sub n q o Ok). rewrite (okn_eq n o q).
    2:{ destruct Ok as [Ok | [u [x [y [E1 [E2 E3]]]]]]; [left; exact Ok | right; exists u, y, x; auto]. }
    rewrite mh_if. destruct (neqb (vdotn n d) n0) eqn:Z; [rewrite mh_if; destruct (neqb _ _); reflexivity |]. apply neqb0 in Z.
    rewrite mh_if. destruct (ngt (vdotn n d) n0); [reflexivity |]. cbn [ndiv Exact]. rewrite xs_div2, c_lt0 by assumption.
    rewrite mh_if. destruct (nlt _ n0); [reflexivity |]. cbn [moved_hit]. rewrite <- h_plus', s_times by exact Hs. reflexivity.
  Qed.
  Lemma k_sphere_plane (o q n : mat3x1 E) (B B' G G' : aabb E) (r w w' g g' : E) : okn n o q ->
    sphere_plane (@MkSphere E (vh o) (xs s r) B' w') (shape_get_shape_data (SPlane (@MkPlane E (vh q) n G' g'))) =
    mh (sphere_plane (MkSphere o r B w) (shape_get_shape_data (SPlane (MkPlane q n G g)))).
  Proof.
    intro Ok. unfold sphere_plane. cbn [shape_get_shape_data pl_offset pl_normal sp_ori sp_radius]. rewrite !vec0', !vec3'. cbn [bind]. pures.
    rewrite (okn_sub' n o q Ok). cbn [nneg Exact]. xpush. rewrite mh_if. destruct (ngt _ _); [reflexivity |]. cbn [moved_hit]. rewrite <- h_plus', s_times by exact Hs. reflexivity.
  Qed.
  Lemma k_plane_point (o n q : mat3x1 E) (B G : aabb E) (w g : E) : okn n o q ->
    plane_point (@MkPlane E (vh o) n (mb B) (xs s w)) (shape_get_shape_data (msh (SPoint (MkPoint q G g)))) =
    mh (plane_point (MkPlane o n B w) (shape_get_shape_data (SPoint (MkPoint q G g)))).
  Proof.
    intro Ok. unfold plane_point. cbn [shape_get_shape_data msh pl_offset pl_normal pl_vic pt_ori]. rewrite !vec0. cbn [bind]. pures.
    rewrite (okn_sub' n o q Ok). xpush. rewrite mh_if. destruct (negb _); reflexivity.
  Qed.

  (** ---- spheres ---- *)
  Lemma ev_mag u : vmag (evE u) = Fin (norm u).
  Proof. pose proof (ev_magnitude eps zs u) as H. rewrite mag_e in H. exact (f_equal (fun o => match o with Some x => x | None => NaN end) H). Qed.
  Lemma div0_bad (x : R) (y : XR) : y = Fin 0 -> vtimes (evE vzero) (xdiv zs (Fin x) y : E) = nanv.
  Proof.
    intros ->. unfold vtimes, nanv. cbn [c0 c1 c2 ev vzero vx vy vz nmul Exact]. cbn [xdiv]. destruct (Req_EM_T 0 0); [| contradiction].
    assert (inf_sign 0 = NaN) as I by (unfold inf_sign; destruct (Rlt_dec 0 0); [exfalso; lra | reflexivity]).
    destruct (Req_EM_T x 0); [reflexivity |]. destruct (zs (Fin x)); cbn; rewrite ?Ropp_0, I; reflexivity.
  Qed.
  Lemma k_sphere_sphere (c q : V3) (B G : aabb E) (r p : R) (w g : E) :
    sphere_sphere (@MkSphere E (vh (evE c)) (Fin (s * r)) (mb B) (xs s w)) (shape_get_shape_data (msh (SSphere (MkSphere (evE q) (Fin p : E) G g)))) =
    mh (sphere_sphere (MkSphere (evE c) (Fin r : E) B w) (shape_get_shape_data (SSphere (MkSphere (evE q) (Fin p : E) G g)))).
  Proof.
    unfold sphere_sphere. cbn [shape_get_shape_data msh sp_ori sp_radius]. rewrite !vec0', !idx3'. cbn [bind]. pures.
    rewrite h_minus, s_mag by exact Hs. change (Fin (s * r)) with (xs s (Fin r)). cbn [nadd Exact]. rewrite !xs_add, c_gt by exact Hs.
    rewrite mh_if. destruct (ngt _ _) eqn:Gt; [reflexivity |]. cbn [moved_hit]. do 3 f_equal.
    rewrite <- h_plus. f_equal. rewrite s_times_l by exact Hs. f_equal. cbn [ndiv Exact].
    destruct (Req_EM_T (r + p) 0) as [Z | Z].
    - assert (vminus (evE q) (evE c) = evE vzero) as ->.
      { apply mag_zero. change (vminus (evE q) (evE c)) with (evE (vsub q c)) in *.
        rewrite ev_mag in Gt |- *. cbn [xadd] in Gt. rewrite ngt_fin in Gt. pose proof (norm_pos (vsub q c)). destruct (Rlt_dec (p + r) (norm (vsub q c))); [discriminate Gt |]. f_equal. lra. }
      cbn [xadd xs]. rewrite Z, Rmult_0_r. rewrite !div0_bad by reflexivity. reflexivity.
    - cbn [xadd]. rewrite xs_div by (assumption || congruence). rewrite Rinv_r by lra. apply (f_equal (vtimes _)), xs_1.
  Qed.

  (** ---- rays ---- *)
  Lemma within_fin (w x y : E) r : w = Fin r -> @Shape.within E w x y = true -> ((exists a, x = Fin a) <-> exists b, y = Fin b).
  Proof.
    intros ->. unfold Shape.within, nge, nle. cbn [ncmp nadd nsub Exact]. destruct x, y; cbn; intro H; try discriminate H; split; intros [z Z]; try discriminate Z; eexists; reflexivity.
  Qed.
  Lemma div_fin (x : R) (y a : XR) : y <> Fin 0 -> xdiv zs (Fin x) y = a -> y <> NaN -> exists r, a = Fin r.
  Proof. intros H <- N. destruct y; cbn; [destruct (Req_EM_T r 0); [subst; contradiction |] | | | contradiction]; eexists; reflexivity. Qed.
  Lemma div0_inf (x : R) : ~ exists r, xdiv zs (Fin x) (Fin 0) = Fin r.
  Proof. intros [r H]. cbn in H. destruct (Req_EM_T 0 0); [| contradiction]. destruct (Req_EM_T x 0); [discriminate H |]. destruct (zs (Fin x)); discriminate H. Qed.
  (** a direction: NaN or a finite non-zero vector *)
  Definition okd (d : mat3x1 E) : Prop := d = nanv \/ exists u, u <> vzero /\ d = evE u.
  Definition tests3 (w t0 t1 t2 : E) : bool := (negb (Shape.within w t0 t1) || negb (Shape.within w t1 t2))%bool.
  Lemma tests3_fin w r t0 t1 t2 : w = Fin r -> tests3 w t0 t1 t2 = false -> ((exists a, t0 = Fin a) <-> exists b, t1 = Fin b) /\ ((exists a, t1 = Fin a) <-> exists b, t2 = Fin b).
  Proof.
    intros Hw H. unfold tests3 in H. apply orb_false_elim in H as [H1 H2]. apply negb_false_iff in H1, H2.
    split; eapply within_fin; eassumption.
  Qed.
  Lemma k_ray_point (o q : V3) (d : mat3x1 E) (B G : aabb E) (w : R) (g : E) : okd d ->
    ray_point (@MkRay E (vh (evE o)) d (mb B) (Fin (s * w))) (shape_get_shape_data (msh (SPoint (MkPoint (evE q) G g)))) =
    mh (ray_point (MkRay (evE o) d B (Fin w : E)) (shape_get_shape_data (SPoint (MkPoint (evE q) G g)))).
  Proof.
    intro Hd. unfold ray_point. cbn [shape_get_shape_data msh ray_ori ray_dir ray_vic pt_ori]. rewrite !vec0. cbn [bind]. pures. rewrite h_minus.
    change (vminus (evE q) (evE o)) with (evE (vsub q o)). set (v := vsub q o).
    destruct Hd as [-> | [u [Hu ->]]].
    - assert (forall v' : mat3x1 E, vdivn v' nanv = nanv) as Q by (intros [[[] [] []]]; reflexivity). rewrite !Q. reflexivity.
    - cbn [vs ev vdivn c0 c1 c2].
      set (a0 := vx v). set (a1 := vy v). set (a2 := vz v). set (d0 := vx u). set (d1 := vy u). set (d2 := vz u).
      fold (tests3 (Fin (s * w)) (ndiv E (xs s (Fin a0)) (Fin d0)) (ndiv E (xs s (Fin a1)) (Fin d1)) (ndiv E (xs s (Fin a2)) (Fin d2))).
      fold (tests3 (Fin w) (ndiv E (Fin a0) (Fin d0)) (ndiv E (Fin a1) (Fin d1)) (ndiv E (Fin a2) (Fin d2))).
      assert ((d0 = 0 \/ d1 = 0 \/ d2 = 0) \/ (d0 <> 0 /\ d1 <> 0 /\ d2 <> 0)) as [C | [N0 [N1 N2]]] by (destruct (Req_dec d0 0), (Req_dec d1 0), (Req_dec d2 0); tauto).
      + assert (forall k x0 x1 x2, tests3 (Fin k) (ndiv E (Fin x0) (Fin d0)) (ndiv E (Fin x1) (Fin d1)) (ndiv E (Fin x2) (Fin d2)) = true) as Q.
        { intros k x0 x1 x2. destruct (tests3 _ _ _ _) eqn:T; [reflexivity | exfalso]. eapply tests3_fin in T as [T1 T2]; [| reflexivity].
          pose proof (fun x y N => div_fin x (Fin y) _ N eq_refl ltac:(discriminate)) as DF. cbn [ndiv Exact] in T1, T2.
          assert (forall x : R, x <> 0 -> Fin x <> Fin 0) as FN by (intros x Hx X; injection X as X; contradiction).
          pose proof (div0_inf x0) as I0. pose proof (div0_inf x1) as I1. pose proof (div0_inf x2) as I2.
          destruct (Req_dec d0 0) as [Z0 | Z0]; [rewrite Z0 in * | pose proof (DF x0 d0 (FN _ Z0))];
          (destruct (Req_dec d1 0) as [Z1 | Z1]; [rewrite Z1 in * | pose proof (DF x1 d1 (FN _ Z1))]);
          (destruct (Req_dec d2 0) as [Z2 | Z2]; [rewrite Z2 in * | pose proof (DF x2 d2 (FN _ Z2))]); try tauto.
          apply Hu. apply V3_eq; assumption. }
        cbn [xs]. rewrite !Q. reflexivity.
      + cbn [ndiv Exact]. rewrite !xs_div2 by (try exact Hs; congruence). change (Fin (s * w)) with (xs s (Fin w)). unfold tests3. rewrite !c_within by exact Hs.
        rewrite mh_if. destruct (_ || _)%bool; [reflexivity |]. rewrite c_ge0 by exact Hs. rewrite mh_if. destruct (nge _ n0); [| reflexivity].
        pures. cbn [moved_hit]. rewrite <- h_plus'. rewrite s_times by exact Hs. reflexivity.
  Qed.

  Lemma mag_nz u : u <> vzero -> vmag (evE u) <> Fin 0.
  Proof. intros H. rewrite ev_mag. intro X. injection X as X. apply norm_zero in X. contradiction. Qed.
  Lemma is_equal_zero : mat3x1_is_equal (evE vzero) mat3x1_default (nlit E 1 10000) = Some true.
  Proof.
    unfold mat3x1_is_equal, mat3x1_default, ev, vzero. cbn [vx vy vz]. change (@n0 E) with (Fin 0 : E). change (nlit E 1 10000) with (Fin (1 / 10000) : E).
    cbn [nsub nadd Exact xsub xadd]. rewrite nge_fin, nle_fin. destruct (Rle_dec (0 - 1 / 10000) 0); [| exfalso; lra]. destruct (Rle_dec 0 (0 + 1 / 10000)); [| exfalso; lra]. reflexivity.
  Qed.
  Lemma k_ray_ray (o q d g : mat3x1 E) (B G : aabb E) (w : R) (f : E) : okd d -> okd g ->
    ray_ray (@MkRay E (vh o) d (mb B) (Fin (s * w))) (shape_get_shape_data (msh (SRay (MkRay q g G f)))) =
    mh (ray_ray (MkRay o d B (Fin w : E)) (shape_get_shape_data (SRay (MkRay q g G f)))).
  Proof.
    intros Hd Hg. unfold ray_ray. cbn [shape_get_shape_data msh ray_ori ray_dir ray_vic]. rewrite !vec0', !vec3'. cbn [bind]. pures. rewrite h_minus.
    assert (vdotn (vcrossn d g) (vminus g d) = NaN \/ vdotn (vcrossn d g) (vminus g d) = Fin 0) as D.
    { destruct Hd as [-> | [u [_ ->]]].
      - left. destruct g as [[[] [] []]]; reflexivity.
      - destruct Hg as [-> | [v [_ ->]]]; [left; destruct u; reflexivity |]. right. unfold vdotn. cbn. f_equal. ring. }
    change (Fin (s * w)) with (xs s (Fin w)).
    assert (@Shape.within E (xs s (Fin w)) (vdotn (vcrossn d g) (vminus g d)) n0 = @Shape.within E (Fin w) (vdotn (vcrossn d g) (vminus g d)) n0) as W.
    { rewrite <- (c_within0 s (Fin w) _ Hs). destruct D as [-> | ->]; [reflexivity |]. cbn [xs]. rewrite Rmult_0_r. reflexivity. }
    rewrite W. rewrite mh_if. destruct (negb _) eqn:W0; [reflexivity |]. clear W.
    destruct D as [D | D]; [rewrite D in W0; discriminate W0 |]. clear W0.
    assert (exists u, u <> vzero /\ d = evE u) as [u [Hu Eu]] by (destruct Hd as [-> | H]; [destruct g as [[[] [] []]]; discriminate D | exact H]).
    assert (exists v, v <> vzero /\ g = evE v) as [v [Hv Ev]] by (destruct Hg as [-> | H]; [subst d; destruct u; discriminate D | exact H]). clear D Hd Hg.
    destruct (mat3x1_is_equal (vcrossn d g) mat3x1_default (nlit E 1 10000)) as [par |] eqn:P; [| subst; discriminate P]. cbn [unwrap bind].
    rewrite mh_if. destruct par.
    - rewrite s_cross_r, s_mag, c_within0 by exact Hs. rewrite mh_if. destruct (negb _); [reflexivity |].
      rewrite s_dot_l, s_mag, c_lt0 by exact Hs. set (dir := if nlt (vdotn (vminus q o) d) n0 then nlit E (-1) 1 else n1). clearbody dir. cbn [nmul ndiv Exact]. rewrite xs_mul_r by exact Hs.
      rewrite xs_div2 by (try exact Hs; subst d; apply mag_nz; exact Hu). rewrite c_lt0 by exact Hs. rewrite mh_if. destruct (nlt _ n0); [reflexivity |].
      cbn [moved_hit]. rewrite <- h_plus', s_times by exact Hs. reflexivity.
    - assert (vmag (vcrossn d g) <> Fin 0) as N.
      { intro X. apply mag_zero in X. rewrite X, is_equal_zero in P. discriminate P. }
      rewrite s_cross_l, s_mag by exact Hs. cbn [ndiv Exact]. rewrite xs_div2, c_lt0 by assumption. rewrite mh_if. destruct (nlt _ n0); [reflexivity |].
      cbn [moved_hit]. rewrite <- h_plus', s_times by exact Hs. reflexivity.
  Qed.

  (** ---- prisms ---- *)
  Definition same_test (x y : mat3x1 E * mat3x1 E) : Prop := fst x = vh (fst y) /\ exists k, 0 < k /\ snd x = vs k (snd y).
  Lemma all_inside_sim l' l p : Forall2 same_test l' l -> all_inside l' (vh p) = all_inside l p.
  Proof.
    induction 1 as [| [v' n'] [v n] l' l [H1 [k [Hk H2]]] H IH]; [reflexivity |]. cbn [fst snd] in H1, H2. subst. unfold all_inside in *. cbn [iter_all fst snd]. pures.
    rewrite h_minus, s_dot, c_gt0 by (assumption || (apply Rmult_lt_0_compat; assumption)). destruct (negb _); [exact IH | reflexivity].
  Qed.
  Lemma tests_sim (p q : arr3 (mat3x1 E)) h (B B' : aabb E) (w w' : E) : exists l l',
    triprism_tests (@MkPrism E (ma vh p) (ma vh q) (vs s h) B' w') = Ok l' /\ triprism_tests (MkPrism p q h B w) = Ok l /\ Forall2 same_test l' l.
  Proof.
    destruct p as [p0 p1 p2], q as [q0 q1 q2]. unfold triprism_tests, side_normal. cbn [tp_nh tp_base tp_base2 ma]. pures.
    rewrite !h_minus, s_times_l, !s_cross by exact Hs. eexists. eexists. split; [reflexivity |]. split; [reflexivity |].
    pose proof ss. repeat (constructor; [split; [reflexivity | eexists; split; [| reflexivity]; assumption] |]). constructor.
  Qed.
  Lemma k_prism_point (p q : arr3 (mat3x1 E)) h z (B B' G G' : aabb E) (w w' g g' : E) :
    triprism_point (@MkPrism E (ma vh p) (ma vh q) (vs s h) B' w') (shape_get_shape_data (SPoint (@MkPoint E (vh z) G' g'))) =
    mh (triprism_point (MkPrism p q h B w) (shape_get_shape_data (SPoint (MkPoint z G g)))).
  Proof.
    unfold triprism_point. cbn [shape_get_shape_data pt_ori]. rewrite !vec0. cbn [bind].
    destruct (tests_sim p q h B B' w w') as [l [l' [-> [-> F]]]]. cbn [bind]. rewrite (all_inside_sim l' l z F).
    destruct (all_inside l z) as [[] |]; reflexivity.
  Qed.
  (** facets *)
  Definition same_plane (x y : plane E) : Prop := exists q n G g g', x = @MkPlane E (vh q) n (mb G) g' /\ y = MkPlane q n G g.
  Lemma ray_plane_get_sim (a d q n : mat3x1 E) (B G : aabb E) (w w' g g' : E) : okn n q a ->
    ray_get_intersect (@MkRay E (vh a) d (mb B) w') (SPlane (@MkPlane E (vh q) n (mb G) g')) = mh (ray_get_intersect (MkRay a d B w) (SPlane (MkPlane q n G g))).
  Proof.
    intro Ok. unfold ray_get_intersect. rewrite !overlap_eval. cbn [bind shape_get_type].
    assert (overlap (SRay (@MkRay E (vh a) d (mb B) w')) (SPlane (@MkPlane E (vh q) n (mb G) g')) = overlap (SRay (MkRay a d B w)) (SPlane (MkPlane q n G g))) as ->.
    { unfold overlap, shape_get_bound. cbn [ray_bound pl_bound]. rewrite !ibb, !intersect_eval, !mb_apart by reflexivity. reflexivity. }
    rewrite mh_if. destruct (negb _); [reflexivity |]. apply k_ray_plane. exact Ok.
  Qed.
  Lemma facets_sim a d (B : aabb E) (w w' mag : E) l' l fs' fs : Forall2 same_test l' l -> Forall2 same_plane fs' fs ->
    (forall x, In x fs -> okn (pl_normal x) (pl_offset x) a) ->
    let body r a mag tests i :=
          let! res := ray_get_intersect r (SPlane i) in
          if fst res then
            let! collide_point := unwrap (snd res) in
            let! df := unwrap (mat3x1_minus collide_point a) in
            let! mag2 := unwrap (mat3x1_magnitude df) in
            let! is_point_inside := all_inside tests collide_point in
            if (negb is_point_inside || ngt mag2 mag)%bool then Ok Next
            else Ok (Ret (snd res))
          else Ok Next in
    for_ret fs' (body (@MkRay E (vh a) d (mb B) w') (vh a) (xs s mag) l') =
    match for_ret fs (body (MkRay a d B w) a mag l) with
    | Ok (Some (Some x)) => Ok (Some (Some (vh x))) | r => r end.
  Proof.
    intros T F K body. induction F as [| x' x fs' fs [q [n [G [g [g' [-> ->]]]]]] F IH]; [reflexivity |]. cbn [for_ret].
    assert (okn n q a) as Kx by (apply (K (MkPlane q n G g)); left; reflexivity).
    specialize (IH (fun x H => K x (or_intror H))).
    unfold body at 1 3. rewrite (ray_plane_get_sim a d q n B G w w' g g' Kx).
    pose proof (ray_plane_get (MkRay a d B w) (MkPlane q n G g)) as [[hb ho] [-> An]]. cbn [moved_hit bind fst snd]. unfold SpecInter.answer in An. cbn [fst snd] in An.
    destruct hb; [| exact IH]. destruct (proj1 An eq_refl) as [c ->]. pures. rewrite (all_inside_sim l' l c T).
    destruct (all_inside_ok l c) as [ins ->]. cbn [bind]. rewrite h_minus, s_mag, c_gt by exact Hs. destruct (_ || _)%bool; cbn [bind]; [exact IH | reflexivity].
  Qed.

  Lemma ray_init_e (o d : mat3x1 E) : ray_init (vec_data o) (vec_data d) = Ok (MkRay o (nrm d) (ray_any o d) vicinity0).
  Proof. rewrite !vec_data_sl. apply ray_init_any. Qed.
  Lemma plane_of_e (o n : mat3x1 E) : plane_of o n = Ok (MkPlane o (nrm n) whole_any vicinity0).
  Proof. unfold plane_of. destruct o as [[x y z]], n as [[a b c]]. reflexivity. Qed.
  Lemma ray_any_h k (o d : mat3x1 E) : 0 < k -> ray_any (vh o) (vs k d) = mb (ray_any o d).
  Proof.
    intro Hk. destruct o as [[x y z]], d as [[a b c]]. unfold ray_any. cbn [moved_v vs mb]. unfold rl, ru. rewrite !c_gt0, !c_lt0 by exact Hk.
    destruct (ngt a n0), (nlt a n0), (ngt b n0), (nlt b n0), (ngt c n0), (nlt c n0); reflexivity.
  Qed.
  Lemma whole_h : @whole_any E = mb whole_any. Proof. reflexivity. Qed.
  Definition fin (v : mat3x1 E) : Prop := exists x, v = evE x.
  Lemma nrm_nan : nrm nanv = nanv. Proof. reflexivity. Qed.
  Lemma nrm_okn (n o q : mat3x1 E) : n = nanv \/ (fin n /\ fin o) -> fin q -> okn (nrm n) o q.
  Proof.
    intros [-> | [[u ->] [x ->]]] [y ->]; [left; reflexivity |].
    assert (u = vzero \/ u <> vzero) as [-> | N].
    { destruct (Req_dec (norm u) 0) as [Z | Z]; [left; apply norm_zero; exact Z | right; intros ->; apply Z, norm_vzero]. }
    - left. pose proof (ev_normalize_zero eps zs) as H. rewrite normalize_nrm in H. exact (f_equal (fun o => match o with Ok (Some x) => x | _ => nanv end) H).
    - right. exists (vscale (/ norm u) u), x, y. split; [| split; reflexivity]. pose proof (ev_normalize eps zs u N) as H. rewrite normalize_nrm in H.
      exact (f_equal (fun o => match o with Ok (Some x) => x | _ => nanv end) H).
  Qed.
  Lemma times_nan (x : E) : vtimes nanv x = nanv. Proof. destruct x; reflexivity. Qed.
  Lemma cross_nan (v : mat3x1 E) : vcrossn v nanv = nanv. Proof. destruct v as [[[] [] []]]; reflexivity. Qed.
  Lemma fin_minus v w : fin v -> fin w -> fin (vminus v w). Proof. intros [x ->] [y ->]. exists (vsub x y). reflexivity. Qed.
  Lemma fin_cross v w : fin v -> fin w -> fin (vcrossn v w). Proof. intros [x ->] [y ->]. exists (vcross x y). reflexivity. Qed.
  Lemma fin_neg v : fin v -> fin (vtimes v (nlit E (-1) 1)). Proof. intros [x ->]. exists (V (vx x * -1) (vy x * -1) (vz x * -1)). reflexivity. Qed.
  Definition fin3s (p : arr3 (mat3x1 E)) : Prop := match p with A3 x y z => fin x /\ fin y /\ fin z end.
  Lemma k_prism_line (p q : arr3 (mat3x1 E)) h y z (B B' G G' : aabb E) (w w' g g' : E) : fin3s p -> (h = nanv \/ (fin h /\ fin3s q)) -> fin y -> fin z ->
    triprism_line (@MkPrism E (ma vh p) (ma vh q) (vs s h) B' w') (shape_get_shape_data (SLine (@MkLine E (vh y) (vh z) G' g'))) =
    mh (triprism_line (MkPrism p q h B w) (shape_get_shape_data (SLine (MkLine y z G g)))).
  Proof.
    intros Hp Hh Hy Hz. unfold triprism_line. cbn [shape_get_shape_data ln_a ln_b]. rewrite !vec0', !vec3'. cbn [bind].
    destruct (tests_sim p q h B B' w w') as [l [l' [-> [-> T]]]]. cbn [bind]. rewrite !(all_inside_sim l' l _ T).
    destruct (all_inside_ok l y) as [iy ->]. destruct (all_inside_ok l z) as [iz ->]. cbn [bind]. rewrite mh_if. destruct iy; [reflexivity |]. rewrite mh_if. destruct iz; [reflexivity |].
    unfold side_normal. cbn [tp_nh tp_base tp_base2]. pures. rewrite h_minus, s_mag, !ray_init_e, s_nrm by exact Hs. cbn [bind]. rewrite (ray_any_h s) by exact Hs.
    destruct p as [p0 p1 p2], q as [q0 q1 q2]. cbn [ma]. pures. rewrite !plane_of_e. cbn [bind]. rewrite !h_minus, s_times_l, !s_cross, !s_nrm by (exact Hs || exact ss).
    match goal with |- bind (for_ret ?fs' _) _ = mh (bind (for_ret ?fs _) _) =>
      pose proof (facets_sim y (nrm (vminus z y)) (ray_any y (vminus z y)) vicinity0 vicinity0 (vmag (vminus z y)) l' l fs' fs T) as X end.
    cbn zeta in X. cbn in Hp. destruct Hp as [P0 [P1 P2]].
    rewrite X; clear X.
    - match goal with |- context [for_ret ?l ?f] => destruct (for_ret l f) as [[[c |] |] | k] end; reflexivity.
    - repeat (constructor; [eexists; eexists; eexists; eexists; eexists; split; [rewrite <- whole_h; reflexivity | reflexivity] |]). constructor.
    - intros x Hx. cbn [In] in Hx. destruct Hh as [-> | [Fh Fq]].
      + rewrite !cross_nan, !times_nan, !nrm_nan in Hx. decompose [or] Hx; try contradiction; subst; left; reflexivity.
      + destruct Fq as [Q0 [Q1 Q2]]. decompose [or] Hx; try contradiction; subst; cbn [pl_normal pl_offset]; apply nrm_okn; try exact Hy; right; split; try assumption;
          repeat first [assumption | apply fin_cross | apply fin_minus | apply fin_neg].
  Qed.

  (** ---- all pairs ---- *)
  Definition wfs (x : shape E) : Prop :=
    match x with
    | SPoint (MkPoint o _ _) => fin o
    | SRay (MkRay o d _ w) => fin o /\ okd d /\ exists r, w = Fin r
    | SSphere (MkSphere o r _ _) => fin o /\ exists x, r = Fin x
    | SPlane (MkPlane o n _ _) => fin o /\ okd n
    | SLine (MkLine y z _ _) => fin y /\ fin z
    | SBox _ => True
    | SPrism (MkPrism p q h _ _) => fin3s p /\ (h = nanv \/ (fin h /\ fin3s q))
    end.
  Lemma okd_okn n o q : okd n -> fin o -> fin q -> okn n o q.
  Proof. intros [-> | [u [_ ->]]] [x ->] [y ->]; [left; reflexivity | right; exists u, x, y; auto]. Qed.
  Lemma core_sim x y : wfs x -> wfs y -> core (msh x) (msh y) = mh (core x y).
  Proof.
    destruct x as [[]|[]|[]|[]|[]|[]|[]], y as [[]|[]|[]|[]|[]|[]|[]]; cbn [wfs]; intros Hx Hy; cbn [core]; try reflexivity; cbn [msh];
      repeat match goal with H : _ /\ _ |- _ => destruct H end; try (apply k_prism_line; assumption); try apply k_prism_point.
    - apply k_point_point.
    - repeat match goal with H : exists _, _ |- _ => destruct H as [? ->] | H : fin _ |- _ => destruct H as [? ->] end. apply k_ray_point. assumption.
    - apply k_sphere_point.
    - apply k_plane_point. apply okd_okn; assumption.
    - repeat match goal with H : exists _, _ |- _ => destruct H as [? ->] | H : fin _ |- _ => destruct H as [? ->] end. apply k_ray_point. assumption.
    - repeat match goal with H : exists _, _ |- _ => destruct H as [? ->] | H : fin _ |- _ => destruct H as [? ->] end. apply k_ray_ray; assumption.
    - apply k_ray_sphere.
    - apply k_ray_plane. apply okd_okn; assumption.
    - apply k_sphere_point.
    - apply k_ray_sphere.
    - repeat match goal with H : exists _, _ |- _ => destruct H as [? ->] | H : fin _ |- _ => destruct H as [? ->] end. apply k_sphere_sphere.
    - apply k_sphere_plane. apply okd_okn; assumption.
    - apply k_plane_point. apply okd_okn; assumption.
    - apply k_ray_plane. apply okd_okn; assumption.
    - apply k_sphere_plane. apply okd_okn; assumption.
  Qed.
  Lemma intersect_sim x y : wfs x -> wfs y -> shape_get_intersect (msh x) (msh y) = mh (shape_get_intersect x y).
  Proof.
    intros Hx Hy. rewrite !(intersect_core (exact_ordered eps zs)), m_overlap, core_sim by assumption. rewrite mh_if. reflexivity.
  Qed.

  (** ---- built shapes ---- *)
  Lemma mins_h k (x : E) l : mins (xh s k x : E) (map (xh s k : E -> E) l) = xh s k (mins x l).
  Proof. unfold mins. revert x. induction l as [| y l IH]; intro x; [reflexivity |]. cbn [fold_left map]. rewrite <- IH. f_equal. cbn [ncmp Exact]. rewrite xh_cmp by exact Hs. destruct (xcmp x y) as [[] |]; reflexivity. Qed.
  Lemma maxs_h k (x : E) l : maxs (xh s k x : E) (map (xh s k : E -> E) l) = xh s k (maxs x l).
  Proof. unfold maxs. revert x. induction l as [| y l IH]; intro x; [reflexivity |]. cbn [fold_left map]. rewrite <- IH. f_equal. cbn [ncmp Exact]. rewrite xh_cmp by exact Hs. destruct (xcmp x y) as [[] |]; reflexivity. Qed.
  Lemma hull_h p l : hull_any (vh p) (map vh l) = mb (hull_any p l).
  Proof.
    unfold hull_any. cbn [mb]. rewrite !map_map.
    assert (forall v, c0 (vh v) = xh s (vx t) (c0 v)) as C0 by (intros [[]]; reflexivity).
    assert (forall v, c1 (vh v) = xh s (vy t) (c1 v)) as C1 by (intros [[]]; reflexivity).
    assert (forall v, c2 (vh v) = xh s (vz t) (c2 v)) as C2 by (intros [[]]; reflexivity).
    rewrite (map_ext _ _ C0), (map_ext _ _ C1), (map_ext _ _ C2), C0, C1, C2.
    rewrite <- (map_map (@c0 E) (xh s (vx t) : E -> E)), <- (map_map (@c1 E) (xh s (vy t) : E -> E)), <- (map_map (@c2 E) (xh s (vz t) : E -> E)).
    rewrite !mins_h, !maxs_h. reflexivity.
  Qed.
  Lemma ev_h p : evE (vadd (vscale s p) t) = vh (evE p). Proof. reflexivity. Qed.
  Lemma abs_h e : nabs E (Fin (s * e)) = xs s (nabs E (Fin e)).
  Proof. cbn. rewrite Rabs_mult, (Rabs_pos_eq s) by lra. reflexivity. Qed.
  Lemma nrm_okd u : okd (nrm (evE u)).
  Proof.
    destruct (nrm_okn (evE u) (evE vzero) (evE vzero)) as [H | [v [x [y [H _]]]]]; [right; split; eexists; reflexivity | eexists; reflexivity | left; exact H |].
    right. exists v. split; [| exact H]. intros ->.
    assert (u = vzero \/ u <> vzero) as [-> | N].
    { destruct (Req_dec (norm u) 0) as [Z | Z]; [left; apply norm_zero; exact Z | right; intros ->; apply Z, norm_vzero]. }
    - pose proof (ev_normalize_zero eps zs) as Q. rewrite normalize_nrm, H in Q. discriminate Q.
    - pose proof (ev_normalize eps zs u N) as Q. rewrite normalize_nrm, H in Q.
      apply (f_equal (fun o => match o with Ok (Some x) => x | _ => nanv end)) in Q. apply ev_inj in Q.
      assert (norm (vscale (/ norm u) u) = 1) as M. { pose proof (norm_nz u N). rewrite norm_vscale, Rabs_pos_eq by (apply Rlt_le, Rinv_0_lt_compat; assumption). field. lra. }
      rewrite <- Q, norm_vzero in M. lra.
  Qed.
  Lemma hvec_h a b c h : hvec (vh a) (vh b) (vh c) (Fin (s * h) : E) = vs s (hvec a b c (Fin h : E)).
  Proof. unfold hvec. rewrite !h_minus, s_cross, s_nrm by (exact Hs || exact ss). change (Fin (s * h)) with (xs s (Fin h)). apply s_times. exact Hs. Qed.
  Lemma hvec_ok a b c h : let w := hvec (evE a) (evE b) (evE c) (Fin h : E) in w = nanv \/ fin w.
  Proof.
    intro w. unfold w, hvec. change (vcrossn (vminus (evE b) (evE a)) (vminus (evE c) (evE a))) with (evE (vcross (vsub b a) (vsub c a))).
    destruct (nrm_okd (vcross (vsub b a) (vsub c a))) as [-> | [u [_ ->]]]; [left; reflexivity | right].
    exists (V (vx u * h) (vy u * h) (vz u * h)). reflexivity.
  Qed.
  Lemma builds_sim D x y : builds eps zs D x -> builds eps zs (moved s t D) y -> wfs x /\ y = msh x.
  Proof.
    destruct D as [p e | o d e | c r e | o n e | a b e | c h e | a b c h e]; cbn [builds moved]; intros Hx Hy.
    - apply (point_any (evE p) (Fin e)) in Hx. apply (point_any (vh (evE p)) (Fin (s * e))) in Hy. subst. split; [eexists; reflexivity |]. rewrite abs_h. reflexivity.
    - apply (ray_any_eq (evE o) (evE d) (Fin e)) in Hx. apply (ray_any_eq (vh (evE o)) (evE d) (Fin (s * e))) in Hy. subst.
      split; [split; [eexists; reflexivity | split; [apply nrm_okd | eexists; reflexivity]] |]. rewrite abs_h. cbn [msh]. rewrite <- (ray_any_h 1), vs_1 by lra. reflexivity.
    - apply (sphere_any (evE c) (Fin r) (Fin e)) in Hx. apply (sphere_any (vh (evE c)) (Fin (s * r)) (Fin (s * e))) in Hy. subst.
      split; [split; eexists; reflexivity |]. rewrite abs_h. cbn [msh]. do 2 f_equal. cbn. f_equal; f_equal; f_equal; ring.
    - apply (plane_any (evE o) (evE n) (Fin e)) in Hx. apply (plane_any (vh (evE o)) (evE n) (Fin (s * e))) in Hy. subst.
      split; [split; [eexists; reflexivity | apply nrm_okd] |]. rewrite abs_h. reflexivity.
    - apply (line_any (evE a) (evE b) (Fin e)) in Hx. apply (line_any (vh (evE a)) (vh (evE b)) (Fin (s * e))) in Hy. subst.
      split; [split; eexists; reflexivity |]. rewrite abs_h. cbn [msh]. rewrite <- hull_h. reflexivity.
    - apply (box_any (evE c) (Fin h) (Fin e)) in Hx. apply (box_any (vh (evE c)) (Fin (s * h)) (Fin (s * e))) in Hy. subst.
      split; [exact I |]. rewrite abs_h. cbn [msh]. do 2 f_equal. cbn. f_equal; f_equal; f_equal; ring.
    - apply (prism_any (evE a) (evE b) (evE c) (Fin h) (Fin e)) in Hx. apply (prism_any (vh (evE a)) (vh (evE b)) (vh (evE c)) (Fin (s * h)) (Fin (s * e))) in Hy. subst.
      pose proof (hvec_ok a b c h) as K. cbn zeta in K. set (w := hvec (evE a) (evE b) (evE c) (Fin h)) in *.
      split.
      + split; [repeat split; eexists; reflexivity |]. destruct K as [K | [u K]]; [left; exact K |]. right. split; [exists u; exact K |]. rewrite K. cbn.
        split; [exists (vadd a u) | split; [exists (vadd b u) | exists (vadd c u)]]; reflexivity.
      + rewrite abs_h, hvec_h. fold w. rewrite !h_plus. cbn [msh ma]. rewrite <- hull_h. reflexivity.
  Qed.
  Theorem sim D1 D2 x y x' y' : builds eps zs D1 x -> builds eps zs D2 y -> builds eps zs (moved s t D1) x' -> builds eps zs (moved s t D2) y' ->
    shape_get_intersect x' y' = mh (shape_get_intersect x y).
  Proof.
    intros X Y X' Y'. destruct (builds_sim D1 x x' X X') as [Wx ->]. destruct (builds_sim D2 y y' Y Y') as [Wy ->]. apply intersect_sim; assumption.
  Qed.
End Sim.
