(** PShape.v — what the constructors compute on finite numbers, and shapes against their bounds (C36). *)
From Coq Require Import Reals List ZArith NArith Bool Lra Lia Psatz.
Import ListNotations.
From Verif Require Import Base Num Vec Mat Bound Shape Exact SpecMat SpecGeom SpecBound SpecShape ExactFacts Order PMat.
Local Open Scope R_scope.

Definition unit (d : V3) : V3 := vscale (/ norm d) d.
Lemma unit_dot d : d <> vzero -> vdot (unit d) (unit d) = 1.
Proof.
  intro H. pose proof (norm_nz d H) as Hn. pose proof (norm_sq d) as Hs.
  replace (vdot (unit d) (unit d)) with (/ norm d * / norm d * vdot d d) by (unfold unit, vdot, vscale; simpl; ring).
  rewrite <- Hs. field. lra.
Qed.
Lemma unit_norm d : d <> vzero -> norm (unit d) = 1.
Proof. intro H. unfold norm. rewrite unit_dot by exact H. apply sqrt_1. Qed.
Lemma unit_scale d : d <> vzero -> d = vscale (norm d) (unit d).
Proof. intro H. pose proof (norm_nz d H). apply V3_eq; unfold unit, vscale; simpl; field; lra. Qed.

Lemma Rabs_le_inv a b : Rabs a <= b -> - b <= a <= b.
Proof. unfold Rabs. destruct (Rcase_abs a); lra. Qed.

Fixpoint lmin (x : R) (l : list R) : R := match l with [] => x | y :: l' => lmin (Rmin x y) l' end.
Fixpoint lmax (x : R) (l : list R) : R := match l with [] => x | y :: l' => lmax (Rmax x y) l' end.
Lemma lmin_le x l : lmin x l <= x /\ (forall y, In y l -> lmin x l <= y) /\ In (lmin x l) (x :: l).
Proof.
  revert x. induction l as [| y l IH]; intro x; cbn [lmin].
  - split; [lra |]. split; [intros y [] |]. left; reflexivity.
  - destruct (IH (Rmin x y)) as [H1 [H2 H3]]. pose proof (Rmin_l x y). pose proof (Rmin_r x y). split; [lra |]. split.
    + intros z [<- | Hz]; [lra | apply H2, Hz].
    + destruct H3 as [H3 | H3]; [| right; right; exact H3]. rewrite <- H3.
      unfold Rmin. destruct (Rle_dec x y); [left | right; left]; reflexivity.
Qed.
Lemma lmax_ge x l : x <= lmax x l /\ (forall y, In y l -> y <= lmax x l) /\ In (lmax x l) (x :: l).
Proof.
  revert x. induction l as [| y l IH]; intro x; cbn [lmax].
  - split; [lra |]. split; [intros y [] |]. left; reflexivity.
  - destruct (IH (Rmax x y)) as [H1 [H2 H3]]. pose proof (Rmax_l x y). pose proof (Rmax_r x y). split; [lra |]. split.
    + intros z [<- | Hz]; [lra | apply H2, Hz].
    + destruct H3 as [H3 | H3]; [| right; right; exact H3]. rewrite <- H3.
      unfold Rmax. destruct (Rle_dec x y); [right; left | left]; reflexivity.
Qed.

Section PShape.
  Variable eps : R.
  Variable zs : XR -> bool.
  Notation E := (Exact eps zs).
  Notation ev := (ev eps zs).
  Notation vl := (vl eps zs).

  Lemma slice_min_fin x l : @slice_min E (@map R E Fin (x :: l)) = Ok (Fin (lmin x l) : E).
  Proof.
    unfold slice_min, min_by. cbn [map]. revert x. induction l as [| y l IH]; intro x; [reflexivity |].
    cbn [map min_by_from lmin]. unfold cmp_or_equal at 1. cbn [bind ncmp]. unfold xcmp. rewrite <- IH. unfold Rmin.
    cbn. destruct (Rlt_dec x y), (Rlt_dec y x), (Rle_dec x y); try lra; try reflexivity.
  Qed.
  Lemma slice_max_fin x l : @slice_max E (@map R E Fin (x :: l)) = Ok (Fin (lmax x l) : E).
  Proof.
    unfold slice_max, max_by. cbn [map]. revert x. induction l as [| y l IH]; intro x; [reflexivity |].
    cbn [map max_by_from lmax]. unfold cmp_or_equal at 1. cbn [bind ncmp]. unfold xcmp. rewrite <- IH. unfold Rmax.
    cbn. destruct (Rlt_dec x y), (Rlt_dec y x), (Rle_dec x y); try lra; try reflexivity.
  Qed.

  (** the bounds *)
  Definition fbox (l u : V3) : aabb E :=
    AABB (A3 (Fin (vx l)) (Fin (vy l)) (Fin (vz l)) : arr3 E) (A3 (Fin (vx u)) (Fin (vy u)) (Fin (vz u)) : arr3 E).
  Definition rlo (x d : R) : E := if Rlt_dec 0 d then Fin x else if Rlt_dec d 0 then NInf else Fin x.
  Definition rup (x d : R) : E := if Rlt_dec 0 d then PInf else Fin x.
  Definition rbox (o d : V3) : aabb E :=
    AABB (A3 (rlo (vx o) (vx d)) (rlo (vy o) (vy d)) (rlo (vz o) (vz d)) : arr3 E)
         (A3 (rup (vx o) (vx d)) (rup (vy o) (vy d)) (rup (vz o) (vz d)) : arr3 E).
  Definition cube (c : V3) (r : R) : aabb E :=
    fbox (V (vx c - r) (vy c - r) (vz c - r)) (V (vx c + r) (vy c + r) (vz c + r)).
  Definition whole : aabb E := AABB (A3 NInf NInf NInf : arr3 E) (A3 PInf PInf PInf : arr3 E).
  Definition hull (p : V3) (l : list V3) : aabb E :=
    fbox (V (lmin (vx p) (map vx l)) (lmin (vy p) (map vy l)) (lmin (vz p) (map vz l)))
         (V (lmax (vx p) (map vx l)) (lmax (vy p) (map vy l)) (lmax (vz p) (map vz l))).

  (** the shapes *)
  Definition epoint (p : V3) (e : R) : point3 E := MkPoint (ev p) (fbox p p) (Fin (Rabs e) : E).
  Definition eray (o d : V3) (e : R) : ray3 E := MkRay (ev o) (ev (unit d)) (rbox o d) (Fin (Rabs e) : E).
  Definition esphere (c : V3) (r e : R) : sphere E := MkSphere (ev c) (Fin r : E) (cube c r) (Fin (Rabs e) : E).
  Definition eplane (o n : V3) (e : R) : plane E := MkPlane (ev o) (ev (unit n)) whole (Fin (Rabs e) : E).
  Definition eline (a b : V3) (e : R) : line3 E := MkLine (ev a) (ev b) (hull a [b]) (Fin (Rabs e) : E).
  Definition ebox (c : V3) (h e : R) : recbox E := MkBox (ev c) (Fin h : E) (cube c h) (Fin (Rabs e) : E).
  Definition pnh (a b c : V3) (h : R) : V3 := vscale h (tri_normal a b c).
  Definition eprism (a b c : V3) (h e : R) : triprism E :=
    let w := pnh a b c h in
    MkPrism (A3 (ev a) (ev b) (ev c)) (A3 (ev (vadd a w)) (ev (vadd b w)) (ev (vadd c w))) (ev w)
            (hull a [b; c; vadd a w; vadd b w; vadd c w]) (Fin (Rabs e) : E).

  Definition vic6 : R := 1 / 1000000.
  Lemma vic6_pos : Rabs vic6 = vic6. Proof. apply Rabs_right. unfold vic6. lra. Qed.
  Lemma vic6_eq : (vicinity0 : E) = Fin (Rabs vic6). Proof. rewrite vic6_pos. reflexivity. Qed.

  Lemma point_eval p : point_init (vl p) = Ok (epoint p vic6).
  Proof. unfold epoint. rewrite <- vic6_eq. reflexivity. Qed.
  Lemma sphere_eval c r : sphere_init (vl c) (Fin r : E) = Ok (esphere c r vic6).
  Proof. unfold esphere. rewrite <- vic6_eq. reflexivity. Qed.
  Lemma box_eval c h : recbox_init (vl c) (Fin h : E) = Ok (ebox c h vic6).
  Proof. unfold ebox. rewrite <- vic6_eq. reflexivity. Qed.
  Lemma normalize_unwrap_eval d : d <> vzero -> normalize_unwrap (ev d) = Ok (ev (unit d)).
  Proof. intro H. unfold normalize_unwrap. rewrite ev_normalize by exact H. reflexivity. Qed.
  Lemma plane_eval o n : n <> vzero -> plane_init (vl o) (vl n) = Ok (eplane o n vic6).
  Proof.
    intro H. unfold plane_init. cbn [length SpecShape.vl Nat.eqb assert bind].
    change (vec_of_slice (vl o)) with (Ok (ev o)). change (vec_of_slice (vl n)) with (Ok (ev n)). cbn [bind].
    rewrite normalize_unwrap_eval by exact H. unfold eplane. rewrite <- vic6_eq. reflexivity.
  Qed.
  Lemma raybox_eval o d : aabb_init TRay (vl o ++ vl d) = Ok (rbox o d).
  Proof.
    unfold rbox, rlo, rup.
    unfold aabb_init. cbn [length SpecShape.vl Nat.eqb assert bind app for_range seq for_each].
    cbn. unfold ngt, nlt, ncmp. cbn.
    repeat match goal with |- context [Rlt_dec ?a ?b] => destruct (Rlt_dec a b); cbn; try lra end; reflexivity.
  Qed.
  Lemma ray_eval o d : d <> vzero -> ray_init (vl o) (vl d) = Ok (eray o d vic6).
  Proof.
    intro H. unfold ray_init. cbn [length SpecShape.vl Nat.eqb assert bind].
    change (vec_of_slice (vl o)) with (Ok (ev o)). change (vec_of_slice (vl d)) with (Ok (ev d)). cbn [bind].
    rewrite normalize_unwrap_eval by exact H. cbn [bind].
    change (slice (vl o) 0 3) with (Ok (vl o)). change (slice (vl d) 0 3) with (Ok (vl d)). cbn [bind].
    rewrite raybox_eval. unfold eray. rewrite <- vic6_eq. reflexivity.
  Qed.
  Lemma line_eval a b : line_init (vl a) (vl b) = Ok (eline a b vic6).
  Proof.
    unfold line_init. cbn [length SpecShape.vl Nat.eqb assert bind idx nth_error].
    pose proof (slice_min_fin (vx a) [vx b]) as H1. pose proof (slice_max_fin (vx a) [vx b]) as H2.
    pose proof (slice_min_fin (vy a) [vy b]) as H3. pose proof (slice_max_fin (vy a) [vy b]) as H4.
    pose proof (slice_min_fin (vz a) [vz b]) as H5. pose proof (slice_max_fin (vz a) [vz b]) as H6.
    cbn [map] in *. rewrite H1, H2, H3, H4, H5, H6. cbn [bind].
    unfold eline. rewrite <- vic6_eq. reflexivity.
  Qed.
  Lemma prism_eval a b c h : tri_ok a b c -> triprism_init (vl a ++ vl b ++ vl c) (Fin h : E) = Ok (eprism a b c h vic6).
  Proof.
    intro H. unfold triprism_init. cbn [length SpecShape.vl app Nat.eqb assert bind idx nth_error].
    match goal with |- context [mat3x1_minus (M3x1 (A3 (Fin (vx b)) ?x ?y)) ?z] =>
      change (M3x1 (A3 (Fin (vx b)) x y)) with (ev b); change z with (ev a) end.
    match goal with |- context [mat3x1_minus (M3x1 (A3 (Fin (vx c)) ?x ?y)) ?z] =>
      change (M3x1 (A3 (Fin (vx c)) x y)) with (ev c) end.
    rewrite !ev_minus. cbn [unwrap bind]. rewrite ev_cross. cbn [unwrap bind].
    rewrite normalize_unwrap_eval by exact H. cbn [unwrap bind]. rewrite ev_scale. cbn [unwrap bind]. rewrite !ev_plus.
    cbn [unwrap bind]. change (vscale h (unit (vcross (vsub b a) (vsub c a)))) with (pnh a b c h). set (w := pnh a b c h).
    cbn [iter_map bind]. rewrite !ev_index0, !ev_index1, !ev_index2. cbn [bind].
    set (l := [b; c; vadd a w; vadd b w; vadd c w]).
    pose proof (slice_min_fin (vx a) (map vx l)) as H1. pose proof (slice_max_fin (vx a) (map vx l)) as H2.
    pose proof (slice_min_fin (vy a) (map vy l)) as H3. pose proof (slice_max_fin (vy a) (map vy l)) as H4.
    pose proof (slice_min_fin (vz a) (map vz l)) as H5. pose proof (slice_max_fin (vz a) (map vz l)) as H6.
    cbn [map l] in H1, H2, H3, H4, H5, H6. subst l. rewrite H1, H2, H3, H4, H5, H6. cbn [bind].
    unfold eprism, hull. cbv zeta. rewrite <- vic6_eq. fold w. reflexivity.
  Qed.

  (** every [is_*] shape has its explicit form *)
  Lemma is_point_inv p e s : is_point eps zs p e s <-> s = SPoint (epoint p e).
  Proof.
    split.
    - intros [x [H ->]]. rewrite point_eval in H. injection H as <-. reflexivity.
    - intros ->. exists (epoint p vic6). split; [apply point_eval | reflexivity].
  Qed.
  Lemma is_sphere_inv c r e s : is_sphere eps zs c r e s <-> s = SSphere (esphere c r e).
  Proof.
    split.
    - intros [x [H ->]]. rewrite sphere_eval in H. injection H as <-. reflexivity.
    - intros ->. exists (esphere c r vic6). split; [apply sphere_eval | reflexivity].
  Qed.
  Lemma is_box_inv c r e s : is_box eps zs c r e s <-> s = SBox (ebox c r e).
  Proof.
    split.
    - intros [x [H ->]]. rewrite box_eval in H. injection H as <-. reflexivity.
    - intros ->. exists (ebox c r vic6). split; [apply box_eval | reflexivity].
  Qed.
  Lemma is_ray_inv o d e s : d <> vzero -> (is_ray eps zs o d e s <-> s = SRay (eray o d e)).
  Proof.
    intro Hd. split.
    - intros [x [H ->]]. rewrite ray_eval in H by exact Hd. injection H as <-. reflexivity.
    - intros ->. exists (eray o d vic6). split; [apply ray_eval, Hd | reflexivity].
  Qed.
  Lemma is_plane_inv o n e s : n <> vzero -> (is_plane eps zs o n e s <-> s = SPlane (eplane o n e)).
  Proof.
    intro Hd. split.
    - intros [x [H ->]]. rewrite plane_eval in H by exact Hd. injection H as <-. reflexivity.
    - intros ->. exists (eplane o n vic6). split; [apply plane_eval, Hd | reflexivity].
  Qed.
  Lemma is_line_inv a b e s : is_line eps zs a b e s <-> s = SLine (eline a b e).
  Proof.
    split.
    - intros [x [H ->]]. rewrite line_eval in H. injection H as <-. reflexivity.
    - intros ->. exists (eline a b vic6). split; [apply line_eval | reflexivity].
  Qed.
  Lemma is_prism_inv a b c h e s : tri_ok a b c -> (is_prism eps zs a b c h e s <-> s = SPrism (eprism a b c h e)).
  Proof.
    intro Hd. split.
    - intros [x [H ->]]. rewrite prism_eval in H by exact Hd. injection H as <-. reflexivity.
    - intros ->. exists (eprism a b c h vic6). split; [apply prism_eval, Hd | reflexivity].
  Qed.

  (** fresh shapes *)
  Lemma fresh_point p x : point_init (vl p) = Ok x -> is_point eps zs p vic6 (SPoint x).
  Proof. intro H. rewrite point_eval in H. injection H as <-. apply is_point_inv. reflexivity. Qed.
  Lemma fresh_sphere c r x : sphere_init (vl c) (Fin r : E) = Ok x -> is_sphere eps zs c r vic6 (SSphere x).
  Proof. intro H. rewrite sphere_eval in H. injection H as <-. apply is_sphere_inv. reflexivity. Qed.
  Lemma fresh_box c r x : recbox_init (vl c) (Fin r : E) = Ok x -> is_box eps zs c r vic6 (SBox x).
  Proof. intro H. rewrite box_eval in H. injection H as <-. apply is_box_inv. reflexivity. Qed.
  Lemma fresh_ray o d x : d <> vzero -> ray_init (vl o) (vl d) = Ok x -> is_ray eps zs o d vic6 (SRay x).
  Proof. intros Hd H. rewrite ray_eval in H by exact Hd. injection H as <-. apply is_ray_inv; [exact Hd | reflexivity]. Qed.
  Lemma fresh_plane o d x : d <> vzero -> plane_init (vl o) (vl d) = Ok x -> is_plane eps zs o d vic6 (SPlane x).
  Proof. intros Hd H. rewrite plane_eval in H by exact Hd. injection H as <-. apply is_plane_inv; [exact Hd | reflexivity]. Qed.
  Lemma fresh_line a b x : line_init (vl a) (vl b) = Ok x -> is_line eps zs a b vic6 (SLine x).
  Proof. intro H. rewrite line_eval in H. injection H as <-. apply is_line_inv. reflexivity. Qed.
  Lemma fresh_prism a b c h x : tri_ok a b c -> triprism_init (vl a ++ vl b ++ vl c) (Fin h : E) = Ok x ->
    is_prism eps zs a b c h vic6 (SPrism x).
  Proof. intros Hd H. rewrite prism_eval in H by exact Hd. injection H as <-. apply is_prism_inv; [exact Hd | reflexivity]. Qed.

  (** C36 *)
  Lemma in_fbox l u x : vx l <= vx x <= vx u -> vy l <= vy x <= vy u -> vz l <= vz x <= vz u -> holds eps zs (fbox l u) x.
  Proof. intros H1 H2 H3 i Hi. cases3 i Hi; simpl; lra. Qed.
  Lemma bound_point p e s x : is_point eps zs p e s -> s_point p x ->
    exists b, shape_get_bound s = BBox b /\ holds eps zs b x.
  Proof.
    rewrite is_point_inv. intros -> ->. eexists. split; [reflexivity |]. apply in_fbox; lra.
  Qed.
  Lemma ball_comps c r x : s_ball c r x -> Rabs (vx x - vx c) <= r /\ Rabs (vy x - vy c) <= r /\ Rabs (vz x - vz c) <= r.
  Proof.
    unfold s_ball, dist, norm, vdot, vsub. simpl. intro H.
    assert (Hc : forall a b cc, Rabs a <= sqrt (a * a + b * b + cc * cc)).
    { intros a b cc. rewrite <- sqrt_Rsqr_abs. apply sqrt_le_1_alt. unfold Rsqr. nra. }
    set (p := vx x - vx c) in *. set (q := vy x - vy c) in *. set (w := vz x - vz c) in *.
    split; [| split].
    - eapply Rle_trans; [apply (Hc p q w) | exact H].
    - eapply Rle_trans; [apply (Hc q p w) |]. replace (q * q + p * p + w * w) with (p * p + q * q + w * w) by ring. exact H.
    - eapply Rle_trans; [apply (Hc w q p) |]. replace (w * w + q * q + p * p) with (p * p + q * q + w * w) by ring. exact H.
  Qed.
  Lemma cube_holds c r x : s_cube c r x -> holds eps zs (cube c r) x.
  Proof.
    intros [H1 [H2 H3]]. apply Rabs_le_inv in H1, H2, H3. apply in_fbox; simpl; lra.
  Qed.
  Lemma bound_sphere c r e s x : is_sphere eps zs c r e s -> s_ball c r x ->
    exists b, shape_get_bound s = BBox b /\ holds eps zs b x.
  Proof.
    rewrite is_sphere_inv. intros -> Hx. eexists. split; [reflexivity |]. apply cube_holds, ball_comps, Hx.
  Qed.
  Lemma bound_box c h e s x : is_box eps zs c h e s -> s_cube c h x ->
    exists b, shape_get_bound s = BBox b /\ holds eps zs b x.
  Proof.
    rewrite is_box_inv. intros -> Hx. eexists. split; [reflexivity |]. apply cube_holds, Hx.
  Qed.
  Lemma ray_axis o d t : 0 <= t -> xle (rlo o d) (Fin (o + t * d)) /\ xle (Fin (o + t * d)) (rup o d).
  Proof.
    intro Ht. unfold rlo, rup. destruct (Rlt_dec 0 d); [| destruct (Rlt_dec d 0)]; simpl; nra.
  Qed.
  Lemma bound_ray o d e s x : d <> vzero -> is_ray eps zs o d e s -> s_ray o d x ->
    exists b, shape_get_bound s = BBox b /\ holds eps zs b x.
  Proof.
    intros Hd Hs [t [Ht ->]]. apply (is_ray_inv o d e s Hd) in Hs. subst s. eexists. split; [reflexivity |].
    intros i Hi. cases3 i Hi; apply ray_axis, Ht.
  Qed.
  Lemma bound_plane o n e s x : n <> vzero -> is_plane eps zs o n e s -> s_plane o n x ->
    exists b, shape_get_bound s = BBox b /\ holds eps zs b x.
  Proof.
    intros Hd Hs _. apply (is_plane_inv o n e s Hd) in Hs. subst s. eexists. split; [reflexivity |].
    intros i Hi. cases3 i Hi; split; exact I.
  Qed.
  (** convex combinations stay in a hull *)
  Lemma hull_pts p l q : In q (p :: l) -> holds eps zs (hull p l) q.
  Proof.
    intro Hq. destruct (lmin_le (vx p) (map vx l)) as [A1 [A2 _]]. destruct (lmin_le (vy p) (map vy l)) as [B1 [B2 _]].
    destruct (lmin_le (vz p) (map vz l)) as [C1 [C2 _]]. destruct (lmax_ge (vx p) (map vx l)) as [D1 [D2 _]].
    destruct (lmax_ge (vy p) (map vy l)) as [E1 [E2 _]]. destruct (lmax_ge (vz p) (map vz l)) as [F1 [F2 _]].
    destruct Hq as [<- | Hq]; apply in_fbox; cbn [vx vy vz]; split; try assumption;
      match goal with H : forall y, In y (map ?f _) -> _ |- context [?f q] => apply H, in_map, Hq end.
  Qed.
  Lemma holds_convex l u x y k : 0 <= k <= 1 -> holds eps zs (fbox l u) x -> holds eps zs (fbox l u) y ->
    holds eps zs (fbox l u) (vadd x (vscale k (vsub y x))).
  Proof.
    intros Hk Hx Hy i Hi. specialize (Hx i Hi). specialize (Hy i Hi). cases3 i Hi; simpl in *; nra.
  Qed.
  Lemma bound_line a b e s x : is_line eps zs a b e s -> s_segment a b x ->
    exists b, shape_get_bound s = BBox b /\ holds eps zs b x.
  Proof.
    rewrite is_line_inv. intros -> [t [Ht ->]]. eexists. split; [reflexivity |].
    apply holds_convex; [exact Ht | |]; apply hull_pts; simpl; auto.
  Qed.
  Lemma tri_in_box l u a b c x : holds eps zs (fbox l u) a -> holds eps zs (fbox l u) b -> holds eps zs (fbox l u) c ->
    s_triangle a b c x -> holds eps zs (fbox l u) x.
  Proof.
    intros Ha Hb Hc [s [t [Hs [Ht [Hst ->]]]]] i Hi. specialize (Ha i Hi). specialize (Hb i Hi). specialize (Hc i Hi).
    cases3 i Hi; simpl in *; nra.
  Qed.
  Lemma bound_prism a b c h e s x : tri_ok a b c -> is_prism eps zs a b c h e s -> s_prism a b c h x ->
    exists b, shape_get_bound s = BBox b /\ holds eps zs b x.
  Proof.
    intros Hd Hs [y [k [Hy [Hk ->]]]]. apply (is_prism_inv a b c h e s Hd) in Hs. subst s. eexists. split; [reflexivity |].
    cbn [tp_bound eprism]. set (w := pnh a b c h).
    replace (vadd y (vscale (k * h) (tri_normal a b c))) with (vadd y (vscale k (vsub (vadd y w) y))).
    2:{ subst w. unfold pnh. apply V3_eq; simpl; ring. }
    apply holds_convex; [exact Hk | |].
    - apply (tri_in_box _ _ a b c); [| | | exact Hy]; apply hull_pts; simpl; auto 8.
    - apply (tri_in_box _ _ (vadd a w) (vadd b w) (vadd c w)); [| | |]; try (apply hull_pts; simpl; auto 8).
      destruct Hy as [s [t [H1 [H2 [H3 ->]]]]]. exists s, t. repeat split; try assumption. apply V3_eq; simpl; ring.
  Qed.
End PShape.

Lemma shapes_exist (eps : R) (zs : XR -> bool) (p q u : V3) (r e : R) :
  (exists s, is_point eps zs p e s) /\ (exists s, is_sphere eps zs p r e s) /\ (exists s, is_box eps zs p r e s) /\
  (exists s, is_line eps zs p q e s) /\ (q <> vzero -> exists s, is_ray eps zs p q e s) /\
  (q <> vzero -> exists s, is_plane eps zs p q e s) /\ (tri_ok p q u -> exists s, is_prism eps zs p q u r e s).
Proof.
  repeat split.
  - eexists. apply is_point_inv. reflexivity.
  - eexists. apply is_sphere_inv. reflexivity.
  - eexists. apply is_box_inv. reflexivity.
  - eexists. apply is_line_inv. reflexivity.
  - intro Hq. eexists. apply is_ray_inv; [exact Hq | reflexivity].
  - intro Hq. eexists. apply is_plane_inv; [exact Hq | reflexivity].
  - intro Hq. eexists. apply is_prism_inv; [exact Hq | reflexivity].
Qed.
