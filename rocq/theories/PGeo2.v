(** PGeo2.v — ray queries against spheres, planes and rays in exact arithmetic (C48-C51). *)
From Coq Require Import Reals List ZArith NArith Bool Lra Lia Psatz.
Import ListNotations.
From Verif Require Import Base Num Vec Mat Bound Shape Intersect Exact SpecMat SpecGeom SpecBound SpecShape SpecInter
  ExactFacts FloatFacts Order PMat PBound PShape PInter PQuat2 PVec PGeo1.
Local Open Scope R_scope.

(** directions whose unit vectors have a cross product within the tolerance of ray.rs:83 in every component *)
Definition near_parallel (d g : V3) : Prop :=
  let v := vcross (vscale (/ norm d) d) (vscale (/ norm g) g) in
  Rabs (vx v) <= 1 / 10000 /\ Rabs (vy v) <= 1 / 10000 /\ Rabs (vz v) <= 1 / 10000.

Lemma vdot_comm u v : vdot u v = vdot v u. Proof. unfold vdot. ring. Qed.
Lemma vdot_add_r u v w : vdot u (vadd v w) = vdot u v + vdot u w. Proof. unfold vdot, vadd. simpl. ring. Qed.
Lemma vdot_sub_r u v w : vdot u (vsub v w) = vdot u v - vdot u w. Proof. unfold vdot, vsub. simpl. ring. Qed.
Lemma vdot_scale_r u k v : vdot u (vscale k v) = k * vdot u v. Proof. unfold vdot, vscale. simpl. ring. Qed.
Lemma vdot_scale_l u k v : vdot (vscale k u) v = k * vdot u v. Proof. unfold vdot, vscale. simpl. ring. Qed.
Lemma vdot_unit n v : vdot (unit n) v = / norm n * vdot n v. Proof. apply vdot_scale_l. Qed.
Lemma vdot_unit_zero n v : n <> vzero -> (vdot (unit n) v = 0 <-> vdot n v = 0).
Proof.
  intro Hn. pose proof (norm_nz n Hn) as H. rewrite vdot_unit. split; [| intros ->; ring].
  intro E. apply Rmult_integral in E. destruct E as [E | E]; [| exact E]. pose proof (Rinv_0_lt_compat _ H). lra.
Qed.
Lemma vdot_unit_sign n v : n <> vzero -> (vdot (unit n) v < 0 <-> vdot n v < 0).
Proof.
  intro Hn. pose proof (norm_nz n Hn) as H. pose proof (Rinv_0_lt_compat _ H) as Hi. rewrite vdot_unit.
  split; intro L; [| nra]. apply Rnot_le_lt. intro. nra.
Qed.

Section PGeo2.
  Variable eps : R.
  Variable zs : XR -> bool.
  Notation E := (Exact eps zs).
  Notation ev := (ev eps zs).
  Notation eray := (eray eps zs).
  Notation O := (exact_ordered eps zs).
  Notation holds := (holds eps zs).

  Lemma eray_holds o d x : d <> vzero -> s_ray o d x -> holds (rbox eps zs o d) x.
  Proof.
    intros Hd H. destruct (bound_ray eps zs o d 0 (SRay (eray o d 0)) x Hd) as [B [HB Hx]]; [apply is_ray_inv; [exact Hd | reflexivity] | exact H |].
    injection HB as <-. exact Hx.
  Qed.

  (** ---- ray - sphere ---- *)
  Definition rsb (o d c : V3) : R := vdot (vsub o c) (unit d).
  Definition rsc (o c : V3) (r : R) : R := vdot (vsub o c) (vsub o c) - r * r.
  Definition rsd (o d c : V3) (r : R) : R := rsb o d c * rsb o d c - rsc o c r.
  Lemma ray_sphere_core o d e c r f :
    core (SRay (eray o d e)) (SSphere (esphere eps zs c r f)) =
    Ok (if Rlt_dec 0 (rsb o d c) then if Rlt_dec 0 (rsc o c r) then (false, None) else
          (true, Some (ev (vadd o (vscale (- rsb o d c + sqrt (rsd o d c r)) (unit d)))))
        else if Rlt_dec (rsd o d c r) 0 then (false, None)
        else if Rlt_dec (- rsb o d c - sqrt (rsd o d c r)) 0
          then (true, Some (ev (vadd o (vscale (- rsb o d c + sqrt (rsd o d c r)) (unit d)))))
          else (true, Some (ev (vadd o (vscale (- rsb o d c - sqrt (rsd o d c r)) (unit d)))))).
  Proof.
    cbn [core]. unfold ray_sphere. cbn [shape_get_shape_data esphere sp_ori sp_radius].
    rewrite vec_at_data. cbn [bind]. change (idx (vec_data (ev c) ++ [Fin r : E]) 3) with (Ok (Fin r : E)). cbn [bind].
    cbn [PShape.eray ray_dir ray_ori]. rewrite ev_minus. cbn [unwrap bind]. rewrite !ev_dot. cbn [unwrap bind nsub nmul nneg nadd Exact xsub xmul xneg xadd].
    change (n0 : E) with (Fin 0 : E). rewrite !ngt_fin. fold (rsb o d c). fold (rsc o c r). fold (rsd o d c r).
    destruct (Rlt_dec 0 (rsb o d c)) as [B | B].
    - destruct (Rlt_dec 0 (rsc o c r)) as [C | C]; cbn [andb]; [reflexivity |]. rewrite nlt_fin.
      assert (D : 0 <= rsd o d c r) by (unfold rsd; nra).
      destruct (Rlt_dec (rsd o d c r) 0); [lra |]. rewrite nsqrt_fin by exact D. cbn [xsub xadd]. pose proof (sqrt_pos (rsd o d c r)) as S.
      rewrite nlt_fin. destruct (Rlt_dec (- rsb o d c - sqrt (rsd o d c r)) 0); [| lra]. rewrite along_eval. reflexivity.
    - cbn [andb]. rewrite nlt_fin. destruct (Rlt_dec (rsd o d c r) 0) as [| D]; [reflexivity |]. apply Rnot_lt_le in D.
      rewrite nsqrt_fin by exact D. cbn [xsub xadd]. pose proof (sqrt_pos (rsd o d c r)) as S.
      rewrite !nlt_fin. destruct (Rlt_dec (- rsb o d c - sqrt (rsd o d c r)) 0) as [T | T]; [rewrite along_eval; reflexivity |].
      destruct (Rlt_dec (- rsb o d c + sqrt (rsd o d c r)) 0); [lra |].
      destruct (Rlt_dec (- rsb o d c - sqrt (rsd o d c r)) (- rsb o d c + sqrt (rsd o d c r))) as [L | L]; rewrite along_eval; cbn [bind]; [reflexivity |].
      replace (- rsb o d c + sqrt (rsd o d c r)) with (- rsb o d c - sqrt (rsd o d c r)) by lra. reflexivity.
  Qed.
  (** distance of a ray point from the centre *)
  Lemma ray_quad o d c t r : d <> vzero -> 0 <= r ->
    (s_surface c r (vadd o (vscale t (unit d))) <-> (t + rsb o d c) * (t + rsb o d c) = rsd o d c r).
  Proof.
    intros Hd Hr. pose proof (unit_dot d Hd) as Hu. unfold s_surface, dist.
    set (w := vsub (vadd o (vscale t (unit d))) c).
    assert (Q : vdot w w = vdot (vsub o c) (vsub o c) + 2 * t * rsb o d c + t * t).
    { replace (vdot w w) with (vdot (vsub o c) (vsub o c) + 2 * t * rsb o d c + t * t * vdot (unit d) (unit d))
        by (unfold w, rsb, vdot, vsub, vadd, vscale; simpl; ring). rewrite Hu. ring. }
    pose proof (norm_sq w) as N. pose proof (norm_pos w) as P. unfold rsd, rsc. split.
    - intro H. rewrite H in N. lra.
    - intro H. assert (norm w * norm w = r * r) by lra. nra.
  Qed.
  Lemma ray_sphere_first o d e c r f a b : d <> vzero -> 0 <= r -> is_ray eps zs o d e a -> is_sphere eps zs c r f b ->
    (meets (s_ray o d) (s_surface c r) -> exists x, shape_get_intersect a b = Ok (true, Some (ev x)) /\
       s_ray o d x /\ s_surface c r x /\ forall y, s_ray o d y -> s_surface c r y -> dist o x <= dist o y) /\
    (~ meets (s_ray o d) (s_surface c r) -> shape_get_intersect a b = Ok (false, None)).
  Proof.
    intros Hd Hr Ha Hb. apply (is_ray_inv eps zs o d e a Hd) in Ha. rewrite is_sphere_inv in Hb. subst.
    assert (Hdist : forall t, 0 <= t -> dist o (vadd o (vscale t (unit d))) = t).
    { intros t Ht. unfold dist. replace (vsub o (vadd o (vscale t (unit d)))) with (vscale (- t) (unit d)) by (apply V3_eq; simpl; ring).
      rewrite norm_vscale, (unit_norm d Hd), Rabs_Ropp, Rabs_pos_eq by exact Ht. ring. }
    assert (Hp : forall t, 0 <= t -> s_ray o d (vadd o (vscale t (unit d)))).
    { intros t Ht. apply (ray_unit o d _ Hd). exists t. split; [exact Ht | reflexivity]. }
    pose proof (ray_sphere_core o d e c r f) as Hcore. set (B := rsb o d c) in *. set (D := rsd o d c r) in *.
    assert (DE : D = B * B - rsc o c r) by reflexivity.
    (* the least nonnegative root *)
    assert (Key : forall t0, 0 <= t0 -> (t0 + B) * (t0 + B) = D -> exists t, 0 <= t /\ (t + B) * (t + B) = D /\
        core (SRay (eray o d e)) (SSphere (esphere eps zs c r f)) = Ok (true, Some (ev (vadd o (vscale t (unit d))))) /\
        forall s, 0 <= s -> (s + B) * (s + B) = D -> t <= s).
    { intros t0 P0 Q0. assert (Dp : 0 <= D) by (rewrite <- Q0; apply Rle_0_sqr). pose proof (sqrt_pos D) as Sp. pose proof (sqrt_sqrt D Dp) as Sq.
      rewrite Hcore. destruct (Rlt_dec 0 B) as [HB | HB].
      - destruct (Rlt_dec 0 (rsc o c r)) as [HC | HC]; [exfalso; nra |].
        exists (- B + sqrt D). assert (B <= sqrt D) by nra. repeat split; try lra; try nra. intros s Ps Qs. nra.
      - destruct (Rlt_dec D 0); [lra |]. destruct (Rlt_dec (- B - sqrt D) 0) as [HT | HT].
        + exists (- B + sqrt D). repeat split; try lra; try nra. intros s Ps Qs. nra.
        + exists (- B - sqrt D). repeat split; try lra; try nra. intros s Ps Qs.
          destruct (Rle_dec 0 (s + B)); nra. }
    assert (Back : forall h, core (SRay (eray o d e)) (SSphere (esphere eps zs c r f)) = Ok h ->
        h = (false, None) \/ exists t, 0 <= t /\ (t + B) * (t + B) = D).
    { intros h Hh. rewrite Hcore in Hh. injection Hh as <-. destruct (Rlt_dec 0 B) as [HB | HB].
      - destruct (Rlt_dec 0 (rsc o c r)) as [HC | HC]; [left; reflexivity | right].
        assert (Dp : 0 <= D) by nra. pose proof (sqrt_pos D) as Sp. pose proof (sqrt_sqrt D Dp) as Sq.
        exists (- B + sqrt D). assert (B <= sqrt D) by nra. split; [lra | nra].
      - destruct (Rlt_dec D 0) as [| Dp]; [left; reflexivity | right]. apply Rnot_lt_le in Dp.
        pose proof (sqrt_pos D) as Sp. pose proof (sqrt_sqrt D Dp) as Sq. exists (- B + sqrt D). split; [lra | nra]. }
    split.
    - intros [x [Hx Hs]]. pose proof (eray_holds o d x Hd Hx) as Hbx. pose proof Hx as Hx'. apply (ray_unit o d x Hd) in Hx'. destruct Hx' as [t0 [P0 X0]].
      assert (Hov : overlap (SRay (eray o d e)) (SSphere (esphere eps zs c r f)) = true).
      { apply (overlap_point eps zs _ _ (rbox eps zs o d) (cube eps zs c r) x); [reflexivity | reflexivity | exact Hbx |].
        apply cube_holds, ball_comps. unfold s_ball, s_surface in *. lra. }
      assert (Q0 : (t0 + B) * (t0 + B) = D) by (apply (ray_quad o d c t0 r Hd Hr); rewrite <- X0; exact Hs).
      destruct (Key t0 P0 Q0) as [t [Pt [Qt [Ct Mt]]]]. exists (vadd o (vscale t (unit d))).
      rewrite core_of by exact Hov. split; [exact Ct |]. split; [apply Hp, Pt |]. split; [apply (ray_quad o d c t r Hd Hr); exact Qt |].
      intros y Hy Sy. apply (ray_unit o d y Hd) in Hy. destruct Hy as [s [Ps ->]]. rewrite !Hdist by assumption.
      apply Mt; [exact Ps |]. apply (ray_quad o d c s r Hd Hr). exact Sy.
    - intro Hn. destruct (overlap (SRay (eray o d e)) (SSphere (esphere eps zs c r f))) eqn:Eo; [| apply miss_of, Eo].
      rewrite core_of by exact Eo. destruct (core (SRay (eray o d e)) (SSphere (esphere eps zs c r f))) as [h | k] eqn:Ec.
      + destruct (Back h eq_refl) as [-> | [t [Pt Qt]]]; [reflexivity | exfalso]. apply Hn. exists (vadd o (vscale t (unit d))).
        split; [apply Hp, Pt |]. apply (ray_quad o d c t r Hd Hr). exact Qt.
      + congruence.
  Qed.

  (** ---- ray - plane ---- *)
  Lemma ray_plane_core o d e q n f : 
    core (SRay (eray o d e)) (SPlane (eplane eps zs q n f)) =
    Ok (if Req_EM_T (vdot (unit n) (unit d)) 0 then if Req_EM_T (vdot q (unit n)) (vdot o (unit n)) then (true, Some (ev o)) else (false, None)
        else if Rlt_dec 0 (vdot (unit n) (unit d)) then (false, None)
        else if Rlt_dec ((vdot q (unit n) - vdot (unit n) o) / vdot (unit n) (unit d)) 0 then (false, None)
        else (true, Some (ev (vadd o (vscale ((vdot q (unit n) - vdot (unit n) o) / vdot (unit n) (unit d)) (unit d)))))).
  Proof.
    cbn [core]. unfold ray_plane. cbn [shape_get_shape_data eplane pl_offset pl_normal].
    rewrite vec_at_data. rewrite <- (app_nil_r (vec_data (ev (unit n)))), vec_at_data3. cbn [bind PShape.eray ray_ori ray_dir].
    rewrite !ev_dot. cbn [unwrap bind nsub Exact xsub]. change (n0 : E) with (Fin 0 : E). rewrite neqb_fin.
    destruct (Req_EM_T (vdot (unit n) (unit d)) 0) as [Z | Z].
    - rewrite neqb_fin. destruct (Req_EM_T _ _); reflexivity.
    - rewrite ngt_fin. destruct (Rlt_dec 0 (vdot (unit n) (unit d))); [reflexivity |].
      change (Fin (vdot q (unit n) - vdot (unit n) o)) with (Fin (vdot q (unit n) - vdot (unit n) o) : E).
      rewrite ndiv_fin by exact Z. rewrite nlt_fin.
      destruct (Rlt_dec _ 0); [reflexivity |]. rewrite along_eval. reflexivity.
  Qed.
  Lemma overlap_whole (a : shape E) o d e q n f : a = SRay (eray o d e) -> d <> vzero -> overlap a (SPlane (eplane eps zs q n f)) = true.
  Proof.
    intros -> Hd. apply (overlap_point eps zs _ _ (rbox eps zs o d) (whole eps zs) o); [reflexivity | reflexivity | | apply whole_holds].
    apply eray_holds; [exact Hd |]. exists 0. split; [lra |]. apply V3_eq; simpl; ring.
  Qed.
  Lemma ray_plane_front o d e q n f a b : d <> vzero -> n <> vzero -> is_ray eps zs o d e a -> is_plane eps zs q n f b ->
    vdot n d < 0 ->
    (forall x, s_ray o d x /\ s_plane q n x <-> shape_get_intersect a b = Ok (true, Some (ev x))) /\
    (~ meets (s_ray o d) (s_plane q n) -> shape_get_intersect a b = Ok (false, None)).
  Proof.
    intros Hd Hn Ha Hb Hnd. apply (is_ray_inv eps zs o d e a Hd) in Ha. apply (is_plane_inv eps zs q n f b Hn) in Hb. subst.
    rewrite core_of by (eapply overlap_whole; [reflexivity | exact Hd]). rewrite ray_plane_core.
    assert (Hneg : vdot (unit n) (unit d) < 0).
    { apply vdot_unit_sign; [exact Hn |]. rewrite vdot_comm. apply vdot_unit_sign; [exact Hd |]. rewrite vdot_comm. exact Hnd. }
    destruct (Req_EM_T _ 0); [lra |]. destruct (Rlt_dec 0 _); [lra |].
    set (t := (vdot q (unit n) - vdot (unit n) o) / vdot (unit n) (unit d)).
    assert (Ht : t * vdot (unit n) (unit d) = vdot (unit n) (vsub q o)).
    { unfold t. rewrite vdot_sub_r, (vdot_comm q). field. lra. }
    assert (Hpl : forall s, s_plane q n (vadd o (vscale s (unit d))) <-> s = t).
    { intro s. unfold s_plane. rewrite <- (vdot_unit_zero n _ Hn), vdot_sub_r, vdot_add_r, vdot_scale_r. rewrite vdot_sub_r in Ht.
      split; [intro Hs; nra | intros ->; nra]. }
    assert (Hx : forall x, s_ray o d x /\ s_plane q n x <-> 0 <= t /\ x = vadd o (vscale t (unit d))).
    { intro x. rewrite (ray_unit o d x Hd). split.
      - intros [[s [Ps ->]] Hq]. apply Hpl in Hq. subst s. split; [exact Ps | reflexivity].
      - intros [Pt ->]. split; [exists t; split; [exact Pt | reflexivity] | apply Hpl; reflexivity]. }
    split.
    - intro x. rewrite Hx. destruct (Rlt_dec t 0) as [L | L].
      + split; [intros [? _]; lra | discriminate].
      + split; [intros [_ ->]; reflexivity |]. intro H. injection H as H1 H2 H3. split; [lra |]. apply V3_eq; symmetry; assumption.
    - intro Hm. destruct (Rlt_dec t 0) as [L | L]; [reflexivity |]. exfalso. apply Hm. exists (vadd o (vscale t (unit d))).
      apply Hx. split; [lra | reflexivity].
  Qed.
  Lemma ray_plane_inside o d e q n f a b : d <> vzero -> n <> vzero -> is_ray eps zs o d e a -> is_plane eps zs q n f b ->
    vdot n d = 0 ->
    (s_plane q n o -> shape_get_intersect a b = Ok (true, Some (ev o))) /\
    (~ s_plane q n o -> shape_get_intersect a b = Ok (false, None)).
  Proof.
    intros Hd Hn Ha Hb Hnd. apply (is_ray_inv eps zs o d e a Hd) in Ha. apply (is_plane_inv eps zs q n f b Hn) in Hb. subst.
    rewrite core_of by (eapply overlap_whole; [reflexivity | exact Hd]). rewrite ray_plane_core.
    assert (Hz : vdot (unit n) (unit d) = 0).
    { apply vdot_unit_zero; [exact Hn |]. rewrite vdot_comm. apply vdot_unit_zero; [exact Hd |]. rewrite vdot_comm. exact Hnd. }
    destruct (Req_EM_T (vdot (unit n) (unit d)) 0); [| contradiction]. unfold s_plane. rewrite <- (vdot_unit_zero n _ Hn), vdot_sub_r.
    rewrite (vdot_comm q), (vdot_comm o). destruct (Req_EM_T _ _) as [Q | Q]; split; intro H; try reflexivity; exfalso; lra.
  Qed.
  Lemma ray_plane_back o d e q n f a b : d <> vzero -> n <> vzero -> is_ray eps zs o d e a -> is_plane eps zs q n f b ->
    0 < vdot n d -> shape_get_intersect a b = Ok (false, None).
  Proof.
    intros Hd Hn Ha Hb Hnd. apply (is_ray_inv eps zs o d e a Hd) in Ha. apply (is_plane_inv eps zs q n f b Hn) in Hb. subst.
    rewrite core_of by (eapply overlap_whole; [reflexivity | exact Hd]). rewrite ray_plane_core.
    assert (Hp : 0 < vdot (unit n) (unit d)).
    { rewrite vdot_unit, vdot_comm, vdot_unit, vdot_comm. pose proof (Rinv_0_lt_compat _ (norm_nz n Hn)). pose proof (Rinv_0_lt_compat _ (norm_nz d Hd)).
      apply Rmult_lt_0_compat; [assumption |]. apply Rmult_lt_0_compat; assumption. }
    destruct (Req_EM_T _ 0); [lra |]. destruct (Rlt_dec 0 _); [reflexivity | contradiction].
  Qed.

  (** ---- ray - ray ---- *)
  Lemma near_dec d g : near_parallel d g \/ ~ near_parallel d g.
  Proof.
    unfold near_parallel. cbv zeta.
    destruct (Rle_dec (Rabs (vx (vcross (vscale (/ norm d) d) (vscale (/ norm g) g)))) (1 / 10000)) as [A | A]; [| right; tauto].
    destruct (Rle_dec (Rabs (vy (vcross (vscale (/ norm d) d) (vscale (/ norm g) g)))) (1 / 10000)) as [B | B]; [| right; tauto].
    destruct (Rle_dec (Rabs (vz (vcross (vscale (/ norm d) d) (vscale (/ norm g) g)))) (1 / 10000)) as [C | C]; [left | right]; tauto.
  Qed.
  Lemma cross_tol v : mat3x1_is_equal (ev v) mat3x1_default (nlit E 1 10000) = Some true <->
    (Rabs (vx v) <= 1 / 10000 /\ Rabs (vy v) <= 1 / 10000 /\ Rabs (vz v) <= 1 / 10000).
  Proof.
    unfold mat3x1_is_equal, mat3x1_default, ExactFacts.ev. change (n0 : E) with (Fin 0 : E).
    change (nlit E 1 10000) with (Fin (1 / 10000) : E). cbn [nsub nadd Exact xsub xadd].
    rewrite !nge_fin, !nle_fin.
    split.
    - intro H. injection H as H. rewrite !andb_true_iff in H.
      repeat match goal with H : context [Rle_dec ?a ?b] |- _ => destruct (Rle_dec a b) end; try (exfalso; intuition discriminate).
      repeat split; apply Rabs_le; lra.
    - intros [H1 [H2 H3]]. apply Rabs_le_inv in H1, H2, H3.
      repeat match goal with |- context [Rle_dec ?a ?b] => destruct (Rle_dec a b); [| exfalso; lra] end. reflexivity.
  Qed.
  Lemma is_equal_some u v k : exists b, @mat3x1_is_equal E u v k = Some b.
  Proof. destruct u as [[]], v as [[]]. eexists. reflexivity. Qed.
  Lemma cross_first_zero a b : vdot (vcross a b) (vsub b a) = 0.
  Proof. unfold vdot, vcross, vsub. simpl. ring. Qed.
  Lemma vx_zero v : ~ (Rabs (vx v) <= 1 / 10000 /\ Rabs (vy v) <= 1 / 10000 /\ Rabs (vz v) <= 1 / 10000) -> 0 < norm v.
  Proof.
    intro H. apply norm_nz. intros ->. apply H. simpl. rewrite Rabs_R0. lra.
  Qed.
  Lemma ray_ray_skew o d e p g f : ~ near_parallel d g ->
    core (SRay (eray o d e)) (SRay (eray p g f)) =
    Ok (true, Some (ev (vadd o (vscale (norm (vcross (vsub p o) (unit g)) / norm (vcross (unit d) (unit g))) (unit d))))).
  Proof.
    intro Hp. cbn [core]. unfold ray_ray. cbn [shape_get_shape_data PShape.eray ray_ori ray_dir ray_vic].
    rewrite vec_at_data. rewrite <- (app_nil_r (vec_data (ev (unit g)))), vec_at_data3. cbn [bind].
    rewrite !ev_minus, ev_cross. cbn [unwrap bind]. rewrite ev_dot. cbn [unwrap bind]. rewrite cross_first_zero.
    change (n0 : E) with (Fin 0 : E).
    replace (@within E (Fin (Rabs e)) (Fin 0) (Fin 0)) with true.
    2:{ symmetry. apply within_exact. replace (0 - 0) with 0 by ring. rewrite Rabs_R0. apply Rabs_pos. }
    cbn [negb]. destruct (is_equal_some (ev (vcross (unit d) (unit g))) mat3x1_default (nlit E 1 10000)) as [b Hb].
    rewrite Hb. cbn [unwrap bind]. destruct b; [apply cross_tol in Hb; contradiction |].
    rewrite ev_cross. cbn [unwrap bind]. rewrite !ev_magnitude. cbn [unwrap bind].
    pose proof (vx_zero _ Hp) as Hv. fold (unit d) (unit g) in Hv. rewrite ndiv_fin by lra. rewrite nlt_fin.
    pose proof (norm_pos (vcross (vsub p o) (unit g))) as Hn.
    destruct (Rlt_dec _ 0) as [L | L].
    - exfalso. pose proof (Rinv_0_lt_compat _ Hv). unfold Rdiv in L. nra.
    - rewrite along_eval. reflexivity.
  Qed.
  Lemma ray_ray_parallel o d e p g f : d <> vzero -> near_parallel d g ->
    core (SRay (eray o d e)) (SRay (eray p g f)) =
    Ok (if Rle_dec (norm (vcross (unit d) (vsub p o))) (Rabs e) then
          if Rlt_dec (vdot (vsub p o) (unit d)) 0 then (true, Some (ev o)) else (true, Some (ev (vadd o (vscale (norm (vsub p o)) (unit d)))))
        else (false, None)).
  Proof.
    intros Hd Hp. cbn [core]. unfold ray_ray. cbn [shape_get_shape_data PShape.eray ray_ori ray_dir ray_vic].
    rewrite vec_at_data. rewrite <- (app_nil_r (vec_data (ev (unit g)))), vec_at_data3. cbn [bind].
    rewrite !ev_minus, ev_cross. cbn [unwrap bind]. rewrite ev_dot. cbn [unwrap bind]. rewrite cross_first_zero.
    change (n0 : E) with (Fin 0 : E).
    replace (@within E (Fin (Rabs e)) (Fin 0) (Fin 0)) with true.
    2:{ symmetry. apply within_exact. replace (0 - 0) with 0 by ring. rewrite Rabs_R0. apply Rabs_pos. }
    cbn [negb]. destruct (is_equal_some (ev (vcross (unit d) (unit g))) mat3x1_default (nlit E 1 10000)) as [b Hb].
    rewrite Hb. cbn [unwrap bind]. destruct b.
    2:{ exfalso. apply cross_tol in Hp. fold (unit d) (unit g) in Hp. rewrite Hb in Hp. discriminate Hp. }
    rewrite ev_cross. cbn [unwrap bind]. rewrite !ev_magnitude. cbn [unwrap bind].
    pose proof (norm_pos (vcross (unit d) (vsub p o))) as Hn.
    destruct (Rle_dec (norm (vcross (unit d) (vsub p o))) (Rabs e)) as [L | L].
    2:{ replace (within _ _ _) with false; [reflexivity |]. symmetry. apply within_false. rewrite Rminus_0_r, (Rabs_pos_eq (norm _)) by exact Hn. lra. }
    replace (within _ _ _) with true by (symmetry; apply within_exact; rewrite Rminus_0_r, (Rabs_pos_eq (norm _)) by exact Hn; exact L).
    cbn [negb]. rewrite ev_dot. cbn [unwrap bind]. rewrite nlt_fin, (unit_norm d Hd).
    change (nlit E (-1) 1) with (Fin (-1) : E). change (n1 : E) with (Fin 1 : E).
    pose proof (norm_pos (vsub p o)) as Hw. pose proof (cauchy' (vsub p o) (unit d)) as Hc.
    destruct (Rlt_dec (vdot (vsub p o) (unit d)) 0) as [S | S].
    - cbn [nmul Exact xmul]. change (Fin (-1 * norm (vsub p o))) with (Fin (-1 * norm (vsub p o)) : E). rewrite ndiv_fin by lra. rewrite nlt_fin.
      destruct (Rlt_dec (-1 * norm (vsub p o) / 1) 0) as [T | T]; [reflexivity |]. exfalso.
      assert (Z : norm (vsub p o) = 0) by lra. pose proof (norm_zero _ Z) as Z'. rewrite Z' in S. unfold vdot, vzero in S. simpl in S. lra.
    - cbn [nmul Exact xmul]. change (Fin (1 * norm (vsub p o))) with (Fin (1 * norm (vsub p o)) : E). rewrite ndiv_fin by lra. rewrite nlt_fin.
      destruct (Rlt_dec (1 * norm (vsub p o) / 1) 0) as [T | T]; [lra |]. replace (1 * norm (vsub p o) / 1) with (norm (vsub p o)) by field.
      rewrite along_eval. reflexivity.
  Qed.
  Lemma rays_overlap o d e p g f x : d <> vzero -> g <> vzero -> s_ray o d x -> s_ray p g x ->
    overlap (SRay (eray o d e)) (SRay (eray p g f)) = true.
  Proof.
    intros Hd Hg H1 H2. apply (overlap_point eps zs _ _ (rbox eps zs o d) (rbox eps zs p g) x); try reflexivity; apply eray_holds; assumption.
  Qed.
  Lemma ray_ray_found o d e p g f a b x : d <> vzero -> g <> vzero -> is_ray eps zs o d e a -> is_ray eps zs p g f b ->
    ~ near_parallel d g -> s_ray o d x -> s_ray p g x -> shape_get_intersect a b = Ok (true, Some (ev x)).
  Proof.
    intros Hd Hg Ha Hb Hnp Hx1 Hx2. apply (is_ray_inv eps zs o d e a Hd) in Ha. apply (is_ray_inv eps zs p g f b Hg) in Hb. subst.
    rewrite core_of by (eapply rays_overlap; eassumption). rewrite ray_ray_skew by exact Hnp.
    pose proof (vx_zero _ Hnp) as Hv. fold (unit d) (unit g) in Hv.
    apply (ray_unit o d x Hd) in Hx1. apply (ray_unit p g x Hg) in Hx2. destruct Hx1 as [t [Pt X1]], Hx2 as [s [Ps X2]].
    assert (W : vcross (vsub p o) (unit g) = vscale t (vcross (unit d) (unit g))).
    { assert (Hw : vsub p o = vsub (vscale t (unit d)) (vscale s (unit g))).
      { rewrite X2 in X1. injection X1 as E1 E2 E3. apply V3_eq; simpl in *; lra. }
      rewrite Hw. apply V3_eq; simpl; ring. }
    rewrite W, norm_vscale, Rabs_pos_eq by exact Pt. replace (t * norm (vcross (unit d) (unit g)) / norm (vcross (unit d) (unit g))) with t by (field; lra).
    rewrite <- X1. reflexivity.
  Qed.
  Lemma collinear_unit d g : d <> vzero -> g <> vzero -> vcross d g = vzero -> exists k, (k = 1 \/ k = -1) /\ unit g = vscale k (unit d).
  Proof.
    intros Hd Hg Hc. pose proof (unit_dot d Hd) as U1. pose proof (unit_dot g Hg) as U2.
    assert (C : vcross (unit d) (unit g) = vzero).
    { unfold unit. replace (vcross (vscale (/ norm d) d) (vscale (/ norm g) g)) with (vscale (/ norm d * / norm g) (vcross d g)) by (apply V3_eq; simpl; ring).
      rewrite Hc. apply V3_eq; simpl; ring. }
    set (k := vdot (unit d) (unit g)). set (u := unit d) in *. set (v := unit g) in *.
    assert (K : v = vscale k u).
    { assert (T : forall a b, vcross a (vcross a b) = vsub (vscale (vdot a b) a) (vscale (vdot a a) b)) by (intros; apply V3_eq; unfold vcross, vdot, vsub, vscale; simpl; ring).
      pose proof (T u v) as Tu. rewrite C, U1 in Tu. injection Tu as E1 E2 E3. simpl in *. apply V3_eq; simpl; unfold k; nra. }
    exists k. split; [| exact K]. assert (KK : k * k = 1).
    { rewrite K in U2. rewrite vdot_scale_l, vdot_scale_r, U1 in U2. lra. }
    assert (Z : (k - 1) * (k + 1) = 0) by lra. apply Rmult_integral in Z. destruct Z; [left | right]; lra.
  Qed.
  Lemma collinear_near d g : vcross d g = vzero -> near_parallel d g.
  Proof.
    intro Hc. unfold near_parallel. cbv zeta.
    replace (vcross (vscale (/ norm d) d) (vscale (/ norm g) g)) with (vscale (/ norm d * / norm g) (vcross d g)) by (apply V3_eq; simpl; ring).
    rewrite Hc. simpl. rewrite Rmult_0_r, Rabs_R0. lra.
  Qed.
  Lemma ray_ray_collinear o d e p g f a b : d <> vzero -> g <> vzero -> is_ray eps zs o d e a -> is_ray eps zs p g f b ->
    vcross d g = vzero -> meets (s_ray o d) (s_ray p g) ->
    exists x, shape_get_intersect a b = Ok (true, Some (ev x)) /\ s_ray o d x /\ s_ray p g x.
  Proof.
    intros Hd Hg Ha Hb Hc [y [Hy1 Hy2]]. apply (is_ray_inv eps zs o d e a Hd) in Ha. apply (is_ray_inv eps zs p g f b Hg) in Hb. subst.
    rewrite core_of by (eapply rays_overlap; eassumption). rewrite ray_ray_parallel by (try exact Hd; apply collinear_near, Hc).
    destruct (collinear_unit d g Hd Hg Hc) as [k [Hk K]]. pose proof (unit_dot d Hd) as U1.
    apply (ray_unit o d y Hd) in Hy1. apply (ray_unit p g y Hg) in Hy2. destruct Hy1 as [t [Pt Y1]], Hy2 as [s [Ps Y2]].
    set (m := t - s * k).
    assert (W : vsub p o = vscale m (unit d)).
    { rewrite Y2, K in Y1. injection Y1 as E1 E2 E3. unfold m. apply V3_eq; simpl in *; lra. }
    rewrite W. rewrite norm_vscale, (unit_norm d Hd), Rmult_1_r.
    replace (vcross (unit d) (vscale m (unit d))) with vzero by (apply V3_eq; simpl; ring). rewrite norm_vzero.
    destruct (Rle_dec 0 (Rabs e)) as [_ | C]; [| exfalso; apply C, Rabs_pos].
    rewrite vdot_scale_l, U1, Rmult_1_r. destruct (Rlt_dec m 0) as [L | L].
    - exists o. split; [reflexivity |]. split; [exists 0; split; [lra | apply V3_eq; simpl; ring] |].
      apply (ray_unit p g o Hg). exists (- m). split; [lra |]. assert (k = 1) by (destruct Hk; [assumption | unfold m in L; subst k; lra]).
      subst k. rewrite K. injection W as E1 E2 E3. apply V3_eq; simpl in *; lra.
    - rewrite Rabs_pos_eq by lra. exists p. assert (Pp : vadd o (vscale m (unit d)) = p) by (rewrite <- W; apply V3_eq; simpl; ring).
      rewrite Pp. split; [reflexivity |]. split; [| exists 0; split; [lra | apply V3_eq; simpl; ring]].
      apply (ray_unit o d p Hd). exists m. split; [lra | symmetry; exact Pp].
  Qed.
  Lemma ray_ray_on_self o d e p g f a b l : d <> vzero -> g <> vzero -> is_ray eps zs o d e a -> is_ray eps zs p g f b ->
    shape_get_intersect a b = Ok (true, Some l) -> exists x, l = ev x /\ s_ray o d x.
  Proof.
    intros Hd Hg Ha Hb H. apply (is_ray_inv eps zs o d e a Hd) in Ha. apply (is_ray_inv eps zs p g f b Hg) in Hb. subst.
    destruct (overlap (SRay (eray o d e)) (SRay (eray p g f))) eqn:Eo; [| rewrite miss_of in H by exact Eo; discriminate H].
    rewrite core_of in H by exact Eo. destruct (near_dec d g) as [Np | Np].
    - rewrite (ray_ray_parallel o d e p g f Hd Np) in H. destruct (Rle_dec _ _); [| discriminate H]. destruct (Rlt_dec _ _).
      + injection H as <-. exists o. split; [reflexivity |]. exists 0. split; [lra |]. apply V3_eq; simpl; ring.
      + injection H as <-. eexists. split; [reflexivity |]. apply (ray_unit o d _ Hd). eexists. split; [| reflexivity]. apply norm_pos.
    - rewrite (ray_ray_skew o d e p g f Np) in H. injection H as <-. eexists. split; [reflexivity |]. apply (ray_unit o d _ Hd).
      eexists. split; [| reflexivity]. pose proof (vx_zero _ Np) as Hv. fold (unit d) (unit g) in Hv.
      apply Rmult_le_pos; [apply norm_pos | left; apply Rinv_0_lt_compat, Hv].
  Qed.
  Lemma norm_val v k : 0 <= k -> vdot v v = k * k -> norm v = k.
  Proof. intros Hk H. unfold norm. rewrite H. apply sqrt_square, Hk. Qed.
  Lemma ray_ray_refuted : ~ (forall o d e p g f a b x, d <> vzero -> g <> vzero -> is_ray eps zs o d e a -> is_ray eps zs p g f b ->
    shape_get_intersect a b = Ok (true, Some (ev x)) -> s_ray o d x /\ s_ray p g x).
  Proof.
    intro H. set (d := V 1 0 0). set (g := V 0 (-3) (-4)). set (o := V 0 0 0). set (p := V 1 0 (5 / 4)).
    assert (Hd : d <> vzero) by (intro C; injection C; lra). assert (Hg : g <> vzero) by (intro C; injection C; lra).
    assert (Nd : norm d = 1) by (apply norm_val; [lra |]; unfold d, vdot; simpl; ring).
    assert (Ng : norm g = 5) by (apply norm_val; [lra |]; unfold g, vdot; simpl; ring).
    assert (Ud : unit d = V 1 0 0) by (unfold unit; rewrite Nd; apply V3_eq; simpl; field).
    assert (Ug : unit g = V 0 (-3 / 5) (-4 / 5)) by (unfold unit; rewrite Ng; apply V3_eq; simpl; field).
    assert (Np : ~ near_parallel d g).
    { unfold near_parallel. cbv zeta. fold (unit d) (unit g). rewrite Ud, Ug. simpl. intros [_ [C _]]. apply Rabs_le_inv in C. lra. }
    assert (Hov : overlap (SRay (eray o d 0)) (SRay (eray p g 0)) = true).
    { apply (overlap_point eps zs _ _ (rbox eps zs o d) (rbox eps zs p g) (V 1 0 0)); try reflexivity;
        intros i Hi; cases3 i Hi; cbn; unfold rlo, rup; repeat match goal with |- context [Rlt_dec ?x ?y] => destruct (Rlt_dec x y) end; simpl; try lra; auto. }
    assert (R : s_ray o d (V (5 / 4) 0 0) /\ s_ray p g (V (5 / 4) 0 0)).
    { eapply (H o d 0 p g 0); [exact Hd | exact Hg | apply is_ray_inv; [exact Hd | reflexivity] | apply is_ray_inv; [exact Hg | reflexivity] |].
      rewrite core_of by exact Hov. rewrite ray_ray_skew by exact Np. rewrite Ud, Ug.
      rewrite (norm_val (vcross (vsub p o) (V 0 (-3 / 5) (-4 / 5))) (5 / 4)) by (try lra; unfold p, o, vdot, vcross, vsub; simpl; field).
      rewrite (norm_val (vcross (V 1 0 0) (V 0 (-3 / 5) (-4 / 5))) 1) by (try lra; unfold vdot, vcross; simpl; field).
      replace (vadd o (vscale (5 / 4 / 1) (V 1 0 0))) with (V (5 / 4) 0 0) by (apply V3_eq; simpl; field). reflexivity. }
    destruct R as [_ [t [_ R]]]. injection R as R1 _ _. lra.
  Qed.
End PGeo2.
