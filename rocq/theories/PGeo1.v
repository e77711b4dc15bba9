(** PGeo1.v — queries against points in exact arithmetic (C42-C47), sphere-sphere and sphere-plane (C52-C54). *)
From Coq Require Import Reals List ZArith NArith Bool Lra Lia Psatz.
From Flocq Require Import Core BinarySingleNaN.
Import ListNotations.
From Verif Require Import Base Num Vec Mat Bound Shape Intersect Float Exact SpecMat SpecGeom SpecBound SpecShape SpecInter
  ExactFacts FloatFacts Order PMat PBound PShape PInter PQuat2.
Local Open Scope R_scope.

Section PGeo1.
  Variable eps : R.
  Variable zs : XR -> bool.
  Notation E := (Exact eps zs).
  Notation ev := (ev eps zs).
  Notation O := (exact_ordered eps zs).
  Notation holds := (holds eps zs).

  Lemma core_of (a b : shape E) : overlap a b = true -> shape_get_intersect a b = core a b.
  Proof. intro H. rewrite (intersect_core O), H. reflexivity. Qed.
  Lemma miss_of (a b : shape E) : overlap a b = false -> shape_get_intersect a b = Ok miss.
  Proof. intro H. rewrite (intersect_core O), H. reflexivity. Qed.

  (** bounds with a common point overlap *)
  Lemma overlap_point (a b : shape E) (A B : aabb E) x : shape_get_bound a = BBox A -> shape_get_bound b = BBox B ->
    holds A x -> holds B x -> overlap a b = true.
  Proof.
    intros HA HB Ha Hb. unfold overlap. rewrite HA, HB, ibb, intersect_eval.
    assert (F : forall i, (i < 3)%N -> apart A B i = false).
    { intros i Hi. destruct (Ha i Hi) as [A1 A2], (Hb i Hi) as [B1 B2].
      destruct (xle_nonan _ _ A1) as [N1 _], (xle_nonan _ _ A2) as [_ N2], (xle_nonan _ _ B1) as [N3 _], (xle_nonan _ _ B2) as [_ N4].
      apply (not_apart O); try assumption. split; apply (nle_iff O); eapply xle_trans; eassumption. }
    rewrite !F by reflexivity. reflexivity.
  Qed.
  (** overlapping bounds, axis by axis *)
  Lemma overlap_axis (a b : shape E) (A B : aabb E) : shape_get_bound a = BBox A -> shape_get_bound b = BBox B ->
    nonan A -> nonan B -> overlap a b = true -> forall i, (i < 3)%N -> xle (lo A i) (up B i) /\ xle (lo B i) (up A i).
  Proof.
    intros HA HB NA NB. unfold overlap. rewrite HA, HB, ibb, intersect_eval. intros H i Hi.
    assert (F : apart A B i = false).
    { apply andb_true_iff in H. destruct H as [H H2]. apply andb_true_iff in H. destruct H as [H0 H1].
      apply negb_true_iff in H0, H1, H2. cases3 i Hi; assumption. }
    destruct (NA i Hi) as [A1 A2], (NB i Hi) as [B1 B2]. rewrite (nisnan_false O) in A1, A2, B1, B2.
    apply (not_apart O) in F; try assumption. rewrite !(nle_iff O) in F. exact F.
  Qed.
  Lemma fbox_nonan l u : nonan (fbox eps zs l u).
  Proof. intros i Hi. rewrite !(nisnan_false O). cases3 i Hi; split; discriminate. Qed.
  Lemma rbox_nonan o d : nonan (rbox eps zs o d).
  Proof.
    intros i Hi. rewrite !(nisnan_false O). cases3 i Hi; cbn; unfold rlo, rup;
      split; repeat match goal with |- context [Rlt_dec ?x ?y] => destruct (Rlt_dec x y) end; discriminate.
  Qed.
  (** a point shape overlaps exactly the bounds that hold it *)
  Lemma overlap_with_point (a : shape E) (A : aabb E) p e : shape_get_bound a = BBox A -> nonan A ->
    (overlap a (SPoint (epoint eps zs p e)) = true <-> holds A p).
  Proof.
    intros HA NA. split.
    - intros H i Hi. pose proof (overlap_axis a (SPoint (epoint eps zs p e)) A (fbox eps zs p p) HA eq_refl NA (fbox_nonan p p) H i Hi) as [H1 H2].
      cases3 i Hi; split; assumption.
    - intro H. apply (overlap_point a (SPoint (epoint eps zs p e)) A (fbox eps zs p p) p HA eq_refl H). apply in_fbox; lra.
  Qed.
  Lemma fbox_holds l u x : holds (fbox eps zs l u) x <-> (vx l <= vx x <= vx u /\ vy l <= vy x <= vy u /\ vz l <= vz x <= vz u).
  Proof.
    split.
    - intro H. pose proof (H 0%N eq_refl). pose proof (H 1%N eq_refl). pose proof (H 2%N eq_refl). simpl in *. tauto.
    - intros [H1 [H2 H3]]. apply in_fbox; assumption.
  Qed.
  Lemma cube_iff c r x : holds (cube eps zs c r) x <-> s_cube c r x.
  Proof.
    split; [| apply cube_holds]. unfold cube. rewrite fbox_holds. simpl. intros [H1 [H2 H3]].
    repeat split; apply Rabs_le; lra.
  Qed.

  Lemma vadd_comm u v : vadd u v = vadd v u. Proof. apply V3_eq; simpl; ring. Qed.
  Lemma along_eval d t o : along (ev d) (Fin t : E) (ev o) = Ok (ev (vadd o (vscale t d))).
  Proof. unfold along. rewrite ev_scale. cbn [unwrap bind]. rewrite ev_plus, vadd_comm. reflexivity. Qed.
  Lemma within_false v a b : @within E (Fin v) (Fin a) (Fin b) = false <-> v < Rabs (a - b).
  Proof.
    pose proof (within_exact eps zs v a b) as W. destruct (within _ _ _).
    - split; [discriminate |]. intro H. pose proof (proj1 W eq_refl). lra.
    - split; [| reflexivity]. intros _. apply Rnot_le_lt. intro H. apply W in H. discriminate.
  Qed.

  (** ---- point - point ---- *)
  Lemma point_point_iff p q e f a b : is_point eps zs p e a -> is_point eps zs q f b ->
    (p = q -> shape_get_intersect a b = Ok (true, Some (ev p))) /\ (p <> q -> shape_get_intersect a b = Ok (false, None)).
  Proof.
    rewrite !is_point_inv. intros -> ->. split.
    - intros <-. rewrite core_of.
      + cbn [core]. unfold point_point. cbn [epoint pt_ori pt_vic shape_get_shape_data vec_data v3x1 list3 idx nth_error bind].
        change (mat3x1_index (ev p) 0) with (Ok (Fin (vx p) : E)). change (mat3x1_index (ev p) 1) with (Ok (Fin (vy p) : E)).
        change (mat3x1_index (ev p) 2) with (Ok (Fin (vz p) : E)). cbn [bind].
        assert (W : forall x, @within E (Fin (Rabs e)) (Fin x) (Fin x) = true).
        { intro x. apply within_exact. replace (x - x) with 0 by ring. rewrite Rabs_R0. apply Rabs_pos. }
        change (idx (vec_data (ev p)) 0) with (Ok (Fin (vx p) : E)). change (idx (vec_data (ev p)) 1) with (Ok (Fin (vy p) : E)).
        change (idx (vec_data (ev p)) 2) with (Ok (Fin (vz p) : E)). cbn [bind].
        rewrite !W. reflexivity.
      + eapply overlap_with_point; [reflexivity | apply fbox_nonan |]. apply in_fbox; lra.
    - intro Hn. apply miss_of. destruct (overlap _ _) eqn:Eo; [| reflexivity]. exfalso. apply Hn.
      eapply overlap_with_point in Eo; [| reflexivity | apply fbox_nonan]. cbn [pt_bound epoint] in Eo.
      apply fbox_holds in Eo. apply V3_eq; lra.
  Qed.

  (** ---- sphere - point ---- *)
  Lemma sphere_point_eval c r e p f : s_cube c r p ->
    shape_get_intersect (SSphere (esphere eps zs c r e)) (SPoint (epoint eps zs p f)) = Ok (true, Some (ev p)).
  Proof.
    intro Hc. rewrite core_of.
    - cbn [core]. unfold sphere_point. cbn [shape_get_shape_data epoint pt_ori]. rewrite <- (app_nil_r (vec_data (ev p))), vec_at_data.
      cbn [bind esphere sp_ori sp_radius]. rewrite ev_minus. cbn [unwrap bind for_ret seq].
      rewrite ev_index0, ev_index1, ev_index2. cbn [bind]. destruct Hc as [H1 [H2 H3]].
      apply Rabs_le_inv in H1, H2, H3. unfold vsub. cbn [vx vy vz].
      repeat (rewrite ngt_fin; destruct (Rlt_dec _ _); [exfalso; lra |]; cbn [bind]). reflexivity.
    - eapply overlap_with_point; [reflexivity | apply fbox_nonan |]. apply cube_iff, Hc.
  Qed.
  Lemma sphere_point_iff c r e p f a b : is_sphere eps zs c r e a -> is_point eps zs p f b ->
    (s_cube c r p -> shape_get_intersect a b = Ok (true, Some (ev p))) /\
    (~ s_cube c r p -> shape_get_intersect a b = Ok (false, None)).
  Proof.
    rewrite is_sphere_inv, is_point_inv. intros -> ->. split; [apply sphere_point_eval |].
    intro Hn. apply miss_of. destruct (overlap _ _) eqn:Eo; [| reflexivity]. exfalso. apply Hn.
    eapply overlap_with_point in Eo; [| reflexivity | apply fbox_nonan]. apply cube_iff, Eo.
  Qed.
  Lemma sphere_point_complete c r e p f a b : is_sphere eps zs c r e a -> is_point eps zs p f b -> s_ball c r p ->
    shape_get_intersect a b = Ok (true, Some (ev p)).
  Proof. intros Ha Hb Hp. apply (sphere_point_iff c r e p f a b Ha Hb). apply ball_comps, Hp. Qed.
  Lemma sphere_point_refuted : ~ (forall c r e p f a b l, is_sphere eps zs c r e a -> is_point eps zs p f b ->
    shape_get_intersect a b = Ok (true, Some l) -> s_ball c r p).
  Proof.
    intro H. assert (Hb : s_ball (V 0 0 0) 1 (V 1 1 1)).
    { eapply (H (V 0 0 0) 1 0 (V 1 1 1) 0); [apply is_sphere_inv; reflexivity | apply is_point_inv; reflexivity |].
      apply sphere_point_eval. unfold s_cube. cbn [vx vy vz]. repeat split; apply Rabs_le; lra. }
    unfold s_ball, dist, norm, vdot, vsub in Hb. cbn [vx vy vz] in Hb.
    assert (1 < sqrt ((1 - 0) * (1 - 0) + (1 - 0) * (1 - 0) + (1 - 0) * (1 - 0))); [| lra].
    rewrite <- sqrt_1 at 1. apply sqrt_lt_1_alt. lra.
  Qed.

  (** ---- box - point ---- *)
  Lemma box_point_iff c h e p f a b : is_box eps zs c h e a -> is_point eps zs p f b ->
    (s_cube c h p -> shape_get_intersect a b = Ok (true, Some (ev p))) /\
    (~ s_cube c h p -> shape_get_intersect a b = Ok (false, None)).
  Proof.
    rewrite is_box_inv, is_point_inv. intros -> ->. split.
    - intro Hc. rewrite core_of; [reflexivity |].
      eapply overlap_with_point; [reflexivity | apply fbox_nonan |]. apply cube_iff, Hc.
    - intro Hn. apply miss_of. destruct (overlap _ _) eqn:Eo; [| reflexivity]. exfalso. apply Hn.
      eapply overlap_with_point in Eo; [| reflexivity | apply fbox_nonan]. apply cube_iff, Eo.
  Qed.

  (** ---- plane - point ---- *)
  Definition sdist (o n p : V3) : R := vdot (unit n) (vsub p o).
  Lemma whole_holds x : holds (whole eps zs) x.
  Proof. intros i Hi. cases3 i Hi; split; exact I. Qed.
  Lemma whole_nonan : nonan (whole eps zs).
  Proof. intros i Hi. rewrite !(nisnan_false O). cases3 i Hi; split; discriminate. Qed.
  Lemma plane_point_eval o n e p f : n <> vzero ->
    shape_get_intersect (SPlane (eplane eps zs o n e)) (SPoint (epoint eps zs p f)) =
    Ok (if Rle_dec (Rabs (sdist o n p)) (Rabs e) then (true, Some (ev p)) else (false, None)).
  Proof.
    intro Hn. rewrite core_of.
    - cbn [core]. unfold plane_point. cbn [shape_get_shape_data epoint pt_ori]. rewrite <- (app_nil_r (vec_data (ev p))), vec_at_data.
      cbn [bind eplane pl_offset pl_normal pl_vic]. rewrite !ev_dot. cbn [unwrap bind nsub Exact xsub].
      change (n0 : E) with (Fin 0 : E).
      replace (vdot (unit n) o - vdot (unit n) p) with (- sdist o n p) by (unfold sdist, vdot, vsub; simpl; ring).
      destruct (Rle_dec _ _) as [Hl | Hl].
      + replace (within _ _ _) with true; [reflexivity |]. symmetry. apply within_exact. rewrite Rminus_0_r, Rabs_Ropp. exact Hl.
      + replace (within _ _ _) with false; [reflexivity |]. symmetry. apply within_false. rewrite Rminus_0_r, Rabs_Ropp. lra.
    - eapply overlap_with_point; [reflexivity | apply whole_nonan |]. apply whole_holds.
  Qed.
  (** the distance to a plane *)
  Lemma plane_dist o n p k : n <> vzero -> (Rabs (sdist o n p) <= k <-> exists y, s_plane o n y /\ dist p y <= k).
  Proof.
    intro Hn. pose proof (unit_dot n Hn) as Hu. pose proof (norm_nz n Hn) as Hnn. split.
    - intro H. exists (vsub p (vscale (sdist o n p) (unit n))). split.
      + unfold s_plane. rewrite (unit_scale n Hn) at 1.
        replace (vdot (vscale (norm n) (unit n)) (vsub (vsub p (vscale (sdist o n p) (unit n))) o))
          with (norm n * (vdot (unit n) (vsub p o) - sdist o n p * vdot (unit n) (unit n)))
          by (unfold vdot, vsub, vscale; simpl; ring).
        rewrite Hu. unfold sdist. ring.
      + unfold dist. replace (vsub p (vsub p (vscale (sdist o n p) (unit n)))) with (vscale (sdist o n p) (unit n))
          by (apply V3_eq; simpl; ring).
        rewrite norm_vscale, (unit_norm n Hn), Rmult_1_r. exact H.
    - intros [y [Hy Hd]]. unfold s_plane in Hy. eapply Rle_trans; [| exact Hd].
      replace (sdist o n p) with (vdot (unit n) (vsub p y)).
      + eapply Rle_trans; [apply cauchy |]. rewrite (unit_norm n Hn). unfold dist. lra.
      + unfold sdist. assert (Hz : vdot (unit n) (vsub y o) = 0).
        { unfold unit. replace (vdot (vscale (/ norm n) n) (vsub y o)) with (/ norm n * vdot n (vsub y o)) by (unfold vdot, vscale; simpl; ring).
          rewrite Hy. ring. }
        replace (vdot (unit n) (vsub p o)) with (vdot (unit n) (vsub p y) + vdot (unit n) (vsub y o)) by (unfold vdot, vsub; simpl; ring).
        rewrite Hz. ring.
  Qed.
  Lemma plane_point_iff o n e p f a b : n <> vzero -> is_plane eps zs o n e a -> is_point eps zs p f b ->
    let near := exists y, s_plane o n y /\ dist p y <= Rabs e in
    (near -> shape_get_intersect a b = Ok (true, Some (ev p))) /\ (~ near -> shape_get_intersect a b = Ok (false, None)).
  Proof.
    intros Hn Ha Hb near. apply (is_plane_inv eps zs o n e a Hn) in Ha. rewrite is_point_inv in Hb. subst.
    rewrite plane_point_eval by exact Hn. unfold near. rewrite <- (plane_dist o n p _ Hn).
    destruct (Rle_dec _ _); split; intro; try reflexivity; contradiction.
  Qed.

  (** ---- ray - point ---- *)
  Lemma ray_zero_comp o d p : holds (rbox eps zs o d) p ->
    (vx d = 0 -> vx p = vx o) /\ (vy d = 0 -> vy p = vy o) /\ (vz d = 0 -> vz p = vz o).
  Proof.
    intro H. pose proof (H 0%N eq_refl) as H0. pose proof (H 1%N eq_refl) as H1. pose proof (H 2%N eq_refl) as H2.
    cbn in H0, H1, H2. unfold rlo, rup in *.
    repeat split; intro Hz; rewrite Hz in *; repeat match goal with H : context [Rlt_dec ?x ?y] |- _ => destruct (Rlt_dec x y); [lra |] end;
      simpl in *; lra.
  Qed.
  Lemma ray_point_zero o d e p f a b : d <> vzero -> vx d = 0 \/ vy d = 0 \/ vz d = 0 ->
    is_ray eps zs o d e a -> is_point eps zs p f b -> shape_get_intersect a b = Ok (false, None).
  Proof.
    intros Hd Hz Ha Hb. apply (is_ray_inv eps zs o d e a Hd) in Ha. rewrite is_point_inv in Hb. subst.
    destruct (overlap (SRay (eray eps zs o d e)) (SPoint (epoint eps zs p f))) eqn:Eo; [| apply miss_of, Eo].
    rewrite core_of by exact Eo. eapply overlap_with_point in Eo; [| reflexivity | apply rbox_nonan].
    cbn [eray ray_bound] in Eo. apply ray_zero_comp in Eo. destruct Eo as [Z1 [Z2 Z3]].
    cbn [core]. unfold ray_point. cbn [shape_get_shape_data epoint pt_ori]. rewrite <- (app_nil_r (vec_data (ev p))), vec_at_data.
    cbn [bind eray ray_ori ray_dir ray_vic]. rewrite ev_minus. cbn [unwrap bind].
    unfold mat3x1_div, ExactFacts.ev. cbn [unwrap bind].
    assert (Hnan : forall x y z, mat3x1_index (M3x1 (A3 x y z : arr3 E)) 0 = Ok x /\ mat3x1_index (M3x1 (A3 x y z : arr3 E)) 1 = Ok y /\
        mat3x1_index (M3x1 (A3 x y z : arr3 E)) 2 = Ok z) by (intros; repeat split; reflexivity).
    match goal with |- context [M3x1 (A3 ?x ?y ?z)] => set (t0 := x); set (t1 := y); set (t2 := z); destruct (Hnan t0 t1 t2) as [-> [-> ->]] end.
    cbn [bind].
    assert (W0 : forall v x, @within E v NaN x = false) by (intros [] x; reflexivity).
    assert (W1 : forall v x, @within E v x NaN = false).
    { intros v x. unfold within. apply andb_false_iff. left. unfold nge. cbn. destruct (xadd x v); reflexivity. }
    assert (Hq : forall pc oc dc, dc = 0 -> (dc = 0 -> pc = oc) -> ndiv E (Fin (pc - oc)) (Fin (/ norm d * dc)) = NaN).
    { intros pc oc dc -> Hq. rewrite (Hq eq_refl). replace (oc - oc) with 0 by ring. rewrite Rmult_0_r. apply ndiv_0_0. }
    destruct Hz as [Hz | [Hz | Hz]].
    - replace t0 with (NaN : E) by (symmetry; apply Hq; assumption). rewrite W0. reflexivity.
    - replace t1 with (NaN : E) by (symmetry; apply Hq; assumption). rewrite W1. reflexivity.
    - replace t2 with (NaN : E) by (symmetry; apply Hq; assumption). rewrite W1, orb_true_r. reflexivity.
  Qed.
  Definition tq (o d p : V3) (g : V3 -> R) : R := (g p - g o) / g (unit d).
  Lemma ray_point_eval o d e p f : d <> vzero -> vx d <> 0 -> vy d <> 0 -> vz d <> 0 ->
    overlap (SRay (eray eps zs o d e)) (SPoint (epoint eps zs p f)) = true ->
    shape_get_intersect (SRay (eray eps zs o d e)) (SPoint (epoint eps zs p f)) =
    Ok (if Rle_dec (Rabs (tq o d p vx - tq o d p vy)) (Rabs e) then
        if Rle_dec (Rabs (tq o d p vy - tq o d p vz)) (Rabs e) then
        if Rle_dec 0 (tq o d p vx) then (true, Some (ev (vadd o (vscale (tq o d p vx) (unit d))))) else (false, None)
        else (false, None) else (false, None)).
  Proof.
    intros Hd Hx Hy Hz Eo. rewrite core_of by exact Eo. pose proof (norm_nz d Hd) as Hn.
    assert (Hin : / norm d <> 0) by (apply Rinv_neq_0_compat; lra).
    cbn [core]. unfold ray_point. cbn [shape_get_shape_data epoint pt_ori]. rewrite <- (app_nil_r (vec_data (ev p))), vec_at_data.
    cbn [bind eray ray_ori ray_dir ray_vic]. rewrite ev_minus. cbn [unwrap bind].
    assert (Hdiv : mat3x1_div (ev (vsub p o)) (ev (unit d)) = Some (ev (V (tq o d p vx) (tq o d p vy) (tq o d p vz)))).
    { unfold mat3x1_div, ExactFacts.ev. f_equal. unfold unit, tq, vsub, vscale. cbn [vx vy vz].
      rewrite !ndiv_fin by (apply Rmult_integral_contrapositive_currified; assumption). reflexivity. }
    rewrite Hdiv. cbn [unwrap bind]. rewrite ev_index0, ev_index1, ev_index2. cbn [bind vx vy vz].
    destruct (Rle_dec (Rabs (tq o d p vx - tq o d p vy)) (Rabs e)) as [L1 | L1].
    - apply (within_exact eps zs) in L1. rewrite L1. cbn [negb orb].
      destruct (Rle_dec (Rabs (tq o d p vy - tq o d p vz)) (Rabs e)) as [L2 | L2].
      + apply (within_exact eps zs) in L2. rewrite L2. cbn [negb]. change (n0 : E) with (Fin 0 : E).
        rewrite nge_fin. destruct (Rle_dec 0 (tq o d p vx)); [rewrite along_eval |]; reflexivity.
      + apply Rnot_le_lt, within_false in L2. rewrite L2. reflexivity.
    - apply Rnot_le_lt, within_false in L1. rewrite L1. reflexivity.
  Qed.
  Lemma unit_comp_bound d : d <> vzero -> Rabs (vy (unit d)) <= 1 /\ Rabs (vz (unit d)) <= 1.
  Proof.
    intro Hd. pose proof (unit_dot d Hd) as Hu. unfold vdot in Hu.
    split; apply Rabs_le; split; nra.
  Qed.
  Lemma ray_unit o d x : d <> vzero -> (s_ray o d x <-> exists t, 0 <= t /\ x = vadd o (vscale t (unit d))).
  Proof.
    intro Hd. pose proof (norm_nz d Hd) as Hn. split.
    - intros [t [Ht ->]]. exists (t * norm d). split; [nra |]. apply V3_eq; unfold unit, vscale; simpl; field; lra.
    - intros [t [Ht ->]]. exists (t * / norm d). split; [apply Rmult_le_pos; [lra | left; apply Rinv_0_lt_compat, Hn] |].
      apply V3_eq; unfold unit, vscale; simpl; ring.
  Qed.
  Lemma ray_point_hit o d e p f a b l : d <> vzero -> is_ray eps zs o d e a -> is_point eps zs p f b ->
    shape_get_intersect a b = Ok (true, Some l) ->
    exists x, l = ev x /\ s_ray o d x /\ Rabs (vx x - vx p) <= 2 * Rabs e /\ Rabs (vy x - vy p) <= 2 * Rabs e /\
      Rabs (vz x - vz p) <= 2 * Rabs e.
  Proof.
    intros Hd Ha Hb H.
    destruct (Req_dec (vx d) 0) as [Zx | Hx]; [rewrite (ray_point_zero o d e p f a b Hd) in H; auto; discriminate H |].
    destruct (Req_dec (vy d) 0) as [Zy | Hy]; [rewrite (ray_point_zero o d e p f a b Hd) in H; auto; discriminate H |].
    destruct (Req_dec (vz d) 0) as [Zz | Hz]; [rewrite (ray_point_zero o d e p f a b Hd) in H; auto; discriminate H |].
    apply (is_ray_inv eps zs o d e a Hd) in Ha. rewrite is_point_inv in Hb. subst.
    destruct (overlap (SRay (eray eps zs o d e)) (SPoint (epoint eps zs p f))) eqn:Eo.
    2:{ rewrite miss_of in H by exact Eo. discriminate H. }
    rewrite ray_point_eval in H by assumption.
    destruct (Rle_dec (Rabs (tq o d p vx - tq o d p vy)) (Rabs e)) as [L1 |]; [| discriminate H].
    destruct (Rle_dec (Rabs (tq o d p vy - tq o d p vz)) (Rabs e)) as [L2 |]; [| discriminate H].
    destruct (Rle_dec 0 (tq o d p vx)) as [L3 |]; [| discriminate H]. injection H as <-.
    eexists. split; [reflexivity |]. split; [apply (ray_unit o d _ Hd); eexists; split; [exact L3 | reflexivity] |].
    pose proof (norm_nz d Hd) as Hn. assert (Hin : / norm d <> 0) by (apply Rinv_neq_0_compat; lra).
    pose proof (Rabs_pos e) as He.
    destruct (unit_comp_bound d Hd) as [By Bz]. set (tx := tq o d p vx) in *. set (ty := tq o d p vy) in *. set (tz := tq o d p vz) in *.
    assert (Ex : vx p = vx o + tx * vx (unit d)).
    { subst tx. unfold tq. field. unfold unit, vscale; cbn [vx]; apply Rmult_integral_contrapositive_currified; assumption. }
    assert (Ey : vy p = vy o + ty * vy (unit d)).
    { subst ty. unfold tq. field. unfold unit, vscale; cbn [vy]; apply Rmult_integral_contrapositive_currified; assumption. }
    assert (Ez : vz p = vz o + tz * vz (unit d)).
    { subst tz. unfold tq. field. unfold unit, vscale; cbn [vz]; apply Rmult_integral_contrapositive_currified; assumption. }
    assert (L4 : Rabs (tx - tz) <= 2 * Rabs e).
    { replace (tx - tz) with ((tx - ty) + (ty - tz)) by ring. eapply Rle_trans; [apply Rabs_triang |]. lra. }
    unfold vadd, vscale. cbn [vx vy vz]. rewrite Ex, Ey, Ez. repeat split.
    - replace (vx o + tx * vx (unit d) - (vx o + tx * vx (unit d))) with 0 by ring. rewrite Rabs_R0. lra.
    - replace (vy o + tx * vy (unit d) - (vy o + ty * vy (unit d))) with ((tx - ty) * vy (unit d)) by ring.
      rewrite Rabs_mult. pose proof (Rabs_pos (tx - ty)). pose proof (Rabs_pos (vy (unit d))). nra.
    - replace (vz o + tx * vz (unit d) - (vz o + tz * vz (unit d))) with ((tx - tz) * vz (unit d)) by ring.
      rewrite Rabs_mult. pose proof (Rabs_pos (tx - tz)). pose proof (Rabs_pos (vz (unit d))). nra.
  Qed.
  Lemma ray_point_on o d e p f a b : vx d <> 0 -> vy d <> 0 -> vz d <> 0 -> is_ray eps zs o d e a -> is_point eps zs p f b ->
    s_ray o d p -> shape_get_intersect a b = Ok (true, Some (ev p)).
  Proof.
    intros Hx Hy Hz Ha Hb Hp. assert (Hd : d <> vzero) by (intros ->; apply Hx; reflexivity).
    assert (Hbd : exists B, shape_get_bound a = BBox B /\ holds B p) by (eapply bound_ray; eassumption).
    destruct Hbd as [B [HB HBp]].
    apply (is_ray_inv eps zs o d e a Hd) in Ha. rewrite is_point_inv in Hb. subst.
    apply (ray_unit o d p Hd) in Hp. destruct Hp as [t [Ht ->]].
    pose proof (norm_nz d Hd) as Hn. assert (Hin : / norm d <> 0) by (apply Rinv_neq_0_compat; lra).
    rewrite ray_point_eval; try assumption.
    - assert (T : forall g, g (vadd o (vscale t (unit d))) = g o + t * g (unit d) -> g (unit d) <> 0 -> tq o d (vadd o (vscale t (unit d))) g = t).
      { intros g Hg Hnz. unfold tq. rewrite Hg. field. exact Hnz. }
      rewrite !T; try reflexivity; try (unfold unit, vscale; cbn [vx vy vz]; apply Rmult_integral_contrapositive_currified; assumption).
      replace (t - t) with 0 by ring. rewrite Rabs_R0. pose proof (Rabs_pos e).
      destruct (Rle_dec 0 (Rabs e)); [| lra]. destruct (Rle_dec 0 t); [reflexivity | lra].
    - eapply overlap_with_point; [exact HB | | exact HBp]. injection HB as <-. apply rbox_nonan.
  Qed.
  Lemma ray_point_refuted : ~ (forall o d e p f a b, d <> vzero -> is_ray eps zs o d e a -> is_point eps zs p f b ->
    s_ray o d p -> exists l, shape_get_intersect a b = Ok (true, Some l)).
  Proof.
    intro H. assert (Hd : V 1 0 0 <> vzero) by (intro C; injection C; lra).
    destruct (H (V 0 0 0) (V 1 0 0) 1 (V 1 0 0) 1 (SRay (eray eps zs (V 0 0 0) (V 1 0 0) 1)) (SPoint (epoint eps zs (V 1 0 0) 1)) Hd) as [l Hl].
    - apply is_ray_inv; [exact Hd | reflexivity].
    - apply is_point_inv. reflexivity.
    - exists 1. split; [lra |]. apply V3_eq; simpl; ring.
    - rewrite (ray_point_zero (V 0 0 0) (V 1 0 0) 1 (V 1 0 0) 1) in Hl; [discriminate Hl | exact Hd | right; left; reflexivity | |].
      + apply is_ray_inv; [exact Hd | reflexivity].
      + apply is_point_inv. reflexivity.
  Qed.

  (** ---- sphere - sphere ---- *)
  Lemma sphere_sphere_core a r e b s f : r + s <> 0 ->
    core (SSphere (esphere eps zs a r e)) (SSphere (esphere eps zs b s f)) =
    Ok (if Rlt_dec (s + r) (dist b a) then (false, None) else (true, Some (ev (vadd a (vscale (r / (r + s)) (vsub b a)))))).
  Proof.
    intro Hrs. cbn [core]. unfold sphere_sphere. cbn [shape_get_shape_data esphere sp_ori sp_radius].
    rewrite vec_at_data. cbn [bind].
    change (idx (vec_data (ev b) ++ [Fin s : E]) 3) with (Ok (Fin s : E)). cbn [bind].
    rewrite ev_minus. cbn [unwrap bind]. rewrite ev_magnitude. cbn [unwrap bind nadd Exact xadd]. rewrite ngt_fin.
    change (norm (vsub b a)) with (dist b a). destruct (Rlt_dec (s + r) (dist b a)); [reflexivity |].
    change (Fin (r + s)) with (Fin (r + s) : E). rewrite ndiv_fin by exact Hrs. rewrite ev_scale. cbn [unwrap bind]. rewrite ev_plus. reflexivity.
  Qed.
  Lemma dist_sym a b : dist a b = dist b a.
  Proof. unfold dist, norm. f_equal. unfold vdot, vsub. simpl. ring. Qed.
  Lemma balls_meet a r b s : 0 <= r -> 0 <= s -> (meets (s_ball a r) (s_ball b s) <-> dist b a <= r + s).
  Proof.
    intros Hr Hs. split.
    - intros [x [Ha Hb]]. unfold s_ball in *. unfold dist in *.
      replace (vsub b a) with (vadd (vsub x a) (vsub b x)) by (apply V3_eq; simpl; ring).
      eapply Rle_trans; [apply triangle |]. fold (dist b x). rewrite (dist_sym b x). unfold dist. lra.
    - intro H. destruct (Req_dec (r + s) 0) as [Z | Nz].
      + assert (r = 0) by lra. assert (s = 0) by lra. subst. assert (Hd : dist b a = 0) by (pose proof (norm_pos (vsub b a)); unfold dist in *; lra).
        exists a. split; unfold s_ball.
        * unfold dist. replace (vsub a a) with vzero by (apply V3_eq; simpl; ring). rewrite norm_vzero. lra.
        * rewrite dist_sym, Hd. lra.
      + exists (vadd a (vscale (r / (r + s)) (vsub b a))). assert (Hp : 0 < r + s) by lra.
        assert (Hk : 0 <= r / (r + s)) by (apply Rmult_le_pos; [lra | left; apply Rinv_0_lt_compat, Hp]).
        assert (Hk2 : 0 <= s / (r + s)) by (apply Rmult_le_pos; [lra | left; apply Rinv_0_lt_compat, Hp]).
        split; unfold s_ball, dist.
        * replace (vsub (vadd a (vscale (r / (r + s)) (vsub b a))) a) with (vscale (r / (r + s)) (vsub b a)) by (apply V3_eq; simpl; ring).
          rewrite norm_vscale, Rabs_pos_eq by exact Hk. fold (dist b a). apply Rle_trans with (r / (r + s) * (r + s)); [apply Rmult_le_compat_l; assumption |].
          apply Req_le. field. lra.
        * replace (vsub (vadd a (vscale (r / (r + s)) (vsub b a))) b) with (vscale (- (s / (r + s))) (vsub b a)) by (apply V3_eq; simpl; field; lra).
          rewrite norm_vscale, Rabs_Ropp, Rabs_pos_eq by exact Hk2. fold (dist b a). apply Rle_trans with (s / (r + s) * (r + s)); [apply Rmult_le_compat_l; assumption |].
          apply Req_le. field. lra.
  Qed.
  Lemma sphere_sphere_iff a r e b s f x y : 0 <= r -> 0 <= s -> r + s <> 0 -> is_sphere eps zs a r e x -> is_sphere eps zs b s f y ->
    (dist a b <= r + s -> exists p, shape_get_intersect x y = Ok (true, Some (ev p)) /\ s_ball a r p /\ s_ball b s p) /\
    (r + s < dist a b -> shape_get_intersect x y = Ok (false, None)) /\ shape_get_intersect x y = shape_get_intersect y x.
  Proof.
    intros Hr Hs Hrs. rewrite !is_sphere_inv. intros -> ->.
    assert (Hov : forall a r e b s f, 0 <= r -> 0 <= s -> dist b a <= r + s ->
              overlap (SSphere (esphere eps zs a r e)) (SSphere (esphere eps zs b s f)) = true).
    { clear. intros a r e b s f Hr Hs H. apply balls_meet in H; [| assumption | assumption]. destruct H as [x [Ha Hb]].
      apply (overlap_point _ _ (cube eps zs a r) (cube eps zs b s) x); [reflexivity | reflexivity | |]; apply cube_holds, ball_comps; assumption. }
    assert (Hev : forall a r e b s f, 0 <= r -> 0 <= s -> r + s <> 0 ->
              shape_get_intersect (SSphere (esphere eps zs a r e)) (SSphere (esphere eps zs b s f)) =
              Ok (if Rlt_dec (s + r) (dist b a) then (false, None) else (true, Some (ev (vadd a (vscale (r / (r + s)) (vsub b a))))))).
    { intros a0 r0 e0 b0 s0 f0 Hr0 Hs0 Hrs0. destruct (overlap (SSphere (esphere eps zs a0 r0 e0)) (SSphere (esphere eps zs b0 s0 f0))) eqn:Eo.
      - rewrite core_of by exact Eo. apply sphere_sphere_core, Hrs0.
      - rewrite miss_of by exact Eo. destruct (Rlt_dec (s0 + r0) (dist b0 a0)) as [| Hl]; [reflexivity |].
        rewrite Hov in Eo; [discriminate Eo | assumption | assumption | lra]. }
    rewrite !Hev by (assumption || lra). rewrite (dist_sym b a), (Rplus_comm s r). split; [| split].
    - intro H. destruct (Rlt_dec (r + s) (dist a b)); [lra |]. eexists. split; [reflexivity |].
      assert (Hp : 0 < r + s) by lra.
      assert (Hk : 0 <= r / (r + s)) by (apply Rmult_le_pos; [lra | left; apply Rinv_0_lt_compat, Hp]).
      assert (Hk2 : 0 <= s / (r + s)) by (apply Rmult_le_pos; [lra | left; apply Rinv_0_lt_compat, Hp]).
      rewrite dist_sym in H. split; unfold s_ball, dist.
      + replace (vsub (vadd a (vscale (r / (r + s)) (vsub b a))) a) with (vscale (r / (r + s)) (vsub b a)) by (apply V3_eq; simpl; ring).
        rewrite norm_vscale, Rabs_pos_eq by exact Hk. fold (dist b a). apply Rle_trans with (r / (r + s) * (r + s)); [apply Rmult_le_compat_l; assumption |].
        apply Req_le. field. lra.
      + replace (vsub (vadd a (vscale (r / (r + s)) (vsub b a))) b) with (vscale (- (s / (r + s))) (vsub b a)) by (apply V3_eq; simpl; field; lra).
        rewrite norm_vscale, Rabs_Ropp, Rabs_pos_eq by exact Hk2. fold (dist b a). apply Rle_trans with (s / (r + s) * (r + s)); [apply Rmult_le_compat_l; assumption |].
        apply Req_le. field. lra.
    - intro H. destruct (Rlt_dec (r + s) (dist a b)); [reflexivity | lra].
    - destruct (Rlt_dec (r + s) (dist a b)); [reflexivity |].
      replace (vadd b (vscale (s / (r + s)) (vsub a b))) with (vadd a (vscale (r / (r + s)) (vsub b a))); [reflexivity |].
      apply V3_eq; simpl; field; lra.
  Qed.

  (** ---- sphere - plane ---- *)
  Lemma sphere_plane_eval c r e o n f : 0 <= r -> n <> vzero ->
    shape_get_intersect (SSphere (esphere eps zs c r e)) (SPlane (eplane eps zs o n f)) =
    Ok (if Rlt_dec r (sdist o n c) then (false, None) else (true, Some (ev (vsub c (vscale (sdist o n c) (unit n)))))).
  Proof.
    intros Hr Hn. rewrite core_of.
    - cbn [core]. unfold sphere_plane. cbn [shape_get_shape_data eplane pl_offset pl_normal].
      rewrite vec_at_data. rewrite <- (app_nil_r (vec_data (ev (unit n)))), vec_at_data3. cbn [bind].
      cbn [esphere sp_ori sp_radius]. rewrite !ev_dot. cbn [unwrap bind nsub Exact xsub].
      replace (vdot (unit n) c - vdot (unit n) o) with (sdist o n c) by (unfold sdist, vdot, vsub; simpl; ring).
      rewrite ngt_fin. destruct (Rlt_dec r (sdist o n c)); [reflexivity |]. cbn [nneg Exact xneg].
      change (Fin (- sdist o n c)) with (Fin (- sdist o n c) : E). rewrite along_eval. cbn [bind].
      replace (vadd c (vscale (- sdist o n c) (unit n))) with (vsub c (vscale (sdist o n c) (unit n))) by (apply V3_eq; simpl; ring).
      reflexivity.
    - apply (overlap_point _ _ (cube eps zs c r) (whole eps zs) c); [reflexivity | reflexivity | | apply whole_holds].
      apply cube_iff. repeat split; rewrite Rminus_diag_eq by reflexivity; rewrite Rabs_R0; exact Hr.
  Qed.
  Lemma sphere_plane_meets c r o n : n <> vzero -> (meets (s_ball c r) (s_plane o n) <-> Rabs (sdist o n c) <= r).
  Proof.
    intro Hn. rewrite (plane_dist o n c r Hn). split.
    - intros [x [H1 H2]]. exists x. split; [exact H2 |]. unfold s_ball in H1. rewrite dist_sym. exact H1.
    - intros [x [H1 H2]]. exists x. split; [| exact H1]. unfold s_ball. rewrite dist_sym. exact H2.
  Qed.
  Lemma sphere_plane_complete c r e o n f a b : 0 <= r -> n <> vzero -> is_sphere eps zs c r e a -> is_plane eps zs o n f b ->
    meets (s_ball c r) (s_plane o n) -> exists l, shape_get_intersect a b = Ok (true, Some l).
  Proof.
    intros Hr Hn Ha Hb Hm. rewrite is_sphere_inv in Ha. apply (is_plane_inv eps zs o n f b Hn) in Hb. subst.
    rewrite sphere_plane_eval by assumption. apply (sphere_plane_meets c r o n Hn) in Hm. apply Rabs_le_inv in Hm.
    destruct (Rlt_dec r (sdist o n c)); [lra |]. eexists. reflexivity.
  Qed.
  Lemma sphere_plane_location c r e o n f a b l : 0 <= r -> n <> vzero -> is_sphere eps zs c r e a -> is_plane eps zs o n f b ->
    shape_get_intersect a b = Ok (true, Some l) -> exists x k, l = ev x /\ s_plane o n x /\ vsub c x = vscale k n.
  Proof.
    intros Hr Hn Ha Hb. rewrite is_sphere_inv in Ha. apply (is_plane_inv eps zs o n f b Hn) in Hb. subst.
    rewrite sphere_plane_eval by assumption. destruct (Rlt_dec r (sdist o n c)); [discriminate |]. intro H. injection H as <-.
    eexists. exists (sdist o n c * / norm n). split; [reflexivity |]. pose proof (unit_dot n Hn) as Hu. split.
    - unfold s_plane. rewrite (unit_scale n Hn) at 1.
      replace (vdot (vscale (norm n) (unit n)) (vsub (vsub c (vscale (sdist o n c) (unit n))) o))
        with (norm n * (vdot (unit n) (vsub c o) - sdist o n c * vdot (unit n) (unit n))) by (unfold vdot, vsub, vscale; simpl; ring).
      rewrite Hu. unfold sdist. ring.
    - apply V3_eq; unfold unit; simpl; ring.
  Qed.
  (** exactly when the ball reaches the closed half space behind the plane *)
  Lemma sphere_plane_halfspace c r e o n f a b : 0 <= r -> n <> vzero -> is_sphere eps zs c r e a -> is_plane eps zs o n f b ->
    ((exists x, s_ball c r x /\ vdot n (vsub x o) <= 0) <-> exists l, shape_get_intersect a b = Ok (true, Some l)).
  Proof.
    intros Hr Hn Ha Hb. rewrite is_sphere_inv in Ha. apply (is_plane_inv eps zs o n f b Hn) in Hb. subst.
    rewrite sphere_plane_eval by assumption. pose proof (norm_nz n Hn) as Hnn. pose proof (unit_dot n Hn) as Hu. split.
    - intros [x [H1 H2]]. destruct (Rlt_dec r (sdist o n c)) as [Hl |]; [exfalso | eexists; reflexivity].
      assert (Hc : vdot (unit n) (vsub c x) <= r).
      { eapply Rle_trans; [apply cauchy' |]. rewrite (unit_norm n Hn). fold (dist c x). rewrite dist_sym. unfold s_ball in H1. lra. }
      assert (Hx : vdot (unit n) (vsub x o) <= 0).
      { unfold unit. replace (vdot (vscale (/ norm n) n) (vsub x o)) with (/ norm n * vdot n (vsub x o)) by (unfold vdot, vscale; simpl; ring).
        pose proof (Rinv_0_lt_compat _ Hnn). nra. }
      unfold sdist in Hl. replace (vdot (unit n) (vsub c o)) with (vdot (unit n) (vsub c x) + vdot (unit n) (vsub x o)) in Hl
        by (unfold vdot, vsub; simpl; ring). lra.
    - destruct (Rlt_dec r (sdist o n c)) as [| Hl]; [intros [l C]; discriminate C |]. intros _.
      exists (vsub c (vscale r (unit n))). split.
      + unfold s_ball, dist. replace (vsub (vsub c (vscale r (unit n))) c) with (vscale (- r) (unit n)) by (apply V3_eq; simpl; ring).
        rewrite norm_vscale, (unit_norm n Hn), Rabs_Ropp, Rabs_pos_eq by exact Hr. lra.
      + rewrite (unit_scale n Hn) at 1. replace (vdot (vscale (norm n) (unit n)) (vsub (vsub c (vscale r (unit n))) o))
          with (norm n * (sdist o n c - r * vdot (unit n) (unit n))) by (unfold sdist, vdot, vsub, vscale; simpl; ring).
        rewrite Hu. nra.
  Qed.
  Lemma sphere_plane_refuted : ~ (forall c r e o n f a b l, 0 <= r -> n <> vzero -> is_sphere eps zs c r e a -> is_plane eps zs o n f b ->
    shape_get_intersect a b = Ok (true, Some l) -> meets (s_ball c r) (s_plane o n)).
  Proof.
    intro H. assert (Hn : V 1 0 0 <> vzero) by (intro C; injection C; lra).
    assert (Hs : sdist (V 0 0 0) (V 1 0 0) (V (-5) 0 0) = -5).
    { unfold sdist, unit. assert (norm (V 1 0 0) = 1) as ->.
      { unfold norm, vdot. simpl. replace (1 * 1 + 0 * 0 + 0 * 0) with 1 by ring. apply sqrt_1. }
      unfold vdot, vsub, vscale. simpl. field. }
    assert (M : meets (s_ball (V (-5) 0 0) 1) (s_plane (V 0 0 0) (V 1 0 0))).
    { eapply (H (V (-5) 0 0) 1 0 (V 0 0 0) (V 1 0 0) 0); [lra | exact Hn | apply is_sphere_inv; reflexivity | apply is_plane_inv; [exact Hn | reflexivity] |].
      rewrite sphere_plane_eval by (lra || exact Hn). rewrite Hs. destruct (Rlt_dec 1 (-5)); [lra |]. reflexivity. }
    apply (sphere_plane_meets _ _ _ _ Hn) in M. rewrite Hs in M. unfold Rabs in M. destruct (Rcase_abs (-5)); lra.
  Qed.
End PGeo1.
