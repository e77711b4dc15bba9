(** PRays.v — the ray-ray query, completely described in exact arithmetic (C91). *)
From Coq Require Import Reals List ZArith NArith Bool Lra Lia Psatz.
Import ListNotations.
From Verif Require Import Base Num Vec Mat Bound Shape Intersect Exact SpecMat SpecGeom SpecBound SpecShape SpecInter SpecRays
  ExactFacts FloatFacts Order PMat PBound PShape PInter PQuat2 PVec PGeo1 PGeo2.
Local Open Scope R_scope.

Section PRays.
  Variable eps : R.
  Variable zs : XR -> bool.
  Notation E := (Exact eps zs).
  Notation ev := (ev eps zs).
  Notation eray := (eray eps zs).
  Notation holds := (holds eps zs).
  Notation rlo := (rlo eps zs).
  Notation rup := (rup eps zs).

  Lemma reach_iff o d x : xle (rlo o d) (Fin x) /\ xle (Fin x) (rup o d) <-> reach o d x.
  Proof.
    unfold PShape.rlo, PShape.rup, reach. destruct (Rlt_dec 0 d) as [A | A]; [| destruct (Rlt_dec d 0) as [B | B]]; simpl.
    - split; [intros [H _]; repeat split; intros; lra | intros [H _]; split; [apply H, A | exact I]].
    - split; [intros [_ H]; repeat split; intros; lra | intros [_ [H _]]; split; [exact I | apply H, B]].
    - split; [intros [H K]; repeat split; intros; lra |].
      intros [_ [_ H]]. assert (Hz : d = 0) by lra. specialize (H Hz). lra.
  Qed.
  (** two intervals that are not apart have a common coordinate *)
  Lemma reach_common o d p g : xle (rlo o d) (rup p g) -> xle (rlo p g) (rup o d) -> exists x, reach o d x /\ reach p g x.
  Proof.
    unfold PShape.rlo, PShape.rup, reach. intros H K.
    destruct (Rlt_dec 0 d) as [A | A]; [| destruct (Rlt_dec d 0) as [B | B]];
      (destruct (Rlt_dec 0 g) as [A' | A']; [| destruct (Rlt_dec g 0) as [B' | B']]); simpl in H, K;
      first [ exists o; repeat split; intros; lra | exists p; repeat split; intros; lra
            | exists (Rmax o p); pose proof (Rmax_l o p); pose proof (Rmax_r o p); repeat split; intros; lra
            | exists (Rmin o p); pose proof (Rmin_l o p); pose proof (Rmin_r o p); repeat split; intros; lra ].
  Qed.
  Lemma orthant_holds o d x : holds (rbox eps zs o d) x <-> s_orthant o d x.
  Proof.
    unfold s_orthant. rewrite <- !reach_iff. split.
    - intro H. split; [exact (H 0%N eq_refl) | split; [exact (H 1%N eq_refl) | exact (H 2%N eq_refl)]].
    - intros [H0 [H1 H2]] i Hi. cases3 i Hi; assumption.
  Qed.
  Lemma rays_bounds o d e p g f :
    overlap (SRay (eray o d e)) (SRay (eray p g f)) = true <-> meets (s_orthant o d) (s_orthant p g).
  Proof.
    split.
    - intro H. assert (A : forall i, (i < 3)%N -> xle (lo (rbox eps zs o d) i) (up (rbox eps zs p g) i) /\ xle (lo (rbox eps zs p g) i) (up (rbox eps zs o d) i)).
      { exact (overlap_axis eps zs (SRay (eray o d e)) (SRay (eray p g f)) (rbox eps zs o d) (rbox eps zs p g) eq_refl eq_refl (rbox_nonan eps zs o d) (rbox_nonan eps zs p g) H). }
      destruct (A 0%N eq_refl) as [A0 B0], (A 1%N eq_refl) as [A1 B1], (A 2%N eq_refl) as [A2 B2].
      destruct (reach_common _ _ _ _ A0 B0) as [x [X X']], (reach_common _ _ _ _ A1 B1) as [y [Y Y']], (reach_common _ _ _ _ A2 B2) as [z [Z Z']].
      exists (V x y z). split; (split; [| split]); assumption.
    - intros [x [Ha Hb]]. apply (overlap_point eps zs _ _ (rbox eps zs o d) (rbox eps zs p g) x); try reflexivity; apply orthant_holds; assumption.
  Qed.

  Lemma cross_unit_r w g : g <> vzero -> norm (vcross w (unit g)) = norm (vcross g w) / norm g.
  Proof.
    intro Hg. pose proof (norm_nz g Hg) as N. unfold unit.
    replace (vcross w (vscale (/ norm g) g)) with (vscale (- / norm g) (vcross g w)) by (apply V3_eq; simpl; ring).
    rewrite norm_vscale, Rabs_Ropp, Rabs_pos_eq by (left; apply Rinv_0_lt_compat, N). field. lra.
  Qed.
  Lemma cross_unit_l w d : d <> vzero -> norm (vcross (unit d) w) = norm (vcross d w) / norm d.
  Proof.
    intro Hd. pose proof (norm_nz d Hd) as N. unfold unit.
    replace (vcross (vscale (/ norm d) d) w) with (vscale (/ norm d) (vcross d w)) by (apply V3_eq; simpl; ring).
    rewrite norm_vscale, Rabs_pos_eq by (left; apply Rinv_0_lt_compat, N). field. lra.
  Qed.
  Lemma norm_cross_anti u v : norm (vcross u v) = norm (vcross v u).
  Proof. replace (vcross u v) with (vscale (-1) (vcross v u)) by (apply V3_eq; simpl; ring). rewrite norm_vscale, Rabs_left by lra. ring. Qed.
  Lemma sine_unit d g : d <> vzero -> g <> vzero -> norm (vcross (unit d) (unit g)) = sine d g.
  Proof.
    intros Hd Hg. pose proof (norm_nz d Hd) as N. pose proof (norm_nz g Hg) as M. rewrite cross_unit_l by exact Hd. rewrite cross_unit_r by exact Hg.
    unfold sine. rewrite (norm_cross_anti g d). field. lra.
  Qed.
  Lemma line_dist_g o p g : g <> vzero -> norm (vcross (vsub p o) (unit g)) = line_dist p g o.
  Proof.
    intro Hg. rewrite cross_unit_r by exact Hg. unfold line_dist.
    replace (vcross g (vsub p o)) with (vscale (-1) (vcross g (vsub o p))) by (apply V3_eq; simpl; ring).
    rewrite norm_vscale, Rabs_left by lra. field. pose proof (norm_nz g Hg). lra.
  Qed.

  Section Two.
    Variables (o d p g : V3) (e f : R) (a b : shape E).
    Hypotheses (Hd : d <> vzero) (Hg : g <> vzero) (Ha : is_ray eps zs o d e a) (Hb : is_ray eps zs p g f b).
    Lemma rr_apart : ~ meets (s_orthant o d) (s_orthant p g) -> shape_get_intersect a b = Ok (false, None).
    Proof.
      intro H. apply (is_ray_inv eps zs o d e a Hd) in Ha. apply (is_ray_inv eps zs p g f b Hg) in Hb. subst.
      apply miss_of. destruct (overlap (SRay (eray o d e)) (SRay (eray p g f))) eqn:Eo; [apply rays_bounds in Eo; contradiction | reflexivity].
    Qed.
    Lemma rr_skew : meets (s_orthant o d) (s_orthant p g) -> ~ near_parallel d g ->
      shape_get_intersect a b = Ok (true, Some (ev (at_length o d (line_dist p g o / sine d g)))).
    Proof.
      intros H Np. apply (is_ray_inv eps zs o d e a Hd) in Ha. apply (is_ray_inv eps zs p g f b Hg) in Hb. subst.
      rewrite core_of by (apply rays_bounds; exact H). rewrite ray_ray_skew by exact Np.
      rewrite line_dist_g by exact Hg. rewrite sine_unit by assumption. reflexivity.
    Qed.
    Lemma rr_near_far : near_parallel d g -> Rabs e < line_dist o d p -> shape_get_intersect a b = Ok (false, None).
    Proof.
      intros Np L. destruct (overlap a b) eqn:Eo; [| apply miss_of, Eo]. rewrite core_of by exact Eo.
      apply (is_ray_inv eps zs o d e a Hd) in Ha. apply (is_ray_inv eps zs p g f b Hg) in Hb. subst.
      rewrite ray_ray_parallel by assumption. rewrite cross_unit_l by exact Hd. unfold line_dist in L.
      destruct (Rle_dec _ _); [lra | reflexivity].
    Qed.
    Lemma dot_unit_sign : vdot (vsub p o) (unit d) < 0 <-> vdot d (vsub p o) < 0.
    Proof. rewrite vdot_comm. apply vdot_unit_sign, Hd. Qed.
    Lemma rr_near_behind : meets (s_orthant o d) (s_orthant p g) -> near_parallel d g -> line_dist o d p <= Rabs e -> vdot d (vsub p o) < 0 ->
      shape_get_intersect a b = Ok (true, Some (ev o)).
    Proof.
      intros H Np L S. apply dot_unit_sign in S. apply (is_ray_inv eps zs o d e a Hd) in Ha. apply (is_ray_inv eps zs p g f b Hg) in Hb. subst.
      rewrite core_of by (apply rays_bounds; exact H). rewrite ray_ray_parallel by assumption. rewrite cross_unit_l by exact Hd. unfold line_dist in L.
      destruct (Rle_dec _ _); [| lra]. destruct (Rlt_dec _ _); [reflexivity | contradiction].
    Qed.
    Lemma rr_near_ahead : meets (s_orthant o d) (s_orthant p g) -> near_parallel d g -> line_dist o d p <= Rabs e -> 0 <= vdot d (vsub p o) ->
      shape_get_intersect a b = Ok (true, Some (ev (at_length o d (dist p o)))).
    Proof.
      intros H Np L S. assert (S' : ~ vdot (vsub p o) (unit d) < 0) by (intro C; apply dot_unit_sign in C; lra).
      apply (is_ray_inv eps zs o d e a Hd) in Ha. apply (is_ray_inv eps zs p g f b Hg) in Hb. subst.
      rewrite core_of by (apply rays_bounds; exact H). rewrite ray_ray_parallel by assumption. rewrite cross_unit_l by exact Hd. unfold line_dist in L.
      destruct (Rle_dec _ _); [| lra]. destruct (Rlt_dec _ _); [contradiction | reflexivity].
    Qed.
    (** a reported location of rays that are not near-parallel is right exactly when the rays meet *)
    Lemma rr_right l : ~ near_parallel d g -> shape_get_intersect a b = Ok (true, Some l) ->
      ((exists x, l = ev x /\ s_ray o d x /\ s_ray p g x) <-> meets (s_ray o d) (s_ray p g)).
    Proof.
      intros Np H. split.
      - intros [x [_ [H1 H2]]]. exists x. split; assumption.
      - intros [x [H1 H2]]. rewrite (ray_ray_found eps zs o d e p g f a b x Hd Hg Ha Hb Np H1 H2) in H. injection H as <-.
        exists x. split; [reflexivity | split; assumption].
    Qed.
  End Two.
  Lemma orthants_sym o d p g : meets (s_orthant o d) (s_orthant p g) <-> meets (s_orthant p g) (s_orthant o d).
  Proof. split; intros [x [H K]]; exists x; split; assumption. Qed.
End PRays.
