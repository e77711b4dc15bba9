(** PIeee7.v — the GJK query on spheres in IEEE arithmetic (C88, C89): the answer "false", and the collapse at tiny scale. *)
From Coq Require Import Reals List ZArith NArith Bool Lra Lia Psatz.
From Flocq Require Import Core BinarySingleNaN Relative.
Import ListNotations.
From Verif Require Import Base Num Vec Mat Bound Shape Gjk Intersect Float Exact FloatFacts FloatRound Order SpecMat SpecGeom SpecBound
  SpecRound SpecBuild SpecTrace ExactFacts PMat PShape PGeo1 PBuild PSup2 PRound PRound2 PRound3 PIeee1 PIeee2 PIeee3 PIeee5 PIeee6.
Local Open Scope R_scope.

(** ---- the loop, whatever the arithmetic ---- *)
Section Any.
  Context {Nm : Num}.
  Lemma iter_false (a b : shape Nm) s d : gjk_iter a b s d = Ok (inl (Some false)) ->
    exists sup t, gjk_support a b d = Ok (Some sup) /\ mat3x1_dot sup d = Some t /\ ngt t n0 = false.
  Proof.
    unfold gjk_iter. destruct (gjk_support a b d) as [[sup |] |]; cbn [bind unwrap]; try discriminate.
    destruct (assert _) as [[] |]; cbn [bind]; try discriminate. unfold last_vert. rewrite rev_app_distr. cbn [rev app bind].
    unfold pass_minkowski_origin. destruct (mat3x1_dot sup d) as [t |] eqn:T; cbn [bind unwrap]; try discriminate.
    destruct (ngt t n0) eqn:G; cbn [negb].
    - destruct (contains_minkowski_origin (s ++ [sup]) d) as [[[c s'] d'] |]; cbn [bind]; try discriminate. destruct c; discriminate.
    - intros _. exists sup, t. repeat split; assumption.
  Qed.
  Lemma loop_visits (a b : shape Nm) f : forall s d r, visits a b s d -> gjk_loop f a b s d = Done (Ok (Some r)) ->
    exists s' d', visits a b s' d' /\ gjk_iter a b s' d' = Ok (inl (Some r)).
  Proof.
    induction f as [| f IH]; intros s d r V H; [discriminate H |]. cbn [gjk_loop] in H.
    destruct (gjk_iter a b s d) as [[o | [s' d']] |] eqn:I; try discriminate H.
    - injection H as ->. exists s, d. split; assumption.
    - apply (IH s' d' r); [apply (visits_step a b s d); assumption | exact H].
  Qed.
  Lemma query_visits (a b : shape Nm) f r : query_intersect f a b = Done (Ok (Some r)) ->
    exists s d, visits a b s d /\ gjk_iter a b s d = Ok (inl (Some r)).
  Proof.
    unfold query_intersect. destruct (gjk_start a b) as [[s d] |] eqn:S; [| discriminate]. intro H.
    apply (loop_visits a b f s d r); [apply visits_start; exact S | exact H].
  Qed.
  Lemma iter_panic (a b : sphere Nm) s d k : length s = 1%nat \/ length s = 2%nat -> gjk_iter (SSphere a) (SSphere b) s d = Panic k ->
    gjk_support (SSphere a) (SSphere b) d = Ok None.
  Proof.
    intro Hs. unfold gjk_iter. destruct (gjk_support_any a b d) as [[x |] ->]; cbn [bind unwrap]; [| reflexivity]. intro H. exfalso. revert H.
    destruct x as [[x0 x1 x2]], d as [[d0 d1 d2]].
    destruct s as [| [[p0 p1 p2]] s]; [simpl in Hs; lia |]. destruct s as [| [[q0 q1 q2]] s]; [| destruct s; [| simpl in Hs; lia]].
    - cbn. destruct (ngt _ _); cbn; [| discriminate]. destruct (neqb _ _); cbn; discriminate.
    - cbn. destruct (ngt _ _); cbn; [| discriminate]. destruct (ngt _ _); cbn; [discriminate |]. destruct (ngt _ _); cbn; discriminate.
  Qed.
  Lemma visits_length (a b : sphere Nm) s d : visits (SSphere a) (SSphere b) s d -> length s = 1%nat \/ length s = 2%nat.
  Proof.
    induction 1 as [s d H | s d s' d' V IH I].
    - left. unfold gjk_start in H. cbn [shape_get_type bind] in H. destruct (gjk_support_any a b (M3x1 (A3 minus1 n0 n0))) as [[x |] E]; rewrite E in H; cbn [bind unwrap] in H; [| discriminate H].
      cbn [mat3x1_scale unwrap bind] in H. injection H as <- _. reflexivity.
    - right. destruct (iter_any a b s d IH) as [H | [[r H] | [s2 [d2 [H L]]]]]; rewrite I in H; try discriminate H. injection H as <- _. exact L.
  Qed.
  Lemma loop_panic (a b : sphere Nm) k f : forall s d, visits (SSphere a) (SSphere b) s d -> gjk_loop f (SSphere a) (SSphere b) s d = Done (Panic k) ->
    exists s' d', visits (SSphere a) (SSphere b) s' d' /\ gjk_support (SSphere a) (SSphere b) d' = Ok None.
  Proof.
    induction f as [| f IH]; intros s d V H; [discriminate H |]. cbn [gjk_loop] in H.
    destruct (gjk_iter (SSphere a) (SSphere b) s d) as [[o | [s' d']] |] eqn:I; try discriminate H.
    - apply (IH s' d'); [apply (visits_step _ _ s d); assumption | exact H].
    - exists s, d. split; [exact V |]. apply (iter_panic a b s d k0); [apply (visits_length a b s d V) | exact I].
  Qed.
  Lemma query_panic (a b : sphere Nm) k f : query_intersect f (SSphere a) (SSphere b) = Done (Panic k) ->
    gjk_support (SSphere a) (SSphere b) (M3x1 (A3 minus1 n0 n0)) = Ok None \/
    exists s d, visits (SSphere a) (SSphere b) s d /\ gjk_support (SSphere a) (SSphere b) d = Ok None.
  Proof.
    unfold query_intersect. destruct (gjk_start (SSphere a) (SSphere b)) as [[s d] |] eqn:S; intro H.
    - right. apply (loop_panic a b k f s d); [apply visits_start; exact S | exact H].
    - left. unfold gjk_start in S. cbn [shape_get_type bind] in S. destruct (gjk_support_any a b (M3x1 (A3 minus1 n0 n0))) as [[x |] E]; rewrite E in S; cbn [bind unwrap] in S; [| exact E].
      cbn [mat3x1_scale unwrap bind] in S. discriminate S.
  Qed.
End Any.

Lemma unit_scale_neg v : unit (vscale (-1) v) = vscale (-1) (unit v).
Proof.
  unfold unit. rewrite norm_scale_abs. replace (Rabs (-1)) with 1 by (rewrite Rabs_left; lra). rewrite Rmult_1_l.
  apply V3_eq; unfold vscale; cbn [vx vy vz]; ring.
Qed.

Section Ieee7.
  Context (prec emax : Z) {Hp : Prec_gt_0 prec} {Hm : Prec_lt_emax prec emax} (lm : libm (binary_float prec emax)).
  Notation bf := (binary_float prec emax).
  Notation fmt := (SpecFloat.fexp prec emax).
  Notation rnd := (round radix2 fmt ZnearestE).
  Notation val := (@B2R prec emax).
  Notation fin x := (is_finite (x : bf) = true).
  Notation u := (uro prec).
  Notation et := (eta prec emax).
  Notation fv := (fv prec emax).
  Notation bnd := (bnd prec emax).
  Notation F := (@Ieee prec emax Hp Hm lm).
  Notation bnd3 := (bnd3 prec emax lm).
  Notation w3 v := (v3 (v : mat3x1 bf)).

  Lemma fv_m1 : fv (@minus1 F : bf) (-1).
  Proof.
    apply (fv_lit1 prec emax (-1)). apply (f_int_exact prec emax (-1) (Bopp (@Bone prec emax Hp Hm))). rewrite B2R_Bopp, Bone_correct. reflexivity.
  Qed.
  Lemma neg_val (x : bf) : fin x -> fv (Bmult mode_NE x (@minus1 F)) (- val x).
  Proof.
    intro Fx. destruct fv_m1 as [F1 V1]. rewrite <- B2R_Bopp. apply (fv_mult_exact prec emax); [exact Fx | exact F1 |]. rewrite V1, B2R_Bopp. ring.
  Qed.
  Lemma neg_scale (d : mat3x1 F) : good_normal (d : mat3x1 bf) -> exists d', mat3x1_scale d minus1 = Some d' /\ good_normal (d' : mat3x1 bf) /\ w3 d' = vscale (-1) (w3 d).
  Proof.
    destruct d as [[x y z]]. intros [[(Fx & Fy & Fz) (Lx & Ly & Lz)] S]. eexists. split; [reflexivity |].
    destruct (neg_val x Fx) as [Gx Vx], (neg_val y Fy) as [Gy Vy], (neg_val z Fz) as [Gz Vz].
    assert (E : w3 (M3x1 (A3 (Bmult mode_NE x (@minus1 F)) (Bmult mode_NE y (@minus1 F)) (Bmult mode_NE z (@minus1 F)))) = vscale (-1) (w3 (M3x1 (A3 x y z)))).
    { unfold v3, vscale. cbn [vx vy vz]. rewrite Vx, Vy, Vz. apply V3_eq; cbn [vx vy vz]; ring. }
    split; [| exact E]. split; [split; [repeat split; assumption |] |].
    - rewrite <- Rabs_Ropp, <- Vx in Lx. rewrite <- Rabs_Ropp, <- Vy in Ly. rewrite <- Rabs_Ropp, <- Vz in Lz. exact (conj Lx (conj Ly Lz)).
    - eapply Rle_trans; [exact S |]. right. match type of E with ?l = _ => change (vdot (w3 (M3x1 (A3 x y z))) (w3 (M3x1 (A3 x y z))) = vdot l l) end. rewrite E. unfold vdot, vscale. cbn [vx vy vz]. ring.
  Qed.
  Lemma mag_good (d : mat3x1 F) : (9 < prec)%Z -> good_normal (d : mat3x1 bf) -> magnitude_nonzero d = true.
  Proof.
    intros P [[Fn Ln] HS]. destruct d as [[a b c]]. destruct Fn as [Fa [Fb Fc]]. destruct Ln as [La [Lb Lc]]. pose proof (half_k prec emax P) as [Hk1 Hk2]. set (k := (emax / 2 - 3)%Z) in *.
    destruct (len3_ok prec emax k a b c ltac:(lia) ltac:(lia) (conj Fa La) (conj Fb Lb) (conj Fc Lc)) as [_ [_ [Fl _]]].
    destruct (norm3 prec emax lm a b c (len3 prec emax a b c) P eq_refl Fl HS) as [D _].
    assert (S0 : 0 < val a * val a + val b * val b + val c * val c) by (eapply Rlt_le_trans; [apply bpow_gt_0 | exact HS]).
    apply sqrt_lt_R0 in S0. set (q := sqrt _) in *. pose proof (u_small prec P) as U. pose proof (u_pos prec) as U0.
    assert ((1 + u) ^ 5 - 1 <= / 2) by (assert ((1 + u) ^ 5 <= (1 + / 1024) ^ 5) by (apply pow_incr; lra); simpl in *; lra).
    assert (L0 : 0 < val (len3 prec emax a b c)) by (apply Rabs_le_inv in D; nra).
    unfold magnitude_nonzero, mat3x1_magnitude. change (nne (len3 prec emax a b c : F) n0 = true). unfold nne.
    destruct (fv_n0 prec emax lm) as [Fz Vz]. rewrite (neqb_val_false prec emax lm); [reflexivity | exact Fl | exact Fz |]. rewrite Vz. lra.
  Qed.

  Lemma support_ieee (c d : mat3x1 F) (r : F) b e : (9 < prec)%Z -> good_normal (d : mat3x1 bf) -> moderate (c : mat3x1 bf) -> bnd (emax / 2 - 3) r ->
    exists p, sphere_get_support (MkSphere c r b e) d = Ok (Some p) /\ bnd3 (emax / 2 - 1) p /\
      dist (w3 p) (vadd (w3 c) (vscale (val r) (unit (w3 d)))) <= 11 * u * Rabs (val r) + u * norm (w3 c) + 3 * et.
  Proof.
    intros P Gd Mc Br. destruct (nrm_ieee prec emax lm d P Gd) as [Bn [Dn Un]]. pose proof (half_k prec emax P) as [Hk1 Hk2].
    assert (Zk : (emax / 2 - 3 <= emax / 2 + 2)%Z) by lia.
    destruct (along_ieee prec emax lm (nrm d) c r (unit (w3 d)) (val r) P Bn Dn Un (bnd_le prec emax _ _ r Zk Br) Mc) as [p [Ep [Fp Dp]]].
    rewrite Rminus_diag_eq, Rabs_R0, Rmult_0_r, Rplus_0_l in Dp by reflexivity.
    exists p. split; [| split; [| exact Dp]].
    - unfold sphere_get_support. rewrite (mag_good d P Gd). unfold normalize_unwrap. rewrite normalize_nrm. cbn [bind unwrap sp_radius sp_ori].
      unfold along in Ep. destruct (nrm d) as [[n0' n1' n2']], c as [[c0 c1 c2]]. cbn [mat3x1_scale mat3x1_plus unwrap bind] in Ep |- *. injection Ep as <-.
      rewrite (nadd_comm_F prec emax lm c0), (nadd_comm_F prec emax lm c1), (nadd_comm_F prec emax lm c2). reflexivity.
    - pose proof (moderate_norm prec emax lm c Mc) as Nc. destruct Br as [_ Br].
      pose proof (u_small prec P) as U. pose proof (u_pos prec) as U0. pose proof (et_pos prec emax) as T0. pose proof (et_small prec emax P) as T.
      pose proof (norm_pos (w3 c)) as Nc0. pose proof (Rabs_pos (val r)) as R0.
      pose proof (norm_close (w3 p) (vadd (w3 c) (vscale (val r) (unit (w3 d))))) as N1. pose proof (triangle (w3 c) (vscale (val r) (unit (w3 d)))) as N2.
      rewrite norm_scale_abs, Un in N2. set (X := bpow radix2 (emax / 2 - 3)) in *.
      assert (X1 : 1 <= X) by (unfold X; change 1 with (bpow radix2 0); apply bpow_le; lia).
      assert (N3 : norm (w3 p) <= bpow radix2 (emax / 2 - 1)).
      { replace (emax / 2 - 1)%Z with (2 + (emax / 2 - 3))%Z by lia. rewrite bpow_plus. fold X. change (bpow radix2 2) with 4.
        assert (u * Rabs (val r) <= / 1024 * X) by (apply Rmult_le_compat; lra). assert (u * norm (w3 c) <= / 1024 * (2 * X)) by (apply Rmult_le_compat; lra). lra. }
      clear - N3 Fp. destruct p as [[p0 p1 p2]], Fp as (F0 & F1 & F2). destruct (abs_comp_norm (w3 (M3x1 (A3 p0 p1 p2)))) as [B0 [B1 B2]].
      cbn [vx vy vz v3] in B0, B1, B2. split; [| split]; (split; [assumption |]); eapply Rle_trans; eassumption.
  Qed.

  Section Pair.
  Context (ca cb : mat3x1 F) (ra rb ea eb : F) (ba bb : aabb F).
  Notation A := (SSphere (MkSphere ca ra ba ea)).
  Notation B := (SSphere (MkSphere cb rb bb eb)).
  Notation C := (vsub (w3 ca) (w3 cb)).
  Notation K := (val ra + val rb).
  Notation S := (norm (w3 ca) + norm (w3 cb) + Rabs (val ra) + Rabs (val rb)).

  Lemma gjk_support_ieee (d : mat3x1 F) : (9 < prec)%Z -> good_normal (d : mat3x1 bf) -> moderate (ca : mat3x1 bf) -> moderate (cb : mat3x1 bf) ->
    bnd (emax / 2 - 3) ra -> bnd (emax / 2 - 3) rb -> exists p, gjk_support A B d = Ok (Some p) /\ bnd3 (emax / 2) p /\
      dist (w3 p) (vadd C (vscale K (unit (w3 d)))) <= 13 * u * S + 8 * et /\ norm (w3 p) <= 102 / 100 * S + 8 * et.
  Proof.
    intros P Gd Ma Mb Ra Rb. pose proof (half_k prec emax P) as [Hk1 Hk2]. destruct (nrm_ieee prec emax lm d P Gd) as [_ [_ Un]].
    destruct (neg_scale d Gd) as [d' [Ed [Gd' Vd]]].
    destruct (support_ieee ca d ra ba ea P Gd Ma Ra) as [p [Ep [Bp Dp]]]. destruct (support_ieee cb d' rb bb eb P Gd' Mb Rb) as [q [Eq [Bq Dq]]].
    rewrite Vd, unit_scale_neg in Dq.
    assert (HM : (prec < emax)%Z) by exact Hm. assert (HP : (0 < prec)%Z) by exact Hp.
    assert (Z1 : (3 - emax - prec <= emax / 2 - 1)%Z) by lia. assert (Z2 : (emax / 2 - 1 + 1 < emax)%Z) by lia.
    destruct p as [[p0 p1 p2]], q as [[q0 q1 q2]]. destruct Bp as (P0 & P1 & P2), Bq as (Q0 & Q1 & Q2).
    destruct (minus_bnd prec emax (emax / 2 - 1) p0 q0 Z1 Z2 P0 Q0) as [[_ V0] B0]. destruct (minus_bnd prec emax (emax / 2 - 1) p1 q1 Z1 Z2 P1 Q1) as [[_ V1] B1].
    destruct (minus_bnd prec emax (emax / 2 - 1) p2 q2 Z1 Z2 P2 Q2) as [[_ V2] B2].
    eexists. split.
    { unfold gjk_support. cbn [shape_get_support]. rewrite Ep. cbn [bind]. rewrite Ed. cbn [unwrap bind]. rewrite Eq. cbn [bind mat3x1_minus unwrap]. reflexivity. }
    replace (emax / 2 - 1 + 1)%Z with (emax / 2)%Z in B0, B1, B2 by lia. split; [repeat split; (apply B0 || apply B1 || apply B2) |].
    destruct (minus_rel prec emax p0 q0) as [e0 [H0 R0]]. destruct (minus_rel prec emax p1 q1) as [e1 [H1 R1]]. destruct (minus_rel prec emax p2 q2) as [e2 [H2 R2]].
    rewrite R0 in V0. rewrite R1 in V1. rewrite R2 in V2. clear R0 R1 R2 Ep Eq Ed.
    set (pv := w3 (M3x1 (A3 p0 p1 p2))) in *. set (qv := w3 (M3x1 (A3 q0 q1 q2))) in *. set (D := unit (w3 d)) in *.
    match goal with |- dist ?x _ <= _ /\ _ => set (sv := x) end.
    assert (Es : dist sv (vsub pv qv) <= u * norm (vsub pv qv)).
    { pose proof (u_pos prec) as U0. unfold dist. rewrite <- (norm_scale_pos u) by lra. rewrite <- norm_vabs with (v := vscale u _). apply norm_mono.
      - unfold sv, pv, qv, vsub, v3, vabs, vscale. cbn [vx vy vz]. change (nsub F p0 q0) with (Bminus mode_NE (p0 : bf) q0). rewrite V0.
        replace ((val p0 - val q0) * (1 + e0) - (val p0 - val q0)) with (e0 * (val p0 - val q0)) by ring. rewrite !Rabs_mult. rewrite (Rabs_pos_eq u) by lra. apply Rmult_le_compat_r; [apply Rabs_pos | exact H0].
      - unfold sv, pv, qv, vsub, v3, vabs, vscale. cbn [vx vy vz]. change (nsub F p1 q1) with (Bminus mode_NE (p1 : bf) q1). rewrite V1.
        replace ((val p1 - val q1) * (1 + e1) - (val p1 - val q1)) with (e1 * (val p1 - val q1)) by ring. rewrite !Rabs_mult. rewrite (Rabs_pos_eq u) by lra. apply Rmult_le_compat_r; [apply Rabs_pos | exact H1].
      - unfold sv, pv, qv, vsub, v3, vabs, vscale. cbn [vx vy vz]. change (nsub F p2 q2) with (Bminus mode_NE (p2 : bf) q2). rewrite V2.
        replace ((val p2 - val q2) * (1 + e2) - (val p2 - val q2)) with (e2 * (val p2 - val q2)) by ring. rewrite !Rabs_mult. rewrite (Rabs_pos_eq u) by lra. apply Rmult_le_compat_r; [apply Rabs_pos | exact H2]. }
    clearbody pv qv sv D. clear V0 V1 V2 H0 H1 H2 B0 B1 B2.
    set (a := w3 ca) in *. set (b := w3 cb) in *. clearbody a b.
    pose proof (u_small prec P) as U. pose proof (u_pos prec) as U0. pose proof (et_pos prec emax) as T0. pose proof (et_small prec emax P) as T.
    pose proof (norm_pos a) as Na. pose proof (norm_pos b) as Nb. pose proof (Rabs_pos (val ra)) as Xa. pose proof (Rabs_pos (val rb)) as Xb.
    assert (Dd : dist (vsub pv qv) (vadd (vsub a b) (vscale K D)) <= 11 * u * (Rabs (val ra) + Rabs (val rb)) + u * (norm a + norm b) + 6 * et).
    { unfold dist in *. replace (vsub (vsub pv qv) (vadd (vsub a b) (vscale K D))) with
        (vadd (vsub pv (vadd a (vscale (val ra) D))) (vscale (-1) (vsub qv (vadd b (vscale (val rb) (vscale (-1) D)))))).
      - eapply Rle_trans; [apply triangle |]. rewrite norm_scale_abs. replace (Rabs (-1)) with 1 by (rewrite Rabs_left; lra). lra.
      - apply V3_eq; unfold vadd, vsub, vscale; cbn [vx vy vz]; ring. }
    assert (Nx : norm (vadd (vsub a b) (vscale K D)) <= norm a + norm b + Rabs (val ra) + Rabs (val rb)).
    { eapply Rle_trans; [apply triangle |]. rewrite norm_scale_abs, Un. pose proof (Rabs_triang (val ra) (val rb)).
      assert (norm (vsub a b) <= norm a + norm b).
      { replace (vsub a b) with (vadd a (vscale (-1) b)) by (apply V3_eq; unfold vadd, vsub, vscale; cbn [vx vy vz]; ring).
        eapply Rle_trans; [apply triangle |]. rewrite norm_scale_abs. replace (Rabs (-1)) with 1 by (rewrite Rabs_left; lra). lra. } lra. }
    pose proof (norm_close (vsub pv qv) (vadd (vsub a b) (vscale K D))) as N1.
    pose proof (dist_tri3 sv (vsub pv qv) (vadd (vsub a b) (vscale K D))) as N2. pose proof (norm_close sv (vadd (vsub a b) (vscale K D))) as N3.
    set (M := norm a + norm b + Rabs (val ra) + Rabs (val rb)) in *. set (W := norm (vsub pv qv)) in *.
    assert (M0 : 0 <= M) by (unfold M; lra). assert (UM : 0 <= u * M) by (apply Rmult_le_pos; lra).
    assert (UA : 11 * u * (Rabs (val ra) + Rabs (val rb)) + u * (norm a + norm b) <= 11 * (u * M)).
    { unfold M. assert (0 <= u * norm a) by (apply Rmult_le_pos; lra). assert (0 <= u * norm b) by (apply Rmult_le_pos; lra). lra. }
    assert (WM : W <= 102 / 100 * M + 6 * et) by (assert (u * M <= / 1024 * M) by (apply Rmult_le_compat_r; lra); lra).
    assert (UW : u * W <= 102 / 100 * (u * M) + et).
    { assert (u * W <= u * (102 / 100 * M + 6 * et)) by (apply Rmult_le_compat_l; lra). assert (u * et <= / 1024 * et) by (apply Rmult_le_compat_r; lra). lra. }
    assert (R1 : dist sv (vadd (vsub a b) (vscale K D)) <= 13 * u * M + 8 * et) by lra. split; [exact R1 |].
    assert (u * M <= / 1024 * M) by (apply Rmult_le_compat_r; lra). lra.
  Qed.

  (** an iteration that answers false in a direction of reasonable length *)
  Lemma iter_false_ieee s (d : mat3x1 F) : (9 < prec)%Z -> good_normal (d : mat3x1 bf) -> moderate (ca : mat3x1 bf) -> moderate (cb : mat3x1 bf) ->
    bnd (emax / 2 - 3) ra -> bnd (emax / 2 - 3) rb -> gjk_iter A B s d = Ok (inl (Some false)) ->
    K - gjk_margin prec emax (w3 ca) (w3 cb) (val ra) (val rb) <= dist (w3 ca) (w3 cb).
  Proof.
    intros P Gd Ma Mb Ra Rb I. apply iter_false in I as [sup [t [Es [Et G]]]].
    destruct (gjk_support_ieee d P Gd Ma Mb Ra Rb) as [p [Ep [Bp [Dp Np]]]].
    assert (p = sup) as <- by (rewrite Ep in Es; injection Es; auto). clear Es Ep.
    pose proof (half_k prec emax P) as [Hk1 Hk2]. destruct (nrm_ieee prec emax lm d P Gd) as [_ [_ Un]].
    assert (Bd : bnd3 (emax / 2 - 3) d) by (apply moderate_bnd3; exact (proj1 Gd)).
    assert (HM : (prec < emax)%Z) by exact Hm. assert (HP : (0 < prec)%Z) by exact Hp.
    destruct (dot_v prec emax lm p d (emax / 2) (emax / 2 - 3) P ltac:(lia) ltac:(lia) Bp Bd) as [t' [Et' [Ft Ht]]].
    assert (t' = t) as -> by (rewrite Et' in Et; injection Et; auto). clear Et Et' Bp Bd.
    destruct (fv_n0 prec emax lm) as [Fz Vz].
    assert (T0 : val t <= 0).
    { apply Rnot_lt_le. intro L. rewrite (proj2 (ngt_val prec emax lm t n0 Ft Fz)) in G; [discriminate | rewrite Vz; exact L]. }
    destruct Gd as [_ HS]. set (dv := v3 (d : mat3x1 bf)) in *.
    assert (S0 : 0 < vdot dv dv) by (eapply Rlt_le_trans; [apply bpow_gt_0 | exact HS]).
    assert (NZ : dv <> vzero) by (intro H; rewrite H in S0; unfold vdot, vzero in S0; simpl in S0; lra).
    pose proof (norm_nz dv NZ) as ND.
    assert (NL : bpow radix2 (2 - emax / 2) <= norm dv).
    { apply Rsqr_incr_0_var; [| lra]. unfold Rsqr. rewrite norm_sq. eapply Rle_trans; [| exact HS]. rewrite <- bpow_plus. apply bpow_le. lia. }
    assert (Eu : dv = vscale (norm dv) (unit dv)) by (unfold unit; apply V3_eq; unfold vscale; cbn [vx vy vz]; field; lra).
    pose proof (cauchy C (unit dv)) as CS. rewrite Un in CS. fold (dist (w3 ca) (w3 cb)) in CS.
    assert (Q : vdot (vadd C (vscale K (unit dv))) (unit dv) <= 13 * u * S + 8 * et + vdot (w3 p) (unit dv)).
    { pose proof (cauchy (vsub (w3 p) (vadd C (vscale K (unit dv)))) (unit dv)) as Q. rewrite Un, Rmult_1_r in Q. fold (dist (w3 p) (vadd C (vscale K (unit dv)))) in Q.
      replace (vdot (vsub (w3 p) (vadd C (vscale K (unit dv)))) (unit dv)) with (vdot (w3 p) (unit dv) - vdot (vadd C (vscale K (unit dv))) (unit dv)) in Q
        by (unfold vdot, vsub; cbn [vx vy vz]; ring). apply Rabs_le_inv in Q. lra. }
    replace (vdot (vadd C (vscale K (unit dv))) (unit dv)) with (vdot C (unit dv) + K * 1) in Q.
    2:{ replace 1 with (vdot (unit dv) (unit dv)) by (rewrite <- norm_sq, Un; ring). unfold vdot, vadd, vscale. cbn [vx vy vz]. ring. }
    assert (Q2 : vdot (w3 p) (unit dv) <= 301 / 100 * u * norm (w3 p) + 4 * et / norm dv).
    { apply Rmult_le_reg_l with (norm dv); [exact ND |]. replace (norm dv * vdot (w3 p) (unit dv)) with (vdot (w3 p) dv).
      - apply Rabs_le_inv in Ht. replace (norm dv * (301 / 100 * u * norm (w3 p) + 4 * et / norm dv)) with (301 / 100 * u * (norm (w3 p) * norm dv) + 4 * et) by (field; lra). lra.
      - rewrite Eu at 1. unfold vdot, vscale. cbn [vx vy vz]. ring. }
    pose proof (u_small prec P) as U. pose proof (u_pos prec) as U0. pose proof (et_pos prec emax) as T1.
    assert (Q3 : 4 * et / norm dv <= u * bpow radix2 (2 - emax / 2)).
    { apply Rmult_le_reg_r with (norm dv); [exact ND |]. replace (4 * et / norm dv * norm dv) with (4 * et) by (field; lra).
      eapply Rle_trans; [| apply Rmult_le_compat_l; [| exact NL]; pose proof (bpow_gt_0 radix2 (2 - emax / 2)); apply Rmult_le_pos; lra].
      rewrite (et_u prec emax). rewrite Rmult_assoc, <- bpow_plus. replace (4 * (u * bpow radix2 (2 - emax))) with (u * (bpow radix2 2 * bpow radix2 (2 - emax))) by (change (bpow radix2 2) with 4; ring).
      rewrite <- bpow_plus. apply Rmult_le_compat_l; [lra |]. apply bpow_le. lia. }
    assert (Q4 : 9 * et <= u * bpow radix2 (2 - emax / 2)).
    { rewrite (et_u prec emax). replace (9 * (u * bpow radix2 (2 - emax))) with (u * (9 * bpow radix2 (2 - emax))) by ring. apply Rmult_le_compat_l; [lra |].
      eapply Rle_trans; [apply Rmult_le_compat_r; [apply bpow_ge_0 |]; instantiate (1 := bpow radix2 4); change (bpow radix2 4) with 16; lra |]. rewrite <- bpow_plus. apply bpow_le. lia. }
    assert (Q5 : u * norm (w3 p) <= 102 / 100 * (u * S) + / 128 * et).
    { assert (u * norm (w3 p) <= u * (102 / 100 * S + 8 * et)) by (apply Rmult_le_compat_l; lra). assert (u * et <= / 1024 * et) by (apply Rmult_le_compat_r; lra). lra. }
    unfold gjk_margin. replace (3 - emax / 2)%Z with (1 + (2 - emax / 2))%Z by lia. rewrite bpow_plus. change (bpow radix2 1) with 2.
    apply Rabs_le_inv in CS. assert (0 <= u * S).
    { apply Rmult_le_pos; [lra |]. pose proof (norm_pos (w3 ca)). pose proof (norm_pos (w3 cb)). pose proof (Rabs_pos (val ra)). pose proof (Rabs_pos (val rb)). lra. }
    clear - Q Q2 Q3 Q4 Q5 CS H T1. rewrite Rmult_1_r in CS. lra.
  Qed.
  Lemma good_axis : (9 < prec)%Z -> good_normal (M3x1 (A3 (@minus1 F) n0 n0) : mat3x1 bf).
  Proof.
    intro P. destruct fv_m1 as [F1 V1], (fv_n0 prec emax lm) as [F0 V0]. pose proof (half_k prec emax P) as [Hk1 Hk2]. assert (HM : (prec < emax)%Z) by exact Hm.
    assert (L : 1 <= bpow radix2 (emax / 2 - 3)) by (change 1 with (bpow radix2 0); apply bpow_le; lia).
    split; [split; [repeat split; assumption |] |].
    - rewrite V1, V0, Rabs_R0, Rabs_left by lra. repeat split; lra.
    - unfold vdot, v3. cbn [vx vy vz]. rewrite V1, V0. replace (-1 * -1 + 0 * 0 + 0 * 0) with (bpow radix2 0) by (simpl; ring). apply bpow_le. lia.
  Qed.
  Lemma no_panic_ieee f k : (9 < prec)%Z -> moderate (ca : mat3x1 bf) -> moderate (cb : mat3x1 bf) -> bnd (emax / 2 - 3) ra -> bnd (emax / 2 - 3) rb ->
    query_intersect f A B = Done (Panic k) -> exists s d, visits A B s d /\ ~ good_normal (d : mat3x1 bf).
  Proof.
    intros P Ma Mb Ra Rb Q. apply query_panic in Q as [Q | [s [d [V Q]]]].
    - exfalso. destruct (gjk_support_ieee _ P (good_axis P) Ma Mb Ra Rb) as [p [Ep _]]. rewrite Ep in Q. discriminate Q.
    - exists s, d. split; [exact V |]. intro G. destruct (gjk_support_ieee d P G Ma Mb Ra Rb) as [p [Ep _]]. rewrite Ep in Q. discriminate Q.
  Qed.
  End Pair.

  (** ---- tiny scale ---- *)
  Lemma rnd_tiny x : Rabs x < bpow radix2 (2 - emax - prec) -> rnd x = 0.
  Proof.
    intro H. destruct (Req_dec x 0) as [-> | N]; [apply round_0, valid_rnd_N |].
    apply (round_N_small radix2 fmt _ x (mag radix2 x)); [split; [exact (bpow_mag_le radix2 x N) | apply bpow_mag_gt] |].
    assert (L := mag_le_bpow radix2 x _ N H). change (SpecFloat.fexp prec emax (mag radix2 x)) with (FLT_exp (3 - emax - prec) prec (mag radix2 x)). unfold FLT_exp. lia.
  Qed.
  Lemma mult_exact (x y : bf) v : fin x -> fin y -> fv v (val x * val y) -> fv (Bmult mode_NE x y) (val x * val y).
  Proof. intros Fx Fy [_ V]. rewrite <- V. apply (fv_mult_exact prec emax); [exact Fx | exact Fy | symmetry; exact V]. Qed.
  Lemma plus_exact (x y : bf) v : fin x -> fin y -> fv v (val x + val y) -> fv (Bplus mode_NE x y) (val x + val y).
  Proof. intros Fx Fy [_ V]. rewrite <- V. apply (fv_plus_exact prec emax); [exact Fx | exact Fy | symmetry; exact V]. Qed.
  Lemma mul0 (x y : bf) a : fv x a -> fv y 0 -> fv (Bmult mode_NE x y) 0.
  Proof. intros [Fx Vx] [Fy Vy]. rewrite <- (Rmult_0_r (val x)), <- Vy. apply (mult_exact x y y Fx Fy). split; [exact Fy |]. rewrite Vy. ring. Qed.
  Lemma mul0l (x y : bf) a : fv x 0 -> fv y a -> fv (Bmult mode_NE x y) 0.
  Proof. intros Hx Hy. rewrite Bmult_comm. apply (mul0 y x a Hy Hx). Qed.
  Lemma add0 (x y : bf) a : fv x a -> fv y 0 -> fv (Bplus mode_NE x y) a.
  Proof. intros [Fx Vx] [Fy Vy]. replace a with (val x + val y) by lra. apply (plus_exact x y x Fx Fy). split; [exact Fx |]. rewrite Vy. ring. Qed.
  Lemma mul1 (x y : bf) a : fv x a -> fv y 1 -> fv (Bmult mode_NE x y) a.
  Proof. intros [Fx Vx] [Fy Vy]. replace a with (val x * val y) by (rewrite Vx, Vy; ring). apply (mult_exact x y x Fx Fy). split; [exact Fx |]. rewrite Vy. ring. Qed.
  Lemma mulm1 (x y : bf) a : fv x a -> fv y (-1) -> fv (Bmult mode_NE x y) (- a).
  Proof. intros [Fx Vx] [Fy Vy]. replace (- a) with (val x * val y) by (rewrite Vx, Vy; ring). apply (mult_exact x y (Bopp x) Fx Fy). split; [rewrite is_finite_Bopp; exact Fx |]. rewrite B2R_Bopp, Vy. ring. Qed.
  Lemma fv_one : fv (@n1 F : bf) 1. Proof. exact (fv_lit_1 prec emax). Qed.
  Lemma axis_nrm s (x y z : F) : s = 1 \/ s = -1 -> fv x s -> fv y 0 -> fv z 0 ->
    magnitude_nonzero (M3x1 (A3 x y z)) = true /\ exists a b c, nrm (M3x1 (A3 x y z)) = M3x1 (A3 a b c) /\ fv a s /\ fv b 0 /\ fv c 0.
  Proof.
    intros Hs Hx Hy Hz. assert (M : fv (len3 prec emax x y z) 1).
    { unfold len3. assert (X2 : fv (Bmult mode_NE (x : bf) x) 1).
      { destruct Hs as [-> | ->]; [apply mul1; exact Hx |]. replace 1 with (- (-1)) by ring. apply mulm1; exact Hx. }
      assert (S : fv (Bplus mode_NE (Bplus mode_NE (Bmult mode_NE x x) (Bmult mode_NE y y)) (Bmult mode_NE z z)) 1).
      { apply add0; [apply add0; [exact X2 | apply (mul0 _ _ 0); assumption] | apply (mul0 _ _ 0); assumption]. }
      destruct S as [FS VS]. destruct (sqrt_ok prec emax _ FS ltac:(lra)) as [FQ VQ]. split; [exact FQ |]. rewrite VQ, VS, sqrt_1.
      destruct fv_one as [_ V1]. rewrite <- V1. apply rnd_B2R. }
    split.
    - unfold magnitude_nonzero, mat3x1_magnitude. change (nne (len3 prec emax x y z : F) n0 = true). unfold nne. destruct (fv_n0 prec emax lm) as [Fz Vz].
      rewrite (neqb_val_false prec emax lm); [reflexivity | exact (proj1 M) | exact Fz |]. rewrite Vz. destruct M as [_ M]. lra.
    - exists (Bdiv mode_NE (x : bf) (len3 prec emax x y z)), (Bdiv mode_NE (y : bf) (len3 prec emax x y z)), (Bdiv mode_NE (z : bf) (len3 prec emax x y z)).
      split; [reflexivity |]. destruct M as [_ M].
      assert (D : forall (w : bf) a, fv w a -> fv (Bdiv mode_NE w (len3 prec emax x y z)) a).
      { intros w a [Fw Vw]. rewrite <- Vw. apply (fv_div_exact prec emax); [exact Fw | lra | rewrite M; field]. }
      split; [apply D, Hx | split; apply D; assumption].
  Qed.

  Lemma axis_support s k (c0 c1 c2 x y z r : F) b e : s = 1 \/ s = -1 -> fv x s -> fv y 0 -> fv z 0 -> (3 - emax - prec <= k)%Z -> (k + 1 < emax)%Z ->
    bnd k c0 -> bnd k c1 -> bnd k c2 -> bnd k r -> exists p0 p1 p2 : F, sphere_get_support (MkSphere (M3x1 (A3 c0 c1 c2)) r b e) (M3x1 (A3 x y z)) = Ok (Some (M3x1 (A3 p0 p1 p2))) /\
      fv p0 (rnd (val c0 + s * val r)) /\ bnd (k + 1) p0 /\ bnd (k + 1) p1 /\ bnd (k + 1) p2.
  Proof.
    intros Hs Hx Hy Hz K1 K2 B0 B1 B2 Br. destruct (axis_nrm s x y z Hs Hx Hy Hz) as [M [n0' [n1' [n2' [En [H0 [H1 H2]]]]]]].
    unfold sphere_get_support. rewrite M. unfold normalize_unwrap. rewrite normalize_nrm, En. cbn [bind unwrap sp_radius sp_ori mat3x1_scale mat3x1_plus].
    do 3 eexists. split; [reflexivity |]. assert (Fr : fv r (val r)) by (split; [exact (proj1 Br) | reflexivity]).
    assert (R0 : fv (Bmult mode_NE (n0' : bf) r) (s * val r)).
    { destruct Hs as [-> | ->]; [rewrite Rmult_1_l | replace (-1 * val r) with (- val r) by ring]; rewrite Bmult_comm; [apply mul1 | apply mulm1]; assumption. }
    assert (BR : bnd k (Bmult mode_NE (n0' : bf) r)).
    { split; [exact (proj1 R0) |]. rewrite (proj2 R0). destruct Br as [_ Br]. destruct Hs as [-> | ->]; [rewrite Rmult_1_l; exact Br |]. replace (-1 * val r) with (- val r) by ring. rewrite Rabs_Ropp. exact Br. }
    destruct (plus_bnd prec emax k c0 _ K1 K2 B0 BR) as [P0 Q0]. rewrite (proj2 R0) in P0. split; [exact P0 |]. split; [exact Q0 |].
    assert (T : forall (c n : bf), bnd k c -> fv n 0 -> bnd (k + 1) (Bplus mode_NE c (Bmult mode_NE n r))).
    { intros c n [Fc Bc] Hn. destruct (add0 c (Bmult mode_NE n r) (val c) (conj Fc eq_refl) (mul0l n r _ Hn Fr)) as [FF VV]. split; [exact FF |]. rewrite VV.
      eapply Rle_trans; [exact Bc |]. apply bpow_le. lia. }
    split; [exact (T c1 n1' B1 H1) | exact (T c2 n2' B2 H2)].
  Qed.
  Lemma axis_gjk_support s k (a0 a1 a2 b0 b1 b2 x y z ra rb : F) ba bb ea eb : s = 1 \/ s = -1 -> fv x s -> fv y 0 -> fv z 0 ->
    (3 - emax - prec <= k)%Z -> (k + 2 < emax)%Z -> bnd k a0 -> bnd k a1 -> bnd k a2 -> bnd k ra -> bnd k b0 -> bnd k b1 -> bnd k b2 -> bnd k rb ->
    exists p0 p1 p2 : F, gjk_support (SSphere (MkSphere (M3x1 (A3 a0 a1 a2)) ra ba ea)) (SSphere (MkSphere (M3x1 (A3 b0 b1 b2)) rb bb eb)) (M3x1 (A3 x y z)) = Ok (Some (M3x1 (A3 p0 p1 p2))) /\
      fv p0 (rnd (rnd (val a0 + s * val ra) - rnd (val b0 - s * val rb))) /\ bnd (k + 2) p0 /\ bnd (k + 2) p1 /\ bnd (k + 2) p2.
  Proof.
    intros Hs Hx Hy Hz K1 K2 A0 A1 A2 Ra B0 B1 B2 Rb. assert (Z1 : (k + 1 < emax)%Z) by lia. assert (Z2 : (3 - emax - prec <= k + 1)%Z) by lia. assert (Z3 : (k + 1 + 1 < emax)%Z) by lia.
    destruct (axis_support s k a0 a1 a2 x y z ra ba ea Hs Hx Hy Hz K1 Z1 A0 A1 A2 Ra) as [p0 [p1 [p2 [Ep [V0 [P0 [P1 P2]]]]]]].
    pose proof fv_m1 as M1.
    assert (Hs' : - s = 1 \/ - s = -1) by (destruct Hs; [right | left]; lra).
    assert (Hx' : fv (Bmult mode_NE (x : bf) (@minus1 F)) (- s)) by (apply mulm1; assumption).
    destruct (axis_support (- s) k b0 b1 b2 _ _ _ rb bb eb Hs' Hx' (mul0l y (@minus1 F) _ Hy M1) (mul0l z (@minus1 F) _ Hz M1) K1 Z1 B0 B1 B2 Rb) as [q0 [q1 [q2 [Eq [W0 [Q0 [Q1 Q2]]]]]]].
    destruct (minus_bnd prec emax (k + 1) p0 q0 Z2 Z3 P0 Q0) as [D0 E0]. destruct (minus_bnd prec emax (k + 1) p1 q1 Z2 Z3 P1 Q1) as [_ E1]. destruct (minus_bnd prec emax (k + 1) p2 q2 Z2 Z3 P2 Q2) as [_ E2].
    replace (k + 1 + 1)%Z with (k + 2)%Z in E0, E1, E2 by lia. rewrite (proj2 V0), (proj2 W0) in D0. replace (val b0 + - s * val rb) with (val b0 - s * val rb) in D0 by ring.
    exists (Bminus mode_NE (p0 : bf) q0), (Bminus mode_NE (p1 : bf) q1), (Bminus mode_NE (p2 : bf) q2).
    split; [| split; [exact D0 | split; [exact E0 | split; [exact E1 | exact E2]]]].
    unfold gjk_support. cbn [shape_get_support]. rewrite Ep. cbn [bind mat3x1_scale unwrap]. 
    match type of Eq with ?l = _ => match goal with |- context [sphere_get_support ?u ?v] => change (sphere_get_support u v) with l end end. rewrite Eq. reflexivity.
  Qed.
  Lemma cross_bnd j k (a0 a1 a2 b0 b1 b2 : F) : (3 - emax - prec <= j + k)%Z -> (j + k + 1 < emax)%Z -> bnd j a0 -> bnd j a1 -> bnd j a2 -> bnd k b0 -> bnd k b1 -> bnd k b2 ->
    exists c0 c1 c2 : F, mat3x1_cross (M3x1 (A3 a0 a1 a2)) (M3x1 (A3 b0 b1 b2)) = Some (M3x1 (A3 c0 c1 c2)) /\ bnd (j + k + 1) c0 /\ bnd (j + k + 1) c1 /\ bnd (j + k + 1) c2.
  Proof.
    intros K1 K2 A0 A1 A2 B0 B1 B2. assert (Z1 : (j + k < emax)%Z) by lia. do 3 eexists. split; [reflexivity |].
    assert (T : forall a b c d : bf, bnd j a -> bnd k b -> bnd j c -> bnd k d -> bnd (j + k + 1) (Bminus mode_NE (Bmult mode_NE a b) (Bmult mode_NE c d))).
    { intros a b c d Ba Bb Bc Bd. apply (minus_bnd prec emax (j + k) _ _ K1 K2); apply (mult_bnd prec emax j k _ _ K1 Z1); assumption. }
    split; [| split]; apply T; assumption.
  Qed.
  Lemma cross_tiny j k (a0 a1 a2 b0 b1 b2 : F) : (j + k <= 1 - emax - prec)%Z -> bnd j a0 -> bnd j a1 -> bnd j a2 -> bnd k b0 -> bnd k b1 -> bnd k b2 ->
    exists c0 c1 c2 : F, mat3x1_cross (M3x1 (A3 a0 a1 a2)) (M3x1 (A3 b0 b1 b2)) = Some (M3x1 (A3 c0 c1 c2)) /\ fv c0 0 /\ fv c1 0 /\ fv c2 0.
  Proof.
    intros K A0 A1 A2 B0 B1 B2. do 3 eexists. split; [reflexivity |].
    assert (T1 : forall a b : bf, bnd j a -> bnd k b -> fv (Bmult mode_NE a b) 0).
    { intros a b [Fa Ba] [Fb Bb]. assert (R : rnd (val a * val b) = 0).
      { apply rnd_tiny. rewrite Rabs_mult. apply Rle_lt_trans with (bpow radix2 (j + k)); [rewrite bpow_plus; apply Rmult_le_compat; try apply Rabs_pos; assumption |]. apply bpow_lt. lia. }
      destruct (mult_round prec emax a b Fa Fb) as [M _]. rewrite R in M. apply M. rewrite Rabs_R0. apply bpow_gt_0. }
    assert (T2 : forall a b : bf, fv a 0 -> fv b 0 -> fv (Bminus mode_NE a b) 0).
    { intros a b [Fa Va] [Fb Vb]. destruct (minus_round prec emax a b Fa Fb) as [M _]. rewrite Va, Vb, Rminus_0_r, round_0 in M by apply valid_rnd_N. apply M. rewrite Rabs_R0. apply bpow_gt_0. }
    split; [| split]; apply T2; apply T1; assumption.
  Qed.
  Lemma mag_zero_ieee (c0 c1 c2 : F) : fv c0 0 -> fv c1 0 -> fv c2 0 -> exists m, mat3x1_magnitude (M3x1 (A3 c0 c1 c2)) = Some m /\ neqb m n0 = true.
  Proof.
    intros H0 H1 H2. exists (len3 prec emax c0 c1 c2). split; [reflexivity |].
    assert (S : fv (Bplus mode_NE (Bplus mode_NE (Bmult mode_NE c0 c0) (Bmult mode_NE c1 c1)) (Bmult mode_NE c2 c2)) 0).
    { apply add0; [apply add0 |]; apply (mul0 _ _ 0); assumption. }
    destruct S as [FS VS]. destruct (sqrt_ok prec emax _ FS ltac:(lra)) as [FQ VQ]. rewrite VS, sqrt_0, round_0 in VQ by apply valid_rnd_N. change (fin (len3 prec emax c0 c1 c2)) in FQ. change (val (len3 prec emax c0 c1 c2) = 0) in VQ.
    apply (neqb_iff (ieee_ordered prec emax lm)). change (b2x prec emax (len3 prec emax c0 c1 c2) = b2x prec emax (@n0 F) /\ b2x prec emax (len3 prec emax c0 c1 c2) <> NaN).
    destruct (fv_n0 prec emax lm) as [Fz Vz]. rewrite (fin_x prec emax _ FQ), (fin_x prec emax _ Fz), Vz, VQ. split; [reflexivity | discriminate].
  Qed.

  (** the whole query at tiny scale *)
  Lemma query_tiny (ca cb : mat3x1 F) (ra rb ea eb : F) (ba bb : aabb F) f : (9 < prec)%Z ->
    tiny3 (ca : mat3x1 bf) -> tiny3 (cb : mat3x1 bf) -> tiny (ra : bf) -> tiny (rb : bf) ->
    query_intersect (S f) (SSphere (MkSphere ca ra ba ea)) (SSphere (MkSphere cb rb bb eb)) =
    Done (Ok (Some (if Rlt_dec (rnd (vx (w3 cb) - val rb)) (rnd (vx (w3 ca) + val ra)) then true else false))).
  Proof.
    intros P Ta Tb Ra Rb. destruct ca as [[a0 a1 a2]], cb as [[b0 b1 b2]]. destruct Ta as (A0 & A1 & A2), Tb as (B0 & B1 & B2).
    set (k := tiny_exp prec emax) in *. assert (HP : (0 < prec)%Z) by exact Hp. assert (HM : (prec < emax)%Z) by exact Hm.
    assert (Kk : (3 * k <= - 7 - emax - prec < 3 * k + 3)%Z) by (unfold k, tiny_exp; pose proof (Z.div_mod (- 7 - emax - prec) 3 ltac:(lia)); pose proof (Z.mod_pos_bound (- 7 - emax - prec) 3 ltac:(lia)); lia).
    change (bnd k a0) in A0. change (bnd k a1) in A1. change (bnd k a2) in A2. change (bnd k b0) in B0. change (bnd k b1) in B1. change (bnd k b2) in B2. change (bnd k ra) in Ra. change (bnd k rb) in Rb.
    assert (Z1 : (3 - emax - prec <= k)%Z) by lia. assert (Z2 : (k + 2 < emax)%Z) by lia.
    pose proof (fv_n0 prec emax lm) as Z0. pose proof fv_m1 as M1.
    destruct (axis_gjk_support (-1) k a0 a1 a2 b0 b1 b2 minus1 n0 n0 ra rb ba bb ea eb (or_intror eq_refl) M1 Z0 Z0 Z1 Z2 A0 A1 A2 Ra B0 B1 B2 Rb) as [q0 [q1 [q2 [Eq [_ [Q0 [Q1 Q2]]]]]]].
    set (dx := Bmult mode_NE (@minus1 F : bf) (@minus1 F)). set (dz := Bmult mode_NE (@n0 F : bf) (@minus1 F)).
    assert (Dx : fv dx 1) by (replace 1 with (- (-1)) by ring; apply mulm1; exact M1). assert (Dz : fv dz 0) by (apply (mul0l _ _ (-1)); assumption).
    destruct (axis_gjk_support 1 k a0 a1 a2 b0 b1 b2 dx dz dz ra rb ba bb ea eb (or_introl eq_refl) Dx Dz Dz Z1 Z2 A0 A1 A2 Ra B0 B1 B2 Rb) as [p0 [p1 [p2 [Ep [V0 [P0 [P1 P2]]]]]]].
    set (A := SSphere (MkSphere (M3x1 (A3 a0 a1 a2)) ra ba ea)) in *. set (B := SSphere (MkSphere (M3x1 (A3 b0 b1 b2)) rb bb eb)) in *.
    assert (St : gjk_start A B = Ok ([M3x1 (A3 q0 q1 q2)], @M3x1 F (@A3 F dx dz dz))).
    { unfold gjk_start. change (shape_get_type A) with TSphere. change (shape_get_type B) with TSphere. cbn [bind]. rewrite Eq. reflexivity. }
    unfold query_intersect. rewrite St.
    cbn [gjk_loop]. unfold gjk_iter. rewrite Ep. cbn [bind unwrap app length Nat.leb assert last_vert rev].
    unfold pass_minkowski_origin. cbn [mat3x1_dot unwrap bind].
    set (t := nadd F (nadd F (nmul F p0 dx) (nmul F p1 dz)) (nmul F p2 dz)).
    assert (Ht : fv t (val p0)).
    { unfold t. assert (W : forall w : bf, fin w -> fv w (val w)) by (intros w Fw; split; [exact Fw | reflexivity]). destruct P0 as [F0 _], P1 as [F1 _], P2 as [F2 _].
      apply add0; [apply add0 |]; [apply mul1; [apply W; exact F0 | exact Dx] | apply (mul0 _ _ (val p1)); [apply W; exact F1 | exact Dz] | apply (mul0 _ _ (val p2)); [apply W; exact F2 | exact Dz]]. }
    destruct Z0 as [Fz Vz]. destruct Ht as [Ft Vt]. destruct V0 as [_ V0]. cbn [v3 vx]. rewrite !Rmult_1_l in V0.
    assert (Sg : 0 < val p0 <-> rnd (val b0 - val rb) < rnd (val a0 + val ra)).
    { set (X := rnd (val a0 + val ra)) in *. set (Y := rnd (val b0 - val rb)) in *.
      destruct (rnd_err_sum prec emax X (- Y)) as [e [He Re]]; [unfold X; apply generic_format_round; [apply fexp_correct; exact Hp | apply valid_rnd_N] | apply generic_format_opp; unfold Y; apply generic_format_round; [apply fexp_correct; exact Hp | apply valid_rnd_N] |].
      unfold Rminus in V0. rewrite V0, Re. pose proof (u_small prec P) as U. apply Rabs_le_inv in He. split; intro; nra. }
    destruct (ngt t n0) eqn:G.
    - apply (ngt_val prec emax lm t n0 Ft Fz) in G. rewrite Vt, Vz in G. apply Sg in G. destruct (Rlt_dec _ _) as [_ | N]; [| contradiction]. cbn [negb].
      unfold contains_minkowski_origin, last_vert. cbn [rev app bind length Nat.eqb idx nth_error mat3x1_scale unwrap mat3x1_minus].
      assert (Z3 : (3 - emax - prec <= k + 2)%Z) by lia. assert (Z4 : (k + 2 + 1 < emax)%Z) by lia.
      destruct (minus_bnd prec emax (k + 2) q0 p0 Z3 Z4 Q0 P0) as [_ E0]. destruct (minus_bnd prec emax (k + 2) q1 p1 Z3 Z4 Q1 P1) as [_ E1]. destruct (minus_bnd prec emax (k + 2) q2 p2 Z3 Z4 Q2 P2) as [_ E2].
      assert (NB : forall w : bf, bnd (k + 2) w -> bnd (k + 2) (Bmult mode_NE w (@minus1 F))).
      { intros w [Fw Bw]. destruct (neg_val w Fw) as [FF VV]. split; [exact FF |]. rewrite VV, Rabs_Ropp. exact Bw. }
      apply NB in P0, P1, P2. assert (Z5 : (3 - emax - prec <= k + 2 + 1 + (k + 2))%Z) by lia. assert (Z6 : (k + 2 + 1 + (k + 2) + 1 < emax)%Z) by lia.
      destruct (cross_bnd (k + 2 + 1) (k + 2) _ _ _ _ _ _ Z5 Z6 E0 E1 E2 P0 P1 P2) as [c0 [c1 [c2 [Ec [C0 [C1 C2]]]]]].
      match type of Ec with ?l = _ => match goal with |- context [mat3x1_cross ?x ?y] => change (mat3x1_cross x y) with l end end. rewrite Ec. cbn [unwrap bind].
      assert (Z7 : (k + 2 + 1 + (k + 2) + 1 + (k + 2) <= 1 - emax - prec)%Z) by lia.
      destruct (cross_tiny _ (k + 2) _ _ _ _ _ _ Z7 C0 C1 C2 P0 P1 P2) as [n0' [n1' [n2' [En [N0 [N1 N2]]]]]].
      match type of En with ?l = _ => match goal with |- context [mat3x1_cross ?x ?y] => change (mat3x1_cross x y) with l end end. rewrite En. cbn [unwrap bind].
      destruct (mag_zero_ieee n0' n1' n2' N0 N1 N2) as [m [Em Zm]]. rewrite Em. cbn [unwrap bind]. rewrite Zm. reflexivity.
    - destruct (Rlt_dec _ _) as [L | _]; [| reflexivity]. apply Sg in L. rewrite <- Vt, <- Vz in L. apply (ngt_val prec emax lm t n0 Ft Fz) in L. rewrite L in G. discriminate G.
  Qed.
End Ieee7.
