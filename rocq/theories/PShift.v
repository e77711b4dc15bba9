(** PShift.v — intersection queries on moved data (C116). *)
From Coq Require Import Reals List ZArith NArith Bool Lra Lia.
From Flocq Require Import Core BinarySingleNaN.
Import ListNotations.
From Verif Require Import Base Num Vec Mat Bound Shape Intersect Gjk Float FloatFacts FloatRound Order SpecMat SpecRound SpecGeom SpecBound SpecBuild SpecMirror SpecScale SpecShift
  PMat PBound PShape PInter PBuild PRound PIeee1 PIeee2 PIeee5 PMirror PMirror1 PMirror2 PScale PScale2.
Local Open Scope R_scope.

Section Shift.
  Context (prec emax : Z) {Hp : Prec_gt_0 prec} {Hm : Prec_lt_emax prec emax} (lm : libm (binary_float prec emax)).
  Notation bf := (binary_float prec emax).
  Notation F := (@Ieee prec emax Hp Hm lm).
  Notation val := (@B2R prec emax).
  Notation fin x := (is_finite (x : bf) = true).
  Notation emin := (3 - emax - prec)%Z.
  Notation E := (E prec emax).
  Notation vec := (mat3x1 F).
  Notation u := (uro prec).
  Notation rnd := (round radix2 (SpecFloat.fexp prec emax) ZnearestE).
  Definition id3 := Sg false false false.
  Notation Ei := (Ev prec emax lm id3).
  Variables a b : Z.
  Variable sh : V3.
  Hypothesis P : (9 < prec)%Z.
  Hypothesis Ha : (emin <= a)%Z.
  Hypothesis Hb : (b + 2 <= a + prec)%Z.
  Hypothesis Hc : (b + 1 < emax)%Z.
  Hypothesis Hd : (a <= b)%Z.
  Lemma exact_grid x : gr a x -> Rabs x <= bpow radix2 (b + 1) -> rnd x = x.
  Proof.
    intros [m ->] B. apply round_generic; [apply valid_rnd_N |]. change (IZR m * bpow radix2 a) with (F2R (Float radix2 m a)). change (SpecFloat.fexp prec emax) with (FLT_exp emin prec).
    apply generic_format_FLT. exists (Float radix2 m a); [reflexivity | | exact Ha]. cbn [Fnum]. apply lt_IZR. rewrite IZR_Zpower by (unfold Prec_gt_0 in Hp; lia). rewrite abs_IZR.
    rewrite Rabs_mult, (Rabs_pos_eq (bpow _ _)) in B by apply bpow_ge_0. apply (Rmult_lt_reg_r (bpow radix2 a)); [apply bpow_gt_0 |]. rewrite <- bpow_plus.
    eapply Rle_lt_trans; [exact B | apply bpow_lt; lia].
  Qed.
  Lemma fixed_bnd x : fixed a b (x : bf) -> bnd prec emax b x.
  Proof. intros (A & B & _). split; assumption. Qed.
  Lemma fixed_minus (x y : bf) : fixed a b x -> fixed a b y -> fv prec emax (Bminus mode_NE x y) (val x - val y).
  Proof.
    intros X Y. destruct (minus_bnd prec emax b x y ltac:(lia) ltac:(lia) (fixed_bnd x X) (fixed_bnd y Y)) as [[A B] [_ C]]. rewrite B in C.
    destruct X as (_ & X & X'), Y as (_ & Y & Y'). split; [exact A |]. rewrite B. apply exact_grid; [apply gr_minus; assumption |].
    rewrite bpow_plus. change (bpow radix2 1) with 2. unfold Rminus. eapply Rle_trans; [apply Rabs_triang |]. rewrite Rabs_Ropp. lra.
  Qed.
  Lemma fixed_plus (x y : bf) : fixed a b x -> fixed a b y -> fv prec emax (Bplus mode_NE x y) (val x + val y).
  Proof.
    intros X Y. destruct (plus_bnd prec emax b x y ltac:(lia) ltac:(lia) (fixed_bnd x X) (fixed_bnd y Y)) as [[A B] [_ C]]. rewrite B in C.
    destruct X as (_ & X & X'), Y as (_ & Y & Y'). split; [exact A |]. rewrite B. apply exact_grid; [apply gr_plus; assumption |].
    rewrite bpow_plus. change (bpow radix2 1) with 2. eapply Rle_trans; [apply Rabs_triang |]. lra.
  Qed.
  (** a moved vector *)
  Definition M (v' v : vec) : Prop := fin3 (v' : mat3x1 bf) /\ fin3 (v : mat3x1 bf) /\ shifted sh (v' : mat3x1 bf) (v : mat3x1 bf).
  Lemma M_comp (v' v : vec) : M v' v -> val (c0 v') = val (c0 v) + vx sh /\ val (c1 v') = val (c1 v) + vy sh /\ val (c2 v') = val (c2 v) + vz sh.
  Proof. destruct v' as [[]], v as [[]]. intros (_ & _ & S). unfold shifted, vadd in S. cbn in S. injection S as A B C. repeat split; assumption. Qed.
  Lemma M_fin (v' v : vec) : M v' v -> (fin (c0 v') /\ fin (c1 v') /\ fin (c2 v')) /\ fin (c0 v) /\ fin (c1 v) /\ fin (c2 v).
  Proof. destruct v' as [[]], v as [[]]. intros (A & B & _). split; assumption. Qed.
  Lemma grid3 (v : vec) : all3 (fixed a b) (v : mat3x1 bf) -> fin3 (v : mat3x1 bf) /\ fixed a b (c0 v : bf) /\ fixed a b (c1 v : bf) /\ fixed a b (c2 v : bf).
  Proof. destruct v as [[]]. intros (A & B & C). split; [split; [apply A | split; [apply B | apply C]] | repeat split; first [apply A | apply B | apply C]]. Qed.
  Lemma zr_x (x y : bf) : b2x prec emax x = b2x prec emax y -> zr prec emax x = zr prec emax y.
  Proof.
    intro H. destruct (is_finite x) eqn:Fx.
    - rewrite (b2x_finite prec emax x Fx) in H. symmetry in H. apply b2x_fin_inv in H as [Fy V]. apply zr_fin; [exact Fx | exact Fy | symmetry; exact V].
    - destruct x as [| [] | |], y as [| [] | |]; try discriminate; reflexivity.
  Qed.
  Lemma M_diff (v' v w' w : vec) : M v' v -> M w' w -> Ei (vminus v' w') (vminus v w).
  Proof.
    intros V W. destruct (M_comp _ _ V) as (A & B & C). destruct (M_comp _ _ W) as (A' & B' & C'). destruct (M_fin _ _ V) as [(V0 & V1 & V2) (X0 & X1 & X2)]. destruct (M_fin _ _ W) as [(W0 & W1 & W2) (Y0 & Y1 & Y2)].
    assert (Q : forall x' x y' y : bf, fin x' -> fin x -> fin y' -> fin y -> val x' - val y' = val x - val y -> E false (Bminus mode_NE x' y') (Bminus mode_NE x y)).
    { intros x' x y' y H1 H2 H3 H4 H. unfold PMirror.E. cbn [sgn]. apply zr_x. rewrite !minus_x by assumption. rewrite H. reflexivity. }
    split; [| split]; cbn [vminus c0 c1 c2 id3 sg0 sg1 sg2]; apply Q; try assumption; rewrite ?A, ?B, ?C, ?A', ?B', ?C'; ring.
  Qed.
  Lemma Ei_refl (v : vec) : Ei v v.
  Proof. split; [| split]; apply E_refl. Qed.
  Notation same := (moved_answer (prec := prec) (emax := emax) sh).
  Lemma sv_miss : same (Ok (miss (N := F))) (Ok (miss (N := F))). Proof. reflexivity. Qed.
  Lemma sv_if (c c' : bool) x x' y y' : c' = c -> same x' x -> same y' y -> same (if c' then x' else y') (if c then x else y).
  Proof. intros ->. destruct c; auto. Qed.
  Lemma u1 : 0 < u <= / 2.
  Proof. split; [apply bpow_gt_0 |]. unfold uro. change (/ 2) with (bpow radix2 (-1)). apply bpow_le. lia. Qed.
  Lemma moved_refl s (x' x : bf) : val x' = val x + s -> moved_by s x' x.
  Proof.
    intro H. unfold moved_by. rewrite H. replace (val x + s - val x - s) with 0 by ring. rewrite Rabs_R0. pose proof u1. pose proof (Rabs_pos (val x)). pose proof (Rabs_pos (val x + s)). nra.
  Qed.
  (** rounded sums of a moved coordinate and the same number *)
  Lemma moved_sum s (w' w x' x : bf) : fin x' -> fin x -> val x' = val x + s -> E false w' w -> fin (Bplus mode_NE w' x') -> fin (Bplus mode_NE w x) -> moved_by s (Bplus mode_NE w' x') (Bplus mode_NE w x).
  Proof.
    intros F1 F2 V Ew G1 G2.
    assert (W1 : fin w') by (destruct w', x'; try discriminate; reflexivity). assert (W2 : fin w) by (destruct w, x; try discriminate; reflexivity).
    assert (Vw : val w' = val w). { apply zr_cases in Ew as [-> | (p & q & -> & H)]; [reflexivity |]. cbn [sgn] in H. subst w. reflexivity. }
    destruct (plus_round prec emax w' x' W1 F1) as [A1 A2]. destruct (A1 (A2 G1)) as [_ B1]. destruct (plus_round prec emax w x W2 F2) as [C1 C2]. destruct (C1 (C2 G2)) as [_ D1].
    destruct (plus_rel prec emax w' x') as (e1 & He1 & R1). destruct (plus_rel prec emax w x) as (e2 & He2 & R2). rewrite R1 in B1. rewrite R2 in D1. unfold moved_by. set (p' := val (Bplus mode_NE w' x')) in *. set (p := val (Bplus mode_NE w x)) in *.
    pose proof u1 as U. rewrite Vw, V in B1. set (t := val w + val x) in *. replace (val w + (val x + s)) with (t + s) in B1 by (unfold t; ring).
    replace (p' - p - s) with ((t + s) * e1 - t * e2) by (rewrite B1, D1; ring).
    assert (Q : forall y e, Rabs e <= u -> Rabs (y * e) <= 2 * u * Rabs (y * (1 + e))).
    { intros y e He. rewrite !Rabs_mult. apply Rabs_le_inv in He as He'. rewrite (Rabs_pos_eq (1 + e)) by lra. pose proof (Rabs_pos y). pose proof (Rabs_pos e).
      assert (Rabs y * Rabs e <= Rabs y * u) by (apply Rmult_le_compat_l; assumption). assert (Rabs y * (2 * u * (1 + e)) >= Rabs y * u) by (apply Rle_ge, Rmult_le_compat_l; [assumption | nra]). nra. }
    unfold Rminus. eapply Rle_trans; [apply Rabs_triang |]. rewrite Rabs_Ropp. pose proof (Q (t + s) e1 He1) as Q1. pose proof (Q t e2 He2) as Q2. rewrite <- B1 in Q1. rewrite <- D1 in Q2. lra.
  Qed.
  Lemma fixed_fin x : fixed a b (x : bf) -> fin x. Proof. intros (A & _). exact A. Qed.
  Lemma fixed_abs x : fixed a b (x : bf) -> fixed a b (Babs x).
  Proof.
    intros (A & B & m & C). unfold fixed. rewrite is_finite_Babs, B2R_Babs, Rabs_Rabsolu. split; [exact A | split; [exact B |]]. rewrite C. exists (Z.abs m). rewrite abs_IZR, Rabs_mult. f_equal. apply Rabs_pos_eq, bpow_ge_0.
  Qed.
  Lemma sv_at (d' d : vec) (t' t : F) (o' o : vec) : Ei d' d -> E false t' t -> M o' o -> same (Ok (true, Some (vat d' t' o'))) (Ok (true, Some (vat d t o))).
  Proof.
    intros Dd Et Mo. split; [reflexivity |]. destruct (M_comp _ _ Mo) as (A & B & C). destruct (M_fin _ _ Mo) as [(V0 & V1 & V2) (X0 & X1 & X2)]. destruct (Ev_times prec emax lm id3 _ _ _ _ Dd Et) as (E0 & E1 & E2).
    unfold vat, vplus. intros (F0 & F1 & F2) (G0 & G1 & G2). split; [| split]; apply moved_sum; try assumption; idtac.
  Qed.
  Lemma sv_plus (w' w : vec) (o' o : vec) : Ei w' w -> M o' o -> same (Ok (true, Some (vplus o' w'))) (Ok (true, Some (vplus o w))).
  Proof.
    intros (E0 & E1 & E2) Mo. split; [reflexivity |]. destruct (M_comp _ _ Mo) as (A & B & C). destruct (M_fin _ _ Mo) as [(V0 & V1 & V2) (X0 & X1 & X2)].
    unfold vplus. assert (Cm : forall x y : F, nadd F x y = Bplus mode_NE (y : bf) (x : bf)) by (intros; apply (FloatFacts.Bplus_comm prec emax)). rewrite !Cm.
    intros (F0 & F1 & F2) (G0 & G1 & G2). split; [| split]; apply moved_sum; try assumption; idtac.
  Qed.
  Lemma sv_id (o' o : vec) : M o' o -> same (Ok (true, Some o')) (Ok (true, Some o)).
  Proof.
    intro Mo. split; [reflexivity |]. intros _ _. destruct (M_comp _ _ Mo) as (A & B & C). destruct o' as [[]], o as [[]]. cbn [c0 c1 c2] in *. split; [| split]; apply moved_refl; assumption.
  Qed.

  Lemma sv_ray_ray o' o d rb' rb e o2' o2 d2 rb2' rb2 e2 : M o' o -> M o2' o2 ->
    same (ray_ray (N := F) (MkRay o' d rb' e) (shape_get_shape_data (N := F) (SRay (MkRay o2' d2 rb2' e2))))
      (ray_ray (N := F) (MkRay o d rb e) (shape_get_shape_data (N := F) (SRay (MkRay o2 d2 rb2 e2)))).
  Proof.
    intros Mo Mo2. rewrite !(ray_ray_any (Nm := F)). cbv zeta. pose proof (M_diff _ _ _ _ Mo2 Mo) as Pl. pose proof (Ei_refl d) as Pd. pose proof (Ei_refl d2) as Pd2.
    assert (X1 := mag_E prec emax lm _ _ _ (Ev_cross_same prec emax lm id3 _ _ _ _ Pd Pl)). assert (X2 := mag_E prec emax lm _ _ _ Pl). assert (X3 := mag_E prec emax lm _ _ _ (Ev_cross_same prec emax lm id3 _ _ _ _ Pl Pd2)).
    assert (X4 := lt_E prec emax lm _ _ _ _ (E_dot_same prec emax lm id3 _ _ _ _ Pl Pd) (E_zero prec emax lm false)). rewrite X1, X2, X3, X4.
    apply sv_if; [reflexivity | apply sv_miss |]. apply sv_if; [reflexivity | |].
    - apply sv_if; [reflexivity | apply sv_miss |]. apply sv_if; [reflexivity | apply sv_id; exact Mo | apply sv_at; [exact Pd | apply E_refl | exact Mo]].
    - apply sv_if; [reflexivity | apply sv_miss |]. apply sv_at; [exact Pd | apply E_refl | exact Mo].
  Qed.
  Lemma sv_ray_point o' o d rb' rb e p' p pb' pb pe' pe : M o' o -> M p' p ->
    same (ray_point (N := F) (MkRay o' d rb' e) (shape_get_shape_data (N := F) (SPoint (MkPoint p' pb' pe'))))
      (ray_point (N := F) (MkRay o d rb e) (shape_get_shape_data (N := F) (SPoint (MkPoint p pb pe)))).
  Proof.
    intros Mo Mp. rewrite !(ray_point_any (Nm := F)). cbv zeta. pose proof (M_diff _ _ _ _ Mp Mo) as (A & B & C). cbn [id3 sg0 sg1 sg2] in A, B, C.
    apply (E_div prec emax lm false false _ _ (c0 (Nm := F) d)) in A. apply (E_div prec emax lm false false _ _ (c1 (Nm := F) d)) in B. apply (E_div prec emax lm false false _ _ (c2 (Nm := F) d)) in C. cbn [xorb sgn] in A, B, C.
    apply sv_if; [| apply sv_miss | apply sv_if; [apply ge_E; [exact A | apply E_zero] | apply sv_at; [apply Ei_refl | exact A | exact Mo] | apply sv_miss]].
    f_equal; f_equal; apply (within_E prec emax lm false); assumption.
  Qed.
  Lemma sv_ray_sphere o' o d rb' rb e p' p r pb' pb pe' pe : M o' o -> M p' p ->
    same (ray_sphere (N := F) (MkRay o' d rb' e) (shape_get_shape_data (N := F) (SSphere (MkSphere p' r pb' pe'))))
      (ray_sphere (N := F) (MkRay o d rb e) (shape_get_shape_data (N := F) (SSphere (MkSphere p r pb pe)))).
  Proof.
    intros Mo Mp. rewrite !(ray_sphere_any (Nm := F)). cbv zeta. pose proof (M_diff _ _ _ _ Mo Mp) as Pl. pose proof (Ei_refl d) as Pd.
    pose proof (E_dot_same prec emax lm id3 _ _ _ _ Pl Pd) as Pb. pose proof (E_minus prec emax lm false _ _ _ _ (E_dot_same prec emax lm id3 _ _ _ _ Pl Pl) (E_refl prec emax (nmul F r r))) as Pc.
    pose proof (E_minus prec emax lm false _ _ _ _ (E_mult prec emax lm false false _ _ _ _ Pb Pb) Pc) as Pq.
    pose proof (E_sqrt prec emax lm _ _ Pq) as Ps. pose proof (E_opp prec emax lm false _ _ Pb) as Pn.
    pose proof (E_minus prec emax lm false _ _ _ _ Pn Ps) as P1. pose proof (E_plus prec emax lm false _ _ _ _ Pn Ps) as P2. pose proof (E_zero prec emax lm false) as Z0.
    apply sv_if; [f_equal; apply gt_E; assumption | apply sv_miss | apply sv_if; [apply lt_E; assumption | apply sv_miss |]].
    apply sv_at; try assumption. repeat (apply E_if; [apply lt_E; assumption | assumption |]). assumption.
  Qed.
  Lemma sv_sphere_sphere o' o r rb' rb e p' p r2 pb' pb pe' pe : M o' o -> M p' p ->
    same (sphere_sphere (N := F) (MkSphere o' r rb' e) (shape_get_shape_data (N := F) (SSphere (MkSphere p' r2 pb' pe'))))
      (sphere_sphere (N := F) (MkSphere o r rb e) (shape_get_shape_data (N := F) (SSphere (MkSphere p r2 pb pe)))).
  Proof.
    intros Mo Mp. rewrite !(sphere_sphere_any (Nm := F)). cbv zeta. pose proof (M_diff _ _ _ _ Mp Mo) as Pl. rewrite (mag_E prec emax lm id3 _ _ Pl).
    apply sv_if; [reflexivity | apply sv_miss |]. apply sv_plus; [apply Ev_times; [exact Pl | apply E_refl] | exact Mo].
  Qed.
  Lemma sv_sphere_point o' o r rb' rb e p' p pb' pb pe' pe : M o' o -> M p' p ->
    same (sphere_point (N := F) (MkSphere o' r rb' e) (shape_get_shape_data (N := F) (SPoint (MkPoint p' pb' pe'))))
      (sphere_point (N := F) (MkSphere o r rb e) (shape_get_shape_data (N := F) (SPoint (MkPoint p pb pe)))).
  Proof.
    intros Mo Mp. rewrite !(sphere_point_any (Nm := F)). cbv zeta. pose proof (M_diff _ _ _ _ Mp Mo) as (A & B & C). cbn [id3 sg0 sg1 sg2] in A, B, C.
    repeat (apply sv_if; [apply gt_E; [assumption | apply E_refl] | apply sv_miss |]). apply sv_id. exact Mp.
  Qed.
  (** moved numbers, or the same infinity *)
  Definition S (s : R) (x' x : F) : Prop := (fin x' /\ fin x /\ val x' = val x + s) \/ (x' = x /\ exists c, x = (B754_infinity c : bf)).
  Lemma cmp_S s (x' x y' y : F) : S s x' x -> S s y' y -> ncmp F x' y' = ncmp F x y.
  Proof.
    change (ncmp F) with (@Bcompare prec emax). intros [(A & B & C) | (-> & c & ->)] [(A' & B' & C') | (-> & c' & ->)]; [| | | reflexivity].
    - rewrite !Bcompare_correct by assumption. f_equal. rewrite C, C'. apply Rcompare_plus_r.
    - destruct x', x; try discriminate; destruct c'; reflexivity.
    - destruct y', y; try discriminate; destruct c; reflexivity.
  Qed.
  Lemma S_fix s (x' x : F) : fin x' -> fin x -> val x' = val x + s -> S s x' x.
  Proof. intros A B C. left. repeat split; assumption. Qed.
  Lemma S_pm s (x' x r : F) : fixed a b (x' : bf) -> fixed a b (x : bf) -> fixed a b (r : bf) -> val x' = val x + s -> S s (nsub F x' r) (nsub F x r) /\ S s (nadd F x' r) (nadd F x r).
  Proof.
    intros A B R V. destruct (fixed_minus x' r A R) as [F1 V1]. destruct (fixed_minus x r B R) as [F2 V2]. destruct (fixed_plus x' r A R) as [F3 V3]. destruct (fixed_plus x r B R) as [F4 V4].
    split; left; repeat split; try assumption; [change (val (Bminus mode_NE x' r) = val (Bminus mode_NE x r) + s); rewrite V1, V2 | change (val (Bplus mode_NE x' r) = val (Bplus mode_NE x r) + s); rewrite V3, V4]; rewrite V; ring.
  Qed.
  Lemma sv_point_point o' o rb' rb (e : F) p' p pb' pb pe' pe : M o' o -> M p' p -> all3 (fixed a b) (o' : mat3x1 bf) -> all3 (fixed a b) (o : mat3x1 bf) -> fixed a b (e : bf) ->
    same (point_point (N := F) (MkPoint o' rb' e) (shape_get_shape_data (N := F) (SPoint (MkPoint p' pb' pe'))))
      (point_point (N := F) (MkPoint o rb e) (shape_get_shape_data (N := F) (SPoint (MkPoint p pb pe)))).
  Proof.
    intros Mo Mp Go' Go Fe. apply grid3 in Go as (_ & H0 & H1 & H2). apply grid3 in Go' as (_ & H0' & H1' & H2'). rewrite !(point_point_any (Nm := F)). apply sv_if; [| apply sv_miss | apply sv_id; exact Mo].
    destruct (M_comp _ _ Mo) as (A & B & C). destruct (M_fin _ _ Mo) as [(V0 & V1 & V2) (X0 & X1 & X2)]. destruct (M_comp _ _ Mp) as (A' & B' & C'). destruct (M_fin _ _ Mp) as [(W0 & W1 & W2) (Y0 & Y1 & Y2)].
    assert (Q : forall s (x' x y' y : F), fixed a b (x' : bf) -> fixed a b (x : bf) -> fin y' -> fin y -> val x' = val x + s -> val y' = val y + s -> Shape.within e x' y' = Shape.within e x y).
    { intros s x' x y' y K1 K2 K3 K4 K5 K6. destruct (S_pm s x' x e K1 K2 Fe K5) as [L U]. pose proof (S_fix s y' y K3 K4 K6) as Sy. unfold Shape.within, nge, nle. rewrite (cmp_S _ _ _ _ _ L Sy), (cmp_S _ _ _ _ _ U Sy). reflexivity. }
    rewrite (Q (vx sh) _ _ _ _ H0' H0 W0 Y0 A A'), (Q (vy sh) _ _ _ _ H1' H1 W1 Y1 B B'), (Q (vz sh) _ _ _ _ H2' H2 W2 Y2 C C'). reflexivity.
  Qed.
  Definition Sb (B' B : aabb F) : Prop :=
    match B', B with AABB (A3 l0' l1' l2') (A3 u0' u1' u2'), AABB (A3 l0 l1 l2) (A3 u0 u1 u2) =>
      (S (vx sh) l0' l0 /\ S (vy sh) l1' l1 /\ S (vz sh) l2' l2) /\ (S (vx sh) u0' u0 /\ S (vy sh) u1' u1 /\ S (vz sh) u2' u2) end.
  Lemma overlap_S (x' x y' y : shape F) : Sb (bd prec emax lm x') (bd prec emax lm x) -> Sb (bd prec emax lm y') (bd prec emax lm y) -> overlap x' y' = overlap x y.
  Proof.
    intros A B. unfold overlap. change (ibound_intersect (shape_get_bound x') (shape_get_bound y')) with (aabb_intersect (bd prec emax lm x') (BBox (bd prec emax lm y'))).
    change (ibound_intersect (shape_get_bound x) (shape_get_bound y)) with (aabb_intersect (bd prec emax lm x) (BBox (bd prec emax lm y))). rewrite !intersect_eval. unfold apart, lo, up.
    destruct (bd prec emax lm x) as [[] []], (bd prec emax lm x') as [[] []], (bd prec emax lm y) as [[] []], (bd prec emax lm y') as [[] []].
    destruct A as ((A1 & A2 & A3) & A4 & A5 & A6), B as ((B1 & B2 & B3) & B4 & B5 & B6). cbn -[ncmp]. unfold ngt, nlt.
    rewrite (cmp_S _ _ _ _ _ A1 B4), (cmp_S _ _ _ _ _ A2 B5), (cmp_S _ _ _ _ _ A3 B6), (cmp_S _ _ _ _ _ A4 B1), (cmp_S _ _ _ _ _ A5 B2), (cmp_S _ _ _ _ _ A6 B3). reflexivity.
  Qed.
  Lemma Sb_point (p' p : vec) : M p' p -> Sb (AABB (v3x1 p') (v3x1 p')) (AABB (v3x1 p) (v3x1 p)).
  Proof.
    intro Mp. destruct (M_comp _ _ Mp) as (A & B & C). destruct (M_fin _ _ Mp) as [(V0 & V1 & V2) (X0 & X1 & X2)]. destruct p' as [[]], p as [[]]. cbn [c0 c1 c2] in *.
    repeat split; apply S_fix; assumption.
  Qed.
  Lemma Sb_cube (c' c : vec) (r : F) : M c' c -> all3 (fixed a b) (c' : mat3x1 bf) -> all3 (fixed a b) (c : mat3x1 bf) -> fixed a b (r : bf) -> Sb (cube_any (Nm := F) c' r) (cube_any c r).
  Proof.
    intros Mp Gc' Gc R. apply grid3 in Gc as (_ & H0 & H1 & H2). apply grid3 in Gc' as (_ & H0' & H1' & H2'). destruct (M_comp _ _ Mp) as (A & B & C). destruct c' as [[]], c as [[]]. cbn [c0 c1 c2] in *.
    repeat split; apply S_pm; assumption.
  Qed.
  Lemma Sb_ray (o' o d : vec) : M o' o -> Sb (ray_any (Nm := F) o' d) (ray_any o d).
  Proof.
    intro Mp. destruct (M_comp _ _ Mp) as (A & B & C). destruct (M_fin _ _ Mp) as [(V0 & V1 & V2) (X0 & X1 & X2)]. destruct o' as [[]], o as [[]], d as [[]]. cbn [c0 c1 c2] in *. cbn [ray_any Sb]. unfold rl, ru.
    split; (split; [| split]); repeat match goal with |- context [if ?x then _ else _] => destruct x end; try (apply S_fix; assumption); right; (split; [reflexivity | eexists; reflexivity]).
  Qed.
  Theorem shift_query (D G D' G' : fdesc (prec := prec) (emax := emax)) (x y x' y' : shape F) : grid_tolerance a b D G -> grid_tolerance a b D' G' ->
    on_grid a b D -> on_grid a b G -> on_grid a b D' -> on_grid a b G' -> shift_of sh D' D -> shift_of sh G' G ->
    fbuilds lm D x -> fbuilds lm G y -> fbuilds lm D' x' -> fbuilds lm G' y' ->
    same (shape_get_intersect x' y') (shape_get_intersect x y).
  Proof.
    intros GT GT' PD PG PD' PG' SD SG HD HG HD' HG'. rewrite !(intersect_core (ieee_ordered prec emax lm)).
    destruct D as [p e | o d e | c r e | o n e | c h e], D' as [p' e' | o' d' e' | c' r' e' | o' n' e' | c' h' e']; try contradiction;
      destruct G as [p2 e2 | o2 d2 e2 | c2 r2 e2 | o2 n2 e2 | c2 h2 e2], G' as [p2' e2' | o2' d2' e2' | c2' r2' e2' | o2' n2' e2' | c2' h2' e2']; try contradiction;
      cbn [grid_tolerance on_grid shift_of fbuilds] in *;
      repeat match goal with
      | H : _ /\ _ |- _ => destruct H
      | H : mk_point _ _ _ |- _ => apply point_any in H
      | H : mk_sphere _ _ _ _ |- _ => apply sphere_any in H
      | H : mk_box _ _ _ _ |- _ => apply box_any in H
      | H : mk_ray _ _ _ _ |- _ => apply ray_any_eq in H
      end; subst;
      repeat match goal with
      | K' : fin3 ?v', K : fin3 ?v, H : shifted sh ?v' ?v |- _ => assert (M v' v) by (exact (conj K' (conj K H))); clear H
      | K' : all3 (fixed a b) ?v', K : all3 (fixed a b) ?v, H : shifted sh ?v' ?v |- _ => assert (M v' v) by (exact (conj (proj1 (grid3 v' K')) (conj (proj1 (grid3 v K)) H))); clear H
      end;
      (apply sv_if; [apply overlap_S; first [apply Sb_point; assumption | apply Sb_cube; assumption | apply Sb_ray; assumption]
        | cbn [core pt_ori] | apply sv_miss]);
      first [reflexivity | apply sv_ray_ray; assumption | apply sv_ray_point; assumption | apply sv_ray_sphere; assumption | apply sv_sphere_sphere; assumption
        | apply sv_sphere_point; assumption | apply sv_point_point; try assumption; apply fixed_abs; assumption | apply sv_id; assumption | idtac].
  Qed.
End Shift.
