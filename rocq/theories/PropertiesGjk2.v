(** PropertiesGjk2.v — the GJK query against the sphere-sphere query (C88), and the GJK query on spheres in IEEE arithmetic
    (C89, C90), and nothing else.  u = 2^-prec. *)
From Coq Require Import Reals List ZArith NArith Bool Lra Lia.
From Flocq Require Import Core BinarySingleNaN.
Import ListNotations.
From Verif Require Import Base Num Vec Mat Bound Shape Gjk Intersect Float Exact SpecMat SpecGeom SpecBound SpecShape SpecBuild SpecGjk SpecRound SpecTrace
  FloatFacts ExactFacts PShape PBuild PGeo1 PGeo2 PSup2 PIeee2 PIeee5 PIeee7 PropertiesGeo PropertiesGjk.
Local Open Scope R_scope.

(** ---- C88: the two queries agree ---- *)
Section Agree.
Variable eps : R.
Variable zs : XR -> bool.
Notation E := (Exact eps zs).
Notation ev := (ev eps zs).
(** full statement: when the GJK query answers on two spheres, the answer is that of [get_intersect].  False in exact
    arithmetic for centres that differ in x only, and for balls that touch *)
Theorem C88_refuted : exists a b p, is_sphere eps zs (V 10 0 0) 1 0 a /\ is_sphere eps zs (V 0 0 0) 1 0 b /\
  query_intersect 1 a b = Done (Ok (Some true)) /\ shape_get_intersect a b = Ok (false, None) /\
  exists c d, is_sphere eps zs (V (1 / 2) (sqrt 3 / 2) 0) (1 / 2) 0 c /\ is_sphere eps zs (V 0 0 0) (1 / 2) 0 d /\
  (exists n, query_intersect n c d = Done (Ok (Some false))) /\ shape_get_intersect c d = Ok (true, Some (ev p)).
Proof.
  destruct (C68_case eps zs) as [a [b [Ha [Hb Q]]]]. destruct (C76_case eps zs) as [c [d [Hc [Hd [M N]]]]].
  apply C52_meets in M; [| lra | lra].
  assert (H0 : 0 <= 1 / 2) by lra. assert (H1 : 1 / 2 + 1 / 2 <> 0) by lra. assert (H2 : 1 + 1 <> 0) by lra.
  destruct (C52_sphere_sphere eps zs _ _ _ _ _ _ _ _ H0 H0 H1 Hc Hd) as [K _].
  destruct K as [p [K _]]; [rewrite dist_sym; exact M |].
  exists a, b, p. split; [exact Ha |]. split; [exact Hb |]. split; [exact Q |]. split.
  - apply (C52_sphere_sphere eps zs _ _ _ _ _ _ _ _ Rle_0_1 Rle_0_1 H2 Ha Hb). unfold dist. rewrite (norm_val _ 10); unfold vdot, vsub; simpl; lra.
  - exists c, d. split; [exact Hc |]. split; [exact Hd |]. split; [exact N | exact K].
Qed.
(** proved: agreement for balls that do not touch and whose centres differ in y or z.  Missing: the two cases above *)
Theorem C88_partial ca ra ea cb rb eb a b : 0 <= ra -> 0 <= rb -> is_sphere eps zs ca ra ea a -> is_sphere eps zs cb rb eb b ->
  0 < ra + rb -> vy ca <> vy cb \/ vz ca <> vz cb -> dist ca cb <> ra + rb ->
  exists n r o, shape_get_intersect a b = Ok (r, o) /\ forall fuel, (n <= fuel)%nat -> query_intersect fuel a b = Done (Ok (Some r)).
Proof.
  intros Hra Hrb Ha Hb HK Hoff Hne. destruct (C67_partial eps zs _ _ _ _ _ _ _ _ Hra Hrb Ha Hb HK Hoff Hne) as [n [N1 N2]]. exists n.
  destruct (C52_sphere_sphere eps zs _ _ _ _ _ _ _ _ Hra Hrb (Rgt_not_eq _ _ HK) Ha Hb) as [K1 [K2 _]].
  destruct (Rle_dec (dist ca cb) (ra + rb)) as [L | L].
  - destruct (K1 L) as [p [Ep _]]. exists true, (Some (ev p)). split; [exact Ep |]. intros fuel Hf. apply N1; [| exact Hf]. apply C52_meets; [exact Hra | exact Hrb | rewrite dist_sym; exact L].
  - exists false, None. split; [apply K2; lra |]. intros fuel Hf. apply N2; [| exact Hf]. intro C. apply C52_meets in C; [| exact Hra | exact Hrb]. rewrite dist_sym in C. contradiction.
Qed.
Example C88_case : exists a b n o, is_sphere eps zs (V 0 1 0) 1 0 a /\ is_sphere eps zs (V 0 0 0) 1 0 b /\
  shape_get_intersect a b = Ok (true, o) /\ query_intersect n a b = Done (Ok (Some true)).
Proof.
  exists (SSphere (esphere eps zs (V 0 1 0) 1 0)), (SSphere (esphere eps zs (V 0 0 0) 1 0)).
  assert (Ha : is_sphere eps zs (V 0 1 0) 1 0 (SSphere (esphere eps zs (V 0 1 0) 1 0))) by (apply is_sphere_inv; reflexivity).
  assert (Hb : is_sphere eps zs (V 0 0 0) 1 0 (SSphere (esphere eps zs (V 0 0 0) 1 0))) by (apply is_sphere_inv; reflexivity).
  assert (D : dist (V 0 1 0) (V 0 0 0) = 1) by (unfold dist; apply norm_val; unfold vdot, vsub; simpl; lra).
  assert (HK : 0 < 1 + 1) by lra. assert (Ho : vy (V 0 1 0) <> vy (V 0 0 0) \/ vz (V 0 1 0) <> vz (V 0 0 0)) by (left; simpl; lra). assert (Hn : dist (V 0 1 0) (V 0 0 0) <> 1 + 1) by lra.
  destruct (C88_partial _ _ _ _ _ _ _ _ Rle_0_1 Rle_0_1 Ha Hb HK Ho Hn) as [n [r [o [G Q]]]].
  destruct (C52_sphere_sphere eps zs _ _ _ _ _ _ _ _ Rle_0_1 Rle_0_1 (Rgt_not_eq _ _ HK) Ha Hb) as [K1 _]. destruct (K1 ltac:(lra)) as [p [Ep _]].
  assert (r = true) as -> by (rewrite G in Ep; injection Ep; auto).
  exists n, o. split; [exact Ha |]. split; [exact Hb |]. split; [exact G |]. apply Q. lia.
Qed.
End Agree.
Print Assumptions C88_refuted.
Print Assumptions C88_partial.

Section Witness.
  Variable lm : libm f64.
  Notation F := (F64 lm).
  Notation val := (@B2R 53 1024).
  Lemma lit_val2 (m : Z) (q : positive) (g : bool) mm ex (H : SpecFloat.bounded 53 1024 mm ex = true) : B2SF (@f_lit 53 1024 f64_prec_gt_0 f64_prec_lt_emax m q) = SpecFloat.S754_finite g mm ex ->
    val (nlit F m q : f64) = F2R (Float radix2 (cond_Zopp g (Z.pos mm)) ex).
  Proof. intro X. change (nlit F m q) with (@f_lit 53 1024 f64_prec_gt_0 f64_prec_lt_emax m q). replace (f_lit 53 1024 m q) with (@B754_finite 53 1024 g mm ex H); [reflexivity |]. apply B2SF_inj. rewrite X. reflexivity. Qed.
  Definition wa : mat3x1 F := M3x1 (A3 n0 n0 n0).
  Definition wb : mat3x1 F := M3x1 (A3 (nlit F (-4) 1) (nlit F 9 1) (nlit F (-6) 1)).
  Definition wr : F := nlit F 7 1.
  Definition ws : F := nlit F 4641 1024.
  Definition w_a (e : F) : shape F := SSphere (MkSphere wa wr (cube_any wa wr) (nabs F e)).
  Definition w_b (e : F) : shape F := SSphere (MkSphere wb ws (cube_any wb ws) (nabs F e)).
  (** in f64 the queries disagree at ordinary scale and off the axis as well: balls of radius 7 and about 4.53 with a gap
      of more than 3/10000 between them; GJK says they intersect, [get_intersect] that they do not *)
  Theorem C88_refuted_f64 e f : mk_sphere wa wr e (w_a e) /\ mk_sphere wb ws f (w_b f) /\
    v3 (wa : mat3x1 f64) = V 0 0 0 /\ v3 (wb : mat3x1 f64) = V (-4) 9 (-6) /\ val wr = 7 /\ val ws = 4641 / 1024 /\
    val wr + val ws + 3 / 10000 < dist (v3 (wa : mat3x1 f64)) (v3 (wb : mat3x1 f64)) /\
    query_intersect 10 (w_a e) (w_b f) = Done (Ok (Some true)) /\ shape_get_intersect (w_a e) (w_b f) = Ok (false, None).
  Proof.
    split; [apply sphere_any; reflexivity |]. split; [apply sphere_any; reflexivity |].
    assert (Z0 : val (@n0 F : f64) = 0) by exact (proj2 (fv_lit_0 53 1024)).
    assert (E1 : v3 (wa : mat3x1 f64) = V 0 0 0) by (unfold v3, wa; rewrite Z0; reflexivity).
    assert (E2 : v3 (wb : mat3x1 f64) = V (-4) 9 (-6)).
    { unfold v3, wb. rewrite (lit_val2 (-4) 1 true 4503599627370496 (-50) eq_refl), (lit_val2 9 1 false 5066549580791808 (-49) eq_refl), (lit_val2 (-6) 1 true 6755399441055744 (-50) eq_refl) by (vm_compute; reflexivity).
      apply V3_eq; unfold F2R; simpl; lra. }
    assert (E3 : val wr = 7) by (unfold wr; rewrite (lit_val2 7 1 false 7881299347898368 (-50) eq_refl) by (vm_compute; reflexivity); unfold F2R; simpl; lra).
    assert (E4 : val ws = 4641 / 1024) by (unfold ws; rewrite (lit_val2 4641 1024 false 5102833464508416 (-50) eq_refl) by (vm_compute; reflexivity); unfold F2R; simpl; lra).
    split; [exact E1 |]. split; [exact E2 |]. split; [exact E3 |]. split; [exact E4 |].
    split; [| split; vm_compute; reflexivity].
    rewrite E1, E2, E3, E4. apply Rnot_le_lt. intro L. unfold dist in L. set (v := vsub (V 0 0 0) (V (-4) 9 (-6))) in *.
    pose proof (norm_pos v) as P. pose proof (norm_sq v) as Q. replace (vdot v v) with 133 in Q by (unfold v, vdot, vsub; simpl; ring). nra.
  Qed.
End Witness.
Print Assumptions C88_refuted_f64.

(** ---- C89: the answer "false" in IEEE arithmetic ---- *)
Section GjkIeee.
Context (prec emax : Z) {Hp : Prec_gt_0 prec} {Hm : Prec_lt_emax prec emax} (lm : libm (binary_float prec emax)).
Notation bf := (binary_float prec emax).
Notation F := (@Ieee prec emax Hp Hm lm).
Notation val := (@B2R prec emax).
Notation rnd := (round radix2 (SpecFloat.fexp prec emax) ZnearestE).
(** a radius of moderate size *)
Definition mod1 (r : bf) : Prop := is_finite r = true /\ Rabs (val r) <= bpow radix2 (emax / 2 - 3).

(** full statement: if the query answers false on spheres of moderate size, the distance of the centres is at least
    ra + rb - margin.  False when the triple products overflow (C89_refuted_f64).
    Proved: it holds if the search direction in which the query gives up does not over- or underflow when squared; the
    first direction (1,0,0) never does *)
Theorem C89_partial (ca cb : mat3x1 F) (ra rb e f : F) (a b : shape F) fuel : (9 < prec)%Z ->
  moderate (ca : mat3x1 bf) -> moderate (cb : mat3x1 bf) -> mod1 ra -> mod1 rb -> mk_sphere ca ra e a -> mk_sphere cb rb f b ->
  query_intersect fuel a b = Done (Ok (Some false)) ->
  exists s d, visits a b s d /\ gjk_iter a b s d = Ok (inl (Some false)) /\
    (good_normal (d : mat3x1 bf) -> val ra + val rb - gjk_margin prec emax (v3 ca) (v3 cb) (val ra) (val rb) <= dist (v3 ca) (v3 cb)).
Proof.
  intros P Ma Mb Ra Rb Ka Kb Q. apply sphere_any in Ka, Kb. subst. destruct (query_visits _ _ _ _ Q) as [s [d [V I]]]. exists s, d.
  split; [exact V |]. split; [exact I |]. intro G. exact (iter_false_ieee prec emax lm ca cb ra rb _ _ _ _ s d P G Ma Mb Ra Rb I).
Qed.
(** the query panics only after such a direction *)
Theorem C89_no_panic (ca cb : mat3x1 F) (ra rb e f : F) (a b : shape F) fuel k : (9 < prec)%Z ->
  moderate (ca : mat3x1 bf) -> moderate (cb : mat3x1 bf) -> mod1 ra -> mod1 rb -> mk_sphere ca ra e a -> mk_sphere cb rb f b ->
  query_intersect fuel a b = Done (Panic k) -> exists s d, visits a b s d /\ ~ good_normal (d : mat3x1 bf).
Proof.
  intros P Ma Mb Ra Rb Ka Kb. apply sphere_any in Ka, Kb. subst. exact (no_panic_ieee prec emax lm ca cb ra rb _ _ _ _ fuel k P Ma Mb Ra Rb).
Qed.
(** so balls that overlap by more than the margin are never reported as separate, however long the loop runs, if the
    directions it goes through are of reasonable size *)
Theorem C89_overlap (ca cb : mat3x1 F) (ra rb e f : F) (a b : shape F) fuel : (9 < prec)%Z ->
  moderate (ca : mat3x1 bf) -> moderate (cb : mat3x1 bf) -> mod1 ra -> mod1 rb -> mk_sphere ca ra e a -> mk_sphere cb rb f b ->
  (forall s d, visits a b s d -> good_normal (d : mat3x1 bf)) ->
  dist (v3 ca) (v3 cb) < val ra + val rb - gjk_margin prec emax (v3 ca) (v3 cb) (val ra) (val rb) ->
  query_intersect fuel a b = OutOfFuel \/ query_intersect fuel a b = Done (Ok (Some true)).
Proof.
  intros P Ma Mb Ra Rb Ka Kb Gd D. assert (T : query_intersect fuel a b = OutOfFuel \/ query_intersect fuel a b = Done (Panic PUnwrap) \/ exists r, query_intersect fuel a b = Done (Ok (Some r))).
  { apply sphere_any in Ka, Kb. subst. apply query_any. }
  destruct T as [T | [T | [[|] T]]]; [left; exact T | | right; exact T |].
  - exfalso. destruct (C89_no_panic ca cb ra rb e f a b fuel _ P Ma Mb Ra Rb Ka Kb T) as [s [d [V H]]]. exact (H (Gd s d V)).
  - exfalso. destruct (C89_partial ca cb ra rb e f a b fuel P Ma Mb Ra Rb Ka Kb T) as [s [d [V [_ H]]]]. specialize (H (Gd s d V)). lra.
Qed.

(** ---- C90: tiny spheres ---- *)
(** when all coordinates and radii are at most 2^-53 in f32, 2^-362 in f64, the query ends in its first iteration without
    a panic, and answers whether the first ball reaches further than the left end of the second in the x direction *)
Theorem C90_tiny (ca cb : mat3x1 F) (ra rb e f : F) (a b : shape F) fuel : (9 < prec)%Z ->
  tiny3 (ca : mat3x1 bf) -> tiny3 (cb : mat3x1 bf) -> tiny (ra : bf) -> tiny (rb : bf) -> mk_sphere ca ra e a -> mk_sphere cb rb f b -> (1 <= fuel)%nat ->
  (rnd (vx (v3 cb) - val rb) < rnd (vx (v3 ca) + val ra) -> query_intersect fuel a b = Done (Ok (Some true))) /\
  (rnd (vx (v3 ca) + val ra) <= rnd (vx (v3 cb) - val rb) -> query_intersect fuel a b = Done (Ok (Some false))).
Proof.
  intros P Ta Tb Ra Rb Ka Kb Hf. apply sphere_any in Ka, Kb. subst. destruct fuel as [| fuel]; [lia |].
  rewrite (query_tiny prec emax lm ca cb ra rb _ _ _ _ fuel P Ta Tb Ra Rb). split; intro H; destruct (Rlt_dec _ _); try reflexivity; lra.
Qed.
(** so tiny balls with centres in the plane x = 0 always intersect, whatever the distance of the centres *)
Theorem C90_plane (ca cb : mat3x1 F) (ra rb e f : F) (a b : shape F) fuel : (9 < prec)%Z ->
  tiny3 (ca : mat3x1 bf) -> tiny3 (cb : mat3x1 bf) -> tiny (ra : bf) -> tiny (rb : bf) -> mk_sphere ca ra e a -> mk_sphere cb rb f b -> (1 <= fuel)%nat ->
  vx (v3 ca) = 0 -> vx (v3 cb) = 0 -> 0 < val ra + val rb -> query_intersect fuel a b = Done (Ok (Some true)).
Proof.
  intros P Ta Tb Ra Rb Ka Kb Hf Xa Xb K. apply (C90_tiny ca cb ra rb e f a b fuel P Ta Tb Ra Rb Ka Kb Hf). rewrite Xa, Xb, Rplus_0_l, Rminus_0_l.
  rewrite <- B2R_Bopp, !rnd_B2R, B2R_Bopp. lra.
Qed.
End GjkIeee.

Print Assumptions C89_partial.
Print Assumptions C89_no_panic.
Print Assumptions C89_overlap.
Print Assumptions C90_tiny.
Print Assumptions C90_plane.

Section Cases.
  Variable lm : libm f64.
  Notation F := (F64 lm).
  Notation val := (@B2R 53 1024).
  Notation G := (@Ieee 53 1024 f64_prec_gt_0 f64_prec_lt_emax lm).
  (** balls of radius 2^350 with centres 2^349 apart are reported as separate *)
  Definition hb : mat3x1 F := M3x1 (A3 n0 (nlit F (2 ^ 349) 1) n0).
  Definition hr : F := nlit F (2 ^ 350) 1.
  Definition h_a (e : F) : shape F := SSphere (MkSphere (wa lm) hr (cube_any (wa lm) hr) (nabs F e)).
  Definition h_b (e : F) : shape F := SSphere (MkSphere hb hr (cube_any hb hr) (nabs F e)).
  Lemma v_wa : v3 (wa lm : mat3x1 f64) = V 0 0 0. Proof. unfold v3, wa. rewrite (proj2 (fv_lit_0 53 1024) : val (@n0 F : f64) = 0). reflexivity. Qed.
  Lemma v_p k m ex (H : SpecFloat.bounded 53 1024 m ex = true) : B2SF (@f_lit 53 1024 f64_prec_gt_0 f64_prec_lt_emax k 1) = SpecFloat.S754_finite false m ex ->
    forall j, (Z.pos m = 2 ^ (j - ex))%Z -> (ex <= j)%Z -> val (nlit F k 1 : f64) = bpow radix2 j.
  Proof.
    intros X j Hj Le. rewrite (lit_val2 lm k 1 false m ex H X). unfold F2R. cbn [Fnum Fexp cond_Zopp]. rewrite Hj. replace (IZR (2 ^ (j - ex))) with (bpow radix2 (j - ex)).
    - rewrite <- bpow_plus. f_equal. lia.
    - rewrite <- IZR_Zpower by lia. reflexivity.
  Qed.
  Lemma v_hr : val hr = bpow radix2 350.
  Proof. unfold hr. apply (v_p _ 4503599627370496 298 eq_refl); [vm_compute; reflexivity | vm_compute; reflexivity | lia]. Qed.
  Lemma v_h : val (nlit F (2 ^ 349) 1 : f64) = bpow radix2 349.
  Proof. apply (v_p _ 4503599627370496 297 eq_refl); [vm_compute; reflexivity | vm_compute; reflexivity | lia]. Qed.
  Lemma v_hb : v3 (hb : mat3x1 f64) = V 0 (bpow radix2 349) 0.
  Proof. unfold v3, hb. rewrite v_h, (proj2 (fv_lit_0 53 1024) : val (@n0 F : f64) = 0). reflexivity. Qed.
  Lemma nvy y : norm (V 0 y 0) = Rabs y. Proof. unfold norm, vdot. cbn [vx vy vz]. replace (0 * 0 + y * y + 0 * 0) with (Rsqr y) by (unfold Rsqr; ring). apply sqrt_Rsqr_abs. Qed.
  Theorem C89_refuted_f64 e f : moderate (wa lm : mat3x1 f64) /\ moderate (hb : mat3x1 f64) /\ mod1 53 1024 hr /\ mk_sphere (wa lm) hr e (h_a e) /\ mk_sphere hb hr f (h_b f) /\
    dist (v3 (wa lm : mat3x1 f64)) (v3 (hb : mat3x1 f64)) < val hr + val hr - gjk_margin 53 1024 (v3 (wa lm : mat3x1 f64)) (v3 (hb : mat3x1 f64)) (val hr) (val hr) /\
    query_intersect 10 (h_a e) (h_b f) = Done (Ok (Some false)).
  Proof.
    assert (L : bpow radix2 350 <= bpow radix2 (1024 / 2 - 3)) by (apply bpow_le; vm_compute; discriminate).
    assert (L1 : 0 < bpow radix2 349) by apply bpow_gt_0. assert (E2 : bpow radix2 350 = 2 * bpow radix2 349) by (replace 350%Z with (1 + 349)%Z by lia; rewrite bpow_plus; reflexivity).
    assert (Z0 : val (@n0 F : f64) = 0) by exact (proj2 (fv_lit_0 53 1024)).
    split; [split; [repeat split | unfold wa; rewrite Z0, Rabs_R0; repeat split; lra] |].
    split; [split; [repeat split; vm_compute; reflexivity |] |].
    { unfold hb. rewrite Z0, v_h, Rabs_R0, Rabs_pos_eq by lra. repeat split; lra. }
    split; [split; [vm_compute; reflexivity | rewrite v_hr, Rabs_pos_eq; lra] |].
    split; [apply sphere_any; reflexivity |]. split; [apply sphere_any; reflexivity |]. split; [| vm_compute; reflexivity].
    rewrite v_hr, v_hb, v_wa. unfold gjk_margin, dist. replace (vsub (V 0 0 0) (V 0 (bpow radix2 349) 0)) with (V 0 (- bpow radix2 349) 0) by (apply V3_eq; unfold vsub; cbn [vx vy vz]; ring).
    rewrite !nvy, Rabs_Ropp, Rabs_R0, !Rabs_pos_eq by lra. rewrite E2.
    assert (U : 0 < uro 53 <= / 1048576) by (split; [apply bpow_gt_0 | change (/ 1048576) with (bpow radix2 (-20)); apply bpow_le; lia]).
    assert (T : 0 < bpow radix2 (3 - 1024 / 2) <= bpow radix2 349) by (split; [apply bpow_gt_0 | apply bpow_le; vm_compute; discriminate]).
    set (x := bpow radix2 349) in *. set (y := bpow radix2 (3 - 1024 / 2)) in *. assert (uro 53 * x <= / 1048576 * x) by (apply Rmult_le_compat_r; lra).
    assert (uro 53 * y <= / 1048576 * x) by (apply Rmult_le_compat; lra). lra.
  Qed.

  (** the hypotheses of C89_overlap can be met: unit balls with centres 1 apart along y; the loop visits two directions *)
  Definition o_a (e : F) : shape F := SSphere (MkSphere (wa lm) n1 (cube_any (wa lm) n1) (nabs F e)).
  Definition ob : mat3x1 F := M3x1 (A3 n0 n1 n0).
  Definition o_b (e : F) : shape F := SSphere (MkSphere ob n1 (cube_any ob n1) (nabs F e)).
  Definition o_st (e f : F) : list (mat3x1 F) * mat3x1 F := match gjk_start (o_a e) (o_b f) with Ok p => p | _ => ([], wa lm) end.
  Definition o_next (e f : F) (p : list (mat3x1 F) * mat3x1 F) : list (mat3x1 F) * mat3x1 F :=
    match gjk_iter (o_a e) (o_b f) (fst p) (snd p) with Ok (inr q) => q | _ => p end.
  Definition o_go (e f : F) (p : list (mat3x1 F) * mat3x1 F) : nat :=
    match gjk_iter (o_a e) (o_b f) (fst p) (snd p) with Ok (inr q) => 0 | Ok (inl (Some true)) => 1 | Ok (inl _) => 2 | Panic _ => 3 end.
  Definition m3_x (p : mat3x1 F) : f64 := match p with M3x1 (A3 a b c) => a end.
  Definition m3_y (p : mat3x1 F) : f64 := match p with M3x1 (A3 a b c) => b end.
  Definition m3_z (p : mat3x1 F) : f64 := match p with M3x1 (A3 a b c) => c end.
  Lemma sf_fin (x : f64) g m ex : B2SF x = SpecFloat.S754_finite g m ex -> is_finite x = true /\ val x = F2R (Float radix2 (cond_Zopp g (Z.pos m)) ex).
  Proof. destruct x as [? | ? | | ? ? ? ?]; simpl; intro X; try discriminate X. injection X as -> -> ->. split; reflexivity. Qed.
  Lemma sf_zero (x : f64) g : B2SF x = SpecFloat.S754_zero g -> is_finite x = true /\ val x = 0.
  Proof. destruct x as [? | ? | | ? ? ? ?]; simpl; intro X; try discriminate X. split; reflexivity. Qed.
  Lemma good_dir (p : mat3x1 F) x y : is_finite (m3_x p) = true /\ val (m3_x p) = x -> is_finite (m3_y p) = true /\ val (m3_y p) = y -> is_finite (m3_z p) = true /\ val (m3_z p) = 0 ->
    1 <= x <= 8 -> 0 <= y <= 8 -> good_normal (p : mat3x1 f64).
  Proof.
    destruct p as [[a b c]]. cbn [m3_x m3_y m3_z]. intros [Fa Va] [Fb Vb] [Fc Vc] Hx Hy.
    assert (L : bpow radix2 3 <= bpow radix2 (1024 / 2 - 3)) by (apply bpow_le; vm_compute; discriminate). change (bpow radix2 3) with 8 in L.
    split; [split; [repeat split; assumption |] |].
    - rewrite Va, Vb, Vc, Rabs_R0, !Rabs_pos_eq by lra. repeat split; lra.
    - unfold vdot, v3. cbn [vx vy vz]. rewrite Va, Vb, Vc. assert (bpow radix2 (6 - 1024) <= 1) by (change 1 with (bpow radix2 0); apply bpow_le; lia). nra.
  Qed.
  Lemma o_visits e f s d : visits (o_a e) (o_b f) s d -> (s, d) = o_st e f \/ (s, d) = o_next e f (o_st e f).
  Proof.
    induction 1 as [s d H | s d s' d' V IH I].
    - left. unfold o_st. rewrite H. reflexivity.
    - destruct IH as [<- | E].
      + right. unfold o_next. cbn [fst snd]. rewrite I. reflexivity.
      + exfalso. assert (T : o_go e f (o_next e f (o_st e f)) = 1%nat) by (vm_compute; reflexivity). rewrite <- E in T. unfold o_go in T. cbn [fst snd] in T. rewrite I in T. discriminate T.
  Qed.
  Example C89_case e f : (forall s d, visits (o_a e) (o_b f) s d -> good_normal (d : mat3x1 f64)) /\ mk_sphere (wa lm) n1 e (o_a e) /\ mk_sphere ob n1 f (o_b f) /\
    moderate (wa lm : mat3x1 f64) /\ moderate (ob : mat3x1 f64) /\ mod1 53 1024 (@n1 F) /\
    dist (v3 (wa lm : mat3x1 f64)) (v3 (ob : mat3x1 f64)) < val (@n1 F) + val (@n1 F) - gjk_margin 53 1024 (v3 (wa lm : mat3x1 f64)) (v3 (ob : mat3x1 f64)) (val (@n1 F)) (val (@n1 F)) /\
    query_intersect 2 (o_a e) (o_b f) = Done (Ok (Some true)).
  Proof.
    assert (Z0 : val (@n0 F : f64) = 0) by exact (proj2 (fv_lit_0 53 1024)). assert (Z1 : val (@n1 F : f64) = 1) by exact (proj2 (fv_lit_1 53 1024)).
    assert (L : bpow radix2 3 <= bpow radix2 (1024 / 2 - 3)) by (apply bpow_le; vm_compute; discriminate). change (bpow radix2 3) with 8 in L.
    split; [| split; [apply sphere_any; reflexivity | split; [apply sphere_any; reflexivity |]]].
    - intros s d V. apply o_visits in V. destruct V as [E | E]; apply (f_equal snd) in E; cbn [snd] in E; rewrite E; clear E.
      + apply (good_dir _ 1 0); [| | | lra | lra].
        * destruct (sf_fin (m3_x (snd (o_st e f))) false 4503599627370496 (-52)) as [A B]; [vm_compute; reflexivity |]. split; [exact A |]. rewrite B. unfold F2R. simpl. lra.
        * apply (sf_zero _ true). vm_compute. reflexivity.
        * apply (sf_zero _ true). vm_compute. reflexivity.
      + apply (good_dir _ 4 8); [| | | lra | lra].
        * destruct (sf_fin (m3_x (snd (o_next e f (o_st e f)))) false 4503599627370496 (-50)) as [A B]; [vm_compute; reflexivity |]. split; [exact A |]. rewrite B. unfold F2R. simpl. lra.
        * destruct (sf_fin (m3_y (snd (o_next e f (o_st e f)))) false 4503599627370496 (-49)) as [A B]; [vm_compute; reflexivity |]. split; [exact A |]. rewrite B. unfold F2R. simpl. lra.
        * apply (sf_zero _ true). vm_compute. reflexivity.
    - split; [split; [repeat split | unfold wa; rewrite Z0, Rabs_R0; repeat split; lra] |].
      split; [split; [repeat split | unfold ob; rewrite Z0, Z1, Rabs_R0, Rabs_R1; repeat split; lra] |].
      split; [split; [reflexivity | rewrite Z1, Rabs_R1; lra] |]. split; [| vm_compute; reflexivity].
      assert (vo : v3 (ob : mat3x1 f64) = V 0 1 0) by (unfold v3, ob; rewrite Z0, Z1; reflexivity). rewrite vo, v_wa, Z1. unfold gjk_margin, dist.
      replace (vsub (V 0 0 0) (V 0 1 0)) with (V 0 (- (1)) 0) by (apply V3_eq; unfold vsub; cbn [vx vy vz]; ring).
      rewrite !nvy, Rabs_Ropp, Rabs_R0, Rabs_R1.
      assert (U : 0 < uro 53 <= / 1048576) by (split; [apply bpow_gt_0 | change (/ 1048576) with (bpow radix2 (-20)); apply bpow_le; lia]).
      assert (T : 0 < bpow radix2 (3 - 1024 / 2) <= 1) by (split; [apply bpow_gt_0 | change 1 with (bpow radix2 0); apply bpow_le; vm_compute; discriminate]).
      nra.
  Qed.
  (** C90: balls of radius 2^-400 with centres 2^-370 apart along y *)
  Definition ta : mat3x1 F := M3x1 (A3 n0 (nlit F 1 (2 ^ 370)) n0).
  Definition tr : F := nlit F 1 (2 ^ 400).
  Lemma v_t : is_finite (nlit F 1 (2 ^ 370) : f64) = true /\ val (nlit F 1 (2 ^ 370) : f64) = bpow radix2 (-370).
  Proof.
    destruct (sf_fin (nlit F 1 (2 ^ 370)) false 4503599627370496 (-422)) as [A B]; [vm_compute; reflexivity |]. split; [exact A |]. rewrite B. unfold F2R. cbn [Fnum Fexp cond_Zopp].
    change (IZR 4503599627370496) with (IZR (2 ^ 52)). change (IZR (2 ^ 52)) with (IZR (Zpower radix2 52)). rewrite IZR_Zpower by lia. rewrite <- bpow_plus. f_equal.
  Qed.
  Lemma v_tr : is_finite (tr : f64) = true /\ val tr = bpow radix2 (-400).
  Proof.
    destruct (sf_fin tr false 4503599627370496 (-452)) as [A B]; [vm_compute; reflexivity |]. split; [exact A |]. rewrite B. unfold F2R. cbn [Fnum Fexp cond_Zopp].
    change (IZR 4503599627370496) with (IZR (2 ^ 52)). change (IZR (2 ^ 52)) with (IZR (Zpower radix2 52)). rewrite IZR_Zpower by lia. rewrite <- bpow_plus. f_equal.
  Qed.
  Example C90_case : tiny3 (ta : mat3x1 f64) /\ tiny3 (wa lm : mat3x1 f64) /\ tiny (tr : f64) /\ vx (v3 (ta : mat3x1 f64)) = 0 /\ 0 < val tr + val tr /\
    1000000000 * (val tr + val tr) / 2 < dist (v3 (ta : mat3x1 f64)) (v3 (wa lm : mat3x1 f64)).
  Proof.
    assert (Z0 : val (@n0 F : f64) = 0) by exact (proj2 (fv_lit_0 53 1024)). destruct v_t as [Ft Vt], v_tr as [Fr Vr].
    assert (K : tiny_exp 53 1024 = (-362)%Z) by reflexivity.
    assert (L1 : bpow radix2 (-370) <= bpow radix2 (-362)) by (apply bpow_le; lia). assert (L2 : bpow radix2 (-400) <= bpow radix2 (-362)) by (apply bpow_le; lia).
    pose proof (bpow_gt_0 radix2 (-362)). pose proof (bpow_gt_0 radix2 (-370)). pose proof (bpow_gt_0 radix2 (-400)).
    assert (T0 : tiny (@n0 F : f64)) by (split; [reflexivity | rewrite Z0, Rabs_R0, K; lra]).
    split; [split; [exact T0 | split; [split; [exact Ft | rewrite Vt, Rabs_pos_eq, K by lra; exact L1] | exact T0]] |].
    split; [split; [exact T0 | split; exact T0] |]. split; [split; [exact Fr | rewrite Vr, Rabs_pos_eq, K by lra; exact L2] |].
    assert (vt : v3 (ta : mat3x1 f64) = V 0 (bpow radix2 (-370)) 0) by (unfold v3, ta; rewrite Z0, Vt; reflexivity).
    rewrite vt, v_wa, Vr. split; [reflexivity |]. split; [lra |]. unfold dist. replace (vsub (V 0 (bpow radix2 (-370)) 0) (V 0 0 0)) with (V 0 (bpow radix2 (-370)) 0) by (apply V3_eq; unfold vsub; cbn [vx vy vz]; ring).
    rewrite nvy, Rabs_pos_eq by lra. replace (-370)%Z with (30 + -400)%Z by lia. rewrite bpow_plus. change (bpow radix2 30) with 1073741824. lra.
  Qed.
End Cases.
Print Assumptions C89_refuted_f64.
