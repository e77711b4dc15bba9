(** PropertiesPrismL.v — C100: prism against segment in IEEE arithmetic. *)
From Coq Require Import Reals List ZArith Bool Lra Lia.
From Flocq Require Import Core BinarySingleNaN.
Import ListNotations.
From Verif Require Import Base Num Vec Mat Bound Shape Intersect Float Exact FloatFacts ExactFacts SpecGeom SpecShape SpecRound SpecBuild SpecPrismF PBuild PGeo3 PIeee3 PPrismF PPrismL.
Local Open Scope R_scope.

(** The full statement would be: with the tolerance of C99, a segment through a point deep inside the prism is reported as
    a hit, and a segment staying far from the prism is reported as a miss.  Both halves are false of the code
    ([C100_refuted_*] below).  What does hold, in every format of more than 9 bits: *)
Section C100.
  Context (prec emax : Z) {Hp : Prec_gt_0 prec} {Hm : Prec_lt_emax prec emax} (lm : libm (binary_float prec emax)).
  Notation bf := (binary_float prec emax).
  Notation F := (@Ieee prec emax Hp Hm lm).
  Notation w3 v := (v3 (v : mat3x1 bf)).
  Variables (a b c : mat3x1 F) (h : F) (K : R).
  Notation S := (s_prism (w3 a) (w3 b) (w3 c) (B2R (h : bf))).
  Notation tol := (prism_tol prec K (w3 a) (w3 b) (w3 c)).
  Hypotheses (HP : (9 < prec)%Z) (K1 : 1 <= K) (KB : K * K <= bpow radix2 (emax / 2 - 7))
    (Fa : fin3 (a : mat3x1 bf)) (Fb : fin3 (b : mat3x1 bf)) (Fc : fin3 (c : mat3x1 bf)) (Fh : is_finite (h : bf) = true)
    (Ua : upto K (w3 a)) (Ub : upto K (w3 b)) (Uc : upto K (w3 c)) (H0 : bpow radix2 (11 - emax) <= B2R (h : bf)) (HK : B2R (h : bf) <= K)
    (ok : tri_ok (w3 a) (w3 b) (w3 c)) (TK : tol <= K).
  Variables (p q : mat3x1 F) (e f : F) (s l : shape F).
  Hypotheses (Ms : mk_prism a b c h e s) (Ml : mk_line p q f l) (Fp : fin3 (p : mat3x1 bf)) (Fq : fin3 (q : mat3x1 bf)).
  (** A hit at a finite point lies within the tolerance of the prism and within 70 u K of the segment. *)
  Theorem C100_sound : forall x, upto (K / 2) (w3 p) -> upto (K / 2) (w3 q) -> bpow radix2 (8 - emax) <= dist (w3 q) (w3 p) * dist (w3 q) (w3 p) ->
    shape_get_intersect s l = Ok (true, Some x) \/ shape_get_intersect l s = Ok (true, Some x) -> fin3 (x : mat3x1 bf) ->
    (exists y, S y /\ dist y (w3 x) <= tol) /\ exists z, s_segment (w3 p) (w3 q) z /\ dist z (w3 x) <= 70 * uro prec * K.
  Proof. exact (fun x => line_sound prec emax lm a b c h K HP K1 KB Fa Fb Fc Fh Ua Ub Uc H0 HK ok TK p q e f s l Ms Ml Fp Fq x). Qed.
  (** Missing for a full "far means miss": the query may report a hit at a point with infinite or NaN coordinates. *)
  Theorem C100_far_partial : upto (K / 2) (w3 p) -> upto (K / 2) (w3 q) -> bpow radix2 (8 - emax) <= dist (w3 q) (w3 p) * dist (w3 q) (w3 p) ->
    (forall z, s_segment (w3 p) (w3 q) z -> far S (tol + 70 * uro prec * K) z) ->
    forall r, r = shape_get_intersect s l \/ r = shape_get_intersect l s -> r = Ok (false, None) \/ exists x, r = Ok (true, Some x) /\ ~ fin3 (x : mat3x1 bf).
  Proof. exact (line_far prec emax lm a b c h K HP K1 KB Fa Fb Fc Fh Ua Ub Uc H0 HK ok TK p q e f s l Ms Ml Fp Fq). Qed.
  (** Missing for a full "through the interior means hit": only the ends of the segment are safe. *)
  Theorem C100_deep_partial :
    (upto K (w3 p) -> deep S tol (w3 p) -> shape_get_intersect s l = Ok (true, Some p) /\ shape_get_intersect l s = Ok (true, Some p)) /\
    (upto K (w3 q) -> deep S tol (w3 q) -> exists x, (x = p \/ x = q) /\ shape_get_intersect s l = Ok (true, Some x) /\ shape_get_intersect l s = Ok (true, Some x)).
  Proof.
    split; [exact (start_deep prec emax lm a b c h K HP K1 KB Fa Fb Fc Fh Ua Ub Uc H0 HK ok TK p q e f s l Ms Ml Fp Fq) | exact (stop_deep prec emax lm a b c h K HP K1 KB Fa Fb Fc Fh Ua Ub Uc H0 HK ok TK p q e f s l Ms Ml Fp Fq)].
  Qed.
End C100.
Print Assumptions C100_sound.
Print Assumptions C100_far_partial.
Print Assumptions C100_deep_partial.

(** The hypotheses of the three theorems, in f64: K = 8, the prism of C99; a segment from (-2,-2,2), deep inside, to
    (0,0,0) and a segment from (2,2,2) to (3,3,3), far away. *)
Definition w64 (lm : libm f64) (x y z : Z) : V3 := v3 (z3 (F64 lm) x y z : mat3x1 f64).
Example C100_case : forall (lm : libm f64), let S := s_prism (w64 lm (-4) (-4) 0) (w64 lm 4 (-4) 0) (w64 lm (-4) 4 0) (B2R (nlit (F64 lm) 4 1 : f64)) in
  let tol := prism_tol 53 8 (w64 lm (-4) (-4) 0) (w64 lm 4 (-4) 0) (w64 lm (-4) 4 0) in
  tri_ok (w64 lm (-4) (-4) 0) (w64 lm 4 (-4) 0) (w64 lm (-4) 4 0) /\ tol <= 8 /\ 8 * 8 <= bpow radix2 (1024 / 2 - 7) /\
  upto (8 / 2) (w64 lm (-2) (-2) 2) /\ upto (8 / 2) (w64 lm 0 0 0) /\ deep S tol (w64 lm (-2) (-2) 2) /\
  upto (8 / 2) (w64 lm 2 2 2) /\ upto (8 / 2) (w64 lm 3 3 3) /\ bpow radix2 (8 - 1024) <= dist (w64 lm 3 3 3) (w64 lm 2 2 2) * dist (w64 lm 3 3 3) (w64 lm 2 2 2) /\
  (forall z, s_segment (w64 lm 2 2 2) (w64 lm 3 3 3) z -> far S (tol + 70 * uro 53 * 8) z).
Proof.
  intros lm S tol. assert (W : forall x y z, (Z.abs x < 512)%Z -> (Z.abs y < 512)%Z -> (Z.abs z < 512)%Z -> w64 lm x y z = V (IZR x) (IZR y) (IZR z)) by (intros; apply (z3_ok 53 1024 lm); [lia | assumption ..]).
  unfold S, tol. rewrite !W by lia. replace (B2R (nlit (F64 lm) 4 1 : f64)) with 4 by (symmetry; apply (lit_z 53 1024 lm); lia). pose proof (tol0 53 8 ltac:(lia) ltac:(lra)) as T.
  assert (UU : forall x y z, -4 <= x <= 4 -> -4 <= y <= 4 -> -4 <= z <= 4 -> upto (8 / 2) (V x y z)) by (intros; repeat split; apply Rabs_le; cbn; lra).
  split; [exact ok0 |]. split; [lra |]. split; [apply Rle_trans with (bpow radix2 6); [simpl; lra | apply bpow_le; lia] |].
  split; [apply UU; lra |]. split; [apply UU; lra |]. split; [apply deep0; lra |]. split; [apply UU; lra |]. split; [apply UU; lra |]. split.
  - unfold dist. rewrite norm_sq. apply Rle_trans with (bpow radix2 0); [apply bpow_le; lia |]. unfold vdot, vsub. simpl. lra.
  - intros z [k [Hk ->]] y Sy. apply prism0 in Sy. assert (U : uro 53 <= / 16777216) by (unfold uro; replace (/ 16777216) with (bpow radix2 (-24)) by (simpl; lra); apply bpow_le; lia).
    destruct (abs_comp_norm (vsub y (vadd (V 2 2 2) (vscale k (vsub (V 3 3 3) (V 2 2 2)))))) as (P & Q & _). unfold dist. cbn [vsub vadd vscale vx vy vz] in P, Q.
    assert (H : 1 <= Rabs (vx y - (2 + k * (3 - 2))) \/ 1 <= Rabs (vy y - (2 + k * (3 - 2)))) by (unfold Rabs; destruct (Rcase_abs _), (Rcase_abs _); destruct (Rle_dec (vx y) 0); lra). lra.
Qed.

(** ---- segments through the middle of the prism that are missed ---- *)
Definition vals {prec emax : Z} {Hp : Prec_gt_0 prec} {Hm : Prec_lt_emax prec emax} {lm : libm (binary_float prec emax)} (v : mat3x1 (@Ieee prec emax Hp Hm lm)) (x y z : R) : Prop :=
  fin3 (v : mat3x1 (binary_float prec emax)) /\ v3 (v : mat3x1 (binary_float prec emax)) = V x y z.
Lemma vals_z prec emax {Hp : Prec_gt_0 prec} {Hm : Prec_lt_emax prec emax} (lm : libm (binary_float prec emax)) x y z : (9 < prec)%Z -> (Z.abs x < 512)%Z -> (Z.abs y < 512)%Z -> (Z.abs z < 512)%Z ->
  vals (z3 (@Ieee prec emax Hp Hm lm) x y z) (IZR x) (IZR y) (IZR z).
Proof. intros. apply z3_ok; assumption. Qed.
(** The prism is the one of C99: height 4 over (-4,-4,0), (4,-4,0), (-4,4,0).  In f64 the segment from (-3,-3,-4) to
    (1,1,20) passes through (-2,-2,2), at distance more than 1 from every face, and is missed in both directions. *)
Theorem C100_refuted_deep_f64 : forall (lm : libm f64) (e f g : F64 lm), exists (a b c p q : mat3x1 (F64 lm)) (h : F64 lm) (s l l' : shape (F64 lm)),
  vals a (-4) (-4) 0 /\ vals b 4 (-4) 0 /\ vals c (-4) 4 0 /\ B2R (h : f64) = 4 /\ vals p (-3) (-3) (-4) /\ vals q 1 1 20 /\
  mk_prism a b c h e s /\ mk_line p q f l /\ mk_line q p g l' /\
  s_segment (V (-3) (-3) (-4)) (V 1 1 20) (V (-2) (-2) 2) /\ deep (s_prism (V (-4) (-4) 0) (V 4 (-4) 0) (V (-4) 4 0) 4) 1 (V (-2) (-2) 2) /\
  shape_get_intersect s l = Ok (false, None) /\ shape_get_intersect l s = Ok (false, None) /\ shape_get_intersect s l' = Ok (false, None) /\ shape_get_intersect l' s = Ok (false, None).
Proof.
  intros lm e f g. exists (z3 _ (-4) (-4) 0), (z3 _ 4 (-4) 0), (z3 _ (-4) 4 0), (z3 _ (-3) (-3) (-4)), (z3 _ 1 1 20), (nlit _ 4 1). do 3 eexists.
  split; [apply vals_z; reflexivity |]. split; [apply vals_z; reflexivity |]. split; [apply vals_z; reflexivity |].
  split; [apply (lit_z 53 1024 lm); reflexivity |]. split; [apply vals_z; reflexivity |]. split; [apply vals_z; reflexivity |].
  do 3 (split; [eexists; split; reflexivity |]). split; [exists (/ 4); split; [lra | apply V3_eq; simpl; lra] |]. split; [apply deep0; lra |].
  split; [vm_compute; reflexivity |]. split; [vm_compute; reflexivity |]. split; vm_compute; reflexivity.
Qed.
(** In f32 the segment from (8,6,8) to (-7,-6,-1) passes through the same point and is missed. *)
Theorem C100_refuted_deep_f32 : forall (lm : libm f32) (e f : F32 lm), exists (a b c p q : mat3x1 (F32 lm)) (h : F32 lm) (s l : shape (F32 lm)),
  vals a (-4) (-4) 0 /\ vals b 4 (-4) 0 /\ vals c (-4) 4 0 /\ B2R (h : f32) = 4 /\ vals p 8 6 8 /\ vals q (-7) (-6) (-1) /\
  mk_prism a b c h e s /\ mk_line p q f l /\
  s_segment (V 8 6 8) (V (-7) (-6) (-1)) (V (-2) (-2) 2) /\ deep (s_prism (V (-4) (-4) 0) (V 4 (-4) 0) (V (-4) 4 0) 4) 1 (V (-2) (-2) 2) /\
  shape_get_intersect s l = Ok (false, None) /\ shape_get_intersect l s = Ok (false, None).
Proof.
  intros lm e f. exists (z3 _ (-4) (-4) 0), (z3 _ 4 (-4) 0), (z3 _ (-4) 4 0), (z3 _ 8 6 8), (z3 _ (-7) (-6) (-1)), (nlit _ 4 1). do 2 eexists.
  split; [apply vals_z; reflexivity |]. split; [apply vals_z; reflexivity |]. split; [apply vals_z; reflexivity |].
  split; [apply (lit_z 24 128 lm); reflexivity |]. split; [apply vals_z; reflexivity |]. split; [apply vals_z; reflexivity |].
  do 2 (split; [eexists; split; reflexivity |]). split; [exists (2 / 3); split; [lra | apply V3_eq; simpl; lra] |]. split; [apply deep0; lra |].
  split; vm_compute; reflexivity.
Qed.
Print Assumptions C100_refuted_deep_f64.
Print Assumptions C100_refuted_deep_f32.

(** ---- segments far from the prism that are reported as hits, at a NaN point ---- *)
Notation A1 := (V (-4) 0 (-4)). Notation B1 := (V 4 0 (-4)). Notation C1 := (V (-4) 0 4).
Lemma tri1 : vcross (vsub B1 A1) (vsub C1 A1) = V 0 (-64) 0.
Proof. apply V3_eq; simpl; ring. Qed.
Lemma ok1 : tri_ok A1 B1 C1.
Proof. unfold tri_ok. rewrite tri1. intro X. apply (f_equal vy) in X. simpl in X. lra. Qed.
Lemma prism1 x : s_prism A1 B1 C1 4 x -> vx x + vz x <= 0.
Proof.
  intro S. apply (prism_coords A1 B1 C1 ok1 4 x) in S; [| lra]. destruct S as (_ & _ & S & _). unfold ca, cb in S. rewrite tri1 in S. unfold vdot, vcross, vsub in S. cbn [vx vy vz] in S. lra.
Qed.
Lemma far1 z0 x : - (/ 2) <= z0 <= 0 -> s_segment (V 2 (-3) 0) (V 2 (-1) z0) x -> far (s_prism A1 B1 C1 4) (/ 2) x.
Proof.
  intros Z [k [Hk ->]] y Sy. apply prism1 in Sy. destruct (abs_comp_norm (vsub y (vadd (V 2 (-3) 0) (vscale k (vsub (V 2 (-1) z0) (V 2 (-3) 0)))))) as (P & _ & R). unfold dist. cbn [vsub vadd vscale vx vy vz] in P, R.
  assert (H : / 2 < Rabs (vx y - (2 + k * (2 - 2))) \/ / 2 < Rabs (vz y - (0 + k * (z0 - 0)))).
  { assert (- (/ 2) <= k * z0 <= 0) by nra. unfold Rabs. destruct (Rcase_abs _), (Rcase_abs _); destruct (Rle_dec (vx y) (14 / 10)); lra. }
  lra.
Qed.
Definition nan_hit {prec emax : Z} {Hp : Prec_gt_0 prec} {Hm : Prec_lt_emax prec emax} {lm : libm (binary_float prec emax)} (r : res (@hit (@Ieee prec emax Hp Hm lm))) : bool :=
  match r with Ok (true, Some (M3x1 (A3 x _ _))) => is_nan (x : binary_float prec emax) | _ => false end.
Lemma nan_hit_ok prec emax {Hp : Prec_gt_0 prec} {Hm : Prec_lt_emax prec emax} (lm : libm (binary_float prec emax)) (r : res (@hit (@Ieee prec emax Hp Hm lm))) :
  nan_hit r = true -> exists y z, r = Ok (true, Some (M3x1 (A3 (B754_nan : binary_float prec emax) y z))).
Proof. destruct r as [[[] [[[x y z]] |]] |]; try discriminate. cbn. destruct x; try discriminate. intros _. exists y, z. reflexivity. Qed.
(** 2^-1060 below zero in f64, 2^-140 in f32 *)
Definition tiny64 : f64 := @B754_finite 53 1024 true 16384 (-1074) eq_refl.
Definition tiny32 : f32 := @B754_finite 24 128 true 512 (-149) eq_refl.
Section Far.
  Context (prec emax : Z) {Hp : Prec_gt_0 prec} {Hm : Prec_lt_emax prec emax} (lm : libm (binary_float prec emax)).
  Notation bf := (binary_float prec emax).
  Notation F := (@Ieee prec emax Hp Hm lm).
  Definition far_s (e : F) : shape F := match triprism_init (N := F) (sl (z3 F (-4) 0 (-4)) ++ sl (z3 F 4 0 (-4)) ++ sl (z3 F (-4) 0 4)) (nlit F 4 1) with
    Ok x => shape_set_vicinity (SPrism x) e | _ => SPoint (MkPoint (z3 F 0 0 0) (AABB (v3x1 (z3 F 0 0 0)) (v3x1 (z3 F 0 0 0))) e) end.
  Definition far_q (t : F) : mat3x1 F := M3x1 (A3 (nlit F 2 1) (nlit F (-1) 1) t).
  Definition far_l (t f : F) : shape F := match line_init (N := F) (sl (z3 F 2 (-3) 0)) (sl (far_q t)) with
    Ok x => shape_set_vicinity (SLine x) f | _ => SPoint (MkPoint (z3 F 0 0 0) (AABB (v3x1 (z3 F 0 0 0)) (v3x1 (z3 F 0 0 0))) f) end.
  Lemma far_any (t : F) (e f : F) k : (9 < prec)%Z -> is_finite (t : bf) = true -> B2R (t : bf) = - bpow radix2 k -> (k <= -1)%Z -> nan_hit (shape_get_intersect (far_s e) (far_l t f)) = true -> nan_hit (shape_get_intersect (far_l t f) (far_s e)) = true ->
    exists (a b c p q : mat3x1 F) (h : F) (s l : shape F) y z y' z',
    vals a (-4) 0 (-4) /\ vals b 4 0 (-4) /\ vals c (-4) 0 4 /\ B2R (h : bf) = 4 /\ vals p 2 (-3) 0 /\ vals q 2 (-1) (- bpow radix2 k) /\
    mk_prism a b c h e s /\ mk_line p q f l /\ (forall x, s_segment (v3 (p : mat3x1 bf)) (v3 (q : mat3x1 bf)) x -> far (s_prism A1 B1 C1 4) (/ 2) x) /\
    shape_get_intersect s l = Ok (true, Some (M3x1 (A3 (B754_nan : bf) y z))) /\ shape_get_intersect l s = Ok (true, Some (M3x1 (A3 (B754_nan : bf) y' z'))).
  Proof.
    intros P9 Ft T Kk N N'.
    assert (Vq : vals (far_q t) 2 (-1) (- bpow radix2 k)).
    { destruct (lit_z prec emax lm P9 2 ltac:(lia)) as [F1 V1]. destruct (lit_z prec emax lm P9 (-1) ltac:(lia)) as [F2 V2]. split; [split; [exact F1 | split; [exact F2 | exact Ft]] |]. unfold v3, far_q. rewrite V1, V2, T. reflexivity. }
    assert (Vp : vals (z3 F 2 (-3) 0) 2 (-3) 0) by (apply vals_z; [exact P9 | | |]; reflexivity).
    destruct (nan_hit_ok prec emax lm _ N) as [y [z E]]. destruct (nan_hit_ok prec emax lm _ N') as [y' [z' E']].
    assert (Ms : mk_prism (z3 F (-4) 0 (-4)) (z3 F 4 0 (-4)) (z3 F (-4) 0 4) (nlit F 4 1) e (far_s e)) by (eexists; split; reflexivity).
    assert (Ml : mk_line (z3 F 2 (-3) 0) (far_q t) f (far_l t f)) by (eexists; split; reflexivity).
    exists (z3 F (-4) 0 (-4)), (z3 F 4 0 (-4)), (z3 F (-4) 0 4), (z3 F 2 (-3) 0), (far_q t), (nlit F 4 1), (far_s e), (far_l t f), y, z, y', z'.
    split; [apply vals_z; [exact P9 | | |]; reflexivity |]. split; [apply vals_z; [exact P9 | | |]; reflexivity |]. split; [apply vals_z; [exact P9 | | |]; reflexivity |].
    split; [apply (lit_z prec emax lm P9); reflexivity |]. split; [exact Vp |]. split; [exact Vq |]. split; [exact Ms |]. split; [exact Ml |]. split; [| split; [exact E | exact E']].
    intro x. rewrite (proj2 Vp), (proj2 Vq). apply far1. pose proof (bpow_gt_0 radix2 k). assert (bpow radix2 k <= bpow radix2 (-1)) by (apply bpow_le; lia). change (bpow radix2 (-1)) with (/ 2) in *. lra.
  Qed.
End Far.
(** The prism of height 4 over (-4,0,-4), (4,0,-4), (-4,0,4) and the segment from (2,-3,0) to (2,-1,-2^-1060): every point of
    the segment is farther than 1/2 from the prism; the answer is a hit, at a point with a NaN coordinate. *)
Theorem C100_refuted_far_f64 : forall (lm : libm f64) (e f : F64 lm), exists (a b c p q : mat3x1 (F64 lm)) (h : F64 lm) (s l : shape (F64 lm)) y z y' z',
  vals a (-4) 0 (-4) /\ vals b 4 0 (-4) /\ vals c (-4) 0 4 /\ B2R (h : f64) = 4 /\ vals p 2 (-3) 0 /\ vals q 2 (-1) (- bpow radix2 (-1060)) /\
  mk_prism a b c h e s /\ mk_line p q f l /\ (forall x, s_segment (v3 (p : mat3x1 f64)) (v3 (q : mat3x1 f64)) x -> far (s_prism A1 B1 C1 4) (/ 2) x) /\
  shape_get_intersect s l = Ok (true, Some (M3x1 (A3 (B754_nan : f64) y z))) /\ shape_get_intersect l s = Ok (true, Some (M3x1 (A3 (B754_nan : f64) y' z'))).
Proof.
  intros lm e f. apply (far_any 53 1024 lm tiny64); [reflexivity | reflexivity | | lia | vm_compute; reflexivity | vm_compute; reflexivity].
  unfold tiny64, B2R, F2R. cbn [Fnum Fexp cond_Zopp]. replace (IZR (Z.opp 16384)) with (- bpow radix2 14) by (simpl; lra). rewrite Ropp_mult_distr_l_reverse, <- bpow_plus. reflexivity.
Qed.
Theorem C100_refuted_far_f32 : forall (lm : libm f32) (e f : F32 lm), exists (a b c p q : mat3x1 (F32 lm)) (h : F32 lm) (s l : shape (F32 lm)) y z y' z',
  vals a (-4) 0 (-4) /\ vals b 4 0 (-4) /\ vals c (-4) 0 4 /\ B2R (h : f32) = 4 /\ vals p 2 (-3) 0 /\ vals q 2 (-1) (- bpow radix2 (-140)) /\
  mk_prism a b c h e s /\ mk_line p q f l /\ (forall x, s_segment (v3 (p : mat3x1 f32)) (v3 (q : mat3x1 f32)) x -> far (s_prism A1 B1 C1 4) (/ 2) x) /\
  shape_get_intersect s l = Ok (true, Some (M3x1 (A3 (B754_nan : f32) y z))) /\ shape_get_intersect l s = Ok (true, Some (M3x1 (A3 (B754_nan : f32) y' z'))).
Proof.
  intros lm e f. apply (far_any 24 128 lm tiny32); [reflexivity | reflexivity | | lia | vm_compute; reflexivity | vm_compute; reflexivity].
  unfold tiny32, B2R, F2R. cbn [Fnum Fexp cond_Zopp]. replace (IZR (Z.opp 512)) with (- bpow radix2 9) by (simpl; lra). rewrite Ropp_mult_distr_l_reverse, <- bpow_plus. reflexivity.
Qed.
Print Assumptions C100_refuted_far_f64.
Print Assumptions C100_refuted_far_f32.
