(** PropertiesPrismF.v — C99: prism against point in IEEE arithmetic. *)
From Coq Require Import Reals List ZArith Bool Lra Lia.
From Flocq Require Import Core BinarySingleNaN.
Import ListNotations.
From Verif Require Import Base Num Vec Mat Bound Shape Intersect Float Exact FloatFacts SpecGeom SpecShape SpecRound SpecBuild SpecPrismF PBuild PPrismF.
Local Open Scope R_scope.

(** C99. In every format of more than 9 bits: [K] bounds the coordinates and the height, and the tolerance is 150000 u K
    times the square of K^2 over twice the area of the base.  A point deeper than the tolerance inside the ideal prism is
    reported, in both orders, at its own position; a point farther than that outside is reported as a miss. *)
Theorem C99_prism_point : forall prec emax {Hp : Prec_gt_0 prec} {Hm : Prec_lt_emax prec emax} (lm : libm (binary_float prec emax))
    (a b c : mat3x1 (Ieee prec emax lm)) (h : Ieee prec emax lm) (K : R),
  (9 < prec)%Z -> 1 <= K -> K * K <= bpow radix2 (emax / 2 - 7) ->
  fin3 (a : mat3x1 (binary_float prec emax)) -> fin3 (b : mat3x1 (binary_float prec emax)) -> fin3 (c : mat3x1 (binary_float prec emax)) ->
  is_finite (h : binary_float prec emax) = true ->
  upto K (v3 (a : mat3x1 (binary_float prec emax))) -> upto K (v3 (b : mat3x1 (binary_float prec emax))) -> upto K (v3 (c : mat3x1 (binary_float prec emax))) ->
  bpow radix2 (11 - emax) <= B2R (h : binary_float prec emax) -> B2R (h : binary_float prec emax) <= K ->
  tri_ok (v3 (a : mat3x1 (binary_float prec emax))) (v3 (b : mat3x1 (binary_float prec emax))) (v3 (c : mat3x1 (binary_float prec emax))) ->
  prism_tol prec K (v3 (a : mat3x1 (binary_float prec emax))) (v3 (b : mat3x1 (binary_float prec emax))) (v3 (c : mat3x1 (binary_float prec emax))) <= K ->
  let tol := prism_tol prec K (v3 (a : mat3x1 (binary_float prec emax))) (v3 (b : mat3x1 (binary_float prec emax))) (v3 (c : mat3x1 (binary_float prec emax))) in
  let S := s_prism (v3 (a : mat3x1 (binary_float prec emax))) (v3 (b : mat3x1 (binary_float prec emax))) (v3 (c : mat3x1 (binary_float prec emax))) (B2R (h : binary_float prec emax)) in
  forall (p : mat3x1 (Ieee prec emax lm)) (e f : Ieee prec emax lm) (s q : shape (Ieee prec emax lm)), mk_prism a b c h e s -> mk_point p f q ->
  fin3 (p : mat3x1 (binary_float prec emax)) -> upto K (v3 (p : mat3x1 (binary_float prec emax))) ->
  (deep S tol (v3 (p : mat3x1 (binary_float prec emax))) -> shape_get_intersect s q = Ok (true, Some p) /\ shape_get_intersect q s = Ok (true, Some p)) /\
  (far S tol (v3 (p : mat3x1 (binary_float prec emax))) -> shape_get_intersect s q = Ok (false, None) /\ shape_get_intersect q s = Ok (false, None)).
Proof. exact prism_point_ieee. Qed.
Print Assumptions C99_prism_point.

(** The prism of height 4 over (-4,-4,0), (4,-4,0), (-4,4,0): the hypotheses hold in f32 and f64 with K = 4 and a
    tolerance of at most 1/8; (-2,-2,2) is deep inside and (2,2,2) far outside. *)
Section Case.
  Context (prec emax : Z) {Hp : Prec_gt_0 prec} {Hm : Prec_lt_emax prec emax} (lm : libm (binary_float prec emax)).
  Hypotheses (P24 : (24 <= prec)%Z) (E64 : (64 <= emax)%Z).
  Notation bf := (binary_float prec emax).
  Notation F := (@Ieee prec emax Hp Hm lm).
  Notation w3 v := (v3 (v : mat3x1 bf)).
  Notation zz := (z3 F).
  Lemma case_any : let a := zz (-4) (-4) 0 in let b := zz 4 (-4) 0 in let c := zz (-4) 4 0 in let h := nlit F 4 1 in
    let S := s_prism (w3 a) (w3 b) (w3 c) (B2R (h : bf)) in let tol := prism_tol prec 4 (w3 a) (w3 b) (w3 c) in
    (9 < prec)%Z /\ 1 <= 4 /\ 4 * 4 <= bpow radix2 (emax / 2 - 7) /\ fin3 (a : mat3x1 bf) /\ fin3 (b : mat3x1 bf) /\ fin3 (c : mat3x1 bf) /\
    is_finite (h : bf) = true /\ upto 4 (w3 a) /\ upto 4 (w3 b) /\ upto 4 (w3 c) /\ bpow radix2 (11 - emax) <= B2R (h : bf) /\ B2R (h : bf) <= 4 /\
    tri_ok (w3 a) (w3 b) (w3 c) /\ tol <= 4 /\ fin3 (zz (-2) (-2) 2 : mat3x1 bf) /\ upto 4 (w3 (zz (-2) (-2) 2)) /\ deep S tol (w3 (zz (-2) (-2) 2)) /\
    fin3 (zz 2 2 2 : mat3x1 bf) /\ upto 4 (w3 (zz 2 2 2)) /\ far S tol (w3 (zz 2 2 2)).
  Proof.
    intros a b c h S tol. assert (P9 : (9 < prec)%Z) by lia.
    destruct (z3_ok prec emax lm P9 (-4) (-4) 0 ltac:(lia) ltac:(lia) ltac:(lia)) as [Fa Va].
    destruct (z3_ok prec emax lm P9 4 (-4) 0 ltac:(lia) ltac:(lia) ltac:(lia)) as [Fb Vb].
    destruct (z3_ok prec emax lm P9 (-4) 4 0 ltac:(lia) ltac:(lia) ltac:(lia)) as [Fc Vc].
    destruct (z3_ok prec emax lm P9 (-2) (-2) 2 ltac:(lia) ltac:(lia) ltac:(lia)) as [Fp Vp].
    destruct (z3_ok prec emax lm P9 2 2 2 ltac:(lia) ltac:(lia) ltac:(lia)) as [Fq Vq].
    destruct (lit_z prec emax lm P9 4 ltac:(lia)) as [Fh Vh].
    unfold S, tol, a, b, c, h. rewrite Va, Vb, Vc, Vh, Vp, Vq. pose proof (tol0 prec 4 P24 ltac:(lra)) as T.
    assert (U : forall x y z, -4 <= x <= 4 -> -4 <= y <= 4 -> -4 <= z <= 4 -> upto 4 (V x y z)) by (intros; repeat split; apply Rabs_le; cbn; lra).
    repeat match goal with |- _ /\ _ => split end; try assumption; try lra; try (apply U; lra).
    - assert (32 <= emax / 2)%Z by (apply Z.div_le_lower_bound; lia). apply Rle_trans with (bpow radix2 4); [simpl; lra | apply bpow_le; lia].
    - apply Rle_trans with (bpow radix2 0); [apply bpow_le; lia | simpl; lra].
    - exact ok0.
    - apply deep0. lra.
    - apply far0. lra.
  Qed.
  Lemma case_run e f s q r : mk_prism (zz (-4) (-4) 0) (zz 4 (-4) 0) (zz (-4) 4 0) (nlit F 4 1) e s -> mk_point (zz (-2) (-2) 2) f q -> mk_point (zz 2 2 2) f r ->
    shape_get_intersect s q = Ok (true, Some (zz (-2) (-2) 2)) /\ shape_get_intersect s r = Ok (false, None).
  Proof.
    intros S Q R. destruct case_any as (X1 & X2 & X3 & X4 & X5 & X6 & X7 & X8 & X9 & X10 & X11 & X12 & X13 & X14 & Y1 & Y2 & Y3 & Z1 & Z2 & Z3).
    split; [eapply (C99_prism_point prec emax lm _ _ _ _ 4 X1 X2 X3 X4 X5 X6 X7 X8 X9 X10 X11 X12 X13 X14 _ _ _ _ _ S Q Y1 Y2) | eapply (C99_prism_point prec emax lm _ _ _ _ 4 X1 X2 X3 X4 X5 X6 X7 X8 X9 X10 X11 X12 X13 X14 _ _ _ _ _ S R Z1 Z2)]; assumption.
  Qed.
End Case.
Example C99_case_f32 : forall (lm : libm f32) e f, exists s q r, mk_prism (z3 (F32 lm) (-4) (-4) 0) (z3 _ 4 (-4) 0) (z3 _ (-4) 4 0) (nlit (F32 lm) 4 1) e s /\
  mk_point (z3 (F32 lm) (-2) (-2) 2) f q /\ mk_point (z3 (F32 lm) 2 2 2) f r /\ shape_get_intersect s q = Ok (true, Some (z3 _ (-2) (-2) 2)) /\ shape_get_intersect s r = Ok (false, None).
Proof. intros lm e f. do 3 eexists. do 3 (split; [eexists; split; reflexivity |]). eapply (case_run 24 128 lm); try lia; eexists; split; reflexivity. Qed.
Example C99_case_f64 : forall (lm : libm f64) e f, exists s q r, mk_prism (z3 (F64 lm) (-4) (-4) 0) (z3 _ 4 (-4) 0) (z3 _ (-4) 4 0) (nlit (F64 lm) 4 1) e s /\
  mk_point (z3 (F64 lm) (-2) (-2) 2) f q /\ mk_point (z3 (F64 lm) 2 2 2) f r /\ shape_get_intersect s q = Ok (true, Some (z3 _ (-2) (-2) 2)) /\ shape_get_intersect s r = Ok (false, None).
Proof. intros lm e f. do 3 eexists. do 3 (split; [eexists; split; reflexivity |]). eapply (case_run 53 1024 lm); try lia; eexists; split; reflexivity. Qed.
