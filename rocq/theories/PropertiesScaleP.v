(** PropertiesScaleP.v — C127: the unit of length does not matter for a prism and a point in IEEE arithmetic. *)
From Coq Require Import Reals List ZArith Bool Lra Lia.
From Flocq Require Import Core BinarySingleNaN.
Import ListNotations.
From Verif Require Import Base Num Vec Mat Bound Shape Intersect Float FloatFacts SpecGeom SpecBuild SpecMirror SpecScale PBuild PPrismF PScaleP PropertiesPrismF.
Local Open Scope R_scope.

(** C127. Vertices, height and point that are multiples of 2^-L up to 2^L (in f64 up to L = 54); all of them times 2^k:
    the same flag, and the point times 2^k exactly, in both orders.  The tolerances are free.  The triangle may be
    degenerate: its normal is then not a number, in both units. *)
Theorem C127_prism_units : forall prec emax {Hp : Prec_gt_0 prec} {Hm : Prec_lt_emax prec emax} (lm : libm (binary_float prec emax)) (L k : Z),
  (9 < prec)%Z -> (0 <= L)%Z -> (Z.abs k <= L)%Z -> (16 * L + 2 * prec + 40 <= emax)%Z ->
  forall (a' a b' b c' c q' q : mat3x1 (Ieee prec emax lm)) (h' h e' e f' f : Ieee prec emax lm) (s' s t' t : shape (Ieee prec emax lm)),
  all3 (medium L) (a : mat3x1 (binary_float prec emax)) -> all3 (medium L) (b : mat3x1 (binary_float prec emax)) ->
  all3 (medium L) (c : mat3x1 (binary_float prec emax)) -> all3 (medium L) (q : mat3x1 (binary_float prec emax)) -> medium L (h : binary_float prec emax) ->
  times3 k (a' : mat3x1 (binary_float prec emax)) a -> times3 k (b' : mat3x1 (binary_float prec emax)) b ->
  times3 k (c' : mat3x1 (binary_float prec emax)) c -> times3 k (q' : mat3x1 (binary_float prec emax)) q -> times2 k (h' : binary_float prec emax) h ->
  mk_prism a b c h e s -> mk_point q f t -> mk_prism a' b' c' h' e' s' -> mk_point q' f' t' ->
  same_answer k (shape_get_intersect s' t') (shape_get_intersect s t) /\ same_answer k (shape_get_intersect t' s') (shape_get_intersect t s).
Proof. exact @prism_point_units. Qed.
Print Assumptions C127_prism_units.

(** ---- the prism of C99 over (-4,-4,0), (4,-4,0), (-4,4,0), and the same eight times as large ---- *)
Section Case.
  Context (lm : libm f64).
  Notation F := (F64 lm).
  Notation zz := (z3 F).
  Lemma med (m : Z) : (Z.abs m <= 8)%Z -> medium 3 (nlit F m 1 : f64).
  Proof.
    intro H. destruct (@lit_z 53 1024 f64_prec_gt_0 f64_prec_lt_emax lm ltac:(lia) m ltac:(lia)) as [A B]. split; [exact A |]. split.
    - refine (eq_ind_r (fun r => Rabs r <= _) _ B). rewrite <- abs_IZR. change (bpow radix2 3) with (IZR 8). apply IZR_le. exact H.
    - exists (m * 8)%Z. refine (eq_trans B _). rewrite mult_IZR. cbn. lra.
  Qed.
  Lemma octo (m : Z) : (Z.abs m <= 8)%Z -> times2 3 (nlit F (8 * m) 1 : f64) (nlit F m 1 : f64).
  Proof.
    intro H. destruct (@lit_z 53 1024 f64_prec_gt_0 f64_prec_lt_emax lm ltac:(lia) m ltac:(lia)) as [A B]. destruct (@lit_z 53 1024 f64_prec_gt_0 f64_prec_lt_emax lm ltac:(lia) (8 * m) ltac:(lia)) as [C D].
    split; [exact C | split; [exact A |]]. refine (eq_trans D _). refine (eq_ind_r (fun r => _ = r * _) _ B). rewrite mult_IZR. cbn. lra.
  Qed.
  Lemma med3 x y z : (Z.abs x <= 8)%Z -> (Z.abs y <= 8)%Z -> (Z.abs z <= 8)%Z -> all3 (medium 3) (zz x y z : mat3x1 f64).
  Proof. intros. split; [| split]; apply med; assumption. Qed.
  Lemma octo3 x y z : (Z.abs x <= 8)%Z -> (Z.abs y <= 8)%Z -> (Z.abs z <= 8)%Z -> times3 3 (zz (8 * x) (8 * y) (8 * z) : mat3x1 f64) (zz x y z : mat3x1 f64).
  Proof. intros. split; [| split]; apply octo; assumption. Qed.
End Case.
(** the hit at (-2,-2,2) becomes a hit at eight times that point, the miss of (2,2,2) stays a miss *)
Example C127_case_f64 : forall (lm : libm f64) e f, exists s q r s' q' r', mk_prism (z3 (F64 lm) (-4) (-4) 0) (z3 _ 4 (-4) 0) (z3 _ (-4) 4 0) (nlit (F64 lm) 4 1) e s /\
  mk_point (z3 (F64 lm) (-2) (-2) 2) f q /\ mk_point (z3 (F64 lm) 2 2 2) f r /\
  mk_prism (z3 (F64 lm) (-32) (-32) 0) (z3 _ 32 (-32) 0) (z3 _ (-32) 32 0) (nlit (F64 lm) 32 1) e s' /\
  mk_point (z3 (F64 lm) (-16) (-16) 16) f q' /\ mk_point (z3 (F64 lm) 16 16 16) f r' /\
  same_answer (prec := 53) (emax := 1024) 3 (shape_get_intersect s' q') (Ok (true, Some (z3 (F64 lm) (-2) (-2) 2))) /\ shape_get_intersect s' r' = Ok (false, None).
Proof.
  intros lm e f. destruct (C99_case_f64 lm e f) as (s & q & r & S & Q & R & HQ & HR). exists s, q, r.
  destruct (proj2 (prism_any (z3 (F64 lm) (-32) (-32) 0) (z3 _ 32 (-32) 0) (z3 _ (-32) 32 0) (nlit (F64 lm) 32 1) e _) eq_refl) as [pz HP]. do 3 eexists.
  assert (S' : mk_prism (z3 (F64 lm) (-32) (-32) 0) (z3 _ 32 (-32) 0) (z3 _ (-32) 32 0) (nlit (F64 lm) 32 1) e (shape_set_vicinity (SPrism pz) e)) by (exists pz; split; [exact (proj1 HP) | reflexivity]).
  split; [exact S |]. split; [exact Q |]. split; [exact R |]. split; [exact S' |]. split; [eexists; split; reflexivity |]. split; [eexists; split; reflexivity |].
  split.
  - pose proof (@C127_prism_units 53 1024 f64_prec_gt_0 f64_prec_lt_emax lm 3 3 ltac:(lia) ltac:(lia) ltac:(lia) ltac:(lia) _ _ _ _ _ _ _ _ _ _ e e f f _ _ _ _
      (med3 lm (-4) (-4) 0 ltac:(lia) ltac:(lia) ltac:(lia)) (med3 lm 4 (-4) 0 ltac:(lia) ltac:(lia) ltac:(lia)) (med3 lm (-4) 4 0 ltac:(lia) ltac:(lia) ltac:(lia)) (med3 lm (-2) (-2) 2 ltac:(lia) ltac:(lia) ltac:(lia)) (med lm 4 ltac:(lia))
      (octo3 lm (-4) (-4) 0 ltac:(lia) ltac:(lia) ltac:(lia)) (octo3 lm 4 (-4) 0 ltac:(lia) ltac:(lia) ltac:(lia)) (octo3 lm (-4) 4 0 ltac:(lia) ltac:(lia) ltac:(lia)) (octo3 lm (-2) (-2) 2 ltac:(lia) ltac:(lia) ltac:(lia)) (octo lm 4 ltac:(lia))
      S Q S' (ex_intro _ _ (conj eq_refl eq_refl))) as [X _]. exact (eq_ind _ (fun a => same_answer (prec := 53) (emax := 1024) 3 _ a) X _ HQ).
  - pose proof (@C127_prism_units 53 1024 f64_prec_gt_0 f64_prec_lt_emax lm 3 3 ltac:(lia) ltac:(lia) ltac:(lia) ltac:(lia) _ _ _ _ _ _ _ _ _ _ e e f f _ _ _ _
      (med3 lm (-4) (-4) 0 ltac:(lia) ltac:(lia) ltac:(lia)) (med3 lm 4 (-4) 0 ltac:(lia) ltac:(lia) ltac:(lia)) (med3 lm (-4) 4 0 ltac:(lia) ltac:(lia) ltac:(lia)) (med3 lm 2 2 2 ltac:(lia) ltac:(lia) ltac:(lia)) (med lm 4 ltac:(lia))
      (octo3 lm (-4) (-4) 0 ltac:(lia) ltac:(lia) ltac:(lia)) (octo3 lm 4 (-4) 0 ltac:(lia) ltac:(lia) ltac:(lia)) (octo3 lm (-4) 4 0 ltac:(lia) ltac:(lia) ltac:(lia)) (octo3 lm 2 2 2 ltac:(lia) ltac:(lia) ltac:(lia)) (octo lm 4 ltac:(lia))
      S R S' (ex_intro _ _ (conj eq_refl eq_refl))) as [X _]. pose proof (eq_ind _ (fun a => same_answer (prec := 53) (emax := 1024) 3 _ a) X _ HR) as Y. clear - Y. unfold same_answer in Y.
    match type of Y with match ?a with _ => _ end => set (w := a) in Y end. enough (E : w = Ok (false, None)) by exact E. clearbody w. destruct w as [[? [?|]] |]; exact Y.
Qed.
