(** PropertiesScale.v — C115: the unit of length does not matter, in IEEE arithmetic: all lengths times a power of two. *)
From Coq Require Import Reals List ZArith Bool Lra Lia.
From Flocq Require Import Core BinarySingleNaN.
Import ListNotations.
From Verif Require Import Base Num Vec Mat Bound Shape Intersect Gjk Float FloatFacts SpecGeom SpecBuild SpecMirror SpecScale PBuild PRing3 PScale PScale2 PropertiesMirror PropertiesDeep.

(** C115. Coordinates, radii and tolerances that are multiples of 2^-L up to 2^L (in f64 up to L = 112: every double between
    2^-59 and 2^112, and zero); all of them times 2^k: the same flag, and the point times 2^k exactly. *)
Theorem C115_units : forall prec emax {Hp : Prec_gt_0 prec} {Hm : Prec_lt_emax prec emax} (lm : libm (binary_float prec emax)) (L k : Z),
  (9 < prec)%Z -> (0 <= L)%Z -> (Z.abs k <= L)%Z -> (8 * L + 2 * prec + 16 <= emax)%Z ->
  forall (D E D' E' : fdesc (prec := prec) (emax := emax)) (x y x' y' : shape (Ieee prec emax lm)), unit_free D E ->
  plain L D -> plain L E -> rescaled L k D' D -> rescaled L k E' E ->
  fbuilds lm D x -> fbuilds lm E y -> fbuilds lm D' x' -> fbuilds lm E' y' ->
  same_answer k (shape_get_intersect x' y') (shape_get_intersect x y).
Proof. exact @scale_query. Qed.
Print Assumptions C115_units.
(** The unit vector along a direction does not change at all when the direction is stretched by a power of two. *)
Theorem C115_normalize : forall prec emax {Hp : Prec_gt_0 prec} {Hm : Prec_lt_emax prec emax} (lm : libm (binary_float prec emax)) (L j : Z),
  (9 < prec)%Z -> (0 <= L)%Z -> (8 * L + 2 * prec + 16 <= emax)%Z -> (Z.abs j <= L)%Z ->
  forall d' d : mat3x1 (Ieee prec emax lm), heading L (d : mat3x1 (binary_float prec emax)) -> times3 j (d' : mat3x1 (binary_float prec emax)) d ->
  exists w w', mat3x1_normalize d = Ok (Some w) /\ mat3x1_normalize d' = Ok (Some w') /\ times3 0 (w' : mat3x1 (binary_float prec emax)) w.
Proof.
  intros prec emax Hp Hm lm L j P HL HB Hj d' d H T3. exists (nrm d), (nrm d'). rewrite !normalize_nrm. split; [reflexivity | split; [reflexivity |]].
  eapply (GV_times3 prec emax lm). apply (nrm_G prec emax lm L 0 P HL ltac:(lia) HB d' d j H Hj T3).
Qed.
Print Assumptions C115_normalize.

(** ---- binary64 ---- *)
Section Beams.
  Context {Nm : Num}.
  Definition beam_v (e : Nm) (o d : list Nm) : res (shape Nm) := let! x := ray_init o d in Ok (shape_set_vicinity (SRay x) e).
End Beams.
(** Two rays are left out: C115 is false of the code for them.  The tolerance is also compared with a number that has no unit.
    Rays that cross, tolerance 2^-40: a hit; all lengths times 2^-60: a miss. *)
Theorem C115_refuted_f64 lm : let small := (2 ^ 60)%positive in let e := nlit (F64 lm) 1 (2 ^ 40)%positive in let e' := nlit (F64 lm) 1 (2 ^ 100)%positive in
  answer_flag (Nm := F64 lm) (beam_v e (p3 0 0 0 1) (p3 1 2 3 1)) (beam_v e (p3 (-2) 3 2 1) (p3 3 (-1) 1 1)) = Some true /\
  answer_flag (Nm := F64 lm) (beam_v e' (p3 0 0 0 small) (p3 1 2 3 1)) (beam_v e' (p3 (-2) 3 2 small) (p3 3 (-1) 1 1)) = Some false.
Proof. split; vm_compute; reflexivity. Qed.
Print Assumptions C115_refuted_f64.

(** cases: a ray at (-3,1,2) along (3,-1,-2) and the unit ball at the origin; eight times as large, with the direction doubled *)
Local Open Scope R_scope.
Lemma medium_of (x : f64) (m : Z) : is_finite x = true /\ B2R x = IZR m -> (Z.abs m <= 256)%Z -> medium 8 x.
Proof.
  intros [A B] H. split; [exact A |]. rewrite B. split.
  - rewrite <- abs_IZR. change (bpow radix2 8) with (IZR 256). apply IZR_le. exact H.
  - exists (m * 256)%Z. rewrite mult_IZR. cbn. lra.
Qed.
Lemma times_of (j : Z) (x' x : f64) (m' m : Z) : is_finite x' = true /\ B2R x' = IZR m' -> is_finite x = true /\ B2R x = IZR m -> IZR m' = IZR m * bpow radix2 j -> times2 j x' x.
Proof. intros [A B] [C D] H. repeat split; try assumption. rewrite B, D. exact H. Qed.
Ltac lv := split; [vm_compute; reflexivity | match goal with |- context [nlit ?F _ _] => lit_vals F 53%Z 1024%Z end; lra].
Example C115_case_f64 (lm : libm f64) : let F := F64 lm in
  let D : fdesc (prec := 53) (emax := 1024) := FRay (lits F (-3) 1 2 1) (lits F 3 (-1) (-2) 1) (nlit F 0 1) in
  let E : fdesc (prec := 53) (emax := 1024) := FSphere (lits F 0 0 0 1) (nlit F 1 1) (nlit F 0 1) in
  let D' : fdesc (prec := 53) (emax := 1024) := FRay (lits F (-24) 8 16 1) (lits F 6 (-2) (-4) 1) (nlit F 0 1) in
  let E' : fdesc (prec := 53) (emax := 1024) := FSphere (lits F 0 0 0 1) (nlit F 8 1) (nlit F 0 1) in
  unit_free D E /\ plain 8 D /\ plain 8 E /\ rescaled 8 3 D' D /\ rescaled 8 3 E' E /\
  answer_flag (Nm := F64 lm) (beam (p3 (-3) 1 2 1) (p3 3 (-1) (-2) 1)) (ball (p3 0 0 0 1) n1) = Some true.
Proof.
  intros F D E D' E'.
  assert (V : forall m : Z, In m [0; 1; 2; -1; -2; 3; -3; 6; -4; 8; 16; -24]%Z -> is_finite (nlit F m 1 : f64) = true /\ B2R (nlit F m 1 : f64) = IZR m).
  { intros m H. repeat (destruct H as [<- | H]; [unfold F; lv |]). destruct H. }
  assert (M : forall m : Z, In m [0; 1; 2; -1; -2; 3; -3; 6; -4; 8; 16; -24]%Z -> medium 8 (nlit F m 1 : f64)).
  { intros m H. apply (medium_of _ m); [apply V; exact H |]. repeat (destruct H as [<- | H]; [lia |]). destruct H. }
  split; [exact I |]. split; [| split; [| split; [| split]]].
  - split; [repeat split; apply M; cbn; tauto | split; [split; [repeat split; apply M; cbn; tauto |] | apply M; cbn; tauto]].
    intros (Q & _). destruct (V 3%Z ltac:(cbn; tauto)) as [_ W]. rewrite W in Q. lra.
  - split; [repeat split; apply M; cbn; tauto | split; [apply M; cbn; tauto | split; [| apply M; cbn; tauto]]]. destruct (V 1%Z ltac:(cbn; tauto)) as [_ W]. rewrite W. lra.
  - split; [| split; [exists 1%Z; split; [lia |] |]]; unfold times3; cbn [lits]; [split; [| split] | split; [| split] |];
      match goal with |- times2 ?j (nlit _ ?a 1) (nlit _ ?b 1) => apply (times_of j _ _ a b); [apply V; cbn; tauto | apply V; cbn; tauto | cbn; lra] end.
  - split; [| split]; unfold times3; cbn [lits]; [split; [| split] | |];
      match goal with |- times2 ?j (nlit _ ?a 1) (nlit _ ?b 1) => apply (times_of j _ _ a b); [apply V; cbn; tauto | apply V; cbn; tauto | cbn; lra] end.
  - vm_compute; reflexivity.
Qed.
