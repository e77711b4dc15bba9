(** PropertiesRotInv.v — C132: Mat4::inverse of rotation matrices, in IEEE arithmetic. *)
From Coq Require Import Reals List ZArith NArith Bool Lra Lia.
From Flocq Require Import Core BinarySingleNaN.
Import ListNotations.
From Verif Require Import Base Num Vec Mat Quat Float FloatFacts SpecMat SpecReal SpecRound SpecGeom SpecQuat SpecBuild SpecFq SpecRun SpecRotM SpecSpin PMat PRound PIeee2 PRun PSpinM PRotInv PropertiesRun PropertiesSpin.
Local Open Scope R_scope.

Section RotInv.
Context (prec emax : Z) {Hp : Prec_gt_0 prec} {Hm : Prec_lt_emax prec emax} (lm : libm (binary_float prec emax)).
Notation bf := (binary_float prec emax).
Notation F := (@Ieee prec emax Hp Hm lm).
Notation u := (uro prec).
Notation val := (@B2R prec emax).
Notation real f := ((fun i j => val (f i j : bf)) : rmat).
Notation hq q := (qval (q : quat bf)).
Notation rot q := (quat_to_rotation_matrix (q : quat F) true).
(** A matrix whose rows are within e <= 1/1000 of those of a rotation (e.g. one that has been multiplied many times): inverse answers, and since the
    code stores the inverse transposed, the answer is the rotation itself again, not the rotation back. *)
Theorem C132_near (m : mat4 F) (f : lmat F) (q : H4) (e : R) : (9 < prec)%Z -> repr4 m f -> mfin4 (f : lmat bf) -> hunit q -> 0 <= e <= / 1000 -> rows_within e (real f) (hmat q) ->
  exists r g, mat4_inverse m = Ok (Some r) /\ m4_rm r = true /\ repr4 r g /\ mfin4 (g : lmat bf) /\
  (forall i j, (i < 4)%N -> (j < 4)%N -> Rabs (val (g i j : bf) - hmat q i j) <= 2005 / 1000 * e + 3254 * u) /\
  (forall i j, (i < 4)%N -> (j < 4)%N -> Rabs (val (g i j : bf) - val (f i j : bf)) <= 3005 / 1000 * e + 3254 * u).
Proof. exact (inverse_near prec emax lm m f q e). Qed.
(** the matrix of a quaternion of length 1 up to 9 roundoffs *)
Theorem C132_rotation (q : quat F) : (16 < prec)%Z -> near (q : quat bf) ->
  exists r g, mat4_inverse (rot q) = Ok (Some r) /\ m4_rm r = true /\ repr4 r g /\ mfin4 (g : lmat bf) /\
  (forall i j, (i < 4)%N -> (j < 4)%N -> Rabs (val (g i j : bf) - hmat (hdir (hq q)) i j) <= 3463 * u) /\
  (forall i j, (i < 4)%N -> (j < 4)%N -> Rabs (val (g i j : bf) - val (log4 (rot q) i j)) <= 3515 * u).
Proof.
  intros P Nq. assert (P9 : (9 < prec)%Z) by lia. pose proof (u_pos prec) as U0. assert (U1 : u <= / 131072) by (unfold uro; change (/ 131072) with (bpow radix2 (-17)); apply bpow_le; lia).
  destruct (rot_near prec emax lm q P9 Nq) as (Fr & Er & _ & Ur). destruct (C132_near (rot q) (log4 (rot q)) (hdir (hq q)) (104 * u) P9 (repr4_log _) Fr Ur) as (r & g & A1 & A2 & A3 & A4 & A5 & _); [lra | |].
  { intros i Hi. eapply Rle_trans; [apply (row_box _ i (52 * u)); [lra |] |]; [| lra]. intros j Hj. apply Er; assumption. }
  exists r, g. do 4 (split; [assumption |]). split; intros i j Hi Hj; specialize (A5 i j Hi Hj); [lra |]. specialize (Er i j Hi Hj). apply Rabs_le_inv in A5. apply Rabs_le_inv in Er. apply Rabs_le. lra.
Qed.
(** the accumulated product of the matrices of n + 1 quaternions, as long as 454 (n + 1) u is at most 1/1000 *)
Theorem C132_course (q : quat F) (l : list (quat F)) : (9 < prec)%Z -> near (q : quat bf) -> Forall (fun p : quat F => near (p : quat bf)) l ->
  let n := INR (S (length l)) in 454 * n * u <= / 1000 ->
  exists c h r g, mat_run (rot q) (map (fun p : quat F => rot p) l) = Ok (Some c) /\ repr4 c h /\ mat4_inverse c = Ok (Some r) /\ m4_rm r = true /\ repr4 r g /\ mfin4 (g : lmat bf) /\
  (forall i j, (i < 4)%N -> (j < 4)%N -> Rabs (val (g i j : bf) - hmat (course (hq q) (map (fun p : quat F => hq p) l)) i j) <= (911 * n + 3254) * u) /\
  (forall i j, (i < 4)%N -> (j < 4)%N -> Rabs (val (g i j : bf) - val (h i j : bf)) <= (1365 * n + 3254) * u).
Proof.
  intros P Nq Nl n B. pose proof (u_pos prec) as U0. pose proof (u_small prec P) as U1. pose proof (pow_linear (227 * u) (S (length l)) ltac:(lra)) as L. fold n in L. specialize (L ltac:(lra)). assert (HP : (0 < prec)%Z) by exact Hp. assert (HE : (prec < emax)%Z) by exact Hm.
  destruct (C128_both prec emax lm q l P Nq Nl) as (c & h & _ & C1 & C2 & C3 & C4 & C5 & _).
  { apply Rle_trans with 1; [lra |]. change 1 with (bpow radix2 0). apply bpow_le. lia. }
  assert (N0 : 0 <= n * u) by (apply Rmult_le_pos; [apply pos_INR | lra]).
  assert (Uc : hunit (course (hq q) (map (fun p : quat F => hq p) l))).
  { unfold course. apply course_unit; [apply (rot_near prec emax lm q P Nq) |]. apply Forall_forall. intros x Hx. apply in_map_iff in Hx. destruct Hx as (p & <- & Ip). rewrite Forall_forall in Nl. destruct (Nl p Ip) as [_ K]. apply Rabs_le_inv in K. lra. }
  destruct (C132_near c h _ (454 * n * u) P C3 C4 Uc) as (r & g & A1 & A2 & A3 & A4 & A5 & A6); [lra | |].
  { intros i Hi. specialize (C5 i Hi). lra. }
  exists c, h, r, g. do 6 (split; [assumption |]). split; intros i j Hi Hj; [specialize (A5 i j Hi Hj) | specialize (A6 i j Hi Hj)]; lra.
Qed.
End RotInv.
Print Assumptions C132_near.
Print Assumptions C132_rotation.
Print Assumptions C132_course.

(** ---- a third of a turn in binary64: the inverse turns the same way, not back ---- *)
Example C132_case (lm : libm f64) : exists r g, mat4_inverse (quat_to_rotation_matrix (third lm) true) = Ok (Some r) /\ repr4 r g /\
  (forall i j, (i < 4)%N -> (j < 4)%N -> Rabs (B2R (g i j : f64) - B2R (log4 (quat_to_rotation_matrix (third lm) true) i j : f64)) <= / 1000000000000).
Proof.
  destruct (third_len lm) as [A B]. assert (N : near (third lm : quat f64)) by (split; [exact A |]; rewrite B, Rminus_diag_eq, Rabs_R0 by reflexivity; pose proof (u_pos 53); lra).
  assert (U : uro 53 <= / 9000000000000000) by (unfold uro; cbn; lra).
  destruct (@C132_rotation 53 1024 f64_prec_gt_0 f64_prec_lt_emax lm (third lm) eq_refl N) as (r & g & C1 & _ & C2 & _ & _ & C3).
  exists r, g. do 2 (split; [assumption |]). intros i j Hi Hj. eapply Rle_trans; [apply C3; assumption |]. lra.
Qed.
Example C132_case_many (lm : libm f64) : let l := repeat (third lm) (100 * 100) in exists c h r g, mat_run (quat_to_rotation_matrix (third lm) true) (map (fun p => quat_to_rotation_matrix p true) l) = Ok (Some c) /\ repr4 c h /\
  mat4_inverse c = Ok (Some r) /\ repr4 r g /\ forall i j, (i < 4)%N -> (j < 4)%N -> Rabs (B2R (g i j : f64) - B2R (h i j : f64)) <= / 100000000.
Proof.
  intro l. destruct (third_len lm) as [A B]. assert (N : near (third lm : quat f64)) by (split; [exact A |]; rewrite B, Rminus_diag_eq, Rabs_R0 by reflexivity; pose proof (u_pos 53); lra).
  assert (L : INR (S (length l)) = 10001) by (unfold l; rewrite repeat_length, S_INR, mult_INR; replace (INR 100) with 100 by (rewrite INR_IZR_INZ; reflexivity); ring).
  assert (U : uro 53 <= / 9000000000000000) by (unfold uro; cbn; lra).
  destruct (@C132_course 53 1024 f64_prec_gt_0 f64_prec_lt_emax lm (third lm) l eq_refl N) as (c & h & r & g & C1 & C2 & C3 & _ & C4 & _ & _ & C5).
  - unfold l. apply Forall_forall. intros x Hx. apply repeat_spec in Hx. subst x. exact N.
  - refine (eq_ind_r (fun x => 454 * x * uro 53 <= / 1000) _ L). lra.
  - exists c, h, r, g. do 4 (split; [assumption |]). intros i j Hi Hj. eapply Rle_trans; [apply C5; assumption |]. refine (eq_ind_r (fun x => (1365 * x + 3254) * uro 53 <= / 100000000) _ L). lra.
Qed.
