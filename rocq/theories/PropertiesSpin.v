(** PropertiesSpin.v — C128: an orientation kept as a matrix and as a quaternion, in IEEE arithmetic. *)
From Coq Require Import Reals List ZArith NArith Bool Lra Lia.
From Flocq Require Import Core BinarySingleNaN.
Import ListNotations.
From Verif Require Import Base Num Vec Mat Quat Float FloatFacts SpecMat SpecReal SpecRound SpecGeom SpecQuat SpecBuild SpecFq SpecRun SpecRotM SpecSpin PMat PRound PIeee2 PRun PSpinM PropertiesRun.
Local Open Scope R_scope.

Section Spin.
Context (prec emax : Z) {Hp : Prec_gt_0 prec} {Hm : Prec_lt_emax prec emax} (lm : libm (binary_float prec emax)).
Notation bf := (binary_float prec emax).
Notation F := (@Ieee prec emax Hp Hm lm).
Notation u := (uro prec).
Notation val := (@B2R prec emax).
Notation real f := ((fun i j => val (f i j : bf)) : rmat).
Notation hq q := (qval (q : quat bf)).
Notation rot q := (quat_to_rotation_matrix (q : quat F) true).
(** The product of the matrices of q and of n further quaternions, all of length 1 up to 9 roundoffs, accumulated from the left:
    it is computed without overflow; its rows are within E = (1 + 227 u)^(n+1) - 1 of those of the true rotation, so they are orthonormal up to
    2 E + E^2; and its entries are within E + (74 n + 88) u of the matrix of the quaternion that went through the same turns. *)
Theorem C128_both (q : quat F) (l : list (quat F)) : (9 < prec)%Z -> near (q : quat bf) -> Forall (fun p : quat F => near (p : quat bf)) l ->
  let n := length l in let E := (1 + 227 * u) ^ S n - 1 in E <= bpow radix2 (emax - 8) ->
  exists c h r, mat_run (rot q) (map (fun p : quat F => rot p) l) = Ok (Some c) /\ m4_rm c = true /\ repr4 c h /\ mfin4 (h : lmat bf) /\
  rows_within E (real h) (hmat (course (hq q) (map (fun p : quat F => hq p) l))) /\
  (forall i j, (i < 4)%N -> (j < 4)%N -> Rabs (rsum4 (fun k => val (h i k : bf) * val (h j k : bf)) - riden i j) <= 2 * E + E * E) /\
  turn_run (map Trail l) q = Ok r /\ near (r : quat bf) /\
  (forall i j, (i < 4)%N -> (j < 4)%N -> Rabs (val (h i j : bf) - val (log4 (rot r) i j)) <= E + (74 * INR n + 88) * u).
Proof. exact (spin_both prec emax lm q l). Qed.
Lemma pow_linear x n : 0 <= x -> INR n * x <= / 2 -> (1 + x) ^ n <= 1 + 2 * INR n * x.
Proof.
  intros X. induction n as [| n IH]; intro B; [cbn; lra |]. rewrite S_INR in *. pose proof (pos_INR n) as N0. assert (A : INR n * x <= / 2) by lra. specialize (IH A). cbn [pow].
  apply Rle_trans with ((1 + x) * (1 + 2 * INR n * x)); [apply Rmult_le_compat_l; lra |]. assert (0 <= INR n * x) by (apply Rmult_le_pos; lra). nra.
Qed.
(** While 227 (n + 1) u is at most 1/2 (in binary64: 19 million million turns) the two drift apart by at most 542 (n + 1) roundoffs. *)
Theorem C128_linear (q : quat F) (l : list (quat F)) : (9 < prec)%Z -> near (q : quat bf) -> Forall (fun p : quat F => near (p : quat bf)) l ->
  let n := INR (S (length l)) in n * (227 * u) <= / 2 ->
  exists c h r, mat_run (rot q) (map (fun p : quat F => rot p) l) = Ok (Some c) /\ repr4 c h /\ mfin4 (h : lmat bf) /\ turn_run (map Trail l) q = Ok r /\
  (forall i j, (i < 4)%N -> (j < 4)%N -> Rabs (val (h i j : bf) - hmat (course (hq q) (map (fun p : quat F => hq p) l)) i j) <= 454 * n * u) /\
  (forall i j, (i < 4)%N -> (j < 4)%N -> Rabs (val (h i j : bf) - val (log4 (rot r) i j)) <= 542 * n * u).
Proof.
  intros P Nq Nl n B. pose proof (u_pos prec) as U0. pose proof (u_small prec P) as U1. pose proof (pow_linear (227 * u) (S (length l)) ltac:(lra) B) as L. fold n in L. assert (HP : (0 < prec)%Z) by exact Hp. assert (HE : (prec < emax)%Z) by exact Hm.
  destruct (C128_both q l P Nq Nl) as (c & h & r & C1 & C2 & C3 & C4 & C5 & _ & C6 & C7 & C8).
  { apply Rle_trans with 1; [lra |]. change 1 with (bpow radix2 0). apply bpow_le. lia. }
  exists c, h, r. do 4 (split; [assumption |]). split.
  - intros i j Hi Hj. pose proof (row_entry (rminus (real h) (hmat (course (hq q) (map (fun p : quat F => hq p) l)))) i j Hj) as K. unfold rminus in K at 1. specialize (C5 i Hi). lra.
  - intros i j Hi Hj. specialize (C8 i j Hi Hj). unfold n in *. rewrite S_INR in *. pose proof (pos_INR (length l)). assert (0 <= INR (length l) * u) by (apply Rmult_le_pos; lra). lra.
Qed.
End Spin.
Print Assumptions C128_both.
Print Assumptions C128_linear.

(** ---- a third of a turn in binary64, ten thousand times ---- *)
Example C128_case (lm : libm f64) : let l := repeat (third lm) (100 * 100) in exists c h r, mat_run (quat_to_rotation_matrix (third lm) true) (map (fun p => quat_to_rotation_matrix p true) l) = Ok (Some c) /\ repr4 c h /\
  turn_run (map Trail l) (third lm) = Ok r /\ forall i j, (i < 4)%N -> (j < 4)%N -> Rabs (B2R (h i j : f64) - B2R (log4 (quat_to_rotation_matrix r true) i j : f64)) <= / 1000000000.
Proof.
  intro l. destruct (third_len lm) as [A B]. assert (N : near (third lm : quat f64)) by (split; [exact A |]; rewrite B, Rminus_diag_eq, Rabs_R0 by reflexivity; pose proof (u_pos 53); lra).
  assert (L : INR (S (length l)) = 10001) by (unfold l; rewrite repeat_length, S_INR, mult_INR; replace (INR 100) with 100 by (rewrite INR_IZR_INZ; reflexivity); ring).
  assert (U : uro 53 <= / 9000000000000000) by (unfold uro; cbn; lra).
  destruct (@C128_linear 53 1024 f64_prec_gt_0 f64_prec_lt_emax lm (third lm) l eq_refl N) as (c & h & r & C1 & C2 & _ & C3 & _ & C4).
  - unfold l. apply Forall_forall. intros x Hx. apply repeat_spec in Hx. subst x. exact N.
  - refine (eq_ind_r (fun x => x * (227 * uro 53) <= / 2) _ L). lra.
  - exists c, h, r. do 3 (split; [assumption |]). intros i j Hi Hj. eapply Rle_trans; [apply C4; assumption |]. refine (eq_ind_r (fun x => 542 * x * uro 53 <= / 1000000000) _ L). lra.
Qed.
