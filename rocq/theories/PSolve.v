(** PSolve.v — linear systems with Mat4::inverse in IEEE arithmetic (C139). *)
From Coq Require Import Reals List ZArith NArith Bool Lra Lia Psatz.
From Flocq Require Import Core BinarySingleNaN.
Import ListNotations.
From Verif Require Import Base Num Vec Mat Float SpecMat SpecReal SpecRound SpecRun SpecRunV PMat PMat2 PMat3 PRound PIeee2 PIeee3 PInvF PRunM PRunV.
Local Open Scope R_scope.

(** a left inverse finds the solution *)
Lemma left_solve (H A : rmat) (y b : lvec R) i : lmat_eq 4 (rmul4 H A) riden -> (forall k, (k < 4)%N -> rapp A y k = b k) -> (i < 4)%N -> rapp H b i = y i.
Proof.
  intros HA E Hi. transitivity (rapp H (rapp A y) i). { apply rapp_vext. intros k Hk. symmetry. apply E, Hk. }
  rewrite <- rapp_mul. rewrite (rapp_ext _ riden y i) by (intros k Hk; apply HA; assumption). unfold rapp, rsum4, riden. cases4 i Hi; cbn [N.eqb Pos.eqb]; ring.
Qed.

Lemma left_trans (f h : rmat) : lmat_eq 4 (rmul4 f h) riden -> lmat_eq 4 (rmul4 (fun i j => h j i) (fun i j => f j i)) riden.
Proof.
  intros H i j Hi Hj. transitivity (rmul4 f h j i). { unfold rmul4, rsum4. ring. }
  rewrite (H j i Hj Hi). unfold riden. rewrite N.eqb_sym. reflexivity.
Qed.
Lemma solve_det (prec emax : Z) K D : 1 <= K -> 423 * uro prec * (K * K * K * K) <= Rabs D -> D <> 0.
Proof.
  intros K1 H Z. rewrite Z, Rabs_R0 in H. assert (0 < uro prec) by apply bpow_gt_0. assert (0 < 423 * uro prec * (K * K * K * K)) by (repeat apply Rmult_lt_0_compat; lra). lra.
Qed.

Section PSolve.
  Context (prec emax : Z) {Hp : Prec_gt_0 prec} {Hm : Prec_lt_emax prec emax} (lm : libm (binary_float prec emax)).
  Notation bf := (binary_float prec emax).
  Notation F := (@Ieee prec emax Hp Hm lm).
  Notation u := (uro prec).
  Notation et := (eta prec emax).
  Notation val := (@B2R prec emax).
  Notation real f := ((fun i j => val (f i j : bf)) : rmat).
  Notation realv f := ((fun i => val (f i : bf)) : lvec R).
  Notation vfin4 := (@vfin4 prec emax).
  Lemma near_solve (a : mat4 F) (G : lmat F) (H A : rmat) (v : mat4x1 F) (b : lvec F) e S V dl : (9 < prec)%Z -> (0 <= e <= emax - 6)%Z -> repr4 a G -> (forall i j, (i < 4)%N -> (j < 4)%N -> is_finite (G i j : bf) = true /\ Rabs (val (G i j : bf) - H i j) <= dl) -> rows4 H S -> lmat_eq 4 (rmul4 H A) riden ->
    reprc4 v b -> vfin4 b -> vmax (realv b) V -> S + 4 * dl <= bpow radix2 e -> V <= bpow radix2 (emax - 5 - e) ->
    exists x h, mat4_mul_mat4x1 a v = Ok (Some x) /\ reprc4 x h /\ vfin4 h /\ forall y : lvec R, (forall k, (k < 4)%N -> rapp A y k = realv b k) -> forall i, (i < 4)%N -> Rabs (val (h i : bf) - y i) <= 4 * dl * V + 9 / 2 * u * ((S + 4 * dl) * V) + 9 / 2 * et.
  Proof.
    intros P [E0 E1] Ra HG HS HA Rv Fb BV B1 B2. assert (HP : (0 < prec)%Z) by exact Hp. assert (HM : (prec < emax)%Z) by exact Hm.
    assert (V0 : 0 <= V) by (eapply Rle_trans; [apply Rabs_pos | apply (BV 0%N eq_refl)]). assert (d0 : 0 <= dl) by (eapply Rle_trans; [apply Rabs_pos | apply (HG 0%N 0%N eq_refl eq_refl)]).
    assert (S0 : 0 <= S) by (eapply Rle_trans; [apply Rabs_pos | apply (rows_entry H S 0%N 0%N eq_refl eq_refl HS)]).
    assert (RD : rows4 (rminus (real G) H) (4 * dl)). { intros i Hi. unfold rsum4, rminus. pose proof (proj2 (HG i 0%N Hi eq_refl)). pose proof (proj2 (HG i 1%N Hi eq_refl)). pose proof (proj2 (HG i 2%N Hi eq_refl)). pose proof (proj2 (HG i 3%N Hi eq_refl)). cbv beta. lra. }
    pose proof (rows_near (real G) H S (4 * dl) HS RD) as RG.
    destruct (vec_step prec emax lm a v G b e (S + 4 * dl) V P ltac:(lia) E1 Ra Rv (fun i j Hi Hj => proj1 (HG i j Hi Hj)) Fb ltac:(lra) V0 B1 B2 RG BV) as (x & h & Q1 & Q2 & Q3 & Q4).
    exists x, h. split; [exact Q1 |]. split; [exact Q2 |]. split; [exact Q3 |]. intros y Hy i Hi. rewrite <- (left_solve H A y (realv b) i HA Hy Hi).
    pose proof (Q4 i Hi) as W1. pose proof (rapp_max _ _ _ _ RD BV V0 i Hi) as W2. replace (val (h i : bf) - rapp H (realv b) i) with ((val (h i : bf) - rapp (real G) (realv b) i) + rapp (rminus (real G) H) (realv b) i) by (unfold rapp, rsum4, rminus; ring).
    eapply Rle_trans; [apply Rabs_triang |]. lra.
  Qed.
End PSolve.
