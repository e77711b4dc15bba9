(** PropertiesSolve.v — linear systems with Mat4::inverse in IEEE arithmetic (C139), and nothing else.  u = 2^-prec, eta half
    the smallest positive number, K a bound on the absolute values of the entries, D the exact determinant, V a bound on the
    right-hand side, S on the row sums of the absolute values of the exact inverse. *)
From Coq Require Import Reals List ZArith NArith Bool Lra Lia Psatz.
From Flocq Require Import Core BinarySingleNaN.
Import ListNotations.
From Verif Require Import Base Num Vec Mat Float SpecMat SpecReal SpecRound SpecRun SpecRunV FloatFacts PMat PMat2 PMat3 PInvF PSolve PropertiesGjk2 PropertiesInvF.
Local Open Scope R_scope.

Section Solve.
Context (prec emax : Z) {Hp : Prec_gt_0 prec} {Hm : Prec_lt_emax prec emax} (lm : libm (binary_float prec emax)).
Notation bf := (binary_float prec emax).
Notation F := (@Ieee prec emax Hp Hm lm).
Notation val := (@B2R prec emax).
Notation u := (uro prec).
Notation et := (eta prec emax).
Notation within_K K f := (forall i j, (i < 4)%N -> (j < 4)%N -> is_finite (f i j : bf) = true /\ Rabs (val (f i j)) <= K).
Notation real f := ((fun i j => val (f i j : bf)) : rmat).
Notation realv f := ((fun i => val (f i : bf)) : lvec R).
(** the error of an entry of the inverse (C94) and of a component of the solution *)
Notation ierr K D := (u * (91 * (K * K * K) / Rabs D + 2534 * (K * K * K) * (K * K * K * K) / (D * D)) + et).
Notation serr d S V := (4 * d * V + 9 / 2 * u * ((S + 4 * d) * V) + 9 / 2 * et).
(** the transposed result of [inverse], applied to b, solves f y = b *)
Theorem C139_solve (m : mat4 F) (f : lmat F) (v : mat4x1 F) (b : lvec F) (e : Z) (K S V : R) : (9 < prec)%Z -> repr4 m f -> within_K K f -> 1 <= K -> 128 * (K * K * K * K) <= bpow radix2 emax ->
  let D := rdet4 (real f) in 423 * u * (K * K * K * K) <= Rabs D -> let H : rmat := fun i j => radj4 (real f) i j / D in rows4 H S ->
  reprc4 v b -> vfin4 (b : lvec bf) -> vmax (realv b) V -> (0 <= e <= emax - 6)%Z -> let d := ierr K D in S + 4 * d <= bpow radix2 e -> V <= bpow radix2 (emax - 5 - e) ->
  exists r t x h, mat4_inverse m = Ok (Some r) /\ mat4_transpose r = Ok t /\ mat4_mul_mat4x1 t v = Ok (Some x) /\ reprc4 x h /\ vfin4 (h : lvec bf) /\
    forall y : lvec R, (forall k, (k < 4)%N -> rapp (real f) y k = realv b k) -> forall i, (i < 4)%N -> Rabs (val (h i) - y i) <= serr d S V.
Proof.
  intros P Hr Hf K1 KB D HD H HS Rv Fb BV E d B1 B2. assert (D0 : D <> 0) by exact (solve_det prec emax K D K1 HD).
  destruct (C94_inverse prec emax lm m f K P Hr Hf K1 KB HD) as (r & g & Q1 & _ & Q2 & Q3). destruct (transpose4_repr r g Q2) as (t & T1 & _ & T2).
  destruct (near_solve prec emax lm t (ltrans g) H (real f) v b e S V d P E T2 (fun i j Hi Hj => Q3 j i Hj Hi) HS (proj2 (radj4_inverse (real f) D0)) Rv Fb BV B1 B2) as (x & h & X1 & X2 & X3 & X4).
  exists r, t, x, h. repeat (split; [assumption |]). exact X4.
Qed.
(** the result of [inverse] as it is solves the transposed system; S bounds the column sums *)
Theorem C139_transposed (m : mat4 F) (f : lmat F) (v : mat4x1 F) (b : lvec F) (e : Z) (K S V : R) : (9 < prec)%Z -> repr4 m f -> within_K K f -> 1 <= K -> 128 * (K * K * K * K) <= bpow radix2 emax ->
  let D := rdet4 (real f) in 423 * u * (K * K * K * K) <= Rabs D -> let H : rmat := fun i j => radj4 (real f) j i / D in rows4 H S ->
  reprc4 v b -> vfin4 (b : lvec bf) -> vmax (realv b) V -> (0 <= e <= emax - 6)%Z -> let d := ierr K D in S + 4 * d <= bpow radix2 e -> V <= bpow radix2 (emax - 5 - e) ->
  exists r x h, mat4_inverse m = Ok (Some r) /\ mat4_mul_mat4x1 r v = Ok (Some x) /\ reprc4 x h /\ vfin4 (h : lvec bf) /\
    forall y : lvec R, (forall k, (k < 4)%N -> rapp (fun i j => real f j i) y k = realv b k) -> forall i, (i < 4)%N -> Rabs (val (h i) - y i) <= serr d S V.
Proof.
  intros P Hr Hf K1 KB D HD H HS Rv Fb BV E d B1 B2. assert (D0 : D <> 0) by exact (solve_det prec emax K D K1 HD).
  destruct (C94_inverse prec emax lm m f K P Hr Hf K1 KB HD) as (r & g & Q1 & _ & Q2 & Q3).
  destruct (near_solve prec emax lm r g H (fun i j => real f j i) v b e S V d P E Q2 Q3 HS (left_trans _ _ (proj1 (radj4_inverse (real f) D0))) Rv Fb BV B1 B2) as (x & h & X1 & X2 & X3 & X4).
  exists r, x, h. repeat (split; [assumption |]). exact X4.
Qed.
End Solve.
Print Assumptions C139_solve.
Print Assumptions C139_transposed.

(** the matrix of C94_case, 2a + d = 2, b = 1, c = 1, a + d = 1, in f64: the computed solution is near (1,1,1,0) *)
Section SolveCase.
  Variable lm : libm f64.
  Notation F := (F64 lm).
  Notation val := (@B2R 53 1024).
  Definition good_inv : arr16 Z := (A16 1 0 0 (-1) 0 1 0 0 0 0 1 0 (-1) 0 0 2)%Z.
  Definition rhs : mat4x1 F := M4x1 (A4 (nlit F 2 1) (nlit F 1 1) (nlit F 1 1) (nlit F 1 1)).
  Definition rhs_f : lvec F := fun i => if (i =? 0)%N then nlit F 2 1 else nlit F 1 1.
  Lemma rhs_val i : is_finite (rhs_f i : f64) = true /\ val (rhs_f i : f64) = if (i =? 0)%N then 2 else 1.
  Proof. unfold rhs_f. destruct (i =? 0)%N; [exact (@fv_lit_2 53 1024 f64_prec_gt_0 f64_prec_lt_emax) | exact (@fv_lit_1 53 1024 f64_prec_gt_0 f64_prec_lt_emax)]. Qed.
  Lemma good_adj i j : (i < 4)%N -> (j < 4)%N -> radj4 (fun i j => val (zents lm good i j : f64)) i j / 1 = IZR (rows16 good_inv i j).
  Proof.
    intros Hi Hj. cases4 i Hi; cases4 j Hj; unfold radj4, sgn, rdet3, rdet2, minor, minor2, skip; cbn [N.ltb N.even N.compare Pos.compare Pos.compare_cont N.add Pos.add Pos.succ];
      rewrite !(fun i j Hi Hj => proj2 (good_val lm i j Hi Hj)) by reflexivity; cbn [rows16 good good_inv]; lra.
  Qed.
  Example C139_case : exists r t x h, mat4_inverse (zmat lm good) = Ok (Some r) /\ mat4_transpose r = Ok t /\ mat4_mul_mat4x1 t rhs = Ok (Some x) /\ reprc4 x h /\
    Rabs (val (h 0%N : f64) - 1) <= / 100000000 /\ Rabs (val (h 3%N : f64) - 0) <= / 100000000.
  Proof.
    destruct (C94_case lm) as (Q1 & Q2 & Q3 & Q4 & Q5).
    assert (U : 0 < uro 53 <= / 9007199254740992) by (unfold uro; cbn; lra).
    assert (T : 0 < eta 53 1024 <= / 9007199254740992). { split; [apply bpow_gt_0 |]. apply Rle_trans with (bpow radix2 (-53)); [apply bpow_le; lia | cbn; lra]. }
    assert (B : 0 <= uro 53 * (91 * (2 * 2 * 2) / Rabs 1 + 2534 * (2 * 2 * 2) * (2 * 2 * 2 * 2) / (1 * 1)) + eta 53 1024 <= / 100000000 / 64). { rewrite Rabs_R1. lra. }
    destruct (@C139_solve 53 1024 f64_prec_gt_0 f64_prec_lt_emax lm (zmat lm good) (zents lm good) rhs rhs_f 3 2 3 2 eq_refl Q1 Q2 ltac:(lra) Q3) as (r & t & x & h & X1 & X2 & X3 & X4 & _ & X5).
    - rewrite Q4. exact Q5.
    - intros i Hi. rewrite Q4. unfold rsum4. rewrite !good_adj by (exact Hi || reflexivity). cases4 i Hi; cbn [rows16 good_inv]; unfold Rabs; repeat destruct (Rcase_abs _); lra.
    - intros i Hi. cases4 i Hi; reflexivity.
    - intros i Hi. apply rhs_val.
    - intros i Hi. rewrite (proj2 (rhs_val i)). apply Rabs_le. destruct (i =? 0)%N; lra.
    - lia.
    - rewrite Q4. change (bpow radix2 3) with 8. lra.
    - apply Rle_trans with (bpow radix2 1); [cbn; lra | apply bpow_le; lia].
    - exists r, t, x, h. repeat (split; [assumption |]). rewrite Q4 in X5.
      assert (Y : forall k, (k < 4)%N -> rapp (fun i j => val (zents lm good i j : f64)) (fun i => if (i =? 3)%N then 0 else 1) k = val (rhs_f k : f64)).
      { intros k Hk. rewrite (proj2 (rhs_val k)). unfold rapp, rsum4. rewrite !(fun j Hj => proj2 (good_val lm k j Hk Hj)) by reflexivity. cases4 k Hk; cbn [rows16 good N.eqb Pos.eqb]; lra. }
      pose proof (X5 _ Y 0%N eq_refl) as Z0. pose proof (X5 _ Y 3%N eq_refl) as Z3. cbn [N.eqb Pos.eqb] in Z0, Z3.
      set (d := uro 53 * (91 * (2 * 2 * 2) / Rabs 1 + 2534 * (2 * 2 * 2) * (2 * 2 * 2 * 2) / (1 * 1)) + eta 53 1024) in *.
      assert (4 * d * 2 + 9 / 2 * uro 53 * ((3 + 4 * d) * 2) + 9 / 2 * eta 53 1024 <= / 100000000) by (assert (uro 53 * d <= 1 * d) by (apply Rmult_le_compat_r; lra); nra).
      split; lra.
  Qed.
End SolveCase.
