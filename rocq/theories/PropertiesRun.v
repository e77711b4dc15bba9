(** PropertiesRun.v — C121: any number of operations on an orientation; C122: running products of matrices, in IEEE arithmetic. *)
From Coq Require Import Reals List ZArith NArith Bool Lra Lia.
From Flocq Require Import Core BinarySingleNaN.
Import ListNotations.
From Verif Require Import Base Num Vec Mat Quat Float FloatFacts SpecMat SpecReal SpecRound SpecGeom SpecQuat SpecBuild SpecFq SpecRun PMat PRound PIeee2 PRun PRunM PropertiesInvF.
Local Open Scope R_scope.

Section Run.
Context (prec emax : Z) {Hp : Prec_gt_0 prec} {Hm : Prec_lt_emax prec emax} (lm : libm (binary_float prec emax)).
Notation bf := (binary_float prec emax).
Notation F := (@Ieee prec emax Hp Hm lm).
Notation u := (uro prec).
Notation et := (eta prec emax).
Notation val := (@B2R prec emax).
Notation vals l := (map (turn_map (fun p : quat F => qval (p : quat bf))) l).
Notation real f := ((fun i j => val (f i j : bf)) : rmat).
(** No run of operations, however long, panics or overflows; the length stays within 9 roundoffs of 1, and the orientation is off by
    at most 37 roundoffs for each operation. *)
Theorem C121_run (l : list (turn (quat F))) (q : quat F) (U : H4) d : (9 < prec)%Z -> near (q : quat bf) -> Forall (turn_all (fun p : quat F => factor (p : quat bf))) l -> hdist (qval (q : quat bf)) U <= d ->
  exists r, turn_run l q = Ok r /\ near (r : quat bf) /\ hdist (qval (r : quat bf)) (fold_left htrack (vals l) U) <= d + INR (length l) * (37 * u).
Proof. exact (run_ok prec emax lm l q U d). Qed.
(** a vector turned by the outcome, against the vector turned by the true product *)
Theorem C121_vector (l : list (turn (quat F))) (q : quat F) (v : mat3x1 F) : (9 < prec)%Z -> near (q : quat bf) -> Forall (turn_all (fun p : quat F => factor (p : quat bf))) l -> fin3 (v : mat3x1 bf) -> norm (v3 (v : mat3x1 bf)) <= bpow radix2 (emax - 8) ->
  exists r, turn_run l q = Ok r /\
    dist (v3 (quat_rotate_vector r v : mat3x1 bf)) (hrot (fold_left htrack (vals l) (hdir (qval (q : quat bf)))) (v3 (v : mat3x1 bf))) <= (76 * INR (length l) + 40) * u * norm (v3 (v : mat3x1 bf)) + 28 * et.
Proof. exact (run_vector prec emax lm l q v). Qed.
(** a vector turned by n quaternions of length 1 up to 9 roundoffs *)
Theorem C121_spin (l : list (quat F)) (v : mat3x1 F) M : (9 < prec)%Z -> Forall (fun q : quat F => near (q : quat bf)) l -> fin3 (v : mat3x1 bf) -> norm (v3 (v : mat3x1 bf)) <= M -> 0 <= M ->
  (M + 28 * INR (length l) * et) * (1 + 38 * u) ^ length l <= bpow radix2 (emax - 8) ->
  fin3 (spin l v : mat3x1 bf) /\ Rabs (norm (v3 (spin l v : mat3x1 bf)) - norm (v3 (v : mat3x1 bf))) <= (M + 28 * INR (length l) * et) * (1 + 38 * u) ^ length l - M.
Proof. exact (spin_length prec emax lm l v M). Qed.
(** n matrices whose rows have absolute sums up to m, either layout: the rows of the product are off by at most M^n - m^n, where
    M = m (1 + 4.5 u), but for underflow.  The limit on M^n is what keeps the entries from overflowing. *)
Theorem C122_product (e : Z) (m : R) (a : mat4 F) (f : lmat F) (l : list (mat4 F)) (gs : list (lmat F)) : (9 < prec)%Z -> (0 <= e)%Z -> (e <= emax - 6)%Z -> 1 <= m <= bpow radix2 e ->
  repr4 a f -> mfin4 (f : lmat bf) -> rows4 (real f) m -> Forall2 (fun (b : mat4 F) (g : lmat F) => repr4 b g /\ mfin4 (g : lmat bf) /\ m4_rm b = m4_rm a /\ rows4 (real g) m) l gs ->
  let M := m * (1 + 9 / 2 * u) in let n := S (length l) in M ^ n * (1 + 18 * INR n * et) <= bpow radix2 (emax - 5 - e) ->
  exists c h, mat_run a l = Ok (Some c) /\ m4_rm c = m4_rm a /\ repr4 c h /\ mfin4 (h : lmat bf) /\
    rows4 (rminus (real h) (fold_left rmul4 (map (fun g => real g) gs) (real f))) (M ^ n - m ^ n + 18 * INR n * et * M ^ n).
Proof.
  intros P E0 E1 Hmm Ra Fa Rf Hl M n B. apply (mat_run_ok prec emax lm e m P E0 E1 Hmm l gs 1 a f (real f) Ra Fa Hl); [rewrite pow_1; exact Rf | | exact B].
  intros i Hi. pose proof (u_pos prec). pose proof (et_pos prec emax). assert (Z : rsum4 (fun j => Rabs (rminus (real f) (real f) i j)) = 0) by (unfold rsum4, rminus; rewrite !Rminus_diag_eq, !Rabs_R0 by reflexivity; ring). rewrite Z. rewrite !pow_1. cbn [INR]. fold M.
  assert (m <= M) by (unfold M; nra). assert (0 <= 18 * 1 * et * M) by (repeat apply Rmult_le_pos; lra). lra.
Qed.
End Run.
Print Assumptions C121_run.
Print Assumptions C121_vector.
Print Assumptions C121_spin.
Print Assumptions C122_product.

(** ---- cases in binary64 ---- *)
Section Case.
  Variable lm : libm f64.
  Notation F := (F64 lm).
  (** a third of a turn about (1,1,1), n times in a row and then undone, for every n *)
  Definition third : quat F := Q (nlit F 1 2) (nlit F 1 2) (nlit F 1 2) (nlit F 1 2).
  Lemma half64 : is_finite (nlit F 1 2 : f64) = true /\ B2R (nlit F 1 2 : f64) = / 2.
  Proof. split; [vm_compute; reflexivity |]. cbn [nlit Ieee F64]. rewrite <- SF2R_B2SF. assert (E : B2SF (@f_lit 53 1024 f64_prec_gt_0 f64_prec_lt_emax 1 2) = SpecFloat.S754_finite false 4503599627370496 (-53)) by (vm_compute; reflexivity). rewrite E. unfold SF2R, F2R. cbn. lra. Qed.
  Lemma third_len : qfin (third : quat f64) /\ hlen (qval (third : quat f64)) = 1.
  Proof. destruct half64 as [A B]. split; [repeat split; exact A |]. unfold hlen, hdot, vdot, qval, third. cbn [qx qy qz qw hv hs vx vy vz]. rewrite B. replace (/ 2 * / 2 + / 2 * / 2 + / 2 * / 2 + / 2 * / 2) with 1 by field. apply sqrt_1. Qed.
  Example C121_case n : exists r, turn_run (repeat (Lead third) n ++ [Undo]) third = Ok r /\ near (r : quat f64).
  Proof.
    destruct third_len as [A B]. assert (N : near (third : quat f64)) by (split; [exact A |]; rewrite B, Rminus_diag_eq, Rabs_R0 by reflexivity; pose proof (u_pos 53); lra).
    destruct (@C121_run 53 1024 f64_prec_gt_0 f64_prec_lt_emax lm (repeat (Lead third) n ++ [Undo]) third hone (hdist (qval (third : quat f64)) hone) eq_refl N) as (r & R1 & R2 & _); [| apply Rle_refl |].
    - apply Forall_app. split; [apply Forall_forall; intros o Ho; apply repeat_spec in Ho; subst o; split; [exact A |]; rewrite B; lra | repeat constructor].
    - exists r. split; assumption.
  Qed.
  (** a quarter of a turn about z with a shift, as a matrix, up to a hundred times *)
  Definition quarter : arr16 Z := (A16 0 (-1) 0 1 1 0 0 1 0 0 1 0 0 0 0 1)%Z.
  Lemma quarter_val i j : (i < 4)%N -> (j < 4)%N -> is_finite (zents lm quarter i j : f64) = true /\ B2R (zents lm quarter i j : f64) = IZR (rows16 quarter i j).
  Proof.
    assert (M1 : is_finite (nlit F (-1) 1 : f64) = true /\ B2R (nlit F (-1) 1 : f64) = -1).
    { split; [vm_compute; reflexivity |]. cbn [nlit Ieee F64]. rewrite <- SF2R_B2SF. assert (E : B2SF (@f_lit 53 1024 f64_prec_gt_0 f64_prec_lt_emax (-1) 1) = SpecFloat.S754_finite true 4503599627370496 (-52)) by (vm_compute; reflexivity). rewrite E. unfold SF2R, F2R. cbn. lra. }
    intros Hi Hj. unfold zents. cases4 i Hi; cases4 j Hj; cbn [rows16 quarter]; first [exact (fv_lit_0 53 1024) | exact (fv_lit_1 53 1024) | exact M1].
  Qed.
  Example C122_case n : (n <= 100)%nat -> exists c, mat_run (zmat lm quarter) (repeat (zmat lm quarter) n) = Ok (Some c).
  Proof.
    intro Hn. set (Z := zmat lm quarter). set (z := zents lm quarter). assert (Fz : mfin4 (z : lmat f64)) by (intros i j Hi Hj; apply quarter_val; assumption).
    assert (Rz : rows4 (fun i j => B2R (z i j : f64)) 2).
    { intros i Hi. unfold rsum4. rewrite !(fun j Hj => proj2 (quarter_val i j Hi Hj)) by reflexivity. cases4 i Hi; cbn [rows16 quarter]; rewrite ?Rabs_R0, ?Rabs_R1, ?(Rabs_left (-1)) by lra; lra. }
    destruct (@C122_product 53 1024 f64_prec_gt_0 f64_prec_lt_emax lm 1 2 Z z (repeat Z n) (repeat z n) eq_refl ltac:(lia) ltac:(lia)) as (c & h & C & _); [change (bpow radix2 1) with 2; lra | apply zrepr | exact Fz | exact Rz | | | exists c; exact C].
    - clear Hn. induction n; cbn [repeat]; constructor; [| assumption]. split; [apply zrepr |]. split; [exact Fz |]. split; [reflexivity | exact Rz].
    - rewrite repeat_length. change (1024 - 5 - 1)%Z with 1018%Z. pose proof (u_pos 53). pose proof (u_small 53 eq_refl). pose proof (et_pos 53 1024).
      assert (B1 : (2 * (1 + 9 / 2 * uro 53)) ^ S n <= bpow radix2 202).
      { apply Rle_trans with (bpow radix2 2 ^ S n); [apply pow_incr; change (bpow radix2 2) with 4; lra |]. apply Rle_trans with (bpow radix2 2 ^ 101); [apply Rle_pow; [change (bpow radix2 2) with 4; lra | lia] |]. change (bpow radix2 202) with (bpow radix2 (2 * 101)). cbn -[IZR]. lra. }
      assert (B2 : 1 + 18 * INR (S n) * eta 53 1024 <= bpow radix2 12).
      { assert (INR (S n) <= 101) by (rewrite (INR_IZR_INZ (S n)); apply IZR_le; lia). assert (eta 53 1024 <= 1) by (unfold eta; change 1 with (bpow radix2 0); apply bpow_le; lia). assert (0 <= INR (S n)) by apply pos_INR. change (bpow radix2 12) with 4096. nra. }
      apply Rle_trans with (bpow radix2 202 * bpow radix2 12); [apply Rmult_le_compat; [apply pow_le; lra | | exact B1 | exact B2] | rewrite <- bpow_plus; apply bpow_le; lia].
      assert (0 <= INR (S n)) by apply pos_INR. assert (0 <= 18 * INR (S n) * eta 53 1024) by (repeat apply Rmult_le_pos; lra). lra.
  Qed.
End Case.
