(** PropertiesRunV.v — C124: vectors under many 4x4 matrices in IEEE arithmetic. *)
From Coq Require Import Reals List ZArith NArith Bool Lra Lia.
From Flocq Require Import Core BinarySingleNaN.
Import ListNotations.
From Verif Require Import Base Num Vec Mat Float FloatFacts SpecMat SpecReal SpecRound SpecRun SpecRunV PMat PRound PIeee2 PRunM PRunV PropertiesInvF PropertiesRun.
Local Open Scope R_scope.

Section RunV.
Context (prec emax : Z) {Hp : Prec_gt_0 prec} {Hm : Prec_lt_emax prec emax} (lm : libm (binary_float prec emax)).
Notation bf := (binary_float prec emax).
Notation F := (@Ieee prec emax Hp Hm lm).
Notation u := (uro prec).
Notation et := (eta prec emax).
Notation val := (@B2R prec emax).
Notation real f := ((fun i j => val (f i j : bf)) : rmat).
Notation realv f := ((fun i => val (f i : bf)) : lvec R).
(** n matrices with absolute row sums up to m, of either layout, one after the other on a vector with components up to V *)
Theorem C124_vector (e : Z) (m V : R) (v : mat4x1 F) (g : lvec F) (l : list (mat4 F)) (gs : list (lmat F)) : (9 < prec)%Z -> (0 <= e)%Z -> (e <= emax - 6)%Z -> 1 <= m <= bpow radix2 e -> 0 <= V ->
  reprc4 v g -> vfin4 (g : lvec bf) -> vmax (realv g) V -> Forall2 (fun (b : mat4 F) (g : lmat F) => repr4 b g /\ mfin4 (g : lmat bf) /\ rows4 (real g) m) l gs ->
  let M := m * (1 + 9 / 2 * u) in let n := length l in M ^ n * (V + 9 / 2 * INR n * et) <= bpow radix2 (emax - 5 - e) ->
  exists w h, vec_run l v = Ok (Some w) /\ reprc4 w h /\ vfin4 (h : lvec bf) /\
    forall i, (i < 4)%N -> Rabs (val (h i) - fold_right rapp (realv g) (map (fun g => real g) gs) i) <= (M ^ n - m ^ n) * V + 9 / 2 * INR n * et * M ^ n.
Proof.
  intros P E0 E1 Hmm PV Rv Fv Bv Hl M n B. destruct (vec_run_ok prec emax lm e m V v g P E0 E1 Hmm PV Rv Fv Bv l gs Hl B) as (w & h & W1 & W2 & W3 & _ & W5). exists w, h. do 3 (split; [assumption |]). exact W5.
Qed.
(** multiplying the matrices first and applying the product once gives nearly the same vector *)
Theorem C124_compose (e e' : Z) (m V : R) (v : mat4x1 F) (g : lvec F) (a : mat4 F) (f : lmat F) (l : list (mat4 F)) (gs : list (lmat F)) : (9 < prec)%Z -> (0 <= e)%Z -> (e <= emax - 6)%Z -> (0 <= e')%Z -> (e' <= emax - 6)%Z -> 1 <= m <= bpow radix2 e -> 0 <= V ->
  reprc4 v g -> vfin4 (g : lvec bf) -> vmax (realv g) V -> Forall2 (fun (b : mat4 F) (g : lmat F) => repr4 b g /\ mfin4 (g : lmat bf) /\ m4_rm b = m4_rm a /\ rows4 (real g) m) (a :: l) (f :: gs) ->
  let M := m * (1 + 9 / 2 * u) in let n := length (a :: l) in let X := M ^ n * (1 + 18 * INR n * et) in
  X <= bpow radix2 (emax - 5 - e) -> M ^ n * (V + 9 / 2 * INR n * et) <= bpow radix2 (emax - 5 - e) -> X <= bpow radix2 e' -> V <= bpow radix2 (emax - 5 - e') ->
  exists c w1 w2 h1 h2, mat_run a l = Ok (Some c) /\ mat4_mul_mat4x1 c v = Ok (Some w1) /\ vec_run (a :: l) v = Ok (Some w2) /\ reprc4 w1 h1 /\ reprc4 w2 h2 /\ vfin4 (h1 : lvec bf) /\ vfin4 (h2 : lvec bf) /\
    forall i, (i < 4)%N -> Rabs (val (h1 i) - val (h2 i)) <= (X * (1 + 9 / 2 * u) + M ^ n - 2 * m ^ n) * V + 9 / 2 * et * (1 + INR n * M ^ n).
Proof. exact (compose_apply prec emax lm e e' m V v g a f l gs). Qed.
End RunV.
Print Assumptions C124_vector.
Print Assumptions C124_compose.

(** a quarter of a turn with a shift in binary64, up to a hundred times, on the point (1,1,1) *)
Example C124_case (lm : libm f64) k : (k <= 99)%nat -> exists c w1 w2, mat_run (zmat lm quarter) (repeat (zmat lm quarter) k) = Ok (Some c) /\
  mat4_mul_mat4x1 c (M4x1 (A4 n1 n1 n1 n1)) = Ok (Some w1) /\ vec_run (repeat (zmat lm quarter) (S k)) (M4x1 (A4 n1 n1 n1 n1)) = Ok (Some w2).
Proof.
  intro Hk. set (Z := zmat lm quarter). set (z := zents lm quarter). assert (Fz : mfin4 (z : lmat f64)) by (intros i j Hi Hj; apply quarter_val; assumption).
  assert (Rz : rows4 (fun i j => B2R (z i j : f64)) 2).
  { intros i Hi. unfold rsum4. rewrite !(fun j Hj => proj2 (quarter_val lm i j Hi Hj)) by reflexivity. cases4 i Hi; cbn [rows16 quarter]; rewrite ?Rabs_R0, ?Rabs_R1, ?(Rabs_left (-1)) by lra; lra. }
  pose proof (@fv_lit_1 53 1024 f64_prec_gt_0 f64_prec_lt_emax) as [O1 O2]. pose proof (u_pos 53). pose proof (u_small 53 eq_refl). pose proof (et_pos 53 1024).
  assert (B0 : (2 * (1 + 9 / 2 * uro 53)) ^ S k <= bpow radix2 200).
  { apply Rle_trans with (bpow radix2 2 ^ S k); [apply pow_incr; change (bpow radix2 2) with 4; lra |]. apply Rle_trans with (bpow radix2 2 ^ 100); [apply Rle_pow; [change (bpow radix2 2) with 4; lra | lia] |]. change (bpow radix2 200) with (bpow radix2 (2 * 100)). cbn -[IZR]. lra. }
  assert (IN : 0 <= INR (S k) <= 100) by (split; [apply pos_INR |]; rewrite (INR_IZR_INZ (S k)); apply IZR_le; lia). assert (E1 : eta 53 1024 <= 1) by (unfold eta; change 1 with (bpow radix2 0); apply bpow_le; lia).
  assert (NE : 0 <= INR (S k) * eta 53 1024 <= 100) by nra. assert (L12 : bpow radix2 12 = 4096) by reflexivity.
  assert (P0 : 0 <= (2 * (1 + 9 / 2 * uro 53)) ^ S k) by (apply pow_le; lra).
  assert (B1 : forall y, 0 <= y <= bpow radix2 12 -> (2 * (1 + 9 / 2 * uro 53)) ^ S k * y <= bpow radix2 212).
  { intros y Hy. apply Rle_trans with (bpow radix2 200 * bpow radix2 12); [apply Rmult_le_compat; [exact P0 | lra | exact B0 | lra] | rewrite <- bpow_plus; apply bpow_le; lia]. }
  assert (S1 : 0 <= 1 + 18 * INR (S k) * eta 53 1024 <= bpow radix2 12) by (rewrite L12; lra). assert (S2 : 0 <= 1 + 9 / 2 * INR (S k) * eta 53 1024 <= bpow radix2 12) by (rewrite L12; lra).
  destruct (@C124_compose 53 1024 f64_prec_gt_0 f64_prec_lt_emax lm 1 212 2 1 (M4x1 (A4 n1 n1 n1 n1)) (fun _ => n1) Z z (repeat Z k) (repeat z k) eq_refl ltac:(lia) ltac:(lia) ltac:(lia) ltac:(lia)) as (c & w1 & w2 & h1 & h2 & C1 & C2 & C3 & _).
  - change (bpow radix2 1) with 2. lra.
  - lra.
  - apply reprc4_iff. intros i Hi. cases4 i Hi; reflexivity.
  - intros i Hi. exact O1.
  - intros i Hi. change (Rabs (B2R (@f_lit 53 1024 f64_prec_gt_0 f64_prec_lt_emax 1 1)) <= 1). rewrite O2, Rabs_R1. lra.
  - change (Z :: repeat Z k) with (repeat Z (S k)). change (z :: repeat z k) with (repeat z (S k)). generalize (S k). intro n. induction n; cbn [repeat]; constructor; [| assumption]. split; [apply zrepr |]. split; [exact Fz |]. split; [reflexivity | exact Rz].
  - cbn [length]. rewrite repeat_length. eapply Rle_trans; [apply B1, S1 | apply bpow_le; lia].
  - cbn [length]. rewrite repeat_length. eapply Rle_trans; [apply B1, S2 | apply bpow_le; lia].
  - cbn [length]. rewrite repeat_length. apply B1, S1.
  - change 1 with (bpow radix2 0). apply bpow_le. lia.
  - exists c, w1, w2. split; [exact C1 |]. split; [exact C2 | exact C3].
Qed.
