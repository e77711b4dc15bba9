(** PropertiesRound.v — C65 (rounding errors of products) and C71 (rounding errors of magnitudes and normalised vectors)
    and nothing else.  Every IEEE format; "no overflow" is the hypothesis that the computed result is finite. *)
From Coq Require Import Reals List ZArith NArith Bool Lra Lia.
From Flocq Require Import Core BinarySingleNaN.
Import ListNotations.
From Verif Require Import Base Num Vec Mat Quat Float Exact SpecMat SpecRound FloatFacts PMat PVec PRound3 PropertiesMat.
Local Open Scope R_scope.

(** ---- C65 ---- *)
(** all six vector types *)
Theorem C65_dot prec emax {Hp : Prec_gt_0 prec} {Hm : Prec_lt_emax prec emax} lm k
  (a b : vcar (@Ieee prec emax Hp Hm lm) k) (t : @Ieee prec emax Hp Hm lm) :
  let val := @B2R prec emax in
  vec_dot a b = Some t -> is_finite (t : binary_float prec emax) = true ->
  Rabs (val t - ldot (map val (vcomps a)) (map val (vcomps b)))
    <= err prec emax (vlen k) (ldot (map Rabs (map val (vcomps a))) (map Rabs (map val (vcomps b)))).
Proof. exact (vec_dot_err prec emax lm k a b t). Qed.
Print Assumptions C65_dot.
Theorem C65_cross prec emax {Hp : Prec_gt_0 prec} {Hm : Prec_lt_emax prec emax} lm (a0 a1 a2 b0 b1 b2 c0 c1 c2 : @Ieee prec emax Hp Hm lm) :
  let val := @B2R prec emax in let fin (x : binary_float prec emax) := is_finite x = true in let er := err prec emax 2 in
  mat3x1_cross (M3x1 (A3 a0 a1 a2)) (M3x1 (A3 b0 b1 b2)) = Some (M3x1 (A3 c0 c1 c2)) ->
  (fin c0 -> Rabs (val c0 - (val a1 * val b2 - val a2 * val b1)) <= er (Rabs (val a1 * val b2) + Rabs (val a2 * val b1))) /\
  (fin c1 -> Rabs (val c1 - (val a2 * val b0 - val a0 * val b2)) <= er (Rabs (val a2 * val b0) + Rabs (val a0 * val b2))) /\
  (fin c2 -> Rabs (val c2 - (val a0 * val b1 - val a1 * val b0)) <= er (Rabs (val a0 * val b1) + Rabs (val a1 * val b0))).
Proof. exact (cross_err prec emax lm a0 a1 a2 b0 b1 b2 c0 c1 c2). Qed.
Print Assumptions C65_cross.
(** matrix products, either layout *)
Theorem C65_mul3 prec emax {Hp : Prec_gt_0 prec} {Hm : Prec_lt_emax prec emax} lm (a b : mat3 (@Ieee prec emax Hp Hm lm)) f g :
  let val := @B2R prec emax in
  m3_rm a = m3_rm b -> repr3 a f -> repr3 b g ->
  exists r h, mat3_mul a b = Ok (Some r) /\ repr3 r h /\
    forall i j, (i < 3)%N -> (j < 3)%N -> is_finite (h i j : binary_float prec emax) = true ->
      Rabs (val (h i j) - (val (f i 0%N) * val (g 0%N j) + val (f i 1%N) * val (g 1%N j) + val (f i 2%N) * val (g 2%N j)))
      <= err prec emax 3 (Rabs (val (f i 0%N) * val (g 0%N j)) + Rabs (val (f i 1%N) * val (g 1%N j)) + Rabs (val (f i 2%N) * val (g 2%N j))).
Proof. exact (mul3_err prec emax lm a b f g). Qed.
Print Assumptions C65_mul3.
Theorem C65_mul4 prec emax {Hp : Prec_gt_0 prec} {Hm : Prec_lt_emax prec emax} lm (a b : mat4 (@Ieee prec emax Hp Hm lm)) f g :
  let val := @B2R prec emax in
  m4_rm a = m4_rm b -> repr4 a f -> repr4 b g ->
  exists r h, mat4_mul a b = Ok (Some r) /\ repr4 r h /\
    forall i j, (i < 4)%N -> (j < 4)%N -> is_finite (h i j : binary_float prec emax) = true ->
      Rabs (val (h i j) - (val (f i 0%N) * val (g 0%N j) + val (f i 1%N) * val (g 1%N j) + val (f i 2%N) * val (g 2%N j) + val (f i 3%N) * val (g 3%N j)))
      <= err prec emax 4 (Rabs (val (f i 0%N) * val (g 0%N j)) + Rabs (val (f i 1%N) * val (g 1%N j)) + Rabs (val (f i 2%N) * val (g 2%N j)) + Rabs (val (f i 3%N) * val (g 3%N j))).
Proof. exact (mul4_err prec emax lm a b f g). Qed.
Print Assumptions C65_mul4.
Theorem C65_mulv3 prec emax {Hp : Prec_gt_0 prec} {Hm : Prec_lt_emax prec emax} lm (a : mat3 (@Ieee prec emax Hp Hm lm)) (v : mat3x1 (@Ieee prec emax Hp Hm lm)) f p :
  let val := @B2R prec emax in
  repr3 a f -> reprc3 v p ->
  exists r h, mat3_mul_mat3x1 a v = Ok (Some r) /\ reprc3 r h /\
    forall i, (i < 3)%N -> is_finite (h i : binary_float prec emax) = true ->
      Rabs (val (h i) - (val (f i 0%N) * val (p 0%N) + val (f i 1%N) * val (p 1%N) + val (f i 2%N) * val (p 2%N)))
      <= err prec emax 3 (Rabs (val (f i 0%N) * val (p 0%N)) + Rabs (val (f i 1%N) * val (p 1%N)) + Rabs (val (f i 2%N) * val (p 2%N))).
Proof. exact (mulv3_err prec emax lm a v f p). Qed.
Print Assumptions C65_mulv3.
Theorem C65_mulv4 prec emax {Hp : Prec_gt_0 prec} {Hm : Prec_lt_emax prec emax} lm (a : mat4 (@Ieee prec emax Hp Hm lm)) (v : mat4x1 (@Ieee prec emax Hp Hm lm)) f p :
  let val := @B2R prec emax in
  repr4 a f -> reprc4 v p ->
  exists r h, mat4_mul_mat4x1 a v = Ok (Some r) /\ reprc4 r h /\
    forall i, (i < 4)%N -> is_finite (h i : binary_float prec emax) = true ->
      Rabs (val (h i) - (val (f i 0%N) * val (p 0%N) + val (f i 1%N) * val (p 1%N) + val (f i 2%N) * val (p 2%N) + val (f i 3%N) * val (p 3%N)))
      <= err prec emax 4 (Rabs (val (f i 0%N) * val (p 0%N)) + Rabs (val (f i 1%N) * val (p 1%N)) + Rabs (val (f i 2%N) * val (p 2%N)) + Rabs (val (f i 3%N) * val (p 3%N))).
Proof. exact (mulv4_err prec emax lm a v f p). Qed.
Print Assumptions C65_mulv4.
Theorem C65_quat_mul prec emax {Hp : Prec_gt_0 prec} {Hm : Prec_lt_emax prec emax} lm (x1 y1 z1 w1 x2 y2 z2 w2 x y z w : @Ieee prec emax Hp Hm lm) :
  let val := @B2R prec emax in let fin (x : binary_float prec emax) := is_finite x = true in let er := err prec emax 4 in
  quat_mul (Q x1 y1 z1 w1) (Q x2 y2 z2 w2) = Q x y z w ->
  (fin x -> Rabs (val x - (val w1 * val x2 + val x1 * val w2 + val y1 * val z2 - val z1 * val y2))
     <= er (Rabs (val w1 * val x2) + Rabs (val x1 * val w2) + Rabs (val y1 * val z2) + Rabs (val z1 * val y2))) /\
  (fin y -> Rabs (val y - (val w1 * val y2 - val x1 * val z2 + val y1 * val w2 + val z1 * val x2))
     <= er (Rabs (val w1 * val y2) + Rabs (val x1 * val z2) + Rabs (val y1 * val w2) + Rabs (val z1 * val x2))) /\
  (fin z -> Rabs (val z - (val w1 * val z2 + val x1 * val y2 - val y1 * val x2 + val z1 * val w2))
     <= er (Rabs (val w1 * val z2) + Rabs (val x1 * val y2) + Rabs (val y1 * val x2) + Rabs (val z1 * val w2))) /\
  (fin w -> Rabs (val w - (val w1 * val w2 - val x1 * val x2 - val y1 * val y2 - val z1 * val z2))
     <= er (Rabs (val w1 * val w2) + Rabs (val x1 * val x2) + Rabs (val y1 * val y2) + Rabs (val z1 * val z2))).
Proof. exact (qmul_err prec emax lm x1 y1 z1 w1 x2 y2 z2 w2 x y z w). Qed.
Print Assumptions C65_quat_mul.
(** what the bound is in f64 for three terms: about 3 * 2^-53 * A *)
Lemma err3_f64 A : 0 <= A -> err 53 1024 3 A <= (3 + 1 / 1000) * bpow radix2 (-53) * A + 4 * bpow radix2 (-1075).
Proof.
  intro HA. unfold err. change (uro 53) with (bpow radix2 (-53)). change (eta 53 1024) with (bpow radix2 (-1075)).
  pose proof (bpow_gt_0 radix2 (-53)) as U. pose proof (bpow_gt_0 radix2 (-1075)) as T.
  assert (U' : bpow radix2 (-53) <= / 4096) by (change (/ 4096) with (bpow radix2 (-12)); apply bpow_le; lia).
  set (v := bpow radix2 (-53)) in *. set (t := bpow radix2 (-1075)) in *. clearbody v t. simpl.
  assert (V2 : 0 <= v * v <= v * / 4096) by (split; [apply Rmult_le_pos; lra | apply Rmult_le_compat_l; lra]).
  assert (V3 : v * v * v <= v * v * / 4096) by (apply Rmult_le_compat_l; lra).
  assert (K : (1 + v) * ((1 + v) * ((1 + v) * 1)) - 1 <= (3 + 1 / 1000) * v) by lra.
  apply Rplus_le_compat; [apply Rmult_le_compat_r; assumption |].
  apply Rmult_le_compat_r; lra.
Qed.
Example C65_case lm : exists t, vec_dot (Nm := F64 lm) (k := K3x1) (M3x1 (A3 (z64 lm 1) (z64 lm 2) (z64 lm 3)))
    (M3x1 (A3 (z64 lm 4) (z64 lm (-5)) (z64 lm 6))) = Some t /\ is_finite (t : f64) = true.
Proof. eexists. split; [reflexivity |]. vm_compute. reflexivity. Qed.
Example C65_mul_case lm : exists r x, mat3_mul (mat3_init (ex9 lm) true) (mat3_init (ex9 lm) true) = Ok (Some r) /\
  mat3_index true r 1 2 = Ok x /\ is_finite (x : f64) = true.
Proof. do 2 eexists. split; [reflexivity |]. split; [reflexivity |]. vm_compute. reflexivity. Qed.

(** ---- C71 ---- *)
(** all six vector types: if the computed length is finite and the squared length is not tiny (at least 2^(6-emax)), the
    computed length is relatively accurate, every component of the normalised vector is finite and accurate, and its
    length is 1 up to (n+4) roundoffs *)
Theorem C71_normalize prec emax {Hp : Prec_gt_0 prec} {Hm : Prec_lt_emax prec emax} lm k
  (a : vcar (@Ieee prec emax Hp Hm lm) k) (l : @Ieee prec emax Hp Hm lm) :
  let val := @B2R prec emax in let len := lnorm (map val (vcomps a)) in
  (9 < prec)%Z -> vec_magnitude a = Some l -> is_finite (l : binary_float prec emax) = true ->
  bpow radix2 (6 - emax) <= ldot (map val (vcomps a)) (map val (vcomps a)) ->
  Rabs (val l - len) <= ((1 + uro prec) ^ (vlen k + 2) - 1) * len /\
  exists w, vec_normalize a = Ok (Some w) /\
    Forall2 (fun z x : binary_float prec emax =>
               within z (val x / len) (INR (vlen k + 4) * uro prec * Rabs (val x / len) + eta prec emax)) (vcomps w) (vcomps a) /\
    Rabs (lnorm (map val (vcomps w)) - 1) <= INR (vlen k + 4) * uro prec + 4 * eta prec emax.
Proof. exact (vec_norm_err prec emax lm k a l). Qed.
Print Assumptions C71_normalize.
Theorem C71_quat prec emax {Hp : Prec_gt_0 prec} {Hm : Prec_lt_emax prec emax} lm (a b c d : @Ieee prec emax Hp Hm lm) :
  let val := @B2R prec emax in let u := uro prec in let et := eta prec emax in
  (9 < prec)%Z -> let l := quat_length (Q a b c d) in is_finite (l : binary_float prec emax) = true ->
  let S := val a * val a + val b * val b + val c * val c + val d * val d in
  bpow radix2 (6 - emax) <= S ->
  Rabs (val l - sqrt S) <= ((1 + u) ^ 6 - 1) * sqrt S /\
  exists x y z w : binary_float prec emax, quat_normalize (Q a b c d) = Ok (Q x y z w) /\
    within x (val a / sqrt S) (8 * u * Rabs (val a / sqrt S) + et) /\
    within y (val b / sqrt S) (8 * u * Rabs (val b / sqrt S) + et) /\
    within z (val c / sqrt S) (8 * u * Rabs (val c / sqrt S) + et) /\
    within w (val d / sqrt S) (8 * u * Rabs (val d / sqrt S) + et) /\
    Rabs (sqrt (val x * val x + val y * val y + val z * val z + val w * val w) - 1) <= 8 * u + 4 * et.
Proof. exact (qnorm prec emax lm a b c d). Qed.
Print Assumptions C71_quat.
Example C71_case lm : exists l, (9 < 53)%Z /\
  vec_magnitude (Nm := F64 lm) (k := K3x1) (M3x1 (A3 (z64 lm 1) (z64 lm 2) (z64 lm 2))) = Some l /\ is_finite (l : f64) = true /\
  bpow radix2 (6 - 1024) <= ldot (map (@B2R 53 1024) [z64 lm 1; z64 lm 2; z64 lm 2]) (map (@B2R 53 1024) [z64 lm 1; z64 lm 2; z64 lm 2]).
Proof.
  eexists. split; [lia |]. split; [reflexivity |]. split; [vm_compute; reflexivity |].
  destruct (@fv_int1 53 1024 f64_prec_gt_0 f64_prec_lt_emax) as [_ V1]. destruct (@fv_int2 53 1024 f64_prec_gt_0 f64_prec_lt_emax) as [_ V2].
  cbn [map ldot]. unfold z64. rewrite V1, V2.
  apply Rle_trans with (bpow radix2 0); [apply bpow_le; lia | simpl; lra].
Qed.
(** without the lower bound it fails: the normalised vector of (2^-1000, 0, 0) in f64 is not of length 1 *)
Theorem C71_underflow_refuted lm : let F := F64 lm in
  exists (t z : F) x y w, is_finite (t : f64) = true /\ neqb t n0 = false /\
    mat3x1_normalize (M3x1 (A3 t z z)) = Ok (Some (M3x1 (A3 x y w))) /\ is_finite (x : f64) = false.
Proof.
  exists (binary_normalize 53 1024 f64_prec_gt_0 f64_prec_lt_emax mode_NE 1 (-1000) false), (B754_zero false).
  do 3 eexists. split; [vm_compute; reflexivity |]. split; [vm_compute; reflexivity |]. split; [reflexivity |].
  vm_compute. reflexivity.
Qed.
Print Assumptions C71_underflow_refuted.
