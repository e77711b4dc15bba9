(** PropertiesInt.v — C118: on fixed-point data (integers, halves, ...) of limited size nothing is rounded. *)
From Coq Require Import Reals List ZArith NArith Bool Lra Lia.
From Flocq Require Import Core BinarySingleNaN.
Import ListNotations.
From Verif Require Import Base Num Vec Mat Quat Float FloatFacts SpecMat SpecReal SpecGeom SpecQuat SpecFq SpecInt PMat PVec PropertiesInvF PInt PInt2.
Local Open Scope R_scope.

Section Int.
Context (prec emax : Z) {Hp : Prec_gt_0 prec} {Hm : Prec_lt_emax prec emax} (lm : libm (binary_float prec emax)).
Notation bf := (binary_float prec emax).
Notation val := (@B2R prec emax).
Notation F := (@Ieee prec emax Hp Hm lm).
Notation full := (bpow radix2 prec).
Notation room := (room prec emax).
Notation real f := ((fun i j => val (f i j : bf)) : rmat).
(** Components n 2^s with |n| <= K in the one vector and n 2^t with |n| <= L in the other: as long as the sums of products stay below
    2^prec the results are exact, for all six vector types. *)
Theorem C118_vectors k (u v : vcar F k) (c : F) s t K L : room (s + t) -> Forall (fixed s K) (vcomps (u : vcar bf k)) -> Forall (fixed t L) (vcomps (v : vcar bf k)) -> fixed t L (c : bf) ->
  (INR (vlen k) * (K * L) <= full -> exists d, vec_dot u v = Some d /\ exactly (d : bf) (sumprod (map val (vcomps u)) (map val (vcomps v)))) /\
  (K * L <= full -> exists w, vec_scale u c = Some w /\ Forall (fixed (s + t) (K * L)) (vcomps (w : vcar bf k)) /\ map val (vcomps (w : vcar bf k)) = map (fun x => x * val c) (map val (vcomps u))) /\
  (vlen k = 3%nat -> 2 * (K * L) <= full -> exists w, vec_cross u v = Some w /\ Forall (fixed (s + t) (2 * (K * L))) (vcomps (w : vcar bf k)) /\
    map val (vcomps (w : vcar bf k)) = cross_list (map val (vcomps u)) (map val (vcomps v))).
Proof.
  intros R U V C. split; [| split].
  - intro H. destruct (dot_fx prec emax lm k u v s t K L R U V H) as (d & D1 & _ & D2). exists d. split; assumption.
  - intro H. exact (scale_fx prec emax lm k u c s t K L R U C H).
  - intros E H. exact (cross_fx prec emax lm k u v s t K L E R U V H).
Qed.
Theorem C118_sums k (u v : vcar F k) s K L : room s -> Forall (fixed s K) (vcomps (u : vcar bf k)) -> Forall (fixed s L) (vcomps (v : vcar bf k)) -> K + L <= full ->
  exists p m, vec_plus u v = Some p /\ vec_minus u v = Some m /\ Forall (fixed s (K + L)) (vcomps (p : vcar bf k)) /\ Forall (fixed s (K + L)) (vcomps (m : vcar bf k)) /\
    map val (vcomps (p : vcar bf k)) = map (fun z => fst z + snd z) (combine (map val (vcomps u)) (map val (vcomps v))) /\
    map val (vcomps (m : vcar bf k)) = map (fun z => fst z - snd z) (combine (map val (vcomps u)) (map val (vcomps v))).
Proof. intros R U V H. exact (sum_fx prec emax lm k u v s K L R U V H). Qed.
(** if the sum of the squares is the square of such a number, then the length is that number, as for (3,4,0) or (1,2,2) *)
Theorem C118_length k (u : vcar F k) s t K (n : Z) : room (s + s) -> room t -> Forall (fixed s K) (vcomps (u : vcar bf k)) -> INR (vlen k) * (K * K) <= full -> Rabs (IZR n) <= full ->
  sumprod (map val (vcomps u)) (map val (vcomps u)) = (IZR n * bpow radix2 t) * (IZR n * bpow radix2 t) -> exists d, vec_magnitude u = Some d /\ exactly (d : bf) (Rabs (IZR n * bpow radix2 t)).
Proof. intros R Rt U H B E. exact (mag_fx prec emax lm k u s t K n R Rt U H B E). Qed.
(** products of matrices with matrices and with vectors, both layouts *)
Theorem C118_matrices (a b : mat4 F) (a3 b3 : mat3 F) (v : mat4x1 F) (v3 : mat3x1 F) (r : mat1x4 F) (r3 : mat1x3 F) f g f3 g3 cv cv3 cr cr3 s t K L :
  room (s + t) -> repr4 a f -> repr4 b g -> repr3 a3 f3 -> repr3 b3 g3 -> reprc4 v cv -> reprc3 v3 cv3 -> reprr4 r cr -> reprr3 r3 cr3 ->
  fixm 4 s K (f : lmat bf) -> fixm 4 t L (g : lmat bf) -> fixm 3 s K (f3 : lmat bf) -> fixm 3 t L (g3 : lmat bf) -> fixc 4 t L (cv : lvec bf) -> fixc 3 t L (cv3 : lvec bf) -> fixc 4 t L (cr : lvec bf) -> fixc 3 t L (cr3 : lvec bf) ->
  4 * (K * L) <= full ->
  (m4_rm a = m4_rm b -> exists c h, mat4_mul a b = Ok (Some c) /\ m4_rm c = m4_rm a /\ repr4 c h /\ fixm 4 (s + t) (4 * (K * L)) (h : lmat bf) /\ lmat_eq 4 (real h) (rmul4 (real f) (real g))) /\
  (m3_rm a3 = m3_rm b3 -> exists c h, mat3_mul a3 b3 = Ok (Some c) /\ m3_rm c = m3_rm a3 /\ repr3 c h /\ fixm 3 (s + t) (3 * (K * L)) (h : lmat bf) /\ lmat_eq 3 (real h) (rmul3 (real f3) (real g3))) /\
  (exists w h, mat4_mul_mat4x1 a v = Ok (Some w) /\ reprc4 w h /\ fixc 4 (s + t) (4 * (K * L)) (h : lvec bf) /\ forall i, (i < 4)%N -> val (h i) = rsum4 (fun k => val (f i k) * val (cv k))) /\
  (exists w h, mat3_mul_mat3x1 a3 v3 = Ok (Some w) /\ reprc3 w h /\ fixc 3 (s + t) (3 * (K * L)) (h : lvec bf) /\ forall i, (i < 3)%N -> val (h i) = rsum3 (fun k => val (f3 i k) * val (cv3 k))) /\
  (exists w h, mat1x4_mul_mat4x4 r a = Ok (Some w) /\ reprr4 w h /\ fixc 4 (s + t) (4 * (K * L)) (h : lvec bf) /\ forall j, (j < 4)%N -> val (h j) = rsum4 (fun k => val (f k j) * val (cr k))) /\
  (exists w h, mat1x3_mul_mat3x3 r3 a3 = Ok (Some w) /\ reprr3 w h /\ fixc 3 (s + t) (3 * (K * L)) (h : lvec bf) /\ forall j, (j < 3)%N -> val (h j) = rsum3 (fun k => val (f3 k j) * val (cr3 k))).
Proof.
  intros R A B A3 B3 V V3' W W3 Hf Hg Hf3 Hg3 Hv Hv3 Hr Hr3 H. assert (P : 0 <= K * L) by (eapply KL_pos; [apply (Hf 0%N 0%N) | apply (Hg 0%N 0%N)]; reflexivity). assert (H3 : 3 * (K * L) <= full) by lra.
  split; [| split; [| split; [| split; [| split]]]].
  - intro E. exact (mul4_fx prec emax lm a b f g s t K L E A B R Hf Hg H).
  - intro E. exact (mul3_fx prec emax lm a3 b3 f3 g3 s t K L E A3 B3 R Hf3 Hg3 H3).
  - exact (mulv4_fx prec emax lm a v f cv s t K L A V R Hf Hv H).
  - exact (mulv3_fx prec emax lm a3 v3 f3 cv3 s t K L A3 V3' R Hf3 Hv3 H3).
  - exact (vmul4_fx prec emax lm a r f cr s t K L A W R Hf Hr H).
  - exact (vmul3_fx prec emax lm a3 r3 f3 cr3 s t K L A3 W3 R Hf3 Hr3 H3).
Qed.
(** products of three 4x4 matrices do not depend on the bracketing *)
Theorem C118_associative (a b c : mat4 F) f g h s t r K L M : m4_rm a = m4_rm b -> m4_rm b = m4_rm c -> repr4 a f -> repr4 b g -> repr4 c h ->
  room (s + t) -> room (t + r) -> room (s + t + r) -> fixm 4 s K (f : lmat bf) -> fixm 4 t L (g : lmat bf) -> fixm 4 r M (h : lmat bf) -> 1 <= K -> 1 <= L -> 1 <= M -> 16 * (K * L * M) <= full ->
  exists ab bc p q, mat4_mul a b = Ok (Some ab) /\ mat4_mul b c = Ok (Some bc) /\ mat4_mul ab c = Ok (Some p) /\ mat4_mul a bc = Ok (Some q) /\ m4_rm p = m4_rm q /\
  forall lp lq, repr4 p lp -> repr4 q lq -> forall i j, (i < 4)%N -> (j < 4)%N -> is_finite (lp i j : bf) = true /\ is_finite (lq i j : bf) = true /\ val (lp i j) = val (lq i j) /\ val (lp i j) = rmul4 (rmul4 (real f) (real g)) (real h) i j.
Proof. exact (assoc4_fx prec emax lm a b c f g h s t r K L M). Qed.
(** Mat4::inverse: None exactly for singular matrices; exact when the determinant is plus or minus a power of two (entry (i,j) holds
    entry (j,i) of the inverse, as C08 and C94 say) *)
Theorem C118_inverse (m : mat4 F) f s K : (9 < prec)%Z -> 1 <= K -> 24 * (K * K * K * K) <= full -> repr4 m f -> fixm 4 s K (f : lmat bf) ->
  room (s + s) -> room (s + s + s) -> room (s + (s + s + s)) ->
  ((1 - prec <= s + (s + s + s))%Z -> (mat4_inverse m = Ok None <-> rdet4 (real f) = 0)) /\
  (forall e, Rabs (rdet4 (real f)) = bpow radix2 e -> (1 - prec <= e)%Z -> room (- e) -> room (s + s + s + - e) ->
    exists r g, mat4_inverse m = Ok (Some r) /\ m4_rm r = true /\ repr4 r g /\ forall i j, (i < 4)%N -> (j < 4)%N -> exactly (g i j : bf) (radj4 (real f) j i / rdet4 (real f))).
Proof.
  intros P K1 KB Hr Hf R2 R3 R4. split.
  - intro HS. exact (inv_none prec emax lm f s K P K1 KB Hf R2 R3 R4 m Hr HS).
  - intros e HD HE RE RA. destruct (inv_pow2 prec emax lm f s K P K1 KB Hf R2 R3 R4 m e Hr HD HE RE RA) as (r & g & A & B & C & D). exists r, g. do 3 (split; [assumption |]). intros i j Hi Hj. destruct (D i j Hi Hj) as [[D1 _] D2]. split; assumption.
Qed.
(** quaternions: product, square of the length, conjugate; three of them in either bracketing *)
Theorem C118_quaternions (p q r : quat F) s t w K L M : room (s + t) -> room (t + w) -> room (s + t + w) -> room (s + s) -> fixq s K (p : quat bf) -> fixq t L (q : quat bf) -> fixq w M (r : quat bf) ->
  1 <= K -> 1 <= L -> 1 <= M -> 16 * (K * L * M) <= full ->
  qval (quat_mul p q : quat bf) = hmul (qval (p : quat bf)) (qval (q : quat bf)) /\ fixq (s + t) (4 * (K * L)) (quat_mul p q : quat bf) /\
  qval (quat_conjugate p : quat bf) = hconj (qval (p : quat bf)) /\
  (4 * (K * K) <= full -> exactly (quat_length_squared p : bf) (hdot (qval (p : quat bf)) (qval (p : quat bf)))) /\
  qval (quat_mul (quat_mul p q) r : quat bf) = qval (quat_mul p (quat_mul q r) : quat bf).
Proof.
  intros R1 R2 R3 R4 P Q S K1 L1 M1 H. assert (KL1 : 1 <= K * L) by nra. assert (Q1 : K * L <= K * L * M) by nra. destruct (qmul_fx prec emax lm p q s t K L R1 P Q ltac:(lra)) as [A1 A2].
  split; [exact A2 |]. split; [exact A1 |]. split; [exact (proj2 (qconj_fx prec emax lm p s K P)) |]. split; [intro H4'; exact (qlen2_fx prec emax lm p s K R4 P H4') |].
  exact (proj1 (qassoc_fx prec emax lm p q r s t w K L M R1 R2 R3 P Q S K1 L1 M1 H)).
Qed.
(** q p q* without rounding, and the rotation matrix (transposed when column-major is asked for) *)
Theorem C118_rotation (q : quat F) (a b c : F) s t K L : room (s + t) -> room (s + t + s) -> fixq s K (q : quat bf) -> fixed t L (a : bf) -> fixed t L (b : bf) -> fixed t L (c : bf) -> 1 <= K -> 1 <= L -> 16 * (K * K * L) <= full ->
  (exists x y z, quat_rotate_vector q (M3x1 (A3 a b c)) = M3x1 (A3 x y z) /\ is_finite (x : bf) = true /\ is_finite (y : bf) = true /\ is_finite (z : bf) = true /\
    V (val x) (val y) (val z) = hrot (qval (q : quat bf)) (V (val a) (val b) (val c))) /\
  (forall rm f, (s <= 0)%Z -> room (s + s) -> bpow radix2 (- (s + s)) + 4 * (K * K) <= full -> repr4 (quat_to_rotation_matrix q rm) f ->
    let x := val (qx q) in let y := val (qy q) in let z := val (qz q) in let w := val (qw q) in
    forall i j, (i < 4)%N -> (j < 4)%N -> exactly (f i j : bf) (rows16 (A16 (1 - 2 * (y * y + z * z)) (2 * (x * y - z * w)) (2 * (x * z + y * w)) 0
      (2 * (x * y + z * w)) (1 - 2 * (x * x + z * z)) (2 * (y * z - x * w)) 0 (2 * (x * z - y * w)) (2 * (y * z + x * w)) (1 - 2 * (x * x + y * y)) 0 0 0 0 1) (if rm then i else j) (if rm then j else i))).
Proof.
  intros R1 R2 Q A B C K1 L1 H. split; [exact (rotate_fx prec emax lm q a b c s t K L R1 R2 Q A B C K1 L1 H) |].
  intros rm f S R H' Hr. exact (matrix_fx prec emax lm q rm s K f S R Q H' Hr).
Qed.
End Int.
Print Assumptions C118_vectors.
Print Assumptions C118_sums.
Print Assumptions C118_length.
Print Assumptions C118_matrices.
Print Assumptions C118_associative.
Print Assumptions C118_inverse.
Print Assumptions C118_quaternions.
Print Assumptions C118_rotation.

(** ---- cases in binary64 ---- *)
Section Case.
  Variable lm : libm f64.
  Notation F := (F64 lm).
  Notation val := (@B2R 53 1024).
  (** the length of (1,2,2) is exactly 3 *)
  Example C118_length_case : exists d, @vec_magnitude F K3x1 (M3x1 (A3 (nlit F 1 1) (nlit F 2 1) (nlit F 2 1))) = Some d /\ exactly (d : f64) 3.
  Proof.
    assert (I : forall z m e, (0 <= z <= 2)%Z -> B2SF (@f_int 53 1024 f64_prec_gt_0 f64_prec_lt_emax z) = SpecFloat.S754_finite false m e -> F2R (Float radix2 (Z.pos m) e) = IZR z -> fixed 0 2 (nlit F z 1 : f64) /\ val (nlit F z 1 : f64) = IZR z).
    { intros z m e B S E. destruct (z_val lm z m e S E) as [Z1 Z2]. split; [| exact Z2]. split; [exact Z1 |]. exists z. cbn [bpow]. rewrite Rmult_1_r. split; [exact Z2 |]. rewrite <- abs_IZR. apply IZR_le. lia. }
    destruct (I 1%Z _ _ ltac:(lia) ltac:(vm_compute; reflexivity) ltac:(unfold F2R; cbn; lra)) as [A1 A2]. destruct (I 2%Z _ _ ltac:(lia) ltac:(vm_compute; reflexivity) ltac:(unfold F2R; cbn; lra)) as [B1 B2].
    assert (P : bpow radix2 53 = 9007199254740992) by (cbn; lra).
    destruct (C118_length 53 1024 lm K3x1 (M3x1 (A3 (nlit F 1 1) (nlit F 2 1) (nlit F 2 1))) 0 0 2 3) as (d & D1 & D2); [split; lia | split; lia | cbn [vcomps list3 v3x1]; repeat (apply Forall_cons; [assumption |]); apply Forall_nil | cbn [vlen INR]; lra | rewrite <- abs_IZR; cbn [Z.abs]; lra | |].
    - cbn [vcomps list3 v3x1 map sumprod bpow]. rewrite A2, B2. lra.
    - exists d. split; [exact D1 |]. cbn [bpow] in D2. rewrite Rmult_1_r, Rabs_pos_eq in D2 by lra. exact D2.
  Qed.
  (** an integer matrix of determinant 1 *)
  Example C118_inverse_case : repr4 (zmat lm good) (zents lm good) /\ fixm 4 0 2 (zents lm good : lmat f64) /\ Rabs (rdet4 (fun i j => val (zents lm good i j : f64))) = bpow radix2 0 /\ 24 * (2 * 2 * 2 * 2) <= bpow radix2 53.
  Proof.
    split; [apply zrepr |]. split; [| split].
    - intros i j Hi Hj. destruct (good_val lm i j Hi Hj) as [G1 G2]. split; [exact G1 |]. exists (rows16 good i j). cbn [bpow]. rewrite Rmult_1_r. split; [exact G2 |]. rewrite <- abs_IZR. apply IZR_le. cases4 i Hi; cases4 j Hj; cbn; lia.
    - unfold rdet4, rdet3, rdet2, minor, skip. cbn [N.ltb N.compare Pos.compare Pos.compare_cont N.add Pos.add Pos.succ]. rewrite !(fun i j Hi Hj => proj2 (good_val lm i j Hi Hj)) by reflexivity. cbn [rows16 good bpow]. rewrite Rabs_pos_eq; lra.
    - cbn; lra.
  Qed.
End Case.
