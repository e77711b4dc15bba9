(** PRound3.v — the rounding-error bounds for the library's vectors, matrices and quaternions. *)
From Coq Require Import Reals List ZArith NArith Bool Lra Lia Psatz.
Import ListNotations.
From Flocq Require Import Core BinarySingleNaN Relative.
From Verif Require Import Base Num Vec Mat Quat Float Exact FloatFacts FloatRound SpecMat SpecGeom SpecRound PMat PVec PRound PRound2.
Local Open Scope R_scope.

Section Round3.
  Context (prec emax : Z) {Hp : Prec_gt_0 prec} {Hm : Prec_lt_emax prec emax} (lm : libm (binary_float prec emax)).
  Notation F := (@Ieee prec emax Hp Hm lm).
  Notation bf := (binary_float prec emax).
  Notation u := (uro prec).
  Notation et := (eta prec emax).
  Notation er := (err prec emax).
  Notation val := (@B2R prec emax).

  (** ---- dot and cross products ---- *)
  Lemma dot2_err (a0 a1 b0 b1 t : F) : mat2x1_dot (M2x1 (A2 a0 a1)) (M2x1 (A2 b0 b1)) = Some t -> is_finite (t : bf) = true ->
    Rabs (val t - (val a0 * val b0 + val a1 * val b1)) <= er 2 (Rabs (val a0 * val b0) + Rabs (val a1 * val b1)).
  Proof. intros E H. injection E as <-. exact (proj2 (proj1 (sum2_approx prec emax a0 b0 a1 b1 H))). Qed.
  Lemma dot3_err (a0 a1 a2 b0 b1 b2 t : F) : mat3x1_dot (M3x1 (A3 a0 a1 a2)) (M3x1 (A3 b0 b1 b2)) = Some t -> is_finite (t : bf) = true ->
    Rabs (val t - (val a0 * val b0 + val a1 * val b1 + val a2 * val b2))
      <= er 3 (Rabs (val a0 * val b0) + Rabs (val a1 * val b1) + Rabs (val a2 * val b2)).
  Proof. intros E H. injection E as <-. exact (proj2 (proj1 (sum3_approx prec emax a0 b0 a1 b1 a2 b2 H))). Qed.
  Lemma dot4_err (a0 a1 a2 a3 b0 b1 b2 b3 t : F) :
    mat4x1_dot (M4x1 (A4 a0 a1 a2 a3)) (M4x1 (A4 b0 b1 b2 b3)) = Some t -> is_finite (t : bf) = true ->
    Rabs (val t - (val a0 * val b0 + val a1 * val b1 + val a2 * val b2 + val a3 * val b3))
      <= er 4 (Rabs (val a0 * val b0) + Rabs (val a1 * val b1) + Rabs (val a2 * val b2) + Rabs (val a3 * val b3)).
  Proof. intros E H. injection E as <-. exact (proj2 (proj1 (sum4_approx prec emax false false false a0 b0 a1 b1 a2 b2 a3 b3 H))). Qed.
  Lemma cross_err (a0 a1 a2 b0 b1 b2 c0 c1 c2 : F) :
    mat3x1_cross (M3x1 (A3 a0 a1 a2)) (M3x1 (A3 b0 b1 b2)) = Some (M3x1 (A3 c0 c1 c2)) ->
    (is_finite (c0 : bf) = true -> Rabs (val c0 - (val a1 * val b2 - val a2 * val b1)) <= er 2 (Rabs (val a1 * val b2) + Rabs (val a2 * val b1))) /\
    (is_finite (c1 : bf) = true -> Rabs (val c1 - (val a2 * val b0 - val a0 * val b2)) <= er 2 (Rabs (val a2 * val b0) + Rabs (val a0 * val b2))) /\
    (is_finite (c2 : bf) = true -> Rabs (val c2 - (val a0 * val b1 - val a1 * val b0)) <= er 2 (Rabs (val a0 * val b1) + Rabs (val a1 * val b0))).
  Proof.
    intro E. injection E as <- <- <-. split; [| split]; intro H.
    - exact (proj2 (proj1 (diff2_approx prec emax a1 b2 a2 b1 H))).
    - exact (proj2 (proj1 (diff2_approx prec emax a2 b0 a0 b2 H))).
    - exact (proj2 (proj1 (diff2_approx prec emax a0 b1 a1 b0 H))).
  Qed.

  (** ---- matrix products ---- *)
  Notation ent3 f g i j := (val (f i 0%N) * val (g 0%N j) + val (f i 1%N) * val (g 1%N j) + val (f i 2%N) * val (g 2%N j)).
  Notation abs3 f g i j := (Rabs (val (f i 0%N) * val (g 0%N j)) + Rabs (val (f i 1%N) * val (g 1%N j)) + Rabs (val (f i 2%N) * val (g 2%N j))).
  Notation ent4 f g i j := (val (f i 0%N) * val (g 0%N j) + val (f i 1%N) * val (g 1%N j) + val (f i 2%N) * val (g 2%N j) + val (f i 3%N) * val (g 3%N j)).
  Notation abs4 f g i j := (Rabs (val (f i 0%N) * val (g 0%N j)) + Rabs (val (f i 1%N) * val (g 1%N j)) + Rabs (val (f i 2%N) * val (g 2%N j)) + Rabs (val (f i 3%N) * val (g 3%N j))).
  Lemma mul3_err (a b : mat3 F) f g : m3_rm a = m3_rm b -> repr3 a f -> repr3 b g ->
    exists r h, mat3_mul a b = Ok (Some r) /\ repr3 r h /\
      forall i j, (i < 3)%N -> (j < 3)%N -> is_finite (h i j : bf) = true ->
        Rabs (val (h i j) - ent3 f g i j) <= er 3 (abs3 f g i j).
  Proof.
    intros E Ha Hb. destruct (mul3_repr a b f g E Ha Hb) as (r & M & _ & R). exists r. eexists. split; [exact M |]. split; [exact R |].
    intros i j _ _ H. exact (proj2 (proj1 (sum3_approx prec emax _ _ _ _ _ _ H))).
  Qed.
  Lemma mul4_err (a b : mat4 F) f g : m4_rm a = m4_rm b -> repr4 a f -> repr4 b g ->
    exists r h, mat4_mul a b = Ok (Some r) /\ repr4 r h /\
      forall i j, (i < 4)%N -> (j < 4)%N -> is_finite (h i j : bf) = true ->
        Rabs (val (h i j) - ent4 f g i j) <= er 4 (abs4 f g i j).
  Proof.
    intros E Ha Hb. destruct (mul4_repr a b f g E Ha Hb) as (r & M & _ & R). exists r. eexists. split; [exact M |]. split; [exact R |].
    intros i j _ _ H. exact (proj2 (proj1 (sum4_approx prec emax false false false _ _ _ _ _ _ _ _ H))).
  Qed.
  Lemma mulv3_err (a : mat3 F) (v : mat3x1 F) f p : repr3 a f -> reprc3 v p ->
    exists r h, mat3_mul_mat3x1 a v = Ok (Some r) /\ reprc3 r h /\
      forall i, (i < 3)%N -> is_finite (h i : bf) = true ->
        Rabs (val (h i) - (val (f i 0%N) * val (p 0%N) + val (f i 1%N) * val (p 1%N) + val (f i 2%N) * val (p 2%N)))
          <= er 3 (Rabs (val (f i 0%N) * val (p 0%N)) + Rabs (val (f i 1%N) * val (p 1%N)) + Rabs (val (f i 2%N) * val (p 2%N))).
  Proof.
    intros Ha Hv. destruct (mulv3_repr a v f p Ha Hv) as (r & M & R). exists r. eexists. split; [exact M |]. split; [exact R |].
    intros i _ H. exact (proj2 (proj1 (sum3_approx prec emax _ _ _ _ _ _ H))).
  Qed.
  Lemma mulv4_err (a : mat4 F) (v : mat4x1 F) f p : repr4 a f -> reprc4 v p ->
    exists r h, mat4_mul_mat4x1 a v = Ok (Some r) /\ reprc4 r h /\
      forall i, (i < 4)%N -> is_finite (h i : bf) = true ->
        Rabs (val (h i) - (val (f i 0%N) * val (p 0%N) + val (f i 1%N) * val (p 1%N) + val (f i 2%N) * val (p 2%N) + val (f i 3%N) * val (p 3%N)))
          <= er 4 (Rabs (val (f i 0%N) * val (p 0%N)) + Rabs (val (f i 1%N) * val (p 1%N)) + Rabs (val (f i 2%N) * val (p 2%N)) + Rabs (val (f i 3%N) * val (p 3%N))).
  Proof.
    intros Ha Hv. destruct (mulv4_repr a v f p Ha Hv) as (r & M & R). exists r. eexists. split; [exact M |]. split; [exact R |].
    intros i _ H. exact (proj2 (proj1 (sum4_approx prec emax false false false _ _ _ _ _ _ _ _ H))).
  Qed.

  (** ---- quaternion product and squared length ---- *)
  Lemma qmul_err (x1 y1 z1 w1 x2 y2 z2 w2 x y z w : F) :
    quat_mul (Q x1 y1 z1 w1) (Q x2 y2 z2 w2) = Q x y z w ->
    (is_finite (x : bf) = true -> Rabs (val x - (val w1 * val x2 + val x1 * val w2 + val y1 * val z2 - val z1 * val y2))
       <= er 4 (Rabs (val w1 * val x2) + Rabs (val x1 * val w2) + Rabs (val y1 * val z2) + Rabs (val z1 * val y2))) /\
    (is_finite (y : bf) = true -> Rabs (val y - (val w1 * val y2 - val x1 * val z2 + val y1 * val w2 + val z1 * val x2))
       <= er 4 (Rabs (val w1 * val y2) + Rabs (val x1 * val z2) + Rabs (val y1 * val w2) + Rabs (val z1 * val x2))) /\
    (is_finite (z : bf) = true -> Rabs (val z - (val w1 * val z2 + val x1 * val y2 - val y1 * val x2 + val z1 * val w2))
       <= er 4 (Rabs (val w1 * val z2) + Rabs (val x1 * val y2) + Rabs (val y1 * val x2) + Rabs (val z1 * val w2))) /\
    (is_finite (w : bf) = true -> Rabs (val w - (val w1 * val w2 - val x1 * val x2 - val y1 * val y2 - val z1 * val z2))
       <= er 4 (Rabs (val w1 * val w2) + Rabs (val x1 * val x2) + Rabs (val y1 * val y2) + Rabs (val z1 * val z2))).
  Proof.
    intro E. injection E as <- <- <- <-. repeat split; intro H.
    - exact (proj2 (proj1 (sum4_approx prec emax false false true w1 x2 x1 w2 y1 z2 z1 y2 H))).
    - exact (proj2 (proj1 (sum4_approx prec emax true false false w1 y2 x1 z2 y1 w2 z1 x2 H))).
    - exact (proj2 (proj1 (sum4_approx prec emax false true false w1 z2 x1 y2 y1 x2 z1 w2 H))).
    - exact (proj2 (proj1 (sum4_approx prec emax true true true w1 w2 x1 x2 y1 y2 z1 z2 H))).
  Qed.

  (** ---- magnitudes and normalised vectors ---- *)
  Lemma sqr_abs x : Rabs (x * x) = x * x.
  Proof. apply Rabs_right. nra. Qed.
  Lemma sqrt_fin (s : bf) : is_finite (Bsqrt mode_NE s) = true -> is_finite s = true.
  Proof.
    intro H. pose proof (Bsqrt_correct prec emax Hp Hm mode_NE s) as [_ [K _]]. rewrite K in H.
    destruct s as [b | b | | [|] m e h]; try discriminate; reflexivity.
  Qed.
  Lemma mag2 (a b : F) : is_finite (Bsqrt mode_NE (Bplus mode_NE (Bmult mode_NE a a) (Bmult mode_NE b b)) : bf) = true ->
    approx prec emax 2 (Bplus mode_NE (Bmult mode_NE a a) (Bmult mode_NE b b))
      (val a * val a + val b * val b) (val a * val a + val b * val b).
  Proof. intro H. pose proof (sum2_approx prec emax a a b b (sqrt_fin _ H)) as K. rewrite !sqr_abs in K. exact K. Qed.
  Lemma mag3 (a b c : F) : is_finite (Bsqrt mode_NE (Bplus mode_NE (Bplus mode_NE (Bmult mode_NE a a) (Bmult mode_NE b b)) (Bmult mode_NE c c)) : bf) = true ->
    approx prec emax 3 (Bplus mode_NE (Bplus mode_NE (Bmult mode_NE a a) (Bmult mode_NE b b)) (Bmult mode_NE c c))
      (val a * val a + val b * val b + val c * val c) (val a * val a + val b * val b + val c * val c).
  Proof. intro H. pose proof (sum3_approx prec emax a a b b c c (sqrt_fin _ H)) as K. rewrite !sqr_abs in K. exact K. Qed.
  Lemma mag4 (a b c d : F) : is_finite (Bsqrt mode_NE (Bplus mode_NE (Bplus mode_NE (Bplus mode_NE (Bmult mode_NE a a) (Bmult mode_NE b b)) (Bmult mode_NE c c)) (Bmult mode_NE d d)) : bf) = true ->
    approx prec emax 4 (Bplus mode_NE (Bplus mode_NE (Bplus mode_NE (Bmult mode_NE a a) (Bmult mode_NE b b)) (Bmult mode_NE c c)) (Bmult mode_NE d d))
      (val a * val a + val b * val b + val c * val c + val d * val d) (val a * val a + val b * val b + val c * val c + val d * val d).
  Proof. intro H. pose proof (sum4_approx prec emax false false false a a b b c c d d (sqrt_fin _ H)) as K. cbn [pm rpm] in K. rewrite !sqr_abs in K. exact K. Qed.
  Lemma mag_rel n (s : bf) S : (1 < prec)%Z -> (1 <= n <= 4)%nat -> approx prec emax n s S S -> bpow radix2 (6 - emax) <= S ->
    is_finite (Bsqrt mode_NE s) = true ->
    Rabs (val (Bsqrt mode_NE s) - sqrt S) <= ((1 + u) ^ (n + 2) - 1) * sqrt S.
  Proof.
    intros P Hn A HS H. destruct (mag_err prec emax n s S P Hn A HS H) as (d & Hd & E). rewrite E.
    replace (sqrt S * (1 + d) - sqrt S) with (d * sqrt S) by ring. rewrite Rabs_mult, (Rabs_right (sqrt S)) by (apply Rle_ge, sqrt_pos).
    apply Rmult_le_compat_r; [apply sqrt_pos | exact Hd].
  Qed.
  Lemma comp_le x S : 0 <= S -> x * x <= S -> Rabs x <= sqrt S.
  Proof. intros H0 H. rewrite <- sqrt_Rsqr_abs. apply sqrt_le_1_alt. exact H. Qed.
  Lemma gn_small n : (9 < prec)%Z -> (n <= 4)%nat -> 0 <= gn prec n /\ gn prec n + 4 * et <= 1.
  Proof.
    intros P Hn. pose proof (u_pos prec) as U. assert (U' : u <= / 1024).
    { unfold uro. change (/ 1024) with (bpow radix2 (-10)). apply bpow_le. lia. }
    assert (N1 : 0 <= INR (n + 4) <= 8).
    { split; [apply pos_INR | replace 8 with (INR 8) by (simpl; lra)]. apply le_INR; lia. }
    unfold gn. split; [apply Rmult_le_pos; lra |].
    assert (T : et <= / 1024).
    { unfold eta. change (/ 1024) with (bpow radix2 (-10)). apply bpow_le. unfold Prec_lt_emax in Hm. lia. }
    assert (INR (n + 4) * u <= 8 * / 1024) by (apply Rmult_le_compat; lra). lra.
  Qed.
  Lemma unit4 a b c d S : 0 < S -> a * a + b * b + c * c + d * d = S ->
    a / sqrt S * (a / sqrt S) + b / sqrt S * (b / sqrt S) + c / sqrt S * (c / sqrt S) + d / sqrt S * (d / sqrt S) = 1.
  Proof.
    intros HS H. pose proof (sqrt_lt_R0 S HS) as R0. pose proof (sqrt_sqrt S (Rlt_le _ _ HS)) as E.
    replace (_ + _) with ((a * a + b * b + c * c + d * d) / (sqrt S * sqrt S)) by (field; lra).
    rewrite H, E. field. lra.
  Qed.
  Lemma sq_fin (a : bf) : is_finite (Bmult mode_NE a a) = true -> is_finite a = true.
  Proof. intro H. exact (proj1 (mult_fin prec emax a a H)). Qed.

  Lemma norm_core n (s : bf) S : (9 < prec)%Z -> (1 <= n <= 4)%nat -> approx prec emax n s S S -> bpow radix2 (6 - emax) <= S ->
    is_finite (Bsqrt mode_NE s) = true -> forall x : bf, is_finite x = true -> val x * val x <= S ->
    within (Bdiv mode_NE x (Bsqrt mode_NE s)) (val x / sqrt S) (INR (n + 4) * u * Rabs (val x / sqrt S) + et).
  Proof.
    intros P Hn A HS Fl x Fx Hx. assert (S0 : 0 < S) by (eapply Rlt_le_trans; [apply bpow_gt_0 | exact HS]).
    destruct (mag_err prec emax n s S ltac:(lia) Hn A HS Fl) as (d & Hd & El).
    apply (norm_comp prec emax n x _ (sqrt S) d P Hn Fx); [apply sqrt_lt_R0, S0 | apply comp_le; lra | exact Hd | exact El].
  Qed.
  Lemma inv_sqrt S x : 0 < S -> x / sqrt S * (x / sqrt S) = x * x / S.
  Proof.
    intro HS. pose proof (sqrt_lt_R0 S HS) as R0. pose proof (sqrt_sqrt S (Rlt_le _ _ HS)) as E.
    transitivity (x * x / (sqrt S * sqrt S)); [field; lra | rewrite E; reflexivity].
  Qed.
  Lemma norm2 (a b l : F) : (9 < prec)%Z ->
    mat2x1_magnitude (M2x1 (A2 a b)) = Some l -> is_finite (l : bf) = true ->
    let S := val a * val a + val b * val b in
    bpow radix2 (6 - emax) <= S ->
    Rabs (val l - sqrt S) <= ((1 + u) ^ 4 - 1) * sqrt S /\
    exists x y, mat2x1_normalize (M2x1 (A2 a b)) = Ok (Some (M2x1 (A2 x y))) /\
      within (x : bf) (val a / sqrt S) (6 * u * Rabs (val a / sqrt S) + et) /\
      within (y : bf) (val b / sqrt S) (6 * u * Rabs (val b / sqrt S) + et) /\
      Rabs (sqrt (val x * val x + val y * val y) - 1) <= 6 * u + 4 * et.
  Proof.
    intros P E Fl S HS. injection E as <-.
    pose proof (mag2 a b Fl) as A. split; [exact (mag_rel 2 _ S ltac:(lia) ltac:(lia) A HS Fl) |].
    pose proof (norm_core 2 _ S P ltac:(lia) A HS Fl) as C.
    pose proof (sqrt_fin _ Fl) as Fs. destruct (plus_fin prec emax _ _ Fs) as [Fa Fb].
    assert (S0 : 0 < S) by (eapply Rlt_le_trans; [apply bpow_gt_0 | exact HS]).
    assert (Q1 : 0 <= val a * val a) by nra. assert (Q2 : 0 <= val b * val b) by nra.
    assert (Ca := C _ (sq_fin _ Fa) ltac:(unfold S; lra)). assert (Cb := C _ (sq_fin _ Fb) ltac:(unfold S; lra)). clear C.
    destruct (gn_small 2 P ltac:(lia)) as [g0 g1]. unfold gn in g0, g1.
    replace (INR (2 + 4)) with 6 in * by (simpl; ring).
    do 2 eexists. split; [reflexivity |]. split; [exact Ca |]. split; [exact Cb |].
    refine (len2 _ _ _ _ _ _ g0 (Rlt_le _ _ (et_pos prec emax)) g1 _ (proj2 Ca) (proj2 Cb)).
    rewrite !inv_sqrt by exact S0. unfold S. field. fold S. lra.
  Qed.
  Lemma norm3 (a b c l : F) : (9 < prec)%Z ->
    mat3x1_magnitude (M3x1 (A3 a b c)) = Some l -> is_finite (l : bf) = true ->
    let S := val a * val a + val b * val b + val c * val c in
    bpow radix2 (6 - emax) <= S ->
    Rabs (val l - sqrt S) <= ((1 + u) ^ 5 - 1) * sqrt S /\
    exists x y z, mat3x1_normalize (M3x1 (A3 a b c)) = Ok (Some (M3x1 (A3 x y z))) /\
      within (x : bf) (val a / sqrt S) (7 * u * Rabs (val a / sqrt S) + et) /\
      within (y : bf) (val b / sqrt S) (7 * u * Rabs (val b / sqrt S) + et) /\
      within (z : bf) (val c / sqrt S) (7 * u * Rabs (val c / sqrt S) + et) /\
      Rabs (sqrt (val x * val x + val y * val y + val z * val z) - 1) <= 7 * u + 4 * et.
  Proof.
    intros P E Fl S HS. injection E as <-.
    pose proof (mag3 a b c Fl) as A. split; [exact (mag_rel 3 _ S ltac:(lia) ltac:(lia) A HS Fl) |].
    pose proof (norm_core 3 _ S P ltac:(lia) A HS Fl) as C.
    pose proof (sqrt_fin _ Fl) as Fs. destruct (plus_fin prec emax _ _ Fs) as [F1 Fc]. destruct (plus_fin prec emax _ _ F1) as [Fa Fb].
    assert (S0 : 0 < S) by (eapply Rlt_le_trans; [apply bpow_gt_0 | exact HS]).
    assert (Q1 : 0 <= val a * val a) by nra. assert (Q2 : 0 <= val b * val b) by nra. assert (Q3 : 0 <= val c * val c) by nra.
    assert (Ca := C _ (sq_fin _ Fa) ltac:(unfold S; lra)). assert (Cb := C _ (sq_fin _ Fb) ltac:(unfold S; lra)).
    assert (Cc := C _ (sq_fin _ Fc) ltac:(unfold S; lra)). clear C.
    destruct (gn_small 3 P ltac:(lia)) as [g0 g1]. unfold gn in g0, g1.
    replace (INR (3 + 4)) with 7 in * by (simpl; ring).
    do 3 eexists. split; [reflexivity |]. split; [exact Ca |]. split; [exact Cb |]. split; [exact Cc |].
    refine (len3 _ _ _ _ _ _ _ _ g0 (Rlt_le _ _ (et_pos prec emax)) g1 _ (proj2 Ca) (proj2 Cb) (proj2 Cc)).
    rewrite !inv_sqrt by exact S0. unfold S. field. fold S. lra.
  Qed.
  Lemma core4 (a b c d : F) : (9 < prec)%Z ->
    let l := Bsqrt mode_NE (Bplus mode_NE (Bplus mode_NE (Bplus mode_NE (Bmult mode_NE a a) (Bmult mode_NE b b)) (Bmult mode_NE c c)) (Bmult mode_NE d d)) : bf in
    is_finite l = true ->
    let S := val a * val a + val b * val b + val c * val c + val d * val d in
    bpow radix2 (6 - emax) <= S ->
    let x := Bdiv mode_NE a l in let y := Bdiv mode_NE b l in let z := Bdiv mode_NE c l in let w := Bdiv mode_NE d l in
    Rabs (val l - sqrt S) <= ((1 + u) ^ 6 - 1) * sqrt S /\
      within (x : bf) (val a / sqrt S) (8 * u * Rabs (val a / sqrt S) + et) /\
      within (y : bf) (val b / sqrt S) (8 * u * Rabs (val b / sqrt S) + et) /\
      within (z : bf) (val c / sqrt S) (8 * u * Rabs (val c / sqrt S) + et) /\
      within (w : bf) (val d / sqrt S) (8 * u * Rabs (val d / sqrt S) + et) /\
      Rabs (sqrt (val x * val x + val y * val y + val z * val z + val w * val w) - 1) <= 8 * u + 4 * et.
  Proof.
    intros P l Fl S HS x y z w.
    pose proof (mag4 a b c d Fl) as A. split; [exact (mag_rel 4 _ S ltac:(lia) ltac:(lia) A HS Fl) |].
    pose proof (norm_core 4 _ S P ltac:(lia) A HS Fl) as C. fold l in C.
    pose proof (sqrt_fin _ Fl) as Fs. destruct (plus_fin prec emax _ _ Fs) as [F2 Fd]. destruct (plus_fin prec emax _ _ F2) as [F1 Fc].
    destruct (plus_fin prec emax _ _ F1) as [Fa Fb].
    assert (S0 : 0 < S) by (eapply Rlt_le_trans; [apply bpow_gt_0 | exact HS]).
    assert (Q1 : 0 <= val a * val a) by nra. assert (Q2 : 0 <= val b * val b) by nra. assert (Q3 : 0 <= val c * val c) by nra.
    assert (Q4 : 0 <= val d * val d) by nra.
    assert (Ca := C _ (sq_fin _ Fa) ltac:(unfold S; lra)). assert (Cb := C _ (sq_fin _ Fb) ltac:(unfold S; lra)).
    assert (Cc := C _ (sq_fin _ Fc) ltac:(unfold S; lra)). assert (Cd := C _ (sq_fin _ Fd) ltac:(unfold S; lra)). clear C.
    destruct (gn_small 4 P ltac:(lia)) as [g0 g1]. unfold gn in g0, g1.
    replace (INR (4 + 4)) with 8 in * by (simpl; ring).
    split; [exact Ca |]. split; [exact Cb |]. split; [exact Cc |]. split; [exact Cd |].
    refine (len4 _ _ _ _ _ _ _ _ _ _ g0 (Rlt_le _ _ (et_pos prec emax)) g1 _ (proj2 Ca) (proj2 Cb) (proj2 Cc) (proj2 Cd)).
    rewrite !inv_sqrt by exact S0. unfold S. field. fold S. lra.
  Qed.
  Lemma norm4 (a b c d l : F) : (9 < prec)%Z ->
    mat4x1_magnitude (M4x1 (A4 a b c d)) = Some l -> is_finite (l : bf) = true ->
    let S := val a * val a + val b * val b + val c * val c + val d * val d in
    bpow radix2 (6 - emax) <= S ->
    Rabs (val l - sqrt S) <= ((1 + u) ^ 6 - 1) * sqrt S /\
    exists x y z w, mat4x1_normalize (M4x1 (A4 a b c d)) = Ok (Some (M4x1 (A4 x y z w))) /\
      within (x : bf) (val a / sqrt S) (8 * u * Rabs (val a / sqrt S) + et) /\
      within (y : bf) (val b / sqrt S) (8 * u * Rabs (val b / sqrt S) + et) /\
      within (z : bf) (val c / sqrt S) (8 * u * Rabs (val c / sqrt S) + et) /\
      within (w : bf) (val d / sqrt S) (8 * u * Rabs (val d / sqrt S) + et) /\
      Rabs (sqrt (val x * val x + val y * val y + val z * val z + val w * val w) - 1) <= 8 * u + 4 * et.
  Proof.
    intros P E Fl S HS. injection E as <-. destruct (core4 a b c d P Fl HS) as [K R]. split; [exact K |].
    do 4 eexists. split; [reflexivity |]. exact R.
  Qed.
  (** the quaternion's length test [l > 0] succeeds *)
  Lemma qnorm (a b c d : F) : (9 < prec)%Z -> let l := quat_length (Q a b c d) in is_finite (l : bf) = true ->
    let S := val a * val a + val b * val b + val c * val c + val d * val d in
    bpow radix2 (6 - emax) <= S ->
    Rabs (val l - sqrt S) <= ((1 + u) ^ 6 - 1) * sqrt S /\
    exists x y z w, quat_normalize (Q a b c d) = Ok (Q x y z w) /\
      within (x : bf) (val a / sqrt S) (8 * u * Rabs (val a / sqrt S) + et) /\
      within (y : bf) (val b / sqrt S) (8 * u * Rabs (val b / sqrt S) + et) /\
      within (z : bf) (val c / sqrt S) (8 * u * Rabs (val c / sqrt S) + et) /\
      within (w : bf) (val d / sqrt S) (8 * u * Rabs (val d / sqrt S) + et) /\
      Rabs (sqrt (val x * val x + val y * val y + val z * val z + val w * val w) - 1) <= 8 * u + 4 * et.
  Proof.
    intros P l Fl S HS. destruct (core4 a b c d P Fl HS) as [K R]. fold S in K. split; [exact K |].
    assert (S0 : 0 < S) by (eapply Rlt_le_trans; [apply bpow_gt_0 | exact HS]). pose proof (sqrt_lt_R0 S S0) as R0.
    assert (L : 0 < val l).
    { pose proof (pow_small prec 4 P ltac:(lia)) as W. simpl (4 + 2)%nat in W.
      assert (U' : u <= / 1024).
      { unfold uro. change (/ 1024) with (bpow radix2 (-10)). apply bpow_le. lia. }
      assert (W2 : ((1 + u) ^ 6 - 1) * sqrt S <= / 2 * sqrt S).
      { apply Rmult_le_compat_r; [lra |]. eapply Rle_trans; [exact W |]. simpl. lra. }
      change (val l) with (val (Bsqrt mode_NE (Bplus mode_NE (Bplus mode_NE (Bplus mode_NE (Bmult mode_NE a a) (Bmult mode_NE b b)) (Bmult mode_NE c c)) (Bmult mode_NE d d)))).
      apply Rabs_le_inv in K. lra. }
    assert (G : ngt l (n0 : F) = true).
    { unfold ngt. rewrite ncmp_F. change (n0 : F) with (@f_lit prec emax Hp Hm 0 1). rewrite (b2x_finite prec emax l Fl).
      destruct (fv_lit_0 prec emax) as [F0 V0]. rewrite (b2x_finite _ _ _ F0), V0.
      rewrite <- Rcompare_xcmp. rewrite Rcompare_Gt by exact L. reflexivity. }
    do 4 eexists. split; [| exact R]. unfold quat_normalize. fold l. rewrite G. reflexivity.
  Qed.

  (** ---- the six vector types at once ---- *)
  Notation vals v := (map val (vcomps v)).
  Notation avals v := (map Rabs (vals v)).
  Lemma vec_dot_err k (a b : vcar F k) (t : F) : vec_dot a b = Some t -> is_finite (t : bf) = true ->
    Rabs (val t - ldot (vals a) (vals b)) <= er (vlen k) (ldot (avals a) (avals b)).
  Proof.
    intros E H. destruct k; destruct a as [a], b as [b]; destruct a, b; injection E as <-; simpl vcomps; simpl map; unfold ldot; simpl fold_right; simpl vlen;
      rewrite <- !Rabs_mult; rewrite ?Rplus_0_r, <- ?Rplus_assoc.
    - exact (proj2 (proj1 (sum2_approx prec emax _ _ _ _ H))).
    - exact (proj2 (proj1 (sum2_approx prec emax _ _ _ _ H))).
    - exact (proj2 (proj1 (sum3_approx prec emax _ _ _ _ _ _ H))).
    - exact (proj2 (proj1 (sum3_approx prec emax _ _ _ _ _ _ H))).
    - exact (proj2 (proj1 (sum4_approx prec emax false false false _ _ _ _ _ _ _ _ H))).
    - exact (proj2 (proj1 (sum4_approx prec emax false false false _ _ _ _ _ _ _ _ H))).
  Qed.
  Lemma ldot2 a b : ldot [a; b] [a; b] = a * a + b * b. Proof. simpl. ring. Qed.
  Lemma ldot3 a b c : ldot [a; b; c] [a; b; c] = a * a + b * b + c * c. Proof. simpl. ring. Qed.
  Lemma ldot4 a b c d : ldot [a; b; c; d] [a; b; c; d] = a * a + b * b + c * c + d * d. Proof. simpl. ring. Qed.
  Lemma vec_norm_err k (a : vcar F k) (l : F) : (9 < prec)%Z -> vec_magnitude a = Some l -> is_finite (l : bf) = true ->
    bpow radix2 (6 - emax) <= ldot (vals a) (vals a) ->
    Rabs (val l - lnorm (vals a)) <= ((1 + u) ^ (vlen k + 2) - 1) * lnorm (vals a) /\
    exists w, vec_normalize a = Ok (Some w) /\
      Forall2 (fun z x : bf => within z (val x / lnorm (vals a)) (INR (vlen k + 4) * u * Rabs (val x / lnorm (vals a)) + et))
        (vcomps w) (vcomps a) /\
      Rabs (lnorm (vals w) - 1) <= INR (vlen k + 4) * u + 4 * et.
  Proof.
    intros P E Fl HS. unfold lnorm. replace (INR (vlen k + 4)) with (match k with K2x1 | K1x2 => 6 | K3x1 | K1x3 => 7 | _ => 8 end)
      by (destruct k; simpl; ring).
    destruct k; destruct a as [a]; destruct a; simpl vcomps in *; simpl map in *; rewrite ?ldot2, ?ldot3, ?ldot4 in *.
    - destruct (norm2 _ _ l P E Fl HS) as (A & x & y & E' & Hx & Hy & L). split; [exact A |].
      exists (M2x1 (A2 x y)). split; [exact E' |]. split; [repeat (constructor; [assumption |]); constructor |].
      simpl vcomps. simpl map. rewrite ldot2. exact L.
    - destruct (norm2 _ _ l P E Fl HS) as (A & x & y & E' & Hx & Hy & L). split; [exact A |].
      exists (M1x2 (A2 x y)). split; [injection E' as <- <-; reflexivity |]. split; [repeat (constructor; [assumption |]); constructor |].
      simpl vcomps. simpl map. rewrite ldot2. exact L.
    - destruct (norm3 _ _ _ l P E Fl HS) as (A & x & y & z & E' & Hx & Hy & Hz & L). split; [exact A |].
      exists (M3x1 (A3 x y z)). split; [exact E' |]. split; [repeat (constructor; [assumption |]); constructor |].
      simpl vcomps. simpl map. rewrite ldot3. exact L.
    - destruct (norm3 _ _ _ l P E Fl HS) as (A & x & y & z & E' & Hx & Hy & Hz & L). split; [exact A |].
      exists (M1x3 (A3 x y z)). split; [injection E' as <- <- <-; reflexivity |]. split; [repeat (constructor; [assumption |]); constructor |].
      simpl vcomps. simpl map. rewrite ldot3. exact L.
    - destruct (norm4 _ _ _ _ l P E Fl HS) as (A & x & y & z & w & E' & Hx & Hy & Hz & Hw & L). split; [exact A |].
      exists (M4x1 (A4 x y z w)). split; [exact E' |]. split; [repeat (constructor; [assumption |]); constructor |].
      simpl vcomps. simpl map. rewrite ldot4. exact L.
    - destruct (norm4 _ _ _ _ l P E Fl HS) as (A & x & y & z & w & E' & Hx & Hy & Hz & Hw & L). split; [exact A |].
      exists (M1x4 (A4 x y z w)). split; [injection E' as <- <- <- <-; reflexivity |]. split; [repeat (constructor; [assumption |]); constructor |].
      simpl vcomps. simpl map. rewrite ldot4. exact L.
  Qed.
End Round3.
