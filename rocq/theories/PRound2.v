(** PRound2.v — rounding errors of magnitudes and of normalised vectors. *)
From Coq Require Import Reals ZArith NArith Bool Lra Lia Psatz.
From Flocq Require Import Core BinarySingleNaN Relative Div_sqrt_error.
From Verif Require Import Base Num Float Exact FloatFacts FloatRound SpecRound PRound.
Local Open Scope R_scope.

Lemma sqrt_close s S d : 0 <= s -> 0 < S -> Rabs (s - S) <= d * S -> Rabs (sqrt s - sqrt S) <= d * sqrt S.
Proof.
  intros Hs HS H. pose proof (sqrt_lt_R0 S HS) as Q. pose proof (sqrt_pos s) as Q'.
  pose proof (sqrt_sqrt S (Rlt_le _ _ HS)) as E. pose proof (sqrt_sqrt s Hs) as E'.
  apply (Rmult_le_reg_r (sqrt S)); [exact Q |].
  replace (d * sqrt S * sqrt S) with (d * S) by (rewrite Rmult_assoc, E; ring).
  eapply Rle_trans; [| exact H].
  replace (s - S) with ((sqrt s - sqrt S) * (sqrt s + sqrt S)) by (transitivity (sqrt s * sqrt s - sqrt S * sqrt S); [ring | rewrite E, E'; reflexivity]).
  rewrite Rabs_mult. rewrite (Rabs_right (sqrt s + sqrt S)) by lra.
  apply Rmult_le_compat_l; [apply Rabs_pos | lra].
Qed.

Lemma sum4_le_2 a b c d : a * a + b * b + c * c + d * d = 1 -> a + b + c + d <= 2.
Proof.
  intro H. assert (K : (a + b + c + d) * (a + b + c + d) <= 4).
  { pose proof (Rle_0_sqr (a - b)). pose proof (Rle_0_sqr (a - c)). pose proof (Rle_0_sqr (a - d)).
    pose proof (Rle_0_sqr (b - c)). pose proof (Rle_0_sqr (b - d)). pose proof (Rle_0_sqr (c - d)). unfold Rsqr in *. lra. }
  nra.
Qed.

Section Round2.
  Context (prec emax : Z) {Hp : Prec_gt_0 prec} {Hm : Prec_lt_emax prec emax}.
  Notation bf := (binary_float prec emax).
  Notation fmt := (SpecFloat.fexp prec emax).
  Notation rnd := (round radix2 fmt ZnearestE).
  Notation big := (bpow radix2 emax).
  Notation u := (uro prec).
  Notation et := (eta prec emax).

  Lemma rnd_sqrt (x : bf) : (1 < prec)%Z -> exists e, Rabs e <= u /\ rnd (sqrt (B2R x)) = sqrt (B2R x) * (1 + e).
  Proof.
    intro P1. assert (He : (3 - emax - prec <= 2 * (1 - prec))%Z) by (unfold Prec_lt_emax in Hm; lia).
    destruct (sqrt_error_N_FLT_ex radix2 prec (fun t => negb (Z.even t)) P1 (3 - emax - prec) He (B2R x)
                (generic_format_B2R prec emax x)) as (e & He' & E).
    exists e. split; [| exact E]. eapply Rle_trans; [exact He' |]. rewrite <- (u_ro_eq prec).
    eapply Rle_trans; [apply om1ds1p2u_ro_le_u_rod1pu_ro; exact P1 |]. apply u_rod1pu_ro_le_u_ro.
  Qed.
  Lemma et_u : et = u * bpow radix2 (2 - emax).
  Proof. unfold eta, uro. rewrite <- bpow_plus. f_equal. lia. Qed.
  Lemma under_small n S : (1 <= n <= 4)%nat -> bpow radix2 (6 - emax) <= S ->
    INR n * (1 + u) ^ (n - 1) * et <= u * S.
  Proof.
    intros Hn HS. rewrite et_u. replace (6 - emax)%Z with (4 + (2 - emax))%Z in HS by lia. rewrite bpow_plus in HS.
    change (bpow radix2 4) with 16 in HS. pose proof (u_pos prec). pose proof (u_half prec) as Uh.
    pose proof (bpow_gt_0 radix2 (2 - emax)) as B. set (b := bpow radix2 (2 - emax)) in *.
    replace (INR n * (1 + u) ^ (n - 1) * (u * b)) with (u * (INR n * (1 + u) ^ (n - 1) * b)) by ring.
    apply Rmult_le_compat_l; [lra |]. eapply Rle_trans; [| exact HS]. apply Rmult_le_compat_r; [lra |].
    assert (C : (n = 1 \/ n = 2 \/ n = 3 \/ n = 4)%nat) by lia.
    destruct C as [-> | [-> | [-> | ->]]]; simpl; nra.
  Qed.
  Lemma mag_err n (s : bf) S : (1 < prec)%Z -> (1 <= n <= 4)%nat -> approx prec emax n s S S -> bpow radix2 (6 - emax) <= S ->
    is_finite (Bsqrt mode_NE s) = true ->
    exists d, Rabs d <= (1 + u) ^ (n + 2) - 1 /\ B2R (Bsqrt mode_NE s) = sqrt S * (1 + d).
  Proof.
    intros P1 Hn [[Fs Hs] _] HS Fq. pose proof (Bsqrt_correct prec emax Hp Hm mode_NE s) as [V [F _]].
    change (round_mode mode_NE) with ZnearestE in V.
    assert (S0 : 0 < S) by (eapply Rlt_le_trans; [apply bpow_gt_0 | exact HS]).
    assert (s0 : 0 <= B2R s).
    { rewrite F in Fq. destruct s as [b | b | | [|] m e h]; try discriminate; [simpl; lra |].
      simpl. apply F2R_ge_0. simpl. lia. }
    pose proof (u_pos prec) as U. pose proof (u_half prec) as Uh. pose proof (pow1u prec n) as Q.
    pose proof (under_small n S Hn HS) as W. unfold err in Hs.
    set (d1 := (1 + u) ^ (n + 1) - 1).
    assert (D1 : Rabs (B2R s - S) <= d1 * S).
    { eapply Rle_trans; [exact Hs |]. unfold d1. rewrite Nat.add_1_r.
      change ((1 + u) ^ Datatypes.S n) with ((1 + u) * (1 + u) ^ n).
      assert (0 <= u * ((1 + u) ^ n - 1) * S) by (apply Rmult_le_pos; [apply Rmult_le_pos |]; lra). nra. }
    pose proof (sqrt_close _ _ _ s0 S0 D1) as C. pose proof (sqrt_lt_R0 S S0) as R0.
    destruct (rnd_sqrt s P1) as (e & He & E). rewrite E in V. clear E.
    exists (sqrt (B2R s) / sqrt S * (1 + e) - 1). split.
    - replace (sqrt (B2R s) / sqrt S * (1 + e) - 1) with ((sqrt (B2R s) - sqrt S) / sqrt S * (1 + e) + e) by (field; lra).
      assert (B1 : Rabs ((sqrt (B2R s) - sqrt S) / sqrt S) <= d1).
      { unfold Rdiv. rewrite Rabs_mult, (Rabs_right (/ sqrt S)) by (left; apply Rinv_0_lt_compat; exact R0).
        apply (Rmult_le_reg_r (sqrt S)); [exact R0 |]. rewrite Rmult_assoc, Rinv_l, Rmult_1_r by lra. exact C. }
      eapply Rle_trans; [apply Rabs_triang |]. rewrite Rabs_mult.
      assert (B2 : Rabs (1 + e) <= 1 + u) by (eapply Rle_trans; [apply Rabs_triang |]; rewrite Rabs_R1; lra).
      assert (B3 : Rabs ((sqrt (B2R s) - sqrt S) / sqrt S) * Rabs (1 + e) <= d1 * (1 + u))
        by (apply Rmult_le_compat; try apply Rabs_pos; assumption).
      replace (n + 2)%nat with (Datatypes.S (n + 1)) by lia.
      change ((1 + u) ^ Datatypes.S (n + 1)) with ((1 + u) * (1 + u) ^ (n + 1)). unfold d1 in *. lra.
    - rewrite V. field. lra.
  Qed.

  (** ---- dividing by the computed magnitude ---- *)
  Definition gn (n : nat) : R := INR (n + 4) * u.
  Lemma pow_small n : (9 < prec)%Z -> (1 <= n <= 4)%nat -> (1 + u) ^ (n + 2) - 1 <= (INR n + 2 + 3 / 100) * u.
  Proof.
    intros P Hn. pose proof (u_pos prec) as U.
    assert (U' : u <= / 1024).
    { unfold uro. change (/ 1024) with (bpow radix2 (-10)). apply bpow_le. lia. }
    assert (K : forall k c, 0 <= c -> (1 + u) ^ k <= 1 + c * u -> (1 + u) ^ (Datatypes.S k) <= 1 + (c + 1 + c / 1024) * u).
    { intros k c Hc H. change ((1 + u) ^ Datatypes.S k) with ((1 + u) * (1 + u) ^ k).
      assert (L : (1 + u) * (1 + u) ^ k <= (1 + u) * (1 + c * u)) by (apply Rmult_le_compat_l; lra).
      eapply Rle_trans; [exact L |]. assert (c * u * u <= c * u * / 1024).
      { apply Rmult_le_compat_l; [apply Rmult_le_pos; lra | exact U']. } lra. }
    assert (H1 : (1 + u) ^ 1 <= 1 + 1 * u) by (simpl; lra).
    assert (H2 := H1). apply K in H2; [| lra]. assert (H3 := H2). apply K in H3; [| lra].
    assert (H4 := H3). apply K in H4; [| lra]. assert (H5 := H4). apply K in H5; [| lra].
    assert (H6 := H5). apply K in H6; [| lra].
    assert (C : (n = 1 \/ n = 2 \/ n = 3 \/ n = 4)%nat) by lia.
    destruct C as [-> | [-> | [-> | ->]]]; simpl (INR _); simpl (_ + _)%nat; lra.
  Qed.
  Lemma norm_comp n (x l : bf) (Q d : R) : (9 < prec)%Z -> (1 <= n <= 4)%nat -> is_finite x = true -> 0 < Q -> Rabs (B2R x) <= Q ->
    Rabs d <= (1 + u) ^ (n + 2) - 1 -> B2R l = Q * (1 + d) ->
    within (Bdiv mode_NE x l) (B2R x / Q) (gn n * Rabs (B2R x / Q) + et).
  Proof.
    intros P Hn Fx HQ Hx Hd Hl. pose proof (pow_small n P Hn) as PS.
    pose proof (u_pos prec) as U. assert (U' : u <= / 1024).
    { unfold uro. change (/ 1024) with (bpow radix2 (-10)). apply bpow_le. lia. }
    assert (N1 : 1 <= INR n <= 4).
    { split; [change 1 with (INR 1) | replace 4 with (INR 4) by (simpl; lra)]; apply le_INR; lia. }
    assert (Hd' : Rabs d <= (INR n + 2 + 3 / 100) * u) by lra.
    assert (S1 : (INR n + 2 + 3 / 100) * u <= (4 + 2 + 3 / 100) * / 1024).
    { apply Rmult_le_compat; lra. }
    apply Rabs_le_inv in Hd'. destruct Hd' as [d1 d2].
    assert (D0 : 0 < 1 + d) by lra.
    assert (Nl : B2R l <> 0) by (rewrite Hl; apply Rgt_not_eq, Rmult_lt_0_compat; lra).
    destruct (div_round prec emax x l Fx Nl) as [M1 _].
    destruct (rnd_err prec emax (B2R x / B2R l)) as (e & h & He & Hh & E).
    set (y := B2R x / Q) in *.
    assert (Ey : B2R x / B2R l = y * / (1 + d)) by (unfold y; rewrite Hl; field; lra).
    assert (Y1 : Rabs y <= 1).
    { unfold y, Rdiv. rewrite Rabs_mult, (Rabs_right (/ Q)) by (left; apply Rinv_0_lt_compat; exact HQ).
      apply (Rmult_le_reg_r Q); [exact HQ |]. rewrite Rmult_assoc, Rinv_l by lra. lra. }
    assert (Er : Rabs (rnd (B2R x / B2R l) - y) <= gn n * Rabs y + et).
    { rewrite E, Ey. replace (y * / (1 + d) * (1 + e) + h - y) with (y * ((1 + e) * / (1 + d) - 1) + h) by ring.
      eapply Rle_trans; [apply Rabs_triang |]. rewrite Rabs_mult. apply Rplus_le_compat; [| exact Hh].
      rewrite (Rmult_comm (gn n)). apply Rmult_le_compat_l; [apply Rabs_pos |].
      apply Rabs_le_inv in He. destruct He as [e1 e2].
      assert (G : gn n = (INR n + 4) * u) by (unfold gn; rewrite plus_INR; simpl; ring).
      assert (GU : (INR n + 4) * u <= 8 * / 1024) by (apply Rmult_le_compat; lra).
      assert (I : / (1 + d) * (1 + d) = 1) by (apply Rinv_l; lra).
      assert (I0 : 0 < / (1 + d)) by (apply Rinv_0_lt_compat; lra).
      rewrite G. apply Rabs_le. set (c := INR n) in *.
      assert (V1 : (1 - (c + 4) * u) * (1 + d) <= 1 + e).
      { assert ((1 - (c + 4) * u) * (1 + d) <= (1 - (c + 4) * u) * (1 + (c + 2 + 3 / 100) * u)).
        { apply Rmult_le_compat_l; lra. }
        assert (0 <= (c + 4) * u * ((c + 2 + 3 / 100) * u)) by (apply Rmult_le_pos; apply Rmult_le_pos; lra). lra. }
      assert (V2 : 1 + e <= (1 + (c + 4) * u) * (1 + d)).
      { assert (0 <= (c + 4) * u) by (apply Rmult_le_pos; lra).
        assert ((1 + (c + 4) * u) * (1 - (c + 2 + 3 / 100) * u) <= (1 + (c + 4) * u) * (1 + d)).
        { apply Rmult_le_compat_l; lra. }
        assert ((c + 4) * u * ((c + 2 + 3 / 100) * u) <= u * / 2).
        { replace ((c + 4) * u * ((c + 2 + 3 / 100) * u)) with (u * ((c + 4) * ((c + 2 + 3 / 100) * u))) by ring.
          apply Rmult_le_compat_l; [lra |]. assert ((c + 4) * ((c + 2 + 3 / 100) * u) <= 8 * ((4 + 2 + 3 / 100) * / 1024)).
          { apply Rmult_le_compat; try lra; try (apply Rmult_le_pos; lra). } lra. }
        lra. }
      split.
      - apply (Rmult_le_reg_r (1 + d)); [exact D0 |].
        replace (((1 + e) * / (1 + d) - 1) * (1 + d)) with (1 + e - (1 + d)) by (field; lra). lra.
      - apply (Rmult_le_reg_r (1 + d)); [exact D0 |].
        replace (((1 + e) * / (1 + d) - 1) * (1 + d)) with (1 + e - (1 + d)) by (field; lra). lra. }
    assert (Hb : Rabs (rnd (B2R x / B2R l)) < big).
    { assert (G : gn n = (INR n + 4) * u) by (unfold gn; rewrite plus_INR; simpl; ring).
      assert (GU : (INR n + 4) * u <= 8 * / 1024) by (apply Rmult_le_compat; lra).
      assert (B : 4 <= big).
      { change 4 with (bpow radix2 2). apply bpow_le. unfold Prec_lt_emax in Hm. lia. }
      assert (T : et <= 1).
      { unfold eta. change 1 with (bpow radix2 0). apply bpow_le. unfold Prec_lt_emax in Hm. lia. }
      replace (rnd (B2R x / B2R l)) with ((rnd (B2R x / B2R l) - y) + y) by ring.
      eapply Rle_lt_trans; [apply Rabs_triang |].
      assert (gn n * Rabs y <= 8 * / 1024 * 1).
      { apply Rmult_le_compat; try apply Rabs_pos; rewrite ?G; try lra. }
      lra. }
    destruct (M1 Hb) as [F V]. split; [exact F |]. rewrite V. exact Er.
  Qed.

  (** ---- the length of the normalised vector ---- *)
  Lemma len4 (g t y0 y1 y2 y3 z0 z1 z2 z3 : R) : 0 <= g -> 0 <= t -> g + 4 * t <= 1 ->
    y0 * y0 + y1 * y1 + y2 * y2 + y3 * y3 = 1 ->
    Rabs (z0 - y0) <= g * Rabs y0 + t -> Rabs (z1 - y1) <= g * Rabs y1 + t ->
    Rabs (z2 - y2) <= g * Rabs y2 + t -> Rabs (z3 - y3) <= g * Rabs y3 + t ->
    Rabs (sqrt (z0 * z0 + z1 * z1 + z2 * z2 + z3 * z3) - 1) <= g + 4 * t.
  Proof.
    intros Hg Ht Hgt Hy H0 H1 H2 H3.
    assert (C : forall y z, Rabs (z - y) <= g * Rabs y + t ->
              z * z <= (1 + g) * (1 + g) * (y * y) + 2 * (1 + g) * t * Rabs y + t * t /\
              (1 - g) * (1 - g) * (y * y) - 2 * (1 - g) * t * Rabs y <= z * z).
    { intros y z H. assert (A : Rabs y * Rabs y = y * y) by (rewrite <- Rabs_mult; apply Rabs_right; nra).
      assert (B : Rabs z * Rabs z = z * z) by (rewrite <- Rabs_mult; apply Rabs_right; nra).
      pose proof (Rabs_triang_inv z y) as T1. pose proof (Rabs_triang_inv y z) as T2.
      rewrite (Rabs_minus_sym y z) in T2. pose proof (Rabs_pos y) as Y. pose proof (Rabs_pos z) as Z.
      set (a := Rabs y) in *. set (b := Rabs z) in *. rewrite <- A, <- B. split.
      - assert (b <= (1 + g) * a + t) by lra.
        assert (b * b <= ((1 + g) * a + t) * ((1 + g) * a + t)) by (apply Rmult_le_compat; lra). nra.
      - assert (L : (1 - g) * a - t <= b) by lra.
        destruct (Rle_or_lt t ((1 - g) * a)) as [K | K].
        + assert (((1 - g) * a - t) * ((1 - g) * a - t) <= b * b) by (apply Rmult_le_compat; lra). nra.
        + assert (0 <= (1 - g) * a) by (apply Rmult_le_pos; lra). nra. }
    destruct (C _ _ H0) as [U0 L0], (C _ _ H1) as [U1 L1], (C _ _ H2) as [U2 L2], (C _ _ H3) as [U3 L3]. clear C.
    assert (A : forall y, Rabs y * Rabs y = y * y) by (intro y; rewrite <- Rabs_mult; apply Rabs_right; nra).
    assert (W : Rabs y0 + Rabs y1 + Rabs y2 + Rabs y3 <= 2).
    { rewrite <- (A y0), <- (A y1), <- (A y2), <- (A y3) in Hy. apply sum4_le_2; assumption || apply Rabs_pos. }
    set (N := z0 * z0 + z1 * z1 + z2 * z2 + z3 * z3).
    assert (N0 : 0 <= N) by (unfold N; nra).
    assert (P1 : 0 <= g * t) by (apply Rmult_le_pos; lra). assert (P2 : 0 <= t * t) by (apply Rmult_le_pos; lra).
    assert (P3 : 0 <= t * (1 - g - 4 * t)) by (apply Rmult_le_pos; lra).
    assert (Up : N <= (1 + (g + 4 * t)) * (1 + (g + 4 * t))).
    { assert (X : 2 * (1 + g) * t * (Rabs y0 + Rabs y1 + Rabs y2 + Rabs y3) <= 2 * (1 + g) * t * 2).
      { apply Rmult_le_compat_l; [| exact W]. apply Rmult_le_pos; lra. }
      assert (X1 : (1 + g) * (1 + g) * (y0 * y0 + y1 * y1 + y2 * y2 + y3 * y3) = (1 + g) * (1 + g)) by (rewrite Hy; ring).
      assert (X2 : N <= (1 + g) * (1 + g) + 2 * (1 + g) * t * 2 + 4 * (t * t)) by (unfold N; lra).
      eapply Rle_trans; [exact X2 |]. lra. }
    assert (Lo : (1 - (g + 4 * t)) * (1 - (g + 4 * t)) <= N).
    { assert (X : 2 * (1 - g) * t * (Rabs y0 + Rabs y1 + Rabs y2 + Rabs y3) <= 2 * (1 - g) * t * 2).
      { apply Rmult_le_compat_l; [| exact W]. apply Rmult_le_pos; lra. }
      assert (X1 : (1 - g) * (1 - g) * (y0 * y0 + y1 * y1 + y2 * y2 + y3 * y3) = (1 - g) * (1 - g)) by (rewrite Hy; ring).
      assert (X2 : (1 - g) * (1 - g) - 2 * (1 - g) * t * 2 <= N) by (unfold N; lra).
      eapply Rle_trans; [| exact X2]. lra. }
    clearbody N.
    apply Rabs_le. split.
    - apply sqrt_le_1_alt in Lo. rewrite sqrt_square in Lo by lra. lra.
    - apply sqrt_le_1_alt in Up. rewrite sqrt_square in Up by lra. lra.
  Qed.
  Lemma len3 (g t y0 y1 y2 z0 z1 z2 : R) : 0 <= g -> 0 <= t -> g + 4 * t <= 1 ->
    y0 * y0 + y1 * y1 + y2 * y2 = 1 ->
    Rabs (z0 - y0) <= g * Rabs y0 + t -> Rabs (z1 - y1) <= g * Rabs y1 + t -> Rabs (z2 - y2) <= g * Rabs y2 + t ->
    Rabs (sqrt (z0 * z0 + z1 * z1 + z2 * z2) - 1) <= g + 4 * t.
  Proof.
    intros Hg Ht H1 Hy A B C. replace (z0 * z0 + z1 * z1 + z2 * z2) with (z0 * z0 + z1 * z1 + z2 * z2 + 0 * 0) by ring.
    apply (len4 g t y0 y1 y2 0); try assumption; [lra |]. rewrite Rminus_0_r, Rabs_R0. lra.
  Qed.
  Lemma len2 (g t y0 y1 z0 z1 : R) : 0 <= g -> 0 <= t -> g + 4 * t <= 1 ->
    y0 * y0 + y1 * y1 = 1 ->
    Rabs (z0 - y0) <= g * Rabs y0 + t -> Rabs (z1 - y1) <= g * Rabs y1 + t ->
    Rabs (sqrt (z0 * z0 + z1 * z1) - 1) <= g + 4 * t.
  Proof.
    intros Hg Ht H1 Hy A B. replace (z0 * z0 + z1 * z1) with (z0 * z0 + z1 * z1 + 0 * 0) by ring.
    apply (len3 g t y0 y1 0); try assumption; [lra |]. rewrite Rminus_0_r, Rabs_R0. lra.
  Qed.
End Round2.
