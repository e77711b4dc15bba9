(** PRing1.v — one turn of the GJK loop in the ring, in IEEE arithmetic of at least 24 bits (C109). *)
From Coq Require Import Reals List ZArith NArith Bool Lra Lia Psatz.
From Flocq Require Import Core BinarySingleNaN.
Import ListNotations.
From Verif Require Import Base Num Vec Mat Bound Shape Intersect Gjk Float FloatFacts FloatRound Order SpecMat SpecGeom SpecBound SpecBuild SpecRound
  PMat PBound PShape PInter PBuild PRound PIeee1 PIeee2 PIeee5 PPrismF PMirror1 PMirror3 SpecRing PRing0.
Local Open Scope R_scope.

Section Ring1.
  Context (prec emax : Z) {Hp : Prec_gt_0 prec} {Hm : Prec_lt_emax prec emax} (lm : libm (binary_float prec emax)).
  Hypothesis H24 : (24 <= prec)%Z.
  Notation bf := (binary_float prec emax).
  Notation F := (@Ieee prec emax Hp Hm lm).
  Notation fmt := (SpecFloat.fexp prec emax).
  Notation rnd := (round radix2 fmt ZnearestE).
  Notation big := (bpow radix2 emax).
  Notation val := (@B2R prec emax).
  Notation fin x := (is_finite (x : bf) = true).
  Notation fv := (fv prec emax).
  Notation vec := (mat3x1 F).
  Definition kk : R := 17 * uro prec.
  Lemma kk_small : 0 < kk <= 102 / 100000000.
  Proof.
    unfold kk. assert (U : uro prec <= / 16777216) by (unfold uro; change (/ 16777216) with (bpow radix2 (-24)); apply bpow_le; lia). pose proof (bpow_gt_0 radix2 (- prec)) as P. fold (uro prec) in P. lra.
  Qed.

  Lemma rk x : Rabs x <= 16 -> Rabs (rnd x - x) <= kk /\ Rabs (rnd x) < big.
  Proof.
    intro H. destruct (rnd_err prec emax x) as (e & h & He & Hh & E).
    assert (T : eta prec emax <= uro prec) by (unfold eta, uro; apply bpow_le; unfold Prec_lt_emax in Hm; lia).
    assert (X : Rabs (x * e) <= 16 * uro prec) by (apply Rabs_mul; assumption). pose proof kk_small as K0.
    assert (K : Rabs (rnd x - x) <= kk).
    { rewrite E. replace (x * (1 + e) + h - x) with (x * e + h) by ring. unfold kk. apply Rabs_le_inv in X, Hh. apply Rabs_le. lra. }
    split; [exact K |]. apply (below_big emax 7); [unfold Prec_lt_emax in Hm; lia |]. change (bpow radix2 7) with 128.
    apply Rabs_le_inv in K, H. apply Rabs_le. lra.
  Qed.
  Lemma plus_k (x y : bf) : fin x -> fin y -> Rabs (val x + val y) <= 16 -> fin (Bplus mode_NE x y) /\ Rabs (val (Bplus mode_NE x y) - (val x + val y)) <= kk.
  Proof. intros A B C. destruct (rk _ C) as (D & E). destruct (plus_round prec emax x y A B) as [G _]. destruct (G E) as [G1 G2]. rewrite G2. auto. Qed.
  Lemma minus_k (x y : bf) : fin x -> fin y -> Rabs (val x - val y) <= 16 -> fin (Bminus mode_NE x y) /\ Rabs (val (Bminus mode_NE x y) - (val x - val y)) <= kk.
  Proof. intros A B C. destruct (rk _ C) as (D & E). destruct (minus_round prec emax x y A B) as [G _]. destruct (G E) as [G1 G2]. rewrite G2. auto. Qed.
  Lemma mult_k (x y : bf) : fin x -> fin y -> Rabs (val x * val y) <= 16 -> fin (Bmult mode_NE x y) /\ Rabs (val (Bmult mode_NE x y) - (val x * val y)) <= kk.
  Proof. intros A B C. destruct (rk _ C) as (D & E). destruct (mult_round prec emax x y A B) as [G _]. destruct (G E) as [G1 G2]. rewrite G2. auto. Qed.
  Lemma div_k (x y : bf) : fin x -> val y <> 0 -> Rabs (val x / val y) <= 16 -> fin (Bdiv mode_NE x y) /\ Rabs (val (Bdiv mode_NE x y) - (val x / val y)) <= kk.
  Proof. intros A B C. destruct (rk _ C) as (D & E). destruct (div_round prec emax x y A B) as [G _]. destruct (G E) as [G1 G2]. rewrite G2. auto. Qed.
  Lemma sqrt_k (x : bf) : fin x -> 0 <= val x -> sqrt (val x) <= 16 -> fin (Bsqrt mode_NE x) /\ Rabs (val (Bsqrt mode_NE x) - sqrt (val x)) <= kk.
  Proof.
    intros A B C. assert (C' : Rabs (sqrt (val x)) <= 16) by (rewrite Rabs_pos_eq; [exact C | apply sqrt_pos]).
    destruct (rk _ C') as (D & E). destruct (sqrt_ok prec emax x A B) as [G1 G2]. rewrite G2. auto.
  Qed.

  Definition val3 (v : vec) : V3 := V (val (c0 v)) (val (c1 v)) (val (c2 v)).
  Definition fin3 (v : vec) : Prop := fin (c0 v) /\ fin (c1 v) /\ fin (c2 v).
  Lemma small_le m k w : m <= k -> small m w -> small k w. Proof. unfold small. intros ? (A & B & C). repeat split; lra. Qed.

  Lemma minus3_k (a b : vec) : fin3 a -> fin3 b -> small 8 (val3 a) -> small 8 (val3 b) -> fin3 (vminus a b) /\ within kk (val3 (vminus a b)) (vsub (val3 a) (val3 b)).
  Proof.
    intros (A0 & A1 & A2) (B0 & B1 & B2) (S0 & S1 & S2) (T0 & T1 & T2). unfold fin3, within, vsub, val3, vminus in *. cbn [c0 c1 c2 vx vy vz] in *.
    apply Rabs_le_inv in S0, S1, S2, T0, T1, T2.
    destruct (minus_k _ _ A0 B0) as [X0 Y0]; [apply Rabs_le; lra |]. destruct (minus_k _ _ A1 B1) as [X1 Y1]; [apply Rabs_le; lra |]. destruct (minus_k _ _ A2 B2) as [X2 Y2]; [apply Rabs_le; lra |].
    repeat split; assumption.
  Qed.
  Lemma plus3_k (a b : vec) : fin3 a -> fin3 b -> small 8 (val3 a) -> small 8 (val3 b) -> fin3 (vplus a b) /\ within kk (val3 (vplus a b)) (vadd (val3 a) (val3 b)).
  Proof.
    intros (A0 & A1 & A2) (B0 & B1 & B2) (S0 & S1 & S2) (T0 & T1 & T2). unfold fin3, within, vadd, val3, vplus in *. cbn [c0 c1 c2 vx vy vz] in *.
    apply Rabs_le_inv in S0, S1, S2, T0, T1, T2.
    destruct (plus_k _ _ A0 B0) as [X0 Y0]; [apply Rabs_le; lra |]. destruct (plus_k _ _ A1 B1) as [X1 Y1]; [apply Rabs_le; lra |]. destruct (plus_k _ _ A2 B2) as [X2 Y2]; [apply Rabs_le; lra |].
    repeat split; assumption.
  Qed.
  Lemma det_k (a b c d : bf) : fin a -> fin b -> fin c -> fin d -> Rabs (val a) <= 4 -> Rabs (val c) <= 4 -> Rabs (val b) <= 13 / 10 -> Rabs (val d) <= 13 / 10 ->
    fin (Bminus mode_NE (Bmult mode_NE a b) (Bmult mode_NE c d)) /\ Rabs (val (Bminus mode_NE (Bmult mode_NE a b) (Bmult mode_NE c d)) - (val a * val b - val c * val d)) <= 3 * kk.
  Proof.
    intros A B C D Sa Sc Sb Sd. pose proof (Rabs_mul _ _ _ _ Sa Sb) as X. pose proof (Rabs_mul _ _ _ _ Sc Sd) as Y. pose proof kk_small as K.
    destruct (mult_k a b A B ltac:(lra)) as [X1 X2]. destruct (mult_k c d C D ltac:(lra)) as [Y1 Y2]. apply Rabs_le_inv in X, Y, X2, Y2.
    destruct (minus_k _ _ X1 Y1) as [Z1 Z2]; [apply Rabs_le; lra |]. split; [exact Z1 |]. apply Rabs_le_inv in Z2. apply Rabs_le. lra.
  Qed.
  Lemma cross_k (a b : vec) : fin3 a -> fin3 b -> small 4 (val3 a) -> small (13 / 10) (val3 b) -> fin3 (vcrossn a b) /\ within (3 * kk) (val3 (vcrossn a b)) (vcross (val3 a) (val3 b)).
  Proof.
    intros (A0 & A1 & A2) (B0 & B1 & B2) (S0 & S1 & S2) (T0 & T1 & T2). unfold fin3, within, vcross, val3, vcrossn in *. cbn [c0 c1 c2 vx vy vz] in *.
    destruct (det_k _ _ _ _ A1 B2 A2 B1 S1 S2 T2 T1) as [X0 Y0]. destruct (det_k _ _ _ _ A2 B0 A0 B2 S2 S0 T0 T2) as [X1 Y1]. destruct (det_k _ _ _ _ A0 B1 A1 B0 S0 S1 T1 T0) as [X2 Y2].
    repeat split; assumption.
  Qed.
  Lemma dot_k (a b : vec) : fin3 a -> fin3 b -> small 2 (val3 a) -> small 2 (val3 b) -> fin (vdotn a b) /\ Rabs (val (vdotn a b) - vdot (val3 a) (val3 b)) <= 5 * kk.
  Proof.
    intros (A0 & A1 & A2) (B0 & B1 & B2) (S0 & S1 & S2) (T0 & T1 & T2). unfold vdot, val3, vdotn in *. cbn [c0 c1 c2 vx vy vz] in *. pose proof kk_small as K.
    pose proof (Rabs_mul _ _ _ _ S0 T0) as X. pose proof (Rabs_mul _ _ _ _ S1 T1) as Y. pose proof (Rabs_mul _ _ _ _ S2 T2) as Z.
    destruct (mult_k _ _ A0 B0 ltac:(lra)) as [X1 X2]. destruct (mult_k _ _ A1 B1 ltac:(lra)) as [Y1 Y2]. destruct (mult_k _ _ A2 B2 ltac:(lra)) as [Z1 Z2].
    apply Rabs_le_inv in X, Y, Z, X2, Y2, Z2.
    destruct (plus_k _ _ X1 Y1) as [P1 P2]; [apply Rabs_le; lra |]. apply Rabs_le_inv in P2.
    destruct (plus_k _ _ P1 Z1) as [Q1 Q2]; [apply Rabs_le; lra |]. split; [exact Q1 |]. apply Rabs_le_inv in Q2. cbn [nadd nmul Ieee]. apply Rabs_le. lra.
  Qed.
  Lemma minus1_fv : fv (minus1 (N := F)) (-1). Proof. apply (lit_z prec emax lm); [lia | lia]. Qed.
  Lemma neg_k (x : bf) : fin x -> fv (Bmult mode_NE x (minus1 (N := F))) (- val x).
  Proof.
    intro A. destruct minus1_fv as [B C]. destruct (mult_round prec emax x _ A B) as [G _]. rewrite C in G. replace (val x * -1) with (- val x) in G by ring.
    rewrite round_generic in G; [| apply valid_rnd_N | apply generic_format_opp, generic_format_B2R]. apply G. rewrite Rabs_Ropp. apply abs_B2R_lt_emax.
  Qed.
  Lemma neg3_k (a : vec) : fin3 a -> fin3 (vtimes a minus1) /\ val3 (vtimes a minus1) = vscale (-1) (val3 a).
  Proof.
    intros (A0 & A1 & A2). unfold fin3, val3, vtimes, vscale. cbn [c0 c1 c2 vx vy vz]. destruct (neg_k _ A0) as [X0 Y0]. destruct (neg_k _ A1) as [X1 Y1]. destruct (neg_k _ A2) as [X2 Y2].
    split; [repeat split; assumption |]. cbn [nmul Ieee]. rewrite Y0, Y1, Y2. f_equal; ring.
  Qed.
  Lemma sqrt_close s t : 98 / 100 <= s -> 98 / 100 <= t -> Rabs (sqrt s - sqrt t) <= Rabs (s - t).
  Proof.
    intros S T. assert (A : 98 / 100 <= sqrt s). { rewrite <- (sqrt_square (98 / 100)) by lra. apply sqrt_le_1; lra. } assert (B : 98 / 100 <= sqrt t). { rewrite <- (sqrt_square (98 / 100)) by lra. apply sqrt_le_1; lra. }
    replace (s - t) with ((sqrt s - sqrt t) * (sqrt s + sqrt t)) by (pose proof (sqrt_def s ltac:(lra)); pose proof (sqrt_def t ltac:(lra)); lra).
    rewrite Rabs_mult, (Rabs_pos_eq (sqrt s + sqrt t)) by lra. pose proof (Rabs_pos (sqrt s - sqrt t)). nra.
  Qed.
  Lemma mag_k (d : vec) : fin3 d -> small 2 (val3 d) -> 1 <= vdot (val3 d) (val3 d) <= 3 -> fin (vmag d) /\ Rabs (val (vmag d) - norm (val3 d)) <= 6 * kk.
  Proof.
    intros Fd Sd D1. destruct (dot_k d d Fd Fd Sd Sd) as [A B]. pose proof kk_small as K. pose proof (dot3 _ _ _ _ (proj1 Sd) (proj1 (proj2 Sd)) (proj2 (proj2 Sd)) (proj1 Sd) (proj1 (proj2 Sd)) (proj2 (proj2 Sd))) as DD.
    change (vmag d) with (Bsqrt mode_NE (vdotn d d)). apply Rabs_le_inv in DD. pose proof (Rabs_le_inv _ _ B) as B'.
    assert (Q : sqrt (val (vdotn d d)) <= 16). { apply Rle_trans with (sqrt (16 * 16)); [apply sqrt_le_1; lra | rewrite sqrt_square; lra]. }
    destruct (sqrt_k _ A ltac:(lra) Q) as [X Y]. split; [exact X |]. pose proof (sqrt_close (val (vdotn d d)) (vdot (val3 d) (val3 d)) ltac:(lra) ltac:(lra)) as Z.
    fold (norm (val3 d)) in Z. assert (Z' : Rabs (sqrt (val (vdotn d d)) - norm (val3 d)) <= 5 * kk) by lra. apply Rabs_le_inv in Y, Z'. apply Rabs_le. lra.
  Qed.
  Lemma unit_k (x f : bf) (m : R) : fin x -> Rabs (val x) <= m -> 1 <= m <= 2 -> Rabs (val f - m) <= 6 * kk ->
    fin (Bdiv mode_NE x f) /\ Rabs (val (Bdiv mode_NE x f) - / m * val x) <= 8 * kk /\ Rabs (/ m * val x) <= 1.
  Proof.
    intros A B C D. pose proof kk_small as K. apply Rabs_le_inv in D. assert (G : 99 / 100 <= val f) by lra.
    assert (I : Rabs (/ m * val x) <= 1). { rewrite Rabs_mult, (Rabs_pos_eq (/ m)) by (apply Rlt_le, Rinv_0_lt_compat; lra). apply (Rmult_le_reg_l m); [lra |]. rewrite <- Rmult_assoc, Rinv_r by lra. lra. }
    assert (E : Rabs (val x / val f - / m * val x) <= 7 * kk).
    { replace (val x / val f - / m * val x) with (/ m * val x * ((m - val f) / val f)) by (field; lra).
      replace (7 * kk) with (1 * (7 * kk)) by ring. apply Rabs_mul; [exact I |]. unfold Rdiv. rewrite Rabs_mult, (Rabs_pos_eq (/ val f)) by (apply Rlt_le, Rinv_0_lt_compat; lra).
      apply (Rmult_le_reg_r (val f)); [lra |]. rewrite Rmult_assoc, Rinv_l, Rmult_1_r by lra. apply Rle_trans with (6 * kk); [apply Rabs_le; lra | nra]. }
    apply Rabs_le_inv in E. pose proof (Rabs_le_inv _ _ I) as I'. destruct (div_k x f A ltac:(lra)) as [X Y]; [apply Rabs_le; lra |]. split; [exact X |]. split; [| exact I]. apply Rabs_le_inv in Y. apply Rabs_le. lra.
  Qed.
  Lemma half_k (x r : bf) (t : R) : fin x -> fv r (/ 2) -> Rabs (val x - t) <= 8 * kk -> Rabs t <= 1 -> fin (Bmult mode_NE x r) /\ Rabs (val (Bmult mode_NE x r) - / 2 * t) <= 5 * kk.
  Proof.
    intros A [B C] D E. pose proof kk_small as K. apply Rabs_le_inv in D, E. destruct (mult_k x r A B) as [X Y]; [rewrite C; apply Rabs_le; lra |]. split; [exact X |]. rewrite C in Y. apply Rabs_le_inv in Y. apply Rabs_le. lra.
  Qed.
  Lemma reach_k (c : vec) (r : bf) (d : vec) : fin3 c -> small 4 (val3 c) -> fv r (/ 2) -> fin3 d -> small 2 (val3 d) -> 1 <= vdot (val3 d) (val3 d) <= 3 ->
    exists p, reach (Nm := F) c r d = Some p /\ fin3 p /\ within (6 * kk) (val3 p) (vadd (val3 c) (vscale (/ 2) (vscale (/ norm (val3 d)) (val3 d)))) /\ small 6 (val3 p).
  Proof.
    intros Fc Sc Hr Fd Sd D1. destruct (mag_k d Fd Sd D1) as [M1 M2]. pose proof kk_small as K. set (m := norm (val3 d)) in *.
    assert (N1 : 1 <= m <= 2). { pose proof (dot3 _ _ _ _ (proj1 Sd) (proj1 (proj2 Sd)) (proj2 (proj2 Sd)) (proj1 Sd) (proj1 (proj2 Sd)) (proj2 (proj2 Sd))) as DD. apply Rabs_le_inv in DD. unfold m, norm. split.
      - rewrite <- sqrt_1. apply sqrt_le_1; lra.
      - apply Rle_trans with (sqrt (2 * 2)); [apply sqrt_le_1; lra | rewrite sqrt_square; lra]. }
    assert (CM : Rabs (vx (val3 d)) <= m /\ Rabs (vy (val3 d)) <= m /\ Rabs (vz (val3 d)) <= m).
    { apply (comp_le _ _ (vdot (val3 d) (val3 d))); [lra | lra |]. unfold m, norm. rewrite sqrt_def; lra. }
    assert (NZ : nne (N := F) (vmag d) n0 = true). { unfold nne. destruct (fv_n0 prec emax lm) as [Z1 Z2]. rewrite (neqb_val_false prec emax lm); [reflexivity | exact M1 | exact Z1 |]. rewrite Z2. apply Rabs_le_inv in M2. lra. }
    unfold reach. rewrite NZ. eexists. split; [reflexivity |]. destruct d as [[x y z]], c as [[a b e]].
    destruct Fd as (F0 & F1 & F2), Fc as (G0 & G1 & G2), CM as (C0 & C1 & C2), Sc as (T0 & T1 & T2). unfold vmag in M1, M2. clear NZ D1 Sd. cbn [c0 c1 c2 val3 vx vy vz] in *. clearbody m.
    set (f := nsqrt F _) in *. unfold nrm, vtimes, vplus, vadd, vscale, within, fin3, small, val3. fold f. cbn [c0 c1 c2 vx vy vz]. clearbody f.
    assert (One : forall (u w : bf), fin u -> fin w -> Rabs (val u) <= m -> Rabs (val w) <= 4 ->
      fin (Bplus mode_NE w (Bmult mode_NE (Bdiv mode_NE u f) r)) /\ Rabs (val (Bplus mode_NE w (Bmult mode_NE (Bdiv mode_NE u f) r)) - (val w + / 2 * (/ m * val u))) <= 6 * kk /\ Rabs (val (Bplus mode_NE w (Bmult mode_NE (Bdiv mode_NE u f) r))) <= 6).
    { intros u w Fu Fw Bu Bw. destruct (unit_k u f m Fu Bu N1 M2) as (X1 & X2 & X3). destruct (half_k _ r _ X1 Hr X2 X3) as (Y1 & Y2). apply Rabs_le_inv in Y2, X3, Bw.
      destruct (plus_k w _ Fw Y1) as (Z1 & Z2); [apply Rabs_le; lra |]. apply Rabs_le_inv in Z2. split; [exact Z1 |]. split; apply Rabs_le; lra. }
    destruct (One x a F0 G0 C0 T0) as (A1 & A2 & A3). destruct (One y b F1 G1 C1 T1) as (B1 & B2 & B3). destruct (One z e F2 G2 C2 T2) as (E1 & E2 & E3). repeat split; assumption.
  Qed.
  Lemma neg_dot v : vdot (vscale (-1) v) (vscale (-1) v) = vdot v v. Proof. unfold vdot, vscale; cbn; ring. Qed.
  Lemma small_neg m v : small m v -> small m (vscale (-1) v).
  Proof. intros (A & B & C). unfold small, vscale; cbn [vx vy vz]. apply Rabs_le_inv in A, B, C. repeat split; apply Rabs_le; lra. Qed.
  Lemma mink_k (c c' : vec) (r r' : bf) (d : vec) : fin3 c -> small 4 (val3 c) -> fin3 c' -> small 4 (val3 c') -> fv r (/ 2) -> fv r' (/ 2) ->
    fin3 d -> small 2 (val3 d) -> 1 <= vdot (val3 d) (val3 d) <= 3 ->
    exists p, mink (Nm := F) c r c' r' d = Some p /\ fin3 p /\ within (/ 50000) (val3 p) (vadd (vsub (val3 c) (val3 c')) (vscale (/ norm (val3 d)) (val3 d))).
  Proof.
    intros Fc Sc Fc' Sc' Hr Hr' Fd Sd D1. destruct (reach_k c r d Fc Sc Hr Fd Sd D1) as (p & E & Fp & Wp & Sp). destruct (neg3_k d Fd) as [Fn En].
    destruct (reach_k c' r' (vtimes d minus1) Fc' Sc' Hr' Fn) as (q & E' & Fq & Wq & Sq); [rewrite En; apply small_neg; exact Sd | rewrite En, neg_dot; exact D1 |].
    unfold mink. rewrite E, E'. exists (vminus p q). split; [reflexivity |].
    destruct (minus3_k p q Fp Fq (small_le 6 8 _ ltac:(lra) Sp) (small_le 6 8 _ ltac:(lra) Sq)) as [Fm Wm]. split; [exact Fm |].
    assert (NN : norm (val3 (vtimes d minus1)) = norm (val3 d)) by (rewrite En; unfold norm; rewrite neg_dot; reflexivity). rewrite NN, En in Wq. pose proof kk_small as K.
    destruct Wp as (P0 & P1 & P2), Wq as (Q0 & Q1 & Q2), Wm as (M0 & M1 & M2). unfold vadd, vsub, vscale, within in *. cbn [vx vy vz] in *.
    apply Rabs_le_inv in P0, P1, P2, Q0, Q1, Q2, M0, M1, M2. repeat split; apply Rabs_le; lra.
  Qed.
  Lemma cross_near (e m k : R) (v w w' : V3) : within e w w' -> small m v -> 0 <= e -> 2 * (e * m) <= k -> within k (vcross w v) (vcross w' v).
  Proof.
    intros (A & B & C) (X & Y & Z) E K. unfold within, vcross. cbn [vx vy vz].
    pose proof (Rabs_mul _ _ _ _ A Y) as AY. pose proof (Rabs_mul _ _ _ _ A Z) as AZ. pose proof (Rabs_mul _ _ _ _ B X) as BX. pose proof (Rabs_mul _ _ _ _ B Z) as BZ.
    pose proof (Rabs_mul _ _ _ _ C X) as CX. pose proof (Rabs_mul _ _ _ _ C Y) as CY. apply Rabs_le_inv in AY, AZ, BX, BZ, CX, CY. repeat split; apply Rabs_le; lra.
  Qed.
  Lemma triple_k (a b : vec) : fin3 a -> fin3 b -> small (13 / 10) (val3 a) -> small (13 / 10) (val3 b) ->
    fin3 (vcrossn (vcrossn a b) b) /\ within (11 * kk) (val3 (vcrossn (vcrossn a b) b)) (vcross (vcross (val3 a) (val3 b)) (val3 b)).
  Proof.
    intros Fa Fb Sa Sb. pose proof kk_small as K. destruct (cross_k a b Fa Fb (small_le (13 / 10) 4 _ ltac:(lra) Sa) Sb) as [F1 W1].
    assert (S9 : small 4 (val3 (vcrossn a b))).
    { pose proof Sa as (A0 & A1 & A2). pose proof Sb as (B0 & B1 & B2). pose proof (Rabs_mul _ _ _ _ A0 B1) as Z1. pose proof (Rabs_mul _ _ _ _ A0 B2) as Z2. pose proof (Rabs_mul _ _ _ _ A1 B0) as Z3. pose proof (Rabs_mul _ _ _ _ A1 B2) as Z4.
      pose proof (Rabs_mul _ _ _ _ A2 B0) as Z5. pose proof (Rabs_mul _ _ _ _ A2 B1) as Z6. apply Rabs_le_inv in Z1, Z2, Z3, Z4, Z5, Z6.
      destruct W1 as (X' & Y' & Z'). unfold vcross in *. cbn [vx vy vz] in *. apply Rabs_le_inv in X', Y', Z'. unfold small. repeat split; apply Rabs_le; lra. }
    destruct (cross_k _ b F1 Fb S9 Sb) as [F2 W2]. split; [exact F2 |].
    pose proof (cross_near (3 * kk) (13 / 10) (8 * kk) _ _ _ W1 Sb ltac:(lra) ltac:(lra)) as W3. destruct W2 as (X & Y & Z), W3 as (X' & Y' & Z'). apply Rabs_le_inv in X, Y, Z, X', Y', Z'. repeat split; apply Rabs_le; lra.
  Qed.

  (** ---- one turn ---- *)
  Definition centres (c c' : vec) : Prop := fin3 c /\ small 4 (val3 c) /\ fin3 c' /\ small 4 (val3 c') /\
    let w := vsub (val3 c) (val3 c') in 1 <= vx w <= 1 + / 1000 /\ Rabs (vy w) <= / 50000 /\ Rabs (vz w) <= / 50000.
  Definition corner (s : vec) : Prop := fin3 s /\ 8192 * uro prec <= vx (val3 s) <= 98 / 100000 /\ Rabs (vy (val3 s)) <= vx (val3 s) / 128 /\ Rabs (vz (val3 s)) <= vx (val3 s) / 128.
  Definition turning (q d : vec) : Prop := fin3 q /\ fin3 d /\ in_ring (val3 q) (val3 d).
  Lemma turn_k (c c' : vec) (r r' : bf) (s q d : vec) : centres c c' -> fv r (/ 2) -> fv r' (/ 2) -> corner s -> turning q d ->
    exists a n, mink (Nm := F) c r c' r' d = Some a /\ next (Nm := F) s q a d = inr ([s; a], n) /\ turning a n.
  Proof.
    intros (Fc & Sc & Fc' & Sc' & C0 & C1 & C2) Hr Hr' (Fs & S0 & S1 & S2) (Fq & Fd & R). pose proof kk_small as K.
    pose proof R as (_ & _ & D1 & _). assert (Sd : small 2 (val3 d)) by (apply (comp_le _ _ 3); lra).
    assert (L0 : 480 * kk <= vx (val3 s)) by (unfold kk in *; lra). destruct (mink_k c c' r r' d Fc Sc Fc' Sc' Hr Hr' Fd Sd D1) as (a & E & Fa & Wa). exists a.
    destruct (land _ _ _ _ R C0 C1 C2 Wa) as (Px & PP & PQ & PD & Sa & Sq). set (P := val3 a) in *. set (Q := val3 q) in *. set (S := val3 s) in *.
    destruct (neg3_k a Fa) as [Fo Eo].
    assert (SS : small (/ 1000) S) by (split; [apply Rabs_le; lra |]; split; lra).
    destruct (minus3_k q a Fq Fa (small_le (12 / 10) 8 _ ltac:(lra) Sq) (small_le (12 / 10) 8 _ ltac:(lra) Sa)) as [Fb Wb].
    destruct (minus3_k s a Fs Fa (small_le (/ 1000) 8 _ ltac:(lra) SS) (small_le (12 / 10) 8 _ ltac:(lra) Sa)) as [Fe We].
    fold P Q in Wb. fold P S in We. set (ab := vminus q a) in *. set (ac := vminus s a) in *.
    set (Q' := vadd (val3 ab) P). set (S' := vadd (val3 ac) P).
    assert (EV : vsub Q' P = val3 ab) by (destruct P; unfold Q', vsub, vadd, val3; cbn; f_equal; ring). assert (EU : vsub S' P = val3 ac) by (destruct P; unfold S', vsub, vadd, val3; cbn; f_equal; ring).
    assert (WQ : within kk Q' Q). { destruct Wb as (X & Y & Z). unfold within, Q', vadd, vsub in *. cbn [vx vy vz] in *. apply Rabs_le_inv in X, Y, Z. repeat split; apply Rabs_le; lra. }
    assert (WS : within kk S' S). { destruct We as (X & Y & Z). unfold within, S', vadd, vsub in *. cbn [vx vy vz] in *. apply Rabs_le_inv in X, Y, Z. repeat split; apply Rabs_le; lra. }
    assert (SV : small (13 / 10) (val3 ab)).
    { assert (N : vdot (vsub Q P) (vsub Q P) <= 144 / 100).
      { destruct R as (Qx & QQ & _). fold Q in Qx, QQ. apply Rabs_le_inv in QQ, PP, PQ. replace (vdot (vsub Q P) (vsub Q P)) with (vdot Q Q - 2 * vdot P Q + vdot P P) by (unfold vdot, vsub; cbn; ring). lra. }
      destruct (comp_le _ (12 / 10) _ ltac:(lra) N ltac:(lra)) as (A0 & A1 & A2). destruct Wb as (X & Y & Z). apply Rabs_le_inv in X, Y, Z, A0, A1, A2. repeat split; apply Rabs_le; lra. }
    assert (SU : small (13 / 10) (val3 ac)).
    { destruct We as (X & Y & Z), SS as (A0 & A1 & A2), Sa as (B0 & B1 & B2). unfold vsub in *. cbn [vx vy vz] in X, Y, Z. apply Rabs_le_inv in X, Y, Z, A0, A1, A2, B0, B1, B2. repeat split; apply Rabs_le; lra. }
    destruct (triple_k ac ab Fe Fb SU SV) as [Fnb Wnb]. destruct (triple_k ab ac Fb Fe SV SU) as [Fnc Wnc].
    set (nb := vcrossn (vcrossn ac ab) ab) in *. set (nc := vcrossn (vcrossn ab ac) ac) in *. rewrite <- EU, <- EV in Wnb, Wnc. exists nc. split; [exact E |].
    destruct WQ as (Q0 & Q1 & Q2). set (e := vsub Q' Q). assert (EQ : Q' = vadd Q e) by (destruct Q, Q'; unfold e, vadd, vsub; cbn; f_equal; ring).
    assert (e0 : Rabs (vx e) <= kk) by exact Q0. assert (e1 : Rabs (vy e) <= kk) by exact Q1. assert (e2 : Rabs (vz e) <= kk) by exact Q2.
    pose proof (dot3 Q e _ _ (proj1 Sq) (proj1 (proj2 Sq)) (proj2 (proj2 Sq)) e0 e1 e2) as QE. pose proof (dot3 P e _ _ (proj1 Sa) (proj1 (proj2 Sa)) (proj2 (proj2 Sa)) e0 e1 e2) as PE.
    pose proof (dot3 e e _ _ e0 e1 e2 e0 e1 e2) as EE. apply Rabs_le_inv in QE, PE, EE. pose proof (Rabs_le_inv _ _ e0) as e0'.
    assert (KK : kk * kk <= 1 * kk) by (apply Rmult_le_compat_r; lra).
    destruct R as (Qx & QQ & _ & _ & DQ & _). fold Q in Qx, QQ, DQ. pose proof (Rabs_le_inv _ _ QQ) as QQ'. pose proof (Rabs_le_inv _ _ PQ) as PQ'. pose proof (Rabs_le_inv _ _ PP) as PP'.
    assert (EQx : vx Q' = vx Q + vx e) by (rewrite EQ; reflexivity).
    assert (EQQ : vdot Q' Q' = vdot Q Q + 2 * vdot Q e + vdot e e) by (rewrite EQ; unfold vdot, vadd; cbn; ring).
    assert (EPQ : vdot P Q' = vdot P Q + vdot P e) by (rewrite EQ; unfold vdot, vadd; cbn; ring).
    assert (WD : within (/ 50000) (val3 nc) (vcross (vcross (vsub Q' P) (vsub S' P)) (vsub S' P))) by (destruct Wnc as (X & Y & Z); repeat split; lra).
    destruct WS as (T0 & T1 & T2). apply Rabs_le_inv in T0. pose proof (Rabs_triang_inv (vy S') (vy S)) as T1'. pose proof (Rabs_triang_inv (vz S') (vz S)) as T2'.
    set (L := vx S - kk).
    destruct (turn P Q' S' (val3 nc) L) as (G2 & G3 & G4 & G5 & G6 & G7 & _ & _ & G8);
      [rewrite EQx; lra | lra | apply Rabs_le; lra | rewrite EQQ, EQx; apply Rabs_le; lra | rewrite EPQ, EQx; apply Rabs_le; lra | unfold L; lra | unfold L; lra | unfold L; lra | unfold L; lra | exact WD |].
    clearbody e. assert (T : turning a nc). { split; [exact Fa |]. split; [exact Fnc |]. fold P. unfold in_ring. repeat split; try apply G2; try apply G5; try assumption; lra. }
    split; [| exact T].
    assert (G1 : small 2 (val3 nc)) by (apply (comp_le _ _ 3); lra).
    assert (Sa4 : small 2 (val3 a)) by (apply (small_le (12 / 10)); [lra | exact Sa]).
    assert (So4 : small 2 (val3 (vtimes a minus1))) by (rewrite Eo; apply small_neg; exact Sa4).
    destruct (dot_k a d Fa Fd Sa4 Sd) as [X1 X2]. fold P in X2. apply Rabs_le_inv in X2.
    destruct (dot_k nc _ Fnc Fo G1 So4) as [Y1 Y2].
    set (m := vcross (vcross (vsub S' P) (vsub Q' P)) (vsub Q' P)) in *. set (n := vcross (vcross (vsub Q' P) (vsub S' P)) (vsub S' P)) in *.
    assert (Gnb : small 2 (val3 nb)). { destruct Wnb as (X & Y & Z), G8 as (X' & Y' & Z'). apply Rabs_le_inv in X, Y, Z, X', Y', Z'. repeat split; apply Rabs_le; lra. }
    destruct (dot_k nb _ Fnb Fo Gnb So4) as [Z1 Z2]. rewrite Eo in Y2, Z2. fold P in Y2, Z2.
    assert (DN : forall w t, within (11 * kk) w t -> Rabs (vdot w (vscale (-1) P) + vdot t P) <= 40 * kk).
    { intros w t (A0 & A1 & A2). replace (vdot w (vscale (-1) P) + vdot t P) with (- vdot (vsub w t) P) by (unfold vdot, vscale, vsub; cbn; ring). rewrite Rabs_Ropp.
      eapply Rle_trans; [apply (dot3 (vsub w t) P (11 * kk) (12 / 10)); try assumption; apply Sa | lra]. }
    pose proof (DN _ _ Wnc) as N1. pose proof (DN _ _ Wnb) as N2. apply Rabs_le_inv in N1, N2, Y2, Z2. destruct (fv_n0 prec emax lm) as [F0 V0].
    unfold next. cbv zeta. fold ab ac nb nc.
    assert (B1 : ngt (N := F) (vdotn a d) n0 = true) by (apply (ngt_val prec emax lm); [exact X1 | exact F0 | rewrite V0; unfold L in *; lra]).
    assert (B2 : ngt (N := F) (vdotn nb (vtimes a minus1)) n0 = false) by (apply (ngt_val_false prec emax lm); [exact Z1 | exact F0 | rewrite V0; unfold L in *; lra]).
    assert (B3 : ngt (N := F) (vdotn nc (vtimes a minus1)) n0 = true) by (apply (ngt_val prec emax lm); [exact Y1 | exact F0 | rewrite V0; unfold L in *; lra]).
    rewrite B1, B2, B3. reflexivity.
  Qed.
  (** ---- so the loop never ends ---- *)
  Lemma never (c c' : vec) (r r' : bf) b e b' e' (s : vec) : centres c c' -> fv r (/ 2) -> fv r' (/ 2) -> corner s -> forall fuel (q d : vec), turning q d ->
    gjk_loop (N := F) fuel (SSphere (MkSphere c r b e)) (SSphere (MkSphere c' r' b' e')) [s; q] d = OutOfFuel.
  Proof.
    intros C Hr Hr' S. induction fuel as [| fuel IH]; intros q d T; [reflexivity |]. cbn [gjk_loop]. rewrite (iter_two_any (Nm := F)).
    destruct (turn_k c c' r r' s q d C Hr Hr' S T) as (a & n & E1 & E2 & T'). rewrite E1, E2. apply IH. exact T'.
  Qed.
End Ring1.
