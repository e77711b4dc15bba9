(** PInv3G.v — Mat3::inverse in IEEE arithmetic for every determinant (C138). *)
From Coq Require Import Reals List ZArith NArith Bool Lra Lia Psatz.
From Flocq Require Import Core BinarySingleNaN.
Import ListNotations.
From Verif Require Import Base Num Vec Mat Float Exact SpecMat SpecReal SpecInv3 SpecGeom SpecRound ExactFacts FloatFacts FloatRound Order PMat PInv PRound PIeee1 PIeee2 PIeee3 PIeee5 PIeee6 PInvF PInv3F.
Local Open Scope R_scope.

Section PInv3G.
  Context (prec emax : Z) {Hp : Prec_gt_0 prec} {Hm : Prec_lt_emax prec emax} (lm : libm (binary_float prec emax)).
  Notation bf := (binary_float prec emax).
  Notation fmt := (SpecFloat.fexp prec emax).
  Notation rnd := (round radix2 fmt ZnearestE).
  Notation val := (@B2R prec emax).
  Notation fin x := (is_finite (x : bf) = true).
  Notation u := (uro prec).
  Notation et := (eta prec emax).
  Notation big := (bpow radix2 emax).
  Notation F := (@Ieee prec emax Hp Hm lm).
  Notation near := (PInvF.near prec emax).

  Lemma rnd_gen x v E M : (9 < prec)%Z -> Rabs (x - v) <= E -> Rabs x <= M -> 2 * M + 1 < big -> Rabs (rnd x - v) <= E + u * M + et /\ Rabs (rnd x) <= M + u * M + et /\ Rabs (rnd x) < big.
  Proof.
    intros P H1 H2 B. destruct (u_et prec emax P) as [[U0 U1] [T0 T1]]. destruct (rnd_err prec emax x) as (e & h & He & Hh & Q).
    assert (M0 : 0 <= M) by (eapply Rle_trans; [apply Rabs_pos | exact H2]).
    assert (A : Rabs (x * e) <= u * M) by (rewrite Rabs_mult, Rmult_comm; apply Rmult_le_compat; try apply Rabs_pos; assumption). assert (UB : u * M <= / 1024 * M) by (apply Rmult_le_compat_r; lra).
    assert (S : Rabs (rnd x) <= M + u * M + et). { rewrite Q. replace (x * (1 + e) + h) with (x + x * e + h) by ring. eapply Rle_trans; [apply Rabs_triang |]. eapply Rle_trans; [apply Rplus_le_compat_r, Rabs_triang |]. lra. }
    split; [| split; [exact S | lra]]. rewrite Q. replace (x * (1 + e) + h - v) with ((x - v) + x * e + h) by ring. eapply Rle_trans; [apply Rabs_triang |]. eapply Rle_trans; [apply Rplus_le_compat_r, Rabs_triang |]. lra.
  Qed.
  (** a quotient by a number near [D]; w = 1/|D| *)
  Lemma quot_gen (t d : bf) v D E M h : (9 < prec)%Z -> fin t -> D <> 0 -> Rabs (val d - D) <= h -> h * / Rabs D <= / 2 -> Rabs (val t - v) <= E -> Rabs v <= M -> let w := / Rabs D in 4 * ((M + E) * w) + 1 < big ->
    fin (Bdiv mode_NE t d) /\ Rabs (val (Bdiv mode_NE t d) - v / D) <= 2 * (E * w) + 2 * (M * (h * (w * w))) + u * (2 * ((M + E) * w)) + et /\ Rabs (val (Bdiv mode_NE t d)) <= 2 * ((M + E) * w) + u * (2 * ((M + E) * w)) + et.
  Proof.
    intros P Ft DN Hd Hh Ht Hv w B. assert (E0 : 0 <= E) by (eapply Rle_trans; [apply Rabs_pos | exact Ht]). assert (h0 : 0 <= h) by (eapply Rle_trans; [apply Rabs_pos | exact Hd]). assert (M0 : 0 <= M) by (eapply Rle_trans; [apply Rabs_pos | exact Hv]).
    pose proof (Rabs_pos_lt _ DN) as AD. assert (w0 : 0 < w) by (apply Rinv_0_lt_compat; exact AD). assert (hD : h <= / 2 * Rabs D). { apply (Rmult_le_reg_r w); [exact w0 |]. unfold w at 2. replace (/ 2 * Rabs D * / Rabs D) with (/ 2) by (field; lra). exact Hh. }
    assert (LD : / 2 * Rabs D <= Rabs (val d)). { pose proof (Rabs_triang_inv D (D - val d)) as T. replace (D - (D - val d)) with (val d) in T by ring. rewrite (Rabs_minus_sym D) in T. lra. }
    assert (dN : val d <> 0) by (intro Z; rewrite Z, Rabs_R0 in LD; lra). assert (Id : 0 < / Rabs (val d) <= 2 * w). { split; [apply Rinv_0_lt_compat; lra |]. unfold w. replace (2 * / Rabs D) with (/ (/ 2 * Rabs D)) by (field; lra). apply Rinv_le; lra. }
    assert (T : Rabs (val t) <= M + E). { replace (val t) with (v + (val t - v)) by ring. eapply Rle_trans; [apply Rabs_triang |]. lra. }
    assert (X : Rabs (val t / val d) <= 2 * ((M + E) * w)). { unfold Rdiv. rewrite Rabs_mult, Rabs_inv. replace (2 * ((M + E) * w)) with ((M + E) * (2 * w)) by ring. apply Rmult_le_compat; try apply Rabs_pos; lra. }
    assert (Y : Rabs (val t / val d - v / D) <= 2 * (E * w) + 2 * (M * (h * (w * w)))).
    { replace (val t / val d - v / D) with ((val t - v) * / val d + v * ((D - val d) * (/ D * / val d))) by (field; split; assumption). eapply Rle_trans; [apply Rabs_triang |]. rewrite !Rabs_mult, !Rabs_inv. fold w. rewrite (Rabs_minus_sym D). apply Rplus_le_compat.
      - replace (2 * (E * w)) with (E * (2 * w)) by ring. apply Rmult_le_compat; try apply Rabs_pos; lra.
      - replace (2 * (M * (h * (w * w)))) with (M * (h * (w * (2 * w)))) by ring. apply Rmult_le_compat; [apply Rabs_pos | repeat apply Rmult_le_pos; try apply Rabs_pos; lra | exact Hv |]. apply Rmult_le_compat; [apply Rabs_pos | repeat apply Rmult_le_pos; lra | exact Hd |]. apply Rmult_le_compat_l; lra. }
    destruct (rnd_gen (val t / val d) (v / D) _ (2 * ((M + E) * w)) P Y X ltac:(lra)) as (Z1 & Z2 & Z3). destruct (proj1 (div_round prec emax t d Ft dN) Z3) as [G1 G2]. split; [exact G1 |]. rewrite G2. split; assumption.
  Qed.

  Section Gen.
    Variables (K : R) (f : lmat F).
    Hypotheses (HP : (9 < prec)%Z) (HE : (40 < emax)%Z) (K1 : 1 <= K) (KB : bpow radix2 40 * (K * K * K) <= big).
    Hypothesis Hf : forall i j, (i < 3)%N -> (j < 3)%N -> PInvF.ent prec emax K (f i j : bf).
    Notation ent := (PInvF.ent prec emax K).
    Notation rf := ((fun i j => val (f i j : bf)) : rmat).
    Notation D := (rdet3 rf).
    Notation w := (/ Rabs D).
    Notation K3 := (K * K * K).
    Hypothesis HD : bpow radix2 (- 32) + 58 * u * K3 <= Rabs D.
    Notation bnd := (u * (K * K) * (3 + 13 * w + 116 * (K3 * (w * w))) + 3 * et).
    Lemma pow40 : bpow radix2 40 = 1099511627776. Proof. reflexivity. Qed.
    Lemma facts : 128 * K3 <= big /\ Rabs D > 0 /\ D <> 0 /\ 0 < w /\ 29 * u * K3 * w <= / 2 /\ 256 * (K * K * w) <= big /\ 1000 <= big /\ 1000 * (K * K) <= big.
    Proof.
      destruct (K23 K K1) as (L2 & L3 & L5). destruct (u_et prec emax HP) as [[U0 U1] _]. rewrite pow40 in KB. assert (UK : 0 <= 58 * u * K3) by (apply Rmult_le_pos; lra).
      change (bpow radix2 (-32)) with (/ IZR 4294967296) in HD. assert (I : 0 < / 4294967296) by lra. assert (A : Rabs D > 0) by lra. assert (W0 : 0 < w) by (apply Rinv_0_lt_compat; lra).
      assert (W1 : w <= 4294967296). { rewrite <- (Rinv_inv 4294967296). apply Rinv_le; lra. }
      split; [lra |]. split; [exact A |]. split; [intro Z; rewrite Z, Rabs_R0 in A; lra |]. split; [exact W0 |]. split.
      - apply (Rmult_le_reg_r (Rabs D)); [exact A |]. rewrite Rmult_assoc, Rinv_l by lra. lra.
      - split; [| split; lra]. apply Rle_trans with (256 * (K3 * 4294967296)); [| lra]. apply Rmult_le_compat_l; [lra |]. apply Rmult_le_compat; lra.
    Qed.
    Notation dt := (det3_of f : bf).
    Lemma det_off : Rabs (val dt - D) <= 29 * u * K3.
    Proof. destruct facts as (B & _). destruct (det3_near prec emax lm K HP K1 B f Hf) as (_ & E & _). lra. Qed.
    (** a b - (c d) / det *)
    Lemma gen_a (a b c d : bf) : ent a -> ent b -> ent c -> ent d ->
      fin (Bminus mode_NE (Bmult mode_NE a b) (Bdiv mode_NE (Bmult mode_NE c d) dt)) /\ Rabs (val (Bminus mode_NE (Bmult mode_NE a b) (Bdiv mode_NE (Bmult mode_NE c d) dt)) - (val a * val b - val c * val d / D)) <= bnd.
    Proof.
      intros A B C E. destruct facts as (F0 & F1 & F2 & F3 & F4 & F5 & F6 & F7). destruct (K23 K K1) as (L2 & L3 & L5). destruct (u_et prec emax HP) as [[U0 U1] [T0 T1]].
      destruct (prod2 prec emax K HP K1 F0 a b A B) as (G1 & E1 & S1). destruct (prod2 prec emax K HP K1 F0 c d C E) as (G2 & E2 & S2). pose proof det_off as DO.
      set (Q := K3) in *. set (W := K * K) in *. assert (Wp : 0 <= u * W <= / 1024 * W) by (split; [apply Rmult_le_pos; lra | apply Rmult_le_compat_r; lra]). assert (c0 : 0 <= W * w) by (apply Rmult_le_pos; lra). assert (uc : 0 <= u * (W * w) <= / 1024 * (W * w)) by (split; [apply Rmult_le_pos; lra | apply Rmult_le_compat_r; lra]).
      assert (uuc : u * (u * (W * w)) <= / 1024 * (u * (W * w))) by (apply Rmult_le_compat_r; lra). assert (uuW : u * (u * W) <= / 1024 * (u * W)) by (apply Rmult_le_compat_r; lra).
      assert (M0 : 0 <= u * (W * (Q * (w * w)))) by (repeat apply Rmult_le_pos; lra). assert (ute : u * et <= / 1024 * et) by (apply Rmult_le_compat_r; lra).
      destruct (quot_gen _ dt _ D _ (1 * W) (29 * u * Q) HP G2 F2 DO F4 E2 S2) as (G3 & E3 & S3); [lra |]. set (q := Bdiv mode_NE (Bmult mode_NE c d) dt) in *. set (p := Bmult mode_NE a b) in *.
      set (x := val a * val b) in *. set (y := val c * val d) in *.
      assert (E3' : Rabs (val q - y / D) <= 41 / 10 * (u * (W * w)) + 58 * (u * (W * (Q * (w * w)))) + et) by (eapply Rle_trans; [exact E3 |]; lra).
      assert (S3' : Rabs (val q) <= 21 / 10 * (W * w) + et) by (eapply Rle_trans; [exact S3 |]; lra). clear E3 S3.
      assert (Y : Rabs (val p - val q - (x - y / D)) <= 101 / 100 * (u * W) + (41 / 10 * (u * (W * w)) + 58 * (u * (W * (Q * (w * w)))) + et)). { replace (val p - val q - (x - y / D)) with ((val p - x) + - (val q - y / D)) by ring. eapply Rle_trans; [apply Rabs_triang |]. rewrite Rabs_Ropp. lra. }
      assert (X : Rabs (val p - val q) <= 11 / 10 * W + (21 / 10 * (W * w) + et)). { unfold Rminus. eapply Rle_trans; [apply Rabs_triang |]. rewrite Rabs_Ropp. apply Rplus_le_compat; [| exact S3']. replace (val p) with (x + (val p - x)) by ring. eapply Rle_trans; [apply Rabs_triang |]. lra. }
      destruct (rnd_gen (val p - val q) (x - y / D) _ _ HP Y X ltac:(lra)) as (Z1 & _ & Z2). destruct (proj1 (minus_round prec emax p q G1 G3) Z2) as [H1 H2]. split; [exact H1 |]. rewrite H2. eapply Rle_trans; [exact Z1 |]. lra.
    Qed.
    (** - (a b - c d) / det *)
    Lemma gen_b (a b c d : bf) : ent a -> ent b -> ent c -> ent d ->
      fin (Bdiv mode_NE (Bopp (Bminus mode_NE (Bmult mode_NE a b) (Bmult mode_NE c d))) dt) /\ Rabs (val (Bdiv mode_NE (Bopp (Bminus mode_NE (Bmult mode_NE a b) (Bmult mode_NE c d))) dt) - - (val a * val b - val c * val d) / D) <= bnd.
    Proof.
      intros A B C E. destruct facts as (F0 & F1 & F2 & F3 & F4 & F5 & F6 & F7). destruct (K23 K K1) as (L2 & L3 & L5). destruct (u_et prec emax HP) as [[U0 U1] [T0 T1]].
      destruct (near_opp prec emax _ _ _ _ _ (minor_near prec emax K HP K1 F0 a b c d A B C E)) as (G1 & E1 & S1). pose proof det_off as DO.
      set (Q := K3) in *. set (W := K * K) in *. assert (Wp : 0 <= u * W <= / 1024 * W) by (split; [apply Rmult_le_pos; lra | apply Rmult_le_compat_r; lra]). assert (c0 : 0 <= W * w) by (apply Rmult_le_pos; lra). assert (uc : 0 <= u * (W * w) <= / 1024 * (W * w)) by (split; [apply Rmult_le_pos; lra | apply Rmult_le_compat_r; lra]).
      assert (uuc : u * (u * (W * w)) <= / 1024 * (u * (W * w))) by (apply Rmult_le_compat_r; lra).
      assert (M0 : 0 <= u * (W * (Q * (w * w)))) by (repeat apply Rmult_le_pos; lra).
      destruct (quot_gen _ dt _ D _ (2 * W) (29 * u * Q) HP G1 F2 DO F4 E1 S1) as (G3 & E3 & S3); [lra |]. split; [exact G3 |]. eapply Rle_trans; [exact E3 |]. lra.
    Qed.
    Lemma inv3_gen (m : mat3 F) : repr3 m f -> exists r g, mat3_inverse m = Ok (Some r) /\ m3_rm r = m3_rm m /\ repr3 r g /\ forall i j, (i < 3)%N -> (j < 3)%N -> is_finite (g i j : bf) = true /\ Rabs (val (g i j : bf) - lop3 rf i j) <= bnd.
    Proof.
      intro Hr. destruct facts as (F0 & F1 & _). destruct (det3_near prec emax lm K HP K1 F0 f Hf) as (G1 & _ & _). pose proof det_off as DO.
      assert (EM : (37 < emax)%Z) by lia. destruct (lit10 prec emax lm HP EM) as [L1 [L2 L3]]. destruct (lit11 prec emax lm HP EM) as [M1 [M2 M3]].
      assert (NL : (nlt (det3_of f : F) (nlit F 1 10000000000) && ngt (det3_of f : F) (- nlit F 1 100000000000)%num)%bool = false).
      { destruct (nlt (det3_of f : F) (nlit F 1 10000000000) && ngt (det3_of f : F) (- nlit F 1 100000000000)%num)%bool eqn:Q; [| reflexivity]. exfalso. apply andb_true_iff in Q. destruct Q as [Q1 Q2].
        apply (nlt_val prec emax lm _ _ G1 L1) in Q1. apply (ngt_val prec emax lm) in Q2; [| exact G1 | change (fin (Bopp (nlit F 1 100000000000 : bf))); rewrite is_finite_Bopp; exact M1].
        change (val (- nlit F 1 100000000000)%num) with (val (Bopp (nlit F 1 100000000000 : bf))) in Q2. rewrite B2R_Bopp in Q2.
        destruct (u_et prec emax HP) as [[U0 U1] _]. pose proof (KL3 K K1) as L5. assert (UK : 0 <= u * K3) by (apply Rmult_le_pos; lra).
        change (bpow radix2 (-33)) with (/ IZR 8589934592) in L3. change (bpow radix2 (-36)) with (/ IZR 68719476736) in M3. change (bpow radix2 (-32)) with (/ IZR 4294967296) in HD. apply Rabs_le_inv in DO. unfold Rabs in HD. destruct (Rcase_abs _) in HD; lra. }
      rewrite (inv3_eval m f Hr), NL. eexists. eexists. split; [reflexivity |]. split; [apply init3_rm |]. split; [apply init3_repr |].
      intros i j Hi Hj. pose proof Hf as H.
      assert (A : forall a b c d : bf, ent a -> ent b -> ent c -> ent d -> forall t, val a * val b - val c * val d / D = t -> fin (Bminus mode_NE (Bmult mode_NE a b) (Bdiv mode_NE (Bmult mode_NE c d) dt)) /\ Rabs (val (Bminus mode_NE (Bmult mode_NE a b) (Bdiv mode_NE (Bmult mode_NE c d) dt)) - t) <= bnd)
        by (intros a b c d Ha Hb Hc Hd t <-; exact (gen_a a b c d Ha Hb Hc Hd)).
      assert (B : forall a b c d : bf, ent a -> ent b -> ent c -> ent d -> forall t, - (val a * val b - val c * val d) / D = t -> fin (Bdiv mode_NE (Bopp (Bminus mode_NE (Bmult mode_NE a b) (Bmult mode_NE c d))) dt) /\ Rabs (val (Bdiv mode_NE (Bopp (Bminus mode_NE (Bmult mode_NE a b) (Bmult mode_NE c d))) dt) - t) <= bnd)
        by (intros a b c d Ha Hb Hc Hd t <-; exact (gen_b a b c d Ha Hb Hc Hd)).
      clear NL DO G1.
      cases3 i Hi; cases3 j Hj; cbn [rows9];
        first [apply A; [apply H; reflexivity | apply H; reflexivity | apply H; reflexivity | apply H; reflexivity |] | apply B; [apply H; reflexivity | apply H; reflexivity | apply H; reflexivity | apply H; reflexivity |]];
        reflexivity.
    Qed.
  End Gen.
End PInv3G.
