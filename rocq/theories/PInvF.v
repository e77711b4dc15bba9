(** PInvF.v — Mat4::inverse in IEEE arithmetic (C94). *)
From Coq Require Import Reals List ZArith NArith Bool Lra Lia Psatz.
From Flocq Require Import Core BinarySingleNaN.
Import ListNotations.
From Verif Require Import Base Num Vec Mat Float Exact SpecMat SpecReal SpecGeom SpecRound ExactFacts FloatFacts FloatRound Order PMat PInv PRound PIeee1 PIeee2 PIeee5 PIeee6.
Local Open Scope R_scope.

Lemma repr4_tr (Nm : Num) (a00 a01 a02 a03 a10 a11 a12 a13 a20 a21 a22 a23 a30 a31 a32 a33 k : Nm) :
  repr4 (M4 (A16 (nmul Nm a00 k) (nmul Nm a10 k) (nmul Nm a20 k) (nmul Nm a30 k) (nmul Nm a01 k) (nmul Nm a11 k) (nmul Nm a21 k) (nmul Nm a31 k) (nmul Nm a02 k) (nmul Nm a12 k) (nmul Nm a22 k) (nmul Nm a32 k) (nmul Nm a03 k) (nmul Nm a13 k) (nmul Nm a23 k) (nmul Nm a33 k)) true) (fun i j => nmul Nm (rows16 (A16 a00 a01 a02 a03 a10 a11 a12 a13 a20 a21 a22 a23 a30 a31 a32 a33) j i) k).
Proof. intros chk i j Hi Hj. cases4 i Hi; cases4 j Hj; destruct chk; reflexivity. Qed.

Section PInvF.
  Context (prec emax : Z) {Hp : Prec_gt_0 prec} {Hm : Prec_lt_emax prec emax} (lm : libm (binary_float prec emax)).
  Notation bf := (binary_float prec emax).
  Notation fmt := (SpecFloat.fexp prec emax).
  Notation rnd := (round radix2 fmt ZnearestE).
  Notation val := (@B2R prec emax).
  Notation fin x := (is_finite (x : bf) = true).
  Notation u := (uro prec).
  Notation et := (eta prec emax).
  Notation fv := (fv prec emax).
  Notation big := (bpow radix2 emax).
  Notation F := (@Ieee prec emax Hp Hm lm).

  (** [t] is within c u P of v, and v is at most m P *)
  Definition near (t : bf) (v m c P : R) : Prop := fin t /\ Rabs (val t - v) <= c * u * P /\ Rabs v <= m * P.

  Lemma u_et : (9 < prec)%Z -> 0 < u <= / 1024 /\ 0 < et <= u * / 512.
  Proof.
    intro P. assert (HM : (prec < emax)%Z) by exact Hm. split; (split; [apply bpow_gt_0 |]).
    - unfold uro. change (/ 1024) with (bpow radix2 (-10)). apply bpow_le. lia.
    - unfold uro, eta. change (/ 512) with (bpow radix2 (-9)). rewrite <- bpow_plus. apply bpow_le. lia.
  Qed.
  Lemma near_size t v m c P : (9 < prec)%Z -> 0 <= c -> 0 <= P -> near t v m c P -> Rabs (val t) <= (m + c / 1024) * P.
  Proof.
    intros HP C0 P0 [_ [H1 H2]]. destruct (u_et HP) as [[U0 U1] _].
    assert (c * u * P <= c / 1024 * P). { apply Rmult_le_compat_r; [exact P0 |]. unfold Rdiv. apply Rmult_le_compat_l; lra. }
    assert (Q : Rabs (val t) <= Rabs (val t - v) + Rabs v). { replace (val t) with ((val t - v) + v) at 1 by ring. apply Rabs_triang. }
    lra.
  Qed.
  (** one rounding of a number that is already within c u P of v *)
  Lemma near_rnd x v m c P c' : (9 < prec)%Z -> 0 <= c -> 0 <= m -> 1 <= P -> Rabs (x - v) <= c * u * P -> Rabs v <= m * P ->
    c + m + c / 1024 + / 512 <= c' -> (m + c' / 1024) * P < big ->
    Rabs (rnd x - v) <= c' * u * P /\ Rabs (rnd x) < big.
  Proof.
    intros HP C0 M0 P1 H1 H2 Hc Hb. destruct (u_et HP) as [[U0 U1] [T0 T1]].
    destruct (rnd_err prec emax x) as (e & h & He & Hh & E).
    assert (Cu : c * u * P <= c / 1024 * P). { apply Rmult_le_compat_r; [lra |]. unfold Rdiv. apply Rmult_le_compat_l; lra. }
    assert (X : Rabs x <= (m + c / 1024) * P). { replace x with ((x - v) + v) by ring. eapply Rle_trans; [apply Rabs_triang |]. lra. }
    assert (R1 : Rabs (x * e) <= u * ((m + c / 1024) * P)). { rewrite Rabs_mult, Rmult_comm. apply Rmult_le_compat; try apply Rabs_pos; assumption. }
    assert (R2 : et <= / 512 * u * P). { eapply Rle_trans; [exact T1 |]. rewrite (Rmult_comm (/ 512)). rewrite <- (Rmult_1_r (u * / 512)) at 1. apply Rmult_le_compat_l; [| exact P1]. apply Rmult_le_pos; lra. }
    assert (UP : 0 < u * P) by (apply Rmult_lt_0_compat; lra).
    assert (D : Rabs (rnd x - v) <= c' * u * P).
    { rewrite E. replace (x * (1 + e) + h - v) with ((x - v) + x * e + h) by ring. eapply Rle_trans; [apply Rabs_triang |]. eapply Rle_trans; [apply Rplus_le_compat_r, Rabs_triang |].
      apply Rle_trans with ((c + m + c / 1024 + / 512) * (u * P)); [lra |]. replace (c' * u * P) with (c' * (u * P)) by ring. apply Rmult_le_compat_r; lra. }
    split; [exact D |]. eapply Rle_lt_trans; [| exact Hb].
    assert (Cu' : c' * u * P <= c' / 1024 * P). { apply Rmult_le_compat_r; [lra |]. unfold Rdiv. apply Rmult_le_compat_l; lra. }
    replace (rnd x) with ((rnd x - v) + v) by ring. eapply Rle_trans; [apply Rabs_triang |]. lra.
  Qed.
  Lemma near_opp t v m c P : near t v m c P -> near (Bopp t) (- v) m c P.
  Proof.
    intros [H1 [H2 H3]]. split; [destruct t; exact H1 |]. rewrite B2R_Bopp, Rabs_Ropp. split; [| exact H3].
    replace (- val t - - v) with (- (val t - v)) by ring. rewrite Rabs_Ropp. exact H2.
  Qed.
  Lemma near_entry (x : bf) K : fin x -> Rabs (val x) <= K -> near x (val x) 1 0 K.
  Proof. intros H1 H2. split; [exact H1 |]. rewrite Rminus_diag_eq by reflexivity. rewrite Rabs_R0. lra. Qed.
  Lemma near_mul t (x : bf) v m c P K c' : (9 < prec)%Z -> 0 <= c -> 0 <= m -> 1 <= P -> 1 <= K -> near t v m c P -> fin x -> Rabs (val x) <= K ->
    c + m + c / 1024 + / 512 <= c' -> (m + c' / 1024) * (P * K) < big -> near (Bmult mode_NE t x) (v * val x) m c' (P * K).
  Proof.
    intros HP C0 M0 P1 K1 [H1 [H2 H3]] Fx Hx Hc Hb.
    assert (PK : 1 <= P * K). { rewrite <- (Rmult_1_r 1). apply Rmult_le_compat; lra. }
    assert (A1 : Rabs (val t * val x - v * val x) <= c * u * (P * K)).
    { replace (val t * val x - v * val x) with ((val t - v) * val x) by ring. rewrite Rabs_mult. replace (c * u * (P * K)) with (c * u * P * K) by ring.
      apply Rmult_le_compat; try apply Rabs_pos; assumption. }
    assert (A2 : Rabs (v * val x) <= m * (P * K)).
    { rewrite Rabs_mult. replace (m * (P * K)) with (m * P * K) by ring. apply Rmult_le_compat; try apply Rabs_pos; assumption. }
    destruct (near_rnd (val t * val x) (v * val x) m c (P * K) c' HP C0 M0 PK A1 A2 Hc Hb) as [B1 B2].
    destruct (proj1 (mult_round prec emax t x H1 Fx) B2) as [G1 G2]. split; [exact G1 |]. rewrite G2. split; assumption.
  Qed.
  Lemma near_mul' t (x : bf) v m c P K c' : (9 < prec)%Z -> 0 <= c -> 0 <= m -> 1 <= P -> 1 <= K -> near t v m c P -> fin x -> Rabs (val x) <= K ->
    c + m + c / 1024 + / 512 <= c' -> (m + c' / 1024) * (P * K) < big -> near (Bmult mode_NE x t) (val x * v) m c' (P * K).
  Proof.
    intros HP C0 M0 P1 K1 [H1 [H2 H3]] Fx Hx Hc Hb.
    assert (PK : 1 <= P * K). { rewrite <- (Rmult_1_r 1). apply Rmult_le_compat; lra. }
    assert (A1 : Rabs (val x * val t - val x * v) <= c * u * (P * K)).
    { replace (val x * val t - val x * v) with ((val t - v) * val x) by ring. rewrite Rabs_mult. replace (c * u * (P * K)) with (c * u * P * K) by ring.
      apply Rmult_le_compat; try apply Rabs_pos; assumption. }
    assert (A2 : Rabs (val x * v) <= m * (P * K)).
    { rewrite Rabs_mult, Rmult_comm. replace (m * (P * K)) with (m * P * K) by ring. apply Rmult_le_compat; try apply Rabs_pos; assumption. }
    destruct (near_rnd (val x * val t) (val x * v) m c (P * K) c' HP C0 M0 PK A1 A2 Hc Hb) as [B1 B2].
    destruct (proj1 (mult_round prec emax x t Fx H1) B2) as [G1 G2]. split; [exact G1 |]. rewrite G2. split; assumption.
  Qed.
  Lemma near_pm s a b v w m n c d P c' : (9 < prec)%Z -> 0 <= c -> 0 <= d -> 0 <= m -> 0 <= n -> 1 <= P -> near a v m c P -> near b w n d P ->
    (c + d) + (m + n) + (c + d) / 1024 + / 512 <= c' -> (m + n + c' / 1024) * P < big ->
    near (if s : bool then Bminus mode_NE a b else Bplus mode_NE a b) (if s then v - w else v + w) (m + n) c' P.
  Proof.
    intros HP C0 D0 M0 N0 P1 [H1 [H2 H3]] [G1 [G2 G3]] Hc Hb.
    assert (A1 : Rabs ((if s then val a - val b else val a + val b) - (if s then v - w else v + w)) <= (c + d) * u * P).
    { replace ((c + d) * u * P) with (c * u * P + d * u * P) by ring. destruct s.
      - replace (val a - val b - (v - w)) with ((val a - v) - (val b - w)) by ring. unfold Rminus at 1. eapply Rle_trans; [apply Rabs_triang |]. rewrite Rabs_Ropp. lra.
      - replace (val a + val b - (v + w)) with ((val a - v) + (val b - w)) by ring. eapply Rle_trans; [apply Rabs_triang |]. lra. }
    assert (A2 : Rabs (if s then v - w else v + w) <= (m + n) * P).
    { destruct s; [unfold Rminus |]; (eapply Rle_trans; [apply Rabs_triang |]); rewrite ?Rabs_Ropp; lra. }
    destruct (near_rnd _ _ (m + n) (c + d) P c' HP (Rplus_le_le_0_compat _ _ C0 D0) (Rplus_le_le_0_compat _ _ M0 N0) P1 A1 A2 Hc Hb) as [B1 B2].
    destruct s.
    - destruct (proj1 (minus_round prec emax a b H1 G1) B2) as [Q1 Q2]. split; [exact Q1 |]. rewrite Q2. split; assumption.
    - destruct (proj1 (plus_round prec emax a b H1 G1) B2) as [Q1 Q2]. split; [exact Q1 |]. rewrite Q2. split; assumption.
  Qed.

  Ltac spec H := specialize (H ltac:(lra) ltac:(lra) ltac:(lra) ltac:(lra) ltac:(lra) ltac:(lra)).
  Lemma det_expand (g : rmat) : g 0%N 0%N * radj4 g 0%N 0%N + g 1%N 0%N * radj4 g 0%N 1%N + g 2%N 0%N * radj4 g 0%N 2%N + g 3%N 0%N * radj4 g 0%N 3%N = rdet4 g.
  Proof. unfold radj4, rdet4, rdet3, rdet2, minor, minor2, skip, sgn; simpl; ring. Qed.
  Section Six.
    Variables (K : R).
    Hypotheses (HP : (9 < prec)%Z) (K1 : 1 <= K) (KB : 128 * (K * K * K * K) <= big).
    Lemma KK : 1 <= K * K /\ 1 <= K * K * K /\ 1 <= K * K * K * K /\ K * K <= K * K * K * K /\ K * K * K <= K * K * K * K.
    Proof.
      assert (A : 1 <= K * K) by nra. assert (B : 1 <= K * K * K) by nra. assert (C : 1 <= K * K * K * K) by nra.
      repeat split; try assumption; nra.
    Qed.
    Definition ent (x : bf) : Prop := fin x /\ Rabs (val x) <= K.
    Lemma near_triple (a b c : bf) : ent a -> ent b -> ent c ->
      near (Bmult mode_NE (Bmult mode_NE a b) c) (val a * val b * val c) 1 (202 / 100) (K * K * K).
    Proof.
      intros [A1 A2] [B1 B2] [C1 C2]. destruct KK as (L2 & L3 & L4 & L5 & L6).
      apply (near_mul _ c _ 1 (101 / 100) (K * K) K); try assumption; try lra.
      apply (near_mul _ b _ 1 0 K K); try assumption; try lra. apply near_entry; assumption.
    Qed.
    Lemma ent_opp x : ent x -> ent (Bopp x).
    Proof. intros [H1 H2]. split; [destruct x; exact H1 |]. rewrite B2R_Bopp, Rabs_Ropp. exact H2. Qed.
    (** a signed sum of six triple products *)
    Lemma near_six s1 s2 s3 s4 s5 t1 t2 t3 t4 t5 t6 v1 v2 v3 v4 v5 v6 :
      let P := K * K * K in
      near t1 v1 1 (202 / 100) P -> near t2 v2 1 (202 / 100) P -> near t3 v3 1 (202 / 100) P -> near t4 v4 1 (202 / 100) P -> near t5 v5 1 (202 / 100) P -> near t6 v6 1 (202 / 100) P ->
      let pm (s : bool) a b := if s then Bminus mode_NE a b else Bplus mode_NE a b in
      let rpm (s : bool) a b := if s then a - b else a + b in
      near (pm s5 (pm s4 (pm s3 (pm s2 (pm s1 t1 t2) t3) t4) t5) t6) (rpm s5 (rpm s4 (rpm s3 (rpm s2 (rpm s1 v1 v2) v3) v4) v5) v6) 6 33 P.
    Proof.
      intros P N1 N2 N3 N4 N5 N6 pm rpm. destruct KK as (L2 & L3 & L4 & L5 & L6). assert (KB' : 128 * P <= big) by (unfold P; lra). change (1 <= P) in L3.
      pose proof (fun H1 H2 H3 H4 H5 H6 => near_pm s1 _ _ _ _ 1 1 (202 / 100) (202 / 100) P (605 / 100) HP H1 H2 H3 H4 L3 N1 N2 H5 H6) as M1. spec M1.
      pose proof (fun H1 H2 H3 H4 H5 H6 => near_pm s2 _ _ _ _ (1 + 1) 1 (605 / 100) (202 / 100) P (111 / 10) HP H1 H2 H3 H4 L3 M1 N3 H5 H6) as M2. spec M2.
      pose proof (fun H1 H2 H3 H4 H5 H6 => near_pm s3 _ _ _ _ (1 + 1 + 1) 1 (111 / 10) (202 / 100) P (172 / 10) HP H1 H2 H3 H4 L3 M2 N4 H5 H6) as M3. spec M3.
      pose proof (fun H1 H2 H3 H4 H5 H6 => near_pm s4 _ _ _ _ (1 + 1 + 1 + 1) 1 (172 / 10) (202 / 100) P (243 / 10) HP H1 H2 H3 H4 L3 M3 N5 H5 H6) as M4. spec M4.
      pose proof (fun H1 H2 H3 H4 H5 H6 => near_pm s5 _ _ _ _ (1 + 1 + 1 + 1 + 1) 1 (243 / 10) (202 / 100) P (33) HP H1 H2 H3 H4 L3 M4 N6 H5 H6) as M5. spec M5.
      replace (1 + 1 + 1 + 1 + 1 + 1) with 6 in M5 by ring. exact M5.
    Qed.

    Variable f : lmat F.
    Hypothesis Hf : forall i j, (i < 4)%N -> (j < 4)%N -> ent (f i j).
    Definition vf : rmat := fun i j => val (f i j : bf).
    Lemma near_ext t v w m c P : near t v m c P -> v = w -> near t w m c P. Proof. intros H <-. exact H. Qed.
    Lemma six_even t1 t2 t3 t4 t5 t6 v1 v2 v3 v4 v5 v6 : let P := K * K * K in
      near t1 v1 1 (202 / 100) P -> near t2 v2 1 (202 / 100) P -> near t3 v3 1 (202 / 100) P -> near t4 v4 1 (202 / 100) P -> near t5 v5 1 (202 / 100) P -> near t6 v6 1 (202 / 100) P ->
      near (Bminus mode_NE (Bplus mode_NE (Bplus mode_NE (Bminus mode_NE (Bminus mode_NE t1 t2) t3) t4) t5) t6) (v1 - v2 - v3 + v4 + v5 - v6) 6 33 P.
    Proof. exact (near_six true true false false true t1 t2 t3 t4 t5 t6 v1 v2 v3 v4 v5 v6). Qed.
    Lemma six_odd t1 t2 t3 t4 t5 t6 v1 v2 v3 v4 v5 v6 : let P := K * K * K in
      near t1 v1 1 (202 / 100) P -> near t2 v2 1 (202 / 100) P -> near t3 v3 1 (202 / 100) P -> near t4 v4 1 (202 / 100) P -> near t5 v5 1 (202 / 100) P -> near t6 v6 1 (202 / 100) P ->
      near (Bplus mode_NE (Bminus mode_NE (Bminus mode_NE (Bplus mode_NE (Bplus mode_NE t1 t2) t3) t4) t5) t6) (v1 + v2 + v3 - v4 - v5 + v6) 6 33 P.
    Proof. exact (near_six false false true true false t1 t2 t3 t4 t5 t6 v1 v2 v3 v4 v5 v6). Qed.
    Lemma near_all :
      near (adj4_00 f) (radj4 vf 0%N 0%N) 6 33 (K * K * K) /\
      near (adj4_01 f) (radj4 vf 0%N 1%N) 6 33 (K * K * K) /\
      near (adj4_02 f) (radj4 vf 0%N 2%N) 6 33 (K * K * K) /\
      near (adj4_03 f) (radj4 vf 0%N 3%N) 6 33 (K * K * K) /\
      near (adj4_10 f) (radj4 vf 1%N 0%N) 6 33 (K * K * K) /\
      near (adj4_11 f) (radj4 vf 1%N 1%N) 6 33 (K * K * K) /\
      near (adj4_12 f) (radj4 vf 1%N 2%N) 6 33 (K * K * K) /\
      near (adj4_13 f) (radj4 vf 1%N 3%N) 6 33 (K * K * K) /\
      near (adj4_20 f) (radj4 vf 2%N 0%N) 6 33 (K * K * K) /\
      near (adj4_21 f) (radj4 vf 2%N 1%N) 6 33 (K * K * K) /\
      near (adj4_22 f) (radj4 vf 2%N 2%N) 6 33 (K * K * K) /\
      near (adj4_23 f) (radj4 vf 2%N 3%N) 6 33 (K * K * K) /\
      near (adj4_30 f) (radj4 vf 3%N 0%N) 6 33 (K * K * K) /\
      near (adj4_31 f) (radj4 vf 3%N 1%N) 6 33 (K * K * K) /\
      near (adj4_32 f) (radj4 vf 3%N 2%N) 6 33 (K * K * K) /\
      near (adj4_33 f) (radj4 vf 3%N 3%N) 6 33 (K * K * K).
    Proof.
      assert (T : forall a b c d e g, (a < 4)%N -> (b < 4)%N -> (c < 4)%N -> (d < 4)%N -> (e < 4)%N -> (g < 4)%N ->
        near (Bmult mode_NE (Bmult mode_NE (f a b) (f c d)) (f e g)) (vf a b * vf c d * vf e g) 1 (202 / 100) (K * K * K)) by (intros; apply near_triple; apply Hf; assumption).
      assert (T' : forall a b c d e g, (a < 4)%N -> (b < 4)%N -> (c < 4)%N -> (d < 4)%N -> (e < 4)%N -> (g < 4)%N ->
        near (Bmult mode_NE (Bmult mode_NE (Bopp (f a b)) (f c d)) (f e g)) (- vf a b * vf c d * vf e g) 1 (202 / 100) (K * K * K)).
      { intros. unfold vf at 1. rewrite <- B2R_Bopp. apply near_triple; [apply ent_opp |  |]; apply Hf; assumption. }
      repeat match goal with |- _ /\ _ => split end;
        unfold adj4_00, adj4_01, adj4_02, adj4_03, adj4_10, adj4_11, adj4_12, adj4_13, adj4_20, adj4_21, adj4_22, adj4_23, adj4_30, adj4_31, adj4_32, adj4_33;
        cbn [nmul nadd nsub nneg Ieee];
        (eapply near_ext; [first [eapply six_even | eapply six_odd]; first [apply T; reflexivity | apply T'; reflexivity] |
          unfold radj4, rdet3, rdet2, minor, minor2, skip, sgn; simpl; ring]).
    Qed.
    Lemma near_adj i j : (i < 4)%N -> (j < 4)%N -> near (adj4 f i j) (radj4 vf i j) 6 33 (K * K * K).
    Proof.
      intros Hi Hj. destruct near_all as (A00 & A01 & A02 & A03 & A10 & A11 & A12 & A13 & A20 & A21 & A22 & A23 & A30 & A31 & A32 & A33).
      cases4 i Hi; cases4 j Hj; cbn [adj4 rows16]; assumption.
    Qed.
    Lemma near_det : near (adj4_det f) (rdet4 vf) 24 (2111 / 10) (K * K * K * K).
    Proof.
      destruct KK as (L2 & L3 & L4 & L5 & L6).
      assert (Q : forall i t v, (i < 4)%N -> near t v 6 33 (K * K * K) -> near (Bmult mode_NE (f i 0%N) t) (vf i 0%N * v) 6 (391 / 10) (K * K * K * K)).
      { intros i t v Hi N. destruct (Hf i 0%N Hi eq_refl) as [G1 G2]. apply (near_mul' _ _ _ 6 33 (K * K * K) K); try assumption; lra. }
      destruct near_all as (A0 & A1 & A2 & A3 & _).
      unfold adj4_det. cbn [nmul nadd Ieee].
      revert A0 A1 A2 A3. generalize (adj4_00 f) (adj4_01 f) (adj4_02 f) (adj4_03 f). intros t0 t1 t2 t3 A0 A1 A2 A3.
      pose proof (fun H1 H2 H3 H4 H5 H6 => near_pm false _ _ _ _ 6 6 (391 / 10) (391 / 10) (K * K * K * K) (904 / 10) HP H1 H2 H3 H4 L4 (Q 0%N _ _ eq_refl A0) (Q 1%N _ _ eq_refl A1) H5 H6) as M1. spec M1.
      pose proof (fun H1 H2 H3 H4 H5 H6 => near_pm false _ _ _ _ (6 + 6) 6 (904 / 10) (391 / 10) (K * K * K * K) (1477 / 10) HP H1 H2 H3 H4 L4 M1 (Q 2%N _ _ eq_refl A2) H5 H6) as M2. spec M2.
      pose proof (fun H1 H2 H3 H4 H5 H6 => near_pm false _ _ _ _ (6 + 6 + 6) 6 (1477 / 10) (391 / 10) (K * K * K * K) (2111 / 10) HP H1 H2 H3 H4 L4 M2 (Q 3%N _ _ eq_refl A3) H5 H6) as M3. spec M3.
      replace (6 + 6 + 6 + 6) with 24 in M3 by ring. cbv iota in M3. eapply near_ext; [exact M3 |].
      apply det_expand.
    Qed.

    Lemma fv_eps : fv (@f_eps prec emax Hp Hm) (2 * u).
    Proof.
      assert (HM : (prec < emax)%Z) by exact Hm. assert (HP0 : (0 < prec)%Z) by exact Hp.
      pose proof (binary_normalize_correct prec emax Hp Hm mode_NE 1 (1 - prec) false) as Q. cbv zeta in Q.
      assert (E : F2R (Float radix2 1 (1 - prec)) = bpow radix2 (1 - prec)) by (unfold F2R; simpl; ring). rewrite E in Q.
      rewrite round_generic in Q; [| apply valid_rnd_N |].
      2: { apply generic_format_bpow. change fmt with (FLT_exp (3 - emax - prec) prec). unfold FLT_exp. lia. }
      rewrite Rlt_bool_true in Q; [| rewrite Rabs_pos_eq by apply bpow_ge_0; apply bpow_lt; lia].
      destruct Q as [Q1 [Q2 _]]. split; [exact Q2 |]. unfold f_eps. rewrite Q1. unfold uro. replace (1 - prec)%Z with (1 + - prec)%Z by lia. rewrite bpow_plus. reflexivity.
    Qed.

    (** the quotient of an approximated cofactor by an approximated determinant *)
    Lemma quot_core (a d A D e1 e2 h : R) : 0 < u <= / 1024 -> Rabs (a - A) <= 33 * u * (K * K * K) -> Rabs A <= 6 * (K * K * K) ->
      Rabs (d - D) <= 2111 / 10 * u * (K * K * K * K) -> 423 * u * (K * K * K * K) <= Rabs D -> Rabs e1 <= u -> Rabs e2 <= u -> Rabs h <= et ->
      Rabs (a * (1 / d * (1 + e1)) * (1 + e2) + h - A / D) <= u * (91 * (K * K * K) / Rabs D + 2534 * (K * K * K) * (K * K * K * K) / (D * D)) + et.
    Proof.
      intros U Ha HA Hd HD E1 E2 Hh. destruct KK as (L2 & L3 & L4 & L5 & L6). set (Q := K * K * K * K) in *. set (P := K * K * K) in *.
      assert (UQ : 0 < u * Q) by (apply Rmult_lt_0_compat; lra). assert (UP : 0 < u * P) by (apply Rmult_lt_0_compat; lra).
      assert (D0 : 0 < Rabs D) by lra. assert (Dn : D <> 0) by (intro C; rewrite C, Rabs_R0 in D0; lra).
      assert (dl : Rabs D / 2 <= Rabs d).
      { assert (Rabs D <= Rabs (D - d) + Rabs d) by (replace D with ((D - d) + d) at 1 by ring; apply Rabs_triang). rewrite Rabs_minus_sym in H. lra. }
      assert (d0 : 0 < Rabs d) by lra. assert (dn : d <> 0) by (intro C; rewrite C, Rabs_R0 in d0; lra).
      assert (I : / Rabs d <= 2 * / Rabs D). { replace (2 * / Rabs D) with (/ (Rabs D / 2)) by (field; lra). apply Rinv_le_contravar; lra. }
      assert (ID : 0 < / Rabs D) by (apply Rinv_0_lt_compat; exact D0). assert (Id : 0 < / Rabs d) by (apply Rinv_0_lt_compat; exact d0).
      assert (al : Rabs a <= 604 / 100 * P).
      { assert (Rabs a <= Rabs (a - A) + Rabs A) by (replace a with ((a - A) + A) at 1 by ring; apply Rabs_triang).
        assert (33 * u * P <= 33 / 1024 * P). { apply Rmult_le_compat_r; lra. } lra. }
      assert (T1 : Rabs ((a - A) / d) <= 66 * u * P * / Rabs D).
      { unfold Rdiv. rewrite Rabs_mult, Rabs_inv. replace (66 * u * P * / Rabs D) with ((33 * u * P) * (2 * / Rabs D)) by ring.
        apply Rmult_le_compat; [apply Rabs_pos | lra | exact Ha | exact I]. }
      assert (T2 : Rabs (A * (D - d) / (D * d)) <= 2534 * u * P * Q * (/ Rabs D * / Rabs D)).
      { unfold Rdiv. rewrite Rabs_mult, Rabs_inv, !Rabs_mult, Rinv_mult.
        rewrite (Rabs_minus_sym D d). apply Rle_trans with ((6 * P) * (2111 / 10 * u * Q) * (/ Rabs D * (2 * / Rabs D))).
        - apply Rmult_le_compat.
          + apply Rmult_le_pos; apply Rabs_pos.
          + apply Rmult_le_pos; lra.
          + apply Rmult_le_compat; try apply Rabs_pos; assumption.
          + apply Rmult_le_compat_l; lra.
        - assert (0 <= u * P * Q * (/ Rabs D * / Rabs D)). { apply Rmult_le_pos; [apply Rmult_le_pos; lra | apply Rmult_le_pos; lra]. } nra. }
      assert (T3 : Rabs (a / d * (e1 + e2 + e1 * e2)) <= 25 * u * P * / Rabs D).
      { assert (G : Rabs (a / d) <= 1208 / 100 * P * / Rabs D).
        { change (a / d) with (a * / d). rewrite Rabs_mult, Rabs_inv. replace (1208 / 100 * P * / Rabs D) with ((604 / 100 * P) * (2 * / Rabs D)) by (field; lra). apply Rmult_le_compat; [apply Rabs_pos | lra | exact al | exact I]. }
        assert (W : Rabs (e1 + e2 + e1 * e2) <= 201 / 100 * u).
        { assert (Rabs (e1 * e2) <= u * / 1024). { rewrite Rabs_mult. apply Rmult_le_compat; try apply Rabs_pos; lra. }
          eapply Rle_trans; [apply Rabs_triang |]. eapply Rle_trans; [apply Rplus_le_compat_r, Rabs_triang |]. lra. }
        rewrite Rabs_mult. apply Rle_trans with ((1208 / 100 * P * / Rabs D) * (201 / 100 * u)).
        - apply Rmult_le_compat; try apply Rabs_pos; assumption.
        - assert (0 <= u * P * / Rabs D) by (apply Rmult_le_pos; lra). lra. }
      replace (a * (1 / d * (1 + e1)) * (1 + e2) + h - A / D) with ((a - A) / d + A * (D - d) / (D * d) + a / d * (e1 + e2 + e1 * e2) + h) by (field; split; assumption).
      eapply Rle_trans; [apply Rabs_triang |]. eapply Rle_trans; [apply Rplus_le_compat_r, Rabs_triang |]. eapply Rle_trans; [apply Rplus_le_compat_r, Rplus_le_compat_r, Rabs_triang |].
      assert (DD : D * D = Rabs D * Rabs D) by (rewrite <- Rabs_mult, Rabs_pos_eq; [reflexivity | apply Rle_0_sqr]).
      rewrite DD. replace (2534 * P * Q / (Rabs D * Rabs D)) with (2534 * P * Q * (/ Rabs D * / Rabs D)) by (field; lra).
      unfold Rdiv. lra.
    Qed.

    (** the row-major matrix stored with the products of cofactors and reciprocal, read through [index] *)
    Theorem inverse_ieee (m : mat4 F) : repr4 m f -> 423 * u * (K * K * K * K) <= Rabs (rdet4 vf) ->
      exists r g, mat4_inverse m = Ok (Some r) /\ m4_rm r = true /\ repr4 r g /\ forall i j, (i < 4)%N -> (j < 4)%N ->
        fin (g i j) /\ Rabs (val (g i j : bf) - radj4 vf j i / rdet4 vf) <= u * (91 * (K * K * K) / Rabs (rdet4 vf) + 2534 * (K * K * K) * (K * K * K * K) / (rdet4 vf * rdet4 vf)) + et.
    Proof.
      intros Hr HD. rewrite (inv4_eval m f Hr). destruct (u_et HP) as [U [T0 T1]]. destruct KK as (L2 & L3 & L4 & L5 & L6).
      pose proof near_adj as NA. pose proof near_det as ND. set (dt := adj4_det f) in *. clearbody dt. change (bf) in dt.
      destruct ND as [Fd [Ed Md]]. set (D := rdet4 vf) in *. set (Q := K * K * K * K) in *. set (P := K * K * K) in *.
      assert (UQ : 0 < u * Q) by (apply Rmult_lt_0_compat; lra).
      assert (dl : Rabs D / 2 <= Rabs (val dt)).
      { assert (Rabs D <= Rabs (D - val dt) + Rabs (val dt)) by (replace D with ((D - val dt) + val dt) at 1 by ring; apply Rabs_triang). rewrite Rabs_minus_sym in H. lra. }
      assert (uQ : u <= u * Q) by (rewrite <- (Rmult_1_r u) at 1; apply Rmult_le_compat_l; lra).
      destruct fv_eps as [Fe Ve].
      assert (C : nlt (nabs F (dt : F)) (neps F) = false).
      { apply not_true_is_false. intro X. apply (nlt_val prec emax lm) in X; [| destruct dt; exact Fd | exact Fe].
        change (neps F) with (@f_eps prec emax Hp Hm) in X. change (nabs F (dt : F)) with (Babs dt) in X. rewrite Ve, B2R_Babs in X. lra. }
      rewrite C. cbv zeta.
      assert (du : Rabs (val dt) <= 25 * Q).
      { assert (Rabs (val dt) <= Rabs (val dt - D) + Rabs D) by (replace (val dt) with ((val dt - D) + D) at 1 by ring; apply Rabs_triang).
        assert (2111 / 10 * u * Q <= 2111 / 10 * / 1024 * Q) by (apply Rmult_le_compat_r; lra). lra. }
      assert (d0 : 0 < Rabs (val dt)) by lra. assert (dn : val dt <> 0) by (intro X; rewrite X, Rabs_R0 in d0; lra).
      destruct (fv_lit_1 prec emax) as [F1 V1].
      assert (Ik : Rabs (1 / val dt) = / Rabs (val dt)) by (unfold Rdiv; rewrite Rmult_1_l; apply Rabs_inv).
      assert (Lo : bpow radix2 (2 - emax) <= Rabs (1 / val dt)).
      { rewrite Ik. replace (bpow radix2 (2 - emax)) with (/ (/ 4 * big)).
        - apply Rinv_le_contravar; [exact d0 | lra].
        - replace (2 - emax)%Z with (2 + - emax)%Z by lia. rewrite bpow_plus, bpow_opp. change (bpow radix2 2) with 4. field. apply Rgt_not_eq, bpow_gt_0. }
      destruct (rnd_rel prec emax (1 / val dt) Lo) as [e1 [E1 R1]].
      assert (Hu : / u <= big / 2).
      { unfold uro. rewrite <- bpow_opp. replace (- - prec)%Z with prec by lia. assert (HM : (prec < emax)%Z) by exact Hm.
        replace (big / 2) with (bpow radix2 (emax - 1)); [apply bpow_le; lia |]. replace (emax - 1)%Z with (emax + - 1)%Z by lia. rewrite bpow_plus. change (bpow radix2 (-1)) with (/ 2). reflexivity. }
      assert (ui : 1 <= / u). { rewrite <- Rinv_1. apply Rinv_le_contravar; lra. }
      assert (Hi1 : Rabs (1 / val dt) <= / 200 * / u).
      { rewrite Ik. rewrite <- Rinv_mult. apply Rinv_le_contravar; lra. }
      assert (B1 : Rabs (rnd (1 / val dt)) <= 2 * Rabs (1 / val dt)).
      { rewrite R1, Rabs_mult, Rmult_comm. apply Rmult_le_compat_r; [apply Rabs_pos |]. eapply Rle_trans; [apply Rabs_triang |]. rewrite Rabs_R1. lra. }
      assert (Dv : Bdiv mode_NE (@f_lit prec emax Hp Hm 1 1) dt = ndiv F (nlit F 1 1) dt) by reflexivity.
      destruct (proj1 (div_round prec emax (@f_lit prec emax Hp Hm 1 1) dt F1 dn)) as [Fk Vk]; [rewrite V1; lra |]. rewrite V1 in Vk.
      rewrite <- Dv. clear Dv. set (k := Bdiv mode_NE (@f_lit prec emax Hp Hm 1 1) dt) in *. clearbody k.
      assert (En : forall i j, (i < 4)%N -> (j < 4)%N -> fin (Bmult mode_NE (adj4 f j i) k) /\ Rabs (val (Bmult mode_NE (adj4 f j i) k) - radj4 vf j i / D) <=
        u * (91 * P / Rabs D + 2534 * P * Q / (D * D)) + et).
      { intros i j Hi Hj. destruct (NA j i Hj Hi) as [Fa [Ea Ma]]. set (a := adj4 f j i) in *. clearbody a. change bf in a.
        assert (al : Rabs (val a) <= 604 / 100 * P).
        { assert (Rabs (val a) <= Rabs (val a - radj4 vf j i) + Rabs (radj4 vf j i)) by (replace (val a) with ((val a - radj4 vf j i) + radj4 vf j i) at 1 by ring; apply Rabs_triang).
          assert (33 * u * P <= 33 / 1024 * P) by (apply Rmult_le_compat_r; lra). lra. }
        destruct (rnd_err prec emax (val a * val k)) as (e2 & h & E2 & Hh & R2).
        assert (Sz : Rabs (val a * val k) <= / 17 * / u).
        { rewrite Rabs_mult, Vk. apply Rle_trans with ((604 / 100 * P) * (2 * / Rabs (val dt))).
          - apply Rmult_le_compat; try apply Rabs_pos; [exact al | rewrite <- Ik; exact B1].
          - assert (G : / Rabs (val dt) <= / (211 * u * P)). { apply Rinv_le_contravar; [apply Rmult_lt_0_compat; lra |]. assert (u * P <= u * Q) by (apply Rmult_le_compat_l; lra). lra. }
            apply Rle_trans with ((604 / 100 * P) * (2 * / (211 * u * P))); [apply Rmult_le_compat_l; lra |].
            replace (604 / 100 * P * (2 * / (211 * u * P))) with (1208 / 21100 * / u) by (field; lra). lra. }
        assert (Ov : Rabs (rnd (val a * val k)) < big).
        { rewrite R2. eapply Rle_lt_trans; [apply Rabs_triang |]. rewrite Rabs_mult.
          assert (Rabs (val a * val k) * Rabs (1 + e2) <= (/ 17 * / u) * 2).
          { apply Rmult_le_compat; try apply Rabs_pos; [exact Sz |]. eapply Rle_trans; [apply Rabs_triang |]. rewrite Rabs_R1. lra. }
          assert (u * / 512 <= 1) by lra. lra. }
        destruct (proj1 (mult_round prec emax a k Fa Fk) Ov) as [Fm Vm]. split; [exact Fm |]. rewrite Vm, R2, Vk, R1.
        apply quot_core; assumption. }
      eexists. exists (fun i j => nmul F (adj4 f j i) k). split; [reflexivity |]. split; [reflexivity |]. split; [| exact En].
      unfold adj4. apply repr4_tr.
    Qed.
    (** the answer None means a determinant of rounding size *)
    Theorem inverse_none (m : mat4 F) : repr4 m f -> mat4_inverse m = Ok None -> Rabs (rdet4 vf) < 2 * u + 212 * u * (K * K * K * K).
    Proof.
      intros Hr HN. rewrite (inv4_eval m f Hr) in HN. destruct (u_et HP) as [U _]. destruct KK as (L2 & L3 & L4 & L5 & L6).
      pose proof near_det as ND. set (dt := adj4_det f) in *. clearbody dt. change (bf) in dt. destruct ND as [Fd [Ed Md]]. destruct fv_eps as [Fe Ve].
      destruct (nlt (nabs F (dt : F)) (neps F)) eqn:X; [| cbv zeta in HN; discriminate HN]. apply (nlt_val prec emax lm) in X; [| destruct dt; exact Fd | exact Fe].
      change (neps F) with (@f_eps prec emax Hp Hm) in X. change (nabs F (dt : F)) with (Babs dt) in X. rewrite Ve, B2R_Babs in X.
      assert (Rabs (rdet4 vf) <= Rabs (rdet4 vf - val dt) + Rabs (val dt)) by (replace (rdet4 vf) with ((rdet4 vf - val dt) + val dt) at 1 by ring; apply Rabs_triang).
      rewrite Rabs_minus_sym in H. assert (0 < u * (K * K * K * K)) by (apply Rmult_lt_0_compat; lra). lra.
    Qed.
    (** no input of this size makes it panic *)
    Theorem inverse_answers (m : mat4 F) : repr4 m f -> exists o, mat4_inverse m = Ok o.
    Proof. intro Hr. rewrite (inv4_eval m f Hr). destruct (nlt _ _); eexists; reflexivity. Qed.
  End Six.
End PInvF.
