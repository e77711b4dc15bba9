(** PInv3F.v — Mat3::inverse in IEEE arithmetic (C137). *)
From Coq Require Import Reals List ZArith NArith Bool Lra Lia Psatz.
From Flocq Require Import Core BinarySingleNaN.
Import ListNotations.
From Verif Require Import Base Num Vec Mat Float Exact SpecMat SpecReal SpecGeom SpecRound ExactFacts FloatFacts FloatRound Order PMat PInv PRound PIeee1 PIeee2 PIeee3 PIeee5 PIeee6 PInvF.
Local Open Scope R_scope.

Lemma adj3_inverse (f : rmat) : rdet3 f <> 0 -> rinverse3 f (fun i j => radj3 f i j / rdet3 f).
Proof.
  intro H. set (d := rdet3 f) in *. assert (E : d = rdet3 f) by reflexivity. clearbody d. unfold rdet3, rdet2, minor, skip in E. cbn [N.ltb N.compare Pos.compare Pos.compare_cont N.add Pos.add Pos.succ] in E.
  split; intros i j Hi Hj; unfold rmul3, rsum3, riden, radj3, sgn, rdet2, minor2, skip; cases3 i Hi; cases3 j Hj; cbn; apply (Rmult_eq_reg_r d); try exact H; field_simplify; try exact H; rewrite ?E; ring.
Qed.

Section PInv3F.
  Context (prec emax : Z) {Hp : Prec_gt_0 prec} {Hm : Prec_lt_emax prec emax} (lm : libm (binary_float prec emax)).
  Notation bf := (binary_float prec emax).
  Notation fmt := (SpecFloat.fexp prec emax).
  Notation rnd := (round radix2 fmt ZnearestE).
  Notation val := (@B2R prec emax).
  Notation fin x := (is_finite (x : bf) = true).
  Notation u := (uro prec).
  Notation et := (eta prec emax).
  Notation big := (bpow radix2 emax).
  Notation F := (@Ieee prec emax Hp Hm lm).
  Notation near := (PInvF.near prec emax).

  Lemma rnd_near x v E M : (9 < prec)%Z -> 1 <= M -> Rabs (x - v) <= E -> Rabs x <= M -> 2 * M < big -> Rabs (rnd x - v) <= E + 514 / 512 * u * M /\ Rabs (rnd x) < big.
  Proof.
    intros P M1 H1 H2 B. destruct (u_et prec emax P) as [[U0 U1] [T0 T1]]. destruct (rnd_err prec emax x) as (e & h & He & Hh & Q).
    assert (A : Rabs (x * e) <= u * M) by (rewrite Rabs_mult, Rmult_comm; apply Rmult_le_compat; try apply Rabs_pos; assumption). assert (UM : u <= u * M) by nra. assert (UB : u * M <= / 1024 * M) by (apply Rmult_le_compat_r; lra).
    rewrite Q. split.
    - replace (x * (1 + e) + h - v) with ((x - v) + x * e + h) by ring. eapply Rle_trans; [apply Rabs_triang |]. eapply Rle_trans; [apply Rplus_le_compat_r, Rabs_triang |]. lra.
    - replace (x * (1 + e) + h) with (x + x * e + h) by ring. eapply Rle_lt_trans; [apply Rabs_triang |]. eapply Rle_lt_trans; [apply Rplus_le_compat_r, Rabs_triang |]. lra.
  Qed.
  (** a quotient by a number within dl of 1 *)
  Lemma quot_near (t D : bf) v E M dl : (9 < prec)%Z -> fin t -> Rabs (val D - 1) <= dl -> dl <= / 4 -> Rabs (val t - v) <= E -> Rabs v <= M -> 1 <= M -> 3 * (M + E) < big ->
    fin (Bdiv mode_NE t D) /\ Rabs (val (Bdiv mode_NE t D) - v) <= 4 / 3 * E + 4 / 3 * M * dl + 514 / 512 * u * (4 / 3 * (M + E)) /\ Rabs (val t / val D) <= 4 / 3 * (M + E).
  Proof.
    intros P Ft HD HL Ht Hv M1 B. assert (E0 : 0 <= E) by (eapply Rle_trans; [apply Rabs_pos | exact Ht]). assert (D0 : 0 <= dl) by (eapply Rle_trans; [apply Rabs_pos | exact HD]).
    apply Rabs_le_inv in HD. assert (DP : 3 / 4 <= val D) by lra. assert (DN : val D <> 0) by lra. assert (ID : 0 < / val D <= 4 / 3). { split; [apply Rinv_0_lt_compat; lra |]. replace (4 / 3) with (/ (3 / 4)) by field. apply Rinv_le; lra. }
    assert (T : Rabs (val t) <= M + E). { replace (val t) with (v + (val t - v)) by ring. eapply Rle_trans; [apply Rabs_triang |]. lra. }
    assert (X : Rabs (val t / val D) <= 4 / 3 * (M + E)). { unfold Rdiv at 1. rewrite Rabs_mult, (Rabs_pos_eq (/ val D)) by lra. rewrite Rmult_comm. apply Rmult_le_compat; try apply Rabs_pos; lra. }
    assert (Y : Rabs (val t / val D - v) <= 4 / 3 * E + 4 / 3 * M * dl).
    { replace (val t / val D - v) with ((val t - v) * / val D + v * (1 - val D) * / val D) by (field; exact DN). eapply Rle_trans; [apply Rabs_triang |]. rewrite !Rabs_mult, !(Rabs_pos_eq (/ val D)) by lra.
      assert (Rabs (1 - val D) <= dl) by (apply Rabs_le; lra). apply Rplus_le_compat.
      - rewrite Rmult_comm. apply Rmult_le_compat; try apply Rabs_pos; lra.
      - rewrite (Rmult_comm _ (/ val D)). rewrite Rmult_assoc. apply Rmult_le_compat; [lra | apply Rmult_le_pos; apply Rabs_pos | lra |]. apply Rmult_le_compat; try apply Rabs_pos; assumption. }
    destruct (rnd_near (val t / val D) v _ (4 / 3 * (M + E)) P ltac:(lra) Y X ltac:(lra)) as [Z1 Z2]. destruct (proj1 (div_round prec emax t D Ft DN) Z2) as [G1 G2]. split; [exact G1 |]. rewrite G2. split; [exact Z1 | exact X].
  Qed.

  Section Body.
    Variables (K : R).
    Hypotheses (HP : (9 < prec)%Z) (K1 : 1 <= K) (KB : 128 * (K * K * K) <= big).
    Notation ent := (PInvF.ent prec emax K).
    Lemma K23 : 1 <= K * K /\ 1 <= K * K * K /\ K * K <= K * K * K.
    Proof. assert (1 <= K * K) by nra. repeat split; nra. Qed.
    Lemma prod2 (a b : bf) : ent a -> ent b -> near (Bmult mode_NE a b) (val a * val b) 1 (101 / 100) (K * K).
    Proof.
      intros [A1 A2] [B1 B2]. destruct K23 as (L2 & L3 & L5). apply (near_mul prec emax _ b _ 1 0 K K); try assumption; try lra. apply near_entry; assumption.
    Qed.
    Lemma minor_near (a b c d : bf) : ent a -> ent b -> ent c -> ent d -> near (Bminus mode_NE (Bmult mode_NE a b) (Bmult mode_NE c d)) (val a * val b - val c * val d) 2 (403 / 100) (K * K).
    Proof.
      intros A B C D. destruct K23 as (L2 & L3 & L5). replace 2 with (1 + 1) at 1 by ring. exact (near_pm prec emax true _ _ _ _ 1 1 (101 / 100) (101 / 100) (K * K) (403 / 100) HP ltac:(lra) ltac:(lra) ltac:(lra) ltac:(lra) L2 (prod2 a b A B) (prod2 c d C D) ltac:(lra) ltac:(lra)).
    Qed.
    Lemma term_near (x a b c d : bf) : ent x -> ent a -> ent b -> ent c -> ent d -> near (Bmult mode_NE x (Bminus mode_NE (Bmult mode_NE a b) (Bmult mode_NE c d))) (val x * (val a * val b - val c * val d)) 2 (604 / 100) (K * K * K).
    Proof.
      intros [X1 X2] A B C D. destruct K23 as (L2 & L3 & L5). apply (near_mul' prec emax _ x _ 2 (403 / 100) (K * K) K); try assumption; try lra. apply minor_near; assumption.
    Qed.
    Lemma KL3 : 1 <= K * K * K. Proof. apply K23. Qed.
    Variable f : lmat F.
    Hypothesis Hf : forall i j, (i < 3)%N -> (j < 3)%N -> ent (f i j : bf).
    Notation rf := ((fun i j => val (f i j : bf)) : rmat).
    Lemma det3_near : near (det3_of f : bf) (rdet3 rf) 6 29 (K * K * K).
    Proof.
      pose proof KL3 as L3.
      pose proof (term_near (f 0 0)%N (f 1 1)%N (f 2 2)%N (f 2 1)%N (f 1 2)%N (Hf 0%N 0%N eq_refl eq_refl) (Hf 1%N 1%N eq_refl eq_refl) (Hf 2%N 2%N eq_refl eq_refl) (Hf 2%N 1%N eq_refl eq_refl) (Hf 1%N 2%N eq_refl eq_refl)) as N1.
      pose proof (term_near (f 1 0)%N (f 0 1)%N (f 2 2)%N (f 2 1)%N (f 0 2)%N (Hf 1%N 0%N eq_refl eq_refl) (Hf 0%N 1%N eq_refl eq_refl) (Hf 2%N 2%N eq_refl eq_refl) (Hf 2%N 1%N eq_refl eq_refl) (Hf 0%N 2%N eq_refl eq_refl)) as N2.
      pose proof (term_near (f 2 0)%N (f 0 1)%N (f 1 2)%N (f 1 1)%N (f 0 2)%N (Hf 2%N 0%N eq_refl eq_refl) (Hf 0%N 1%N eq_refl eq_refl) (Hf 1%N 2%N eq_refl eq_refl) (Hf 1%N 1%N eq_refl eq_refl) (Hf 0%N 2%N eq_refl eq_refl)) as N3.
      pose proof (near_pm prec emax true _ _ _ _ 2 2 (604 / 100) (604 / 100) (K * K * K) (161 / 10) HP ltac:(lra) ltac:(lra) ltac:(lra) ltac:(lra) L3 N1 N2 ltac:(lra) ltac:(lra)) as M1.
      pose proof (near_pm prec emax false _ _ _ _ (2 + 2) 2 (161 / 10) (604 / 100) (K * K * K) 29 HP ltac:(lra) ltac:(lra) ltac:(lra) ltac:(lra) L3 M1 N3 ltac:(lra) ltac:(lra)) as M2. cbv iota in M2.
      replace (2 + 2 + 2) with 6 in M2 by ring. eapply near_ext; [exact M2 |]. unfold rdet3, rdet2, minor, skip. cbn [N.ltb N.compare Pos.compare Pos.compare_cont N.add Pos.add Pos.succ]. ring.
    Qed.
    Section One.
      Variable dl : R.
      Hypotheses (HD : Rabs (val (det3_of f : bf) - 1) <= dl) (HL : dl <= / 4).
      Notation dt := (det3_of f : bf).
      (** a b - (c d) / det *)
      Lemma entry_a (a b c d : bf) : ent a -> ent b -> ent c -> ent d ->
        fin (Bminus mode_NE (Bmult mode_NE a b) (Bdiv mode_NE (Bmult mode_NE c d) dt)) /\ Rabs (val (Bminus mode_NE (Bmult mode_NE a b) (Bdiv mode_NE (Bmult mode_NE c d) dt)) - (val a * val b - val c * val d)) <= (3 * dl + 10 * u) * (K * K).
      Proof.
        intros A B C D. destruct K23 as (L2 & L3 & L5). set (W := K * K) in *. assert (WB : 128 * W <= big) by lra. destruct (u_et prec emax HP) as [[U0 U1] _]. assert (D0 : 0 <= dl) by (eapply Rle_trans; [apply Rabs_pos | exact HD]).
        assert (UW : 0 <= u * W <= / 1024 * W) by (split; [apply Rmult_le_pos; lra | apply Rmult_le_compat_r; lra]). assert (UU : u * (u * W) <= / 1024 * (u * W)) by (apply Rmult_le_compat_r; lra). assert (DW : 0 <= dl * W <= / 4 * W) by (split; [apply Rmult_le_pos; lra | apply Rmult_le_compat_r; lra]).
        destruct (prod2 a b A B) as (F1 & E1 & S1). destruct (prod2 c d C D) as (F2 & E2 & S2). fold W in E1, S1, E2, S2.
        destruct (quot_near _ dt _ _ (1 * W) dl HP F2 HD HL E2 S2 ltac:(lra) ltac:(lra)) as (F3 & E3 & _). set (q := Bdiv mode_NE (Bmult mode_NE c d) dt) in *. set (p := Bmult mode_NE a b) in *.
        assert (E3' : Rabs (val q - val c * val d) <= 4 / 3 * (dl * W) + 27 / 10 * (u * W)) by (eapply Rle_trans; [exact E3 |]; lra). clear E3.
        set (x := val a * val b) in *. set (y := val c * val d) in *.
        assert (Y : Rabs (val p - val q - (x - y)) <= 4 / 3 * (dl * W) + 371 / 100 * (u * W)). { replace (val p - val q - (x - y)) with ((val p - x) + - (val q - y)) by ring. eapply Rle_trans; [apply Rabs_triang |]. rewrite Rabs_Ropp. lra. }
        assert (X : Rabs (val p - val q) <= 12 / 5 * W). { replace (val p - val q) with ((val p - val q - (x - y)) + (x + - y)) by ring. eapply Rle_trans; [apply Rabs_triang |]. pose proof (Rabs_triang x (- y)) as T. rewrite Rabs_Ropp in T. lra. }
        destruct (rnd_near (val p - val q) (x - y) _ (12 / 5 * W) HP ltac:(lra) Y X ltac:(lra)) as [Z1 Z2]. destruct (proj1 (minus_round prec emax p q F1 F3) Z2) as [G1 G2]. split; [exact G1 |]. rewrite G2. eapply Rle_trans; [exact Z1 |]. lra.
      Qed.
      (** - (a b - c d) / det *)
      Lemma entry_b (a b c d : bf) : ent a -> ent b -> ent c -> ent d ->
        fin (Bdiv mode_NE (Bopp (Bminus mode_NE (Bmult mode_NE a b) (Bmult mode_NE c d))) dt) /\ Rabs (val (Bdiv mode_NE (Bopp (Bminus mode_NE (Bmult mode_NE a b) (Bmult mode_NE c d))) dt) - - (val a * val b - val c * val d)) <= (3 * dl + 10 * u) * (K * K).
      Proof.
        intros A B C D. destruct K23 as (L2 & L3 & L5). destruct (near_opp prec emax _ _ _ _ _ (minor_near a b c d A B C D)) as (F1 & E1 & S1). set (W := K * K) in *. assert (WB : 128 * W <= big) by lra. destruct (u_et prec emax HP) as [[U0 U1] _]. assert (D0 : 0 <= dl) by (eapply Rle_trans; [apply Rabs_pos | exact HD]).
        assert (UW : 0 <= u * W <= / 1024 * W) by (split; [apply Rmult_le_pos; lra | apply Rmult_le_compat_r; lra]). assert (UU : u * (u * W) <= / 1024 * (u * W)) by (apply Rmult_le_compat_r; lra). assert (DW : 0 <= dl * W <= / 4 * W) by (split; [apply Rmult_le_pos; lra | apply Rmult_le_compat_r; lra]).
        destruct (quot_near _ dt _ _ (2 * W) dl HP F1 HD HL E1 S1 ltac:(lra) ltac:(lra)) as (F3 & E3 & _). split; [exact F3 |]. eapply Rle_trans; [exact E3 |]. lra.
      Qed.
    End One.
  End Body.

  (** the two literals of the determinant test *)
  Lemma rnd_pow k : (3 - emax - prec <= k)%Z -> rnd (bpow radix2 k) = bpow radix2 k.
  Proof.
    intro H. apply round_generic; [apply valid_rnd_N |]. apply generic_format_bpow. unfold SpecFloat.fexp, SpecFloat.emin. assert (0 < prec)%Z by exact Hp. lia.
  Qed.
  Lemma lit_small (z : positive) (k : Z) : (9 < prec)%Z -> (37 < emax)%Z -> (1 <= k <= 36)%Z -> bpow radix2 k <= IZR (Zpos z) <= bpow radix2 37 -> fin (nlit F 1 z) /\ 0 <= val (nlit F 1 z : bf) <= bpow radix2 (- k).
  Proof.
    intros P E Hk [Z1 Z2]. change (nlit F 1 z) with (@f_lit prec emax Hp Hm 1 z). unfold f_lit. assert (HM : (prec < emax)%Z) by exact Hm.
    pose proof (binary_normalize_correct prec emax Hp Hm mode_NE (Zpos z) 0 false) as Q. cbv zeta in Q. change (round_mode mode_NE) with ZnearestE in Q. fold (@f_int prec emax Hp Hm (Zpos z)) in Q.
    replace (F2R {| Fnum := Zpos z; Fexp := 0 |}) with (IZR (Zpos z)) in Q by (unfold F2R; cbn [Fnum Fexp]; cbn; ring).
    assert (R1 : bpow radix2 k <= rnd (IZR (Zpos z))) by (rewrite <- (rnd_pow k) by lia; apply rnd_le; [exact Hp | exact Z1]).
    assert (R2 : rnd (IZR (Zpos z)) <= bpow radix2 37) by (rewrite <- (rnd_pow 37) by lia; apply rnd_le; [exact Hp | exact Z2]). pose proof (bpow_gt_0 radix2 k) as K0.
    rewrite Rlt_bool_true in Q. 2: { rewrite Rabs_pos_eq by lra. eapply Rle_lt_trans; [exact R2 | apply bpow_lt; exact E]. }
    destruct Q as (Q1 & Q2 & _). set (X := @f_int prec emax Hp Hm (Zpos z)) in *.
    destruct (fv_int1 prec emax) as [I1 I2]. set (I := @f_int prec emax Hp Hm 1) in *.
    rewrite <- Q1 in R1. assert (XN : val X <> 0) by lra. assert (IX : 0 <= val I / val X <= bpow radix2 (- k)). { rewrite I2. unfold Rdiv. rewrite Rmult_1_l. split; [left; apply Rinv_0_lt_compat; lra |]. rewrite bpow_opp. apply Rinv_le; assumption. }
    assert (R3 : 0 <= rnd (val I / val X)) by (rewrite <- (round_0 radix2 fmt ZnearestE); apply rnd_le; [exact Hp | apply IX]). assert (R4 : rnd (val I / val X) <= bpow radix2 (- k)) by (rewrite <- (rnd_pow (- k)) by lia; apply rnd_le; [exact Hp | apply IX]).
    destruct (proj1 (div_round prec emax I X I1 XN)) as [G1 G2]. { rewrite Rabs_pos_eq by exact R3. eapply Rle_lt_trans; [exact R4 | apply bpow_lt; lia]. }
    split; [exact G1 |]. rewrite G2. split; assumption.
  Qed.
  Lemma lit10 : (9 < prec)%Z -> (37 < emax)%Z -> fin (nlit F 1 10000000000) /\ 0 <= val (nlit F 1 10000000000 : bf) <= bpow radix2 (- 33).
  Proof. intros P E. apply (lit_small 10000000000 33 P E); [lia |]. change (bpow radix2 33) with (IZR 8589934592). change (bpow radix2 37) with (IZR 137438953472). split; apply IZR_le; lia. Qed.
  Lemma lit11 : (9 < prec)%Z -> (37 < emax)%Z -> fin (nlit F 1 100000000000) /\ 0 <= val (nlit F 1 100000000000 : bf) <= bpow radix2 (- 36).
  Proof. intros P E. apply (lit_small 100000000000 36 P E); [lia |]. change (bpow radix2 36) with (IZR 68719476736). change (bpow radix2 37) with (IZR 137438953472). split; apply IZR_le; lia. Qed.

  Lemma inv3_answers (f : lmat F) (m : mat3 F) : repr3 m f -> exists o, mat3_inverse m = Ok o.
  Proof. intro H. rewrite (inv3_eval m f H). destruct (_ && _)%bool; eexists; reflexivity. Qed.
  Lemma inv3_layout (f : lmat F) (m r : mat3 F) : repr3 m f -> mat3_inverse m = Ok (Some r) -> m3_rm r = m3_rm m.
  Proof. intro H. rewrite (inv3_eval m f H). destruct (_ && _)%bool; intro Q; [discriminate Q |]. assert (G : forall x : mat3 F, Ok (Some x) = Ok (Some r) -> x = r) by (intros x Q'; injection Q'; auto). rewrite <- (G _ Q). apply init3_rm. Qed.
  Lemma inv3_ieee (f : lmat F) (m : mat3 F) K : (9 < prec)%Z -> (37 < emax)%Z -> repr3 m f -> 1 <= K -> 128 * (K * K * K) <= big -> (forall i j, (i < 3)%N -> (j < 3)%N -> PInvF.ent prec emax K (f i j : bf)) ->
    let rf := ((fun i j => val (f i j : bf)) : rmat) in let dl := Rabs (rdet3 rf - 1) + 29 * u * (K * K * K) in dl <= / 4 ->
    exists r g, mat3_inverse m = Ok (Some r) /\ m3_rm r = m3_rm m /\ repr3 r g /\ forall i j, (i < 3)%N -> (j < 3)%N -> is_finite (g i j : bf) = true /\ Rabs (val (g i j : bf) - rmul3 (radj3 rf) rflip i j) <= (3 * dl + 10 * u) * (K * K).
  Proof.
    intros P E Hr K1 KB Hf rf dl HL. destruct (det3_near K P K1 KB f Hf) as (F1 & E1 & S1). fold rf in E1, S1.
    assert (HD : Rabs (val (det3_of f : bf) - 1) <= dl). { unfold dl. replace (val (det3_of f : bf) - 1) with ((rdet3 rf - 1) + (val (det3_of f : bf) - rdet3 rf)) by ring. eapply Rle_trans; [apply Rabs_triang |]. lra. }
    destruct (lit10 P E) as [L1 [L2 L3]].
    assert (NL : nlt (det3_of f : F) (nlit F 1 10000000000) = false). { destruct (nlt (det3_of f : F) (nlit F 1 10000000000)) eqn:Q; [| reflexivity]. exfalso. apply (nlt_val prec emax lm _ _ F1 L1) in Q. pose proof HD as H. apply Rabs_le_inv in H. change (bpow radix2 (-33)) with (/ IZR 8589934592) in L3. assert (/ 8589934592 <= / 2) by (apply Rinv_le; lra). lra. }
    rewrite (inv3_eval m f Hr), NL. cbn [andb]. eexists. eexists. split; [reflexivity |]. split; [apply init3_rm |]. split; [apply init3_repr |].
    intros i j Hi Hj.
    assert (H : forall i j, (i < 3)%N -> (j < 3)%N -> PInvF.ent prec emax K (f i j : bf)) by exact Hf.
    assert (A : forall a b c d : bf, PInvF.ent prec emax K a -> PInvF.ent prec emax K b -> PInvF.ent prec emax K c -> PInvF.ent prec emax K d -> forall t, val a * val b - val c * val d = t -> fin (Bminus mode_NE (Bmult mode_NE a b) (Bdiv mode_NE (Bmult mode_NE c d) (det3_of f : bf))) /\ Rabs (val (Bminus mode_NE (Bmult mode_NE a b) (Bdiv mode_NE (Bmult mode_NE c d) (det3_of f : bf))) - t) <= (3 * dl + 10 * u) * (K * K))
      by (intros a b c d Ha Hb Hc Hd t <-; exact (entry_a K P K1 KB f dl HD HL a b c d Ha Hb Hc Hd)).
    assert (B : forall a b c d : bf, PInvF.ent prec emax K a -> PInvF.ent prec emax K b -> PInvF.ent prec emax K c -> PInvF.ent prec emax K d -> forall t, - (val a * val b - val c * val d) = t -> fin (Bdiv mode_NE (Bopp (Bminus mode_NE (Bmult mode_NE a b) (Bmult mode_NE c d))) (det3_of f : bf)) /\ Rabs (val (Bdiv mode_NE (Bopp (Bminus mode_NE (Bmult mode_NE a b) (Bmult mode_NE c d))) (det3_of f : bf)) - t) <= (3 * dl + 10 * u) * (K * K))
      by (intros a b c d Ha Hb Hc Hd t <-; exact (entry_b K P K1 KB f dl HD HL a b c d Ha Hb Hc Hd)).
    clear NL HD F1 E1 S1.
    cases3 i Hi; cases3 j Hj; cbn [rows9];
      first [apply A; [apply H; reflexivity | apply H; reflexivity | apply H; reflexivity | apply H; reflexivity |] | apply B; [apply H; reflexivity | apply H; reflexivity | apply H; reflexivity | apply H; reflexivity |]];
      unfold rmul3, rsum3, rflip, radj3, sgn, rdet2, minor2, skip, rf; cbn; ring.
  Qed.
  Lemma inv3_none_ieee (f : lmat F) (m : mat3 F) K : (9 < prec)%Z -> (37 < emax)%Z -> repr3 m f -> 1 <= K -> 128 * (K * K * K) <= big -> (forall i j, (i < 3)%N -> (j < 3)%N -> PInvF.ent prec emax K (f i j : bf)) ->
    mat3_inverse m = Ok None -> let D := rdet3 (fun i j => val (f i j : bf)) in - (bpow radix2 (- 36) + 29 * u * (K * K * K)) < D < bpow radix2 (- 33) + 29 * u * (K * K * K).
  Proof.
    intros P E Hr K1 KB Hf. destruct (det3_near K P K1 KB f Hf) as (F1 & E1 & S1). destruct (lit10 P E) as [L1 [L2 L3]]. destruct (lit11 P E) as [M1 [M2 M3]].
    rewrite (inv3_eval m f Hr). destruct (_ && _)%bool eqn:Q; [| discriminate]. intros _. cbv zeta. apply andb_true_iff in Q. destruct Q as [Q1 Q2].
    apply (nlt_val prec emax lm _ _ F1 L1) in Q1. apply (ngt_val prec emax lm) in Q2; [| exact F1 | change (fin (Bopp (nlit F 1 100000000000 : bf))); rewrite is_finite_Bopp; exact M1].
    change (val (- nlit F 1 100000000000)%num) with (val (Bopp (nlit F 1 100000000000 : bf))) in Q2. rewrite B2R_Bopp in Q2. apply Rabs_le_inv in E1. lra.
  Qed.
End PInv3F.
