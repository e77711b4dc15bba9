(** PInt2.v — IEEE arithmetic on fixed-point data: matrices and quaternions (C118). *)
From Coq Require Import Reals List ZArith NArith Bool Lra Lia Psatz.
From Flocq Require Import Core BinarySingleNaN.
Import ListNotations.
From Verif Require Import Base Num Vec Mat Quat Float SpecMat SpecReal SpecGeom SpecQuat SpecFq SpecRound SpecInt ExactFacts FloatFacts FloatRound Order PMat PMat2 PMat3 PInv PVec PIeee1 PInvF PInt.
Local Open Scope R_scope.

Section PInt2.
  Context (prec emax : Z) {Hp : Prec_gt_0 prec} {Hm : Prec_lt_emax prec emax} (lm : libm (binary_float prec emax)).
  Notation bf := (binary_float prec emax).
  Notation val := (@B2R prec emax).
  Notation fin x := (is_finite (x : bf) = true).
  Notation fv := (fv prec emax).
  Notation big := (bpow radix2 emax).
  Notation full := (bpow radix2 prec).
  Notation F := (@Ieee prec emax Hp Hm lm).
  Notation room := (room prec emax).
  Notation fixed := (@fixed prec emax).
  Notation exactly := (@exactly prec emax).
  Notation X := (X prec emax).
  Notation fixm := (@fixm prec emax).
  Notation fixc := (@fixc prec emax).
  Notation fixq := (@fixq prec emax).
  Notation real f := ((fun i j => val (f i j : bf)) : rmat).
  Ltac xs := lazymatch goal with
    | |- PInt.X _ _ _ _ (nadd _ _ _) _ => eapply X_plus; [assumption | xs | xs |]
    | |- PInt.X _ _ _ _ (nsub _ _ _) _ => eapply X_minus; [assumption | xs | xs |]
    | |- PInt.X _ _ _ _ (nmul _ _ _) _ => eapply X_mult; [assumption | xs | xs |]
    | |- PInt.X _ _ _ _ (nneg _ _) _ => eapply X_neg; xs
    | |- PInt.X _ _ _ _ _ _ => first [eassumption | eapply X_fixed; eauto]
    end.
  Lemma sum4_fx s t K L (a b : N -> F) : room (s + t) -> (forall k, (k < 4)%N -> fixed s K (a k)) -> (forall k, (k < 4)%N -> fixed t L (b k)) -> 4 * (K * L) <= full ->
    X (s + t) (4 * (K * L)) (sum4 (fun k => nmul F (a k) (b k))) (rsum4 (fun k => val (a k) * val (b k))).
  Proof.
    intros R A B H. assert (P : 0 <= K * L) by (eapply KL_pos; [apply (A 0%N) | apply (B 0%N)]; reflexivity).
    pose proof (A 0%N eq_refl). pose proof (A 1%N eq_refl). pose proof (A 2%N eq_refl). pose proof (A 3%N eq_refl). pose proof (B 0%N eq_refl). pose proof (B 1%N eq_refl). pose proof (B 2%N eq_refl). pose proof (B 3%N eq_refl).
    unfold sum4, rsum4. eapply X_ext; [xs; lra | reflexivity | lra].
  Qed.
  Lemma sum3_fx s t K L (a b : N -> F) : room (s + t) -> (forall k, (k < 3)%N -> fixed s K (a k)) -> (forall k, (k < 3)%N -> fixed t L (b k)) -> 3 * (K * L) <= full ->
    X (s + t) (3 * (K * L)) (sum3 (fun k => nmul F (a k) (b k))) (rsum3 (fun k => val (a k) * val (b k))).
  Proof.
    intros R A B H. assert (P : 0 <= K * L) by (eapply KL_pos; [apply (A 0%N) | apply (B 0%N)]; reflexivity).
    pose proof (A 0%N eq_refl). pose proof (A 1%N eq_refl). pose proof (A 2%N eq_refl). pose proof (B 0%N eq_refl). pose proof (B 1%N eq_refl). pose proof (B 2%N eq_refl).
    unfold sum3, rsum3. eapply X_ext; [xs; lra | reflexivity | lra].
  Qed.
  Lemma mul4_fx (a b : mat4 F) f g s t K L : m4_rm a = m4_rm b -> repr4 a f -> repr4 b g -> room (s + t) -> fixm 4 s K f -> fixm 4 t L g -> 4 * (K * L) <= full ->
    exists c h, mat4_mul a b = Ok (Some c) /\ m4_rm c = m4_rm a /\ repr4 c h /\ fixm 4 (s + t) (4 * (K * L)) h /\ lmat_eq 4 (real h) (rmul4 (real f) (real g)).
  Proof.
    intros E A B R Af Bg H. destruct (mul4_repr a b f g E A B) as (c & C1 & C2 & C3). exists c, (lmul4 f g). do 3 (split; [assumption |]).
    assert (Q : forall i j, (i < 4)%N -> (j < 4)%N -> fixed (s + t) (4 * (K * L)) (lmul4 f g i j) /\ val (lmul4 f g i j) = rmul4 (real f) (real g) i j).
    { intros i j Hi Hj. destruct (fixed_X _ _ _ _ _ _ (sum4_fx s t K L (fun k => f i k) (fun k => g k j) R (fun k Hk => Af i k Hi Hk) (fun k Hk => Bg k j Hk Hj) H)) as [P1 [_ P2]]. split; assumption. }
    split; intros i j Hi Hj; apply Q; assumption.
  Qed.
  Lemma mul3_fx (a b : mat3 F) f g s t K L : m3_rm a = m3_rm b -> repr3 a f -> repr3 b g -> room (s + t) -> fixm 3 s K f -> fixm 3 t L g -> 3 * (K * L) <= full ->
    exists c h, mat3_mul a b = Ok (Some c) /\ m3_rm c = m3_rm a /\ repr3 c h /\ fixm 3 (s + t) (3 * (K * L)) h /\ lmat_eq 3 (real h) (rmul3 (real f) (real g)).
  Proof.
    intros E A B R Af Bg H. destruct (mul3_repr a b f g E A B) as (c & C1 & C2 & C3). exists c, (lmul3 f g). do 3 (split; [assumption |]).
    assert (Q : forall i j, (i < 3)%N -> (j < 3)%N -> fixed (s + t) (3 * (K * L)) (lmul3 f g i j) /\ val (lmul3 f g i j) = rmul3 (real f) (real g) i j).
    { intros i j Hi Hj. destruct (fixed_X _ _ _ _ _ _ (sum3_fx s t K L (fun k => f i k) (fun k => g k j) R (fun k Hk => Af i k Hi Hk) (fun k Hk => Bg k j Hk Hj) H)) as [P1 [_ P2]]. split; assumption. }
    split; intros i j Hi Hj; apply Q; assumption.
  Qed.
  Lemma mulv4_fx (a : mat4 F) (v : mat4x1 F) f g s t K L : repr4 a f -> reprc4 v g -> room (s + t) -> fixm 4 s K f -> fixc 4 t L g -> 4 * (K * L) <= full ->
    exists w h, mat4_mul_mat4x1 a v = Ok (Some w) /\ reprc4 w h /\ fixc 4 (s + t) (4 * (K * L)) h /\ forall i, (i < 4)%N -> val (h i) = rsum4 (fun k => val (f i k) * val (g k)).
  Proof.
    intros A B R Af Bg H. destruct (mulv4_repr a v f g A B) as (c & C1 & C3). exists c, (lmulv4 f g). do 2 (split; [assumption |]).
    assert (Q : forall i, (i < 4)%N -> fixed (s + t) (4 * (K * L)) (lmulv4 f g i) /\ val (lmulv4 f g i) = rsum4 (fun k => val (f i k) * val (g k))).
    { intros i Hi. destruct (fixed_X _ _ _ _ _ _ (sum4_fx s t K L (fun k => f i k) g R (fun k Hk => Af i k Hi Hk) Bg H)) as [P1 [_ P2]]. split; assumption. }
    split; intros i Hi; apply Q; assumption.
  Qed.
  Lemma mulv3_fx (a : mat3 F) (v : mat3x1 F) f g s t K L : repr3 a f -> reprc3 v g -> room (s + t) -> fixm 3 s K f -> fixc 3 t L g -> 3 * (K * L) <= full ->
    exists w h, mat3_mul_mat3x1 a v = Ok (Some w) /\ reprc3 w h /\ fixc 3 (s + t) (3 * (K * L)) h /\ forall i, (i < 3)%N -> val (h i) = rsum3 (fun k => val (f i k) * val (g k)).
  Proof.
    intros A B R Af Bg H. destruct (mulv3_repr a v f g A B) as (c & C1 & C3). exists c, (lmulv3 f g). do 2 (split; [assumption |]).
    assert (Q : forall i, (i < 3)%N -> fixed (s + t) (3 * (K * L)) (lmulv3 f g i) /\ val (lmulv3 f g i) = rsum3 (fun k => val (f i k) * val (g k))).
    { intros i Hi. destruct (fixed_X _ _ _ _ _ _ (sum3_fx s t K L (fun k => f i k) g R (fun k Hk => Af i k Hi Hk) Bg H)) as [P1 [_ P2]]. split; assumption. }
    split; intros i Hi; apply Q; assumption.
  Qed.
  Lemma vmul4_fx (a : mat4 F) (v : mat1x4 F) f g s t K L : repr4 a f -> reprr4 v g -> room (s + t) -> fixm 4 s K f -> fixc 4 t L g -> 4 * (K * L) <= full ->
    exists w h, mat1x4_mul_mat4x4 v a = Ok (Some w) /\ reprr4 w h /\ fixc 4 (s + t) (4 * (K * L)) h /\ forall j, (j < 4)%N -> val (h j) = rsum4 (fun k => val (f k j) * val (g k)).
  Proof.
    intros A B R Af Bg H. destruct (vmul4_repr a v f g A B) as (c & C1 & C3). exists c, (lvmul4 g f). do 2 (split; [assumption |]).
    assert (Q : forall j, (j < 4)%N -> fixed (s + t) (4 * (K * L)) (lvmul4 g f j) /\ val (lvmul4 g f j) = rsum4 (fun k => val (f k j) * val (g k))).
    { intros j Hj. destruct (fixed_X _ _ _ _ _ _ (sum4_fx s t K L (fun k => f k j) g R (fun k Hk => Af k j Hk Hj) Bg H)) as [P1 [_ P2]]. split; assumption. }
    split; intros i Hi; apply Q; assumption.
  Qed.
  Lemma vmul3_fx (a : mat3 F) (v : mat1x3 F) f g s t K L : repr3 a f -> reprr3 v g -> room (s + t) -> fixm 3 s K f -> fixc 3 t L g -> 3 * (K * L) <= full ->
    exists w h, mat1x3_mul_mat3x3 v a = Ok (Some w) /\ reprr3 w h /\ fixc 3 (s + t) (3 * (K * L)) h /\ forall j, (j < 3)%N -> val (h j) = rsum3 (fun k => val (f k j) * val (g k)).
  Proof.
    intros A B R Af Bg H. destruct (vmul3_repr a v f g A B) as (c & C1 & C3). exists c, (lvmul3 g f). do 2 (split; [assumption |]).
    assert (Q : forall j, (j < 3)%N -> fixed (s + t) (3 * (K * L)) (lvmul3 g f j) /\ val (lvmul3 g f j) = rsum3 (fun k => val (f k j) * val (g k))).
    { intros j Hj. destruct (fixed_X _ _ _ _ _ _ (sum3_fx s t K L (fun k => f k j) g R (fun k Hk => Af k j Hk Hj) Bg H)) as [P1 [_ P2]]. split; assumption. }
    split; intros i Hi; apply Q; assumption.
  Qed.
  (** products of three matrices *)
  Lemma assoc4_fx (a b c : mat4 F) f g h s t r K L M : m4_rm a = m4_rm b -> m4_rm b = m4_rm c -> repr4 a f -> repr4 b g -> repr4 c h ->
    room (s + t) -> room (t + r) -> room (s + t + r) -> fixm 4 s K f -> fixm 4 t L g -> fixm 4 r M h -> 1 <= K -> 1 <= L -> 1 <= M -> 16 * (K * L * M) <= full ->
    exists ab bc p q, mat4_mul a b = Ok (Some ab) /\ mat4_mul b c = Ok (Some bc) /\ mat4_mul ab c = Ok (Some p) /\ mat4_mul a bc = Ok (Some q) /\ m4_rm p = m4_rm q /\
    forall lp lq, repr4 p lp -> repr4 q lq -> forall i j, (i < 4)%N -> (j < 4)%N -> fin (lp i j) /\ fin (lq i j) /\ val (lp i j) = val (lq i j) /\ val (lp i j) = rmul4 (rmul4 (real f) (real g)) (real h) i j.
  Proof.
    intros E1 E2 A B C R1 R2 R3 Af Bg Ch K1 L1 M1 H. assert (KL1 : 1 <= K * L) by nra. assert (LM1 : 1 <= L * M) by nra. assert (Q1 : K * L <= K * L * M) by nra. assert (Q2 : L * M <= K * L * M) by nra.
    destruct (mul4_fx a b f g s t K L E1 A B R1 Af Bg ltac:(lra)) as (ab & gab & P1 & P2 & P3 & P4 & P5). destruct (mul4_fx b c g h t r L M E2 B C R2 Bg Ch ltac:(lra)) as (bc & gbc & S1 & S2 & S3 & S4 & S5).
    assert (R3' : room (s + (t + r))) by (rewrite Z.add_assoc; exact R3).
    destruct (mul4_fx ab c gab h (s + t) r (4 * (K * L)) M ltac:(congruence) P3 C R3 P4 Ch ltac:(lra)) as (p & gp & T1 & T2 & T3 & T4 & T5). destruct (mul4_fx a bc f gbc s (t + r) K (4 * (L * M)) ltac:(congruence) A S3 R3' Af S4 ltac:(lra)) as (q & gq & U1 & U2 & U3 & U4 & U5).
    exists ab, bc, p, q. do 4 (split; [assumption |]). split; [congruence |]. intros lp lq Hlp Hlq i j Hi Hj. rewrite <- (repr4_unique p gp lp T3 Hlp i j Hi Hj), <- (repr4_unique q gq lq U3 Hlq i j Hi Hj).
    split; [apply T4; assumption |]. split; [apply U4; assumption |].
    assert (Vp : val (gp i j) = rmul4 (rmul4 (real f) (real g)) (real h) i j). { rewrite (T5 i j Hi Hj). unfold rmul4 at 1. unfold rsum4 at 1. rewrite !P5 by (assumption || reflexivity). reflexivity. }
    assert (Vq : val (gq i j) = rmul4 (real f) (rmul4 (real g) (real h)) i j). { rewrite (U5 i j Hi Hj). unfold rmul4 at 1. unfold rsum4 at 1. rewrite !S5 by (assumption || reflexivity). reflexivity. }
    split; [| exact Vp]. rewrite Vp, Vq. unfold rmul4, rsum4. ring.
  Qed.

  (** ---- inverse ---- *)
  Section Inv.
    Variables (f : lmat F) (s : Z) (K : R).
    Hypotheses (HP9 : (9 < prec)%Z) (K1 : 1 <= K) (KB : 24 * (K * K * K * K) <= full) (Hf : fixm 4 s K f).
    Hypotheses (R2 : room (s + s)) (R3 : room (s + s + s)) (R4 : room (s + (s + s + s))).
    Lemma Kp : 0 < K /\ 1 <= K * K /\ 1 <= K * K * K /\ K * K <= K * K * K * K /\ K * K * K <= K * K * K * K.
    Proof. assert (1 <= K * K) by nra. assert (1 <= K * K * K) by nra. repeat split; try lra; nra. Qed.
    Ltac ents := repeat match goal with |- context [f ?i ?j] => lazymatch goal with H : fixed s K (f i j) |- _ => fail | _ => pose proof (Hf i j eq_refl eq_refl) end end.
    Ltac ent := eapply X_fixed; apply Hf; reflexivity.
    Ltac ys := lazymatch goal with
      | |- PInt.X _ _ _ _ (nadd _ _ _) _ => eapply X_plus; [assumption | ys | ys |]
      | |- PInt.X _ _ _ _ (nsub _ _ _) _ => eapply X_minus; [assumption | ys | ys |]
      | |- PInt.X _ _ _ _ (nmul _ _ _) _ => eapply X_mult; [assumption | ys | ys |]
      | |- PInt.X _ _ _ _ (nneg _ _) _ => eapply X_neg; ys
      | |- _ => ent
      end.
    Lemma adj_fx i j : (i < 4)%N -> (j < 4)%N -> X (s + s + s) (6 * (K * K * K)) (adj4 f i j) (radj4 (real f) i j).
    Proof.
      intros Hi Hj. destruct Kp as (P0 & P1 & P2 & P3 & P4). cases4 i Hi; cases4 j Hj; cbn [adj4 rows16];
        unfold adj4_00, adj4_01, adj4_02, adj4_03, adj4_10, adj4_11, adj4_12, adj4_13, adj4_20, adj4_21, adj4_22, adj4_23, adj4_30, adj4_31, adj4_32, adj4_33;
        (eapply X_ext; [ys; lra | unfold radj4, rdet3, rdet2, minor, minor2, skip, sgn; simpl; ring | lra]).
    Qed.
    Lemma adj_row : X (s + s + s) (6 * (K * K * K)) (adj4_00 f) (radj4 (real f) 0%N 0%N) /\ X (s + s + s) (6 * (K * K * K)) (adj4_01 f) (radj4 (real f) 0%N 1%N) /\
      X (s + s + s) (6 * (K * K * K)) (adj4_02 f) (radj4 (real f) 0%N 2%N) /\ X (s + s + s) (6 * (K * K * K)) (adj4_03 f) (radj4 (real f) 0%N 3%N).
    Proof.
      destruct Kp as (P0 & P1 & P2 & P3 & P4). split; [| split; [| split]]; unfold adj4_00, adj4_01, adj4_02, adj4_03; (eapply X_ext; [ys; lra | unfold radj4, rdet3, rdet2, minor, minor2, skip, sgn; simpl; ring | lra]).
    Qed.
    Lemma det_fx : X (s + (s + s + s)) (24 * (K * K * K * K)) (adj4_det f) (rdet4 (real f)).
    Proof.
      destruct Kp as (P0 & P1 & P2 & P3 & P4). destruct adj_row as (A0 & A1 & A2 & A3).
      assert (Q : forall i t v, (i < 4)%N -> X (s + s + s) (6 * (K * K * K)) t v -> X (s + (s + s + s)) (6 * (K * K * K * K)) (nmul F (f i 0%N) t) (val (f i 0%N) * v)).
      { intros i t v Hi A. eapply X_ext; [eapply X_mult; [exact R4 | eapply X_fixed; apply Hf; [exact Hi | reflexivity] | exact A | lra] | reflexivity | lra]. }
      rewrite <- (det_expand (real f)). cbv beta. unfold adj4_det. revert A0 A1 A2 A3. generalize (adj4_00 f) (adj4_01 f) (adj4_02 f) (adj4_03 f) (radj4 (real f) 0%N 0%N) (radj4 (real f) 0%N 1%N) (radj4 (real f) 0%N 2%N) (radj4 (real f) 0%N 3%N). intros t0 t1 t2 t3 v0 v1 v2 v3 A0 A1 A2 A3. eapply X_ext; [eapply X_plus; [exact R4 | eapply X_plus; [exact R4 | eapply X_plus; [exact R4 | apply (Q 0%N); [reflexivity | exact A0] | apply (Q 1%N); [reflexivity | exact A1] |] | apply (Q 2%N); [reflexivity | exact A2] |] | apply (Q 3%N); [reflexivity | exact A3] |] | reflexivity | ]; lra.
    Qed.
    Lemma eps_test : nlt (nabs F (adj4_det f)) (neps F) = true <-> Rabs (rdet4 (real f)) < bpow radix2 (1 - prec).
    Proof.
      destruct det_fx as (D1 & D2 & _). destruct (fv_eps prec emax HP9) as [E1 E2]. unfold nlt. cbn [ncmp nabs neps Ieee].
      assert (A1 : fin (Babs (adj4_det f))) by (rewrite is_finite_Babs; exact D1). rewrite (Bcompare_correct _ _ _ _ A1 E1), B2R_Babs, D2, E2. replace (2 * uro prec) with (bpow radix2 (1 - prec)) by (unfold uro; replace (1 - prec)%Z with (1 + - prec)%Z by lia; rewrite bpow_plus; reflexivity).
      destruct (Rcompare_spec (Rabs (rdet4 (real f))) (bpow radix2 (1 - prec))); split; intro Q; try discriminate; try reflexivity; lra.
    Qed.
    Lemma inv_none (m : mat4 F) : repr4 m f -> (1 - prec <= s + (s + s + s))%Z -> (mat4_inverse m = Ok None <-> rdet4 (real f) = 0).
    Proof.
      intros Hr HS. rewrite (inv4_eval m f Hr). pose proof eps_test as T. destruct det_fx as (_ & _ & n & En & _). destruct (nlt (nabs F (adj4_det f)) (neps F)).
      - split; intro; [| reflexivity]. assert (L := proj1 T eq_refl). destruct (Z.eq_dec n 0) as [-> | N]; [rewrite En; ring |]. exfalso. rewrite En, Rabs_mult, (Rabs_pos_eq (bpow _ _)) in L by apply bpow_ge_0.
        assert (1 <= Rabs (IZR n)) by (rewrite <- abs_IZR; apply IZR_le; lia). pose proof (bpow_le radix2 _ _ HS) as B. pose proof (bpow_gt_0 radix2 (s + (s + s + s))) as B0. nra.
      - split; [discriminate |]. intro Z. rewrite Z, Rabs_R0 in T. discriminate (proj2 T (bpow_gt_0 _ _)).
    Qed.
    Lemma inv_pow2 (m : mat4 F) e : repr4 m f -> Rabs (rdet4 (real f)) = bpow radix2 e -> (1 - prec <= e)%Z -> room (- e) -> room (s + s + s + - e) ->
      exists r g, mat4_inverse m = Ok (Some r) /\ m4_rm r = true /\ repr4 r g /\ forall i j, (i < 4)%N -> (j < 4)%N -> fixed (s + s + s + - e) (6 * (K * K * K)) (g i j) /\ val (g i j) = radj4 (real f) j i / rdet4 (real f).
    Proof.
      intros Hr HD HE RE RA. rewrite (inv4_eval m f Hr). pose proof eps_test as T. destruct (nlt (nabs F (adj4_det f)) (neps F)).
      { exfalso. assert (L := proj1 T eq_refl). rewrite HD in L. pose proof (bpow_le radix2 _ _ HE). lra. }
      clear T. destruct det_fx as (D1 & D2 & _). destruct Kp as (P0 & P1 & P2 & P3 & P4).
      assert (Dn : rdet4 (real f) <> 0) by (intro C; rewrite C, Rabs_R0 in HD; pose proof (bpow_gt_0 radix2 e); lra).
      assert (KI : X (- e) 1 (ndiv F (nlit F 1 1) (adj4_det f)) (/ rdet4 (real f))).
      { destruct (fv_lit_1 prec emax) as [O1 O2]. assert (exists z, Rabs (IZR z) = 1 /\ / rdet4 (real f) = IZR z * bpow radix2 (- e)) as (z & Z1 & Z2).
        { rewrite bpow_opp. unfold Rabs in HD. destruct (Rcase_abs (rdet4 (real f))); [exists (-1)%Z | exists 1%Z]; (split; [unfold Rabs; destruct (Rcase_abs _); lra |]).
          - replace (rdet4 (real f)) with (- bpow radix2 e) by lra. field. pose proof (bpow_gt_0 radix2 e). lra.
          - rewrite HD. ring. }
        destruct (int_fmt prec emax (- e) z RE) as [I1 I2]; [rewrite Z1; change 1 with (bpow radix2 0); apply bpow_le; unfold Prec_gt_0 in Hp; lia |].
        cbn [ndiv nlit Ieee]. destruct (proj1 (div_round prec emax _ (adj4_det f) O1 ltac:(rewrite D2; exact Dn))) as [G1 G2].
        - rewrite O2, D2. unfold Rdiv. rewrite Rmult_1_l, Z2, I1. exact I2.
        - split; [exact G1 |]. rewrite O2, D2 in G2. unfold Rdiv in G2. rewrite Rmult_1_l, Z2, I1 in G2. split; [rewrite Z2; exact G2 |]. exists z. rewrite Z1. split; [exact Z2 | lra]. }
      cbv zeta. revert KI. generalize (ndiv F (nlit F 1 1) (adj4_det f)). intros k KI.
      eexists _, _. split; [reflexivity |]. split; [reflexivity |]. split; [exact (repr4_tr F _ _ _ _ _ _ _ _ _ _ _ _ _ _ _ _ k) |].
      intros i j Hi Hj. change (rows16 _ j i) with (adj4 f j i). assert (Q : X (s + s + s + - e) (6 * (K * K * K)) (nmul F (adj4 f j i) k) (radj4 (real f) j i / rdet4 (real f))).
      { eapply X_ext; [eapply X_mult; [exact RA | apply adj_fx; assumption | exact KI | lra] | reflexivity | lra]. }
      destruct (fixed_X _ _ _ _ _ _ Q) as [Q1 [_ Q2]]. split; assumption.
    Qed.
  End Inv.

  (** ---- quaternions ---- *)
  Lemma qmul_fx (p q : quat F) s t K L : room (s + t) -> fixq s K p -> fixq t L q -> 4 * (K * L) <= full ->
    fixq (s + t) (4 * (K * L)) (quat_mul p q) /\ qval (quat_mul p q : quat bf) = hmul (qval (p : quat bf)) (qval (q : quat bf)).
  Proof.
    intros R (A1 & A2 & A3 & A4) (B1 & B2 & B3 & B4) H. assert (P : 0 <= K * L) by (eapply KL_pos; eassumption).
    destruct p as [a b c d], q as [a' b' c' d']. cbn [qx qy qz qw quat_mul] in *. unfold fixq, qval, hmul. cbn [qx qy qz qw hv hs quat_mul].
    match goal with |- (fixed _ _ ?x /\ fixed _ _ ?y /\ fixed _ _ ?z /\ fixed _ _ ?w) /\ _ =>
      assert (Qx : X (s + t) (4 * (K * L)) x (B2R d * B2R a' + B2R a * B2R d' + B2R b * B2R c' - B2R c * B2R b')) by (eapply X_ext; [xs; lra | reflexivity | lra]);
      assert (Qy : X (s + t) (4 * (K * L)) y (B2R d * B2R b' - B2R a * B2R c' + B2R b * B2R d' + B2R c * B2R a')) by (eapply X_ext; [xs; lra | reflexivity | lra]);
      assert (Qz : X (s + t) (4 * (K * L)) z (B2R d * B2R c' + B2R a * B2R b' - B2R b * B2R a' + B2R c * B2R d')) by (eapply X_ext; [xs; lra | reflexivity | lra]);
      assert (Qw : X (s + t) (4 * (K * L)) w (B2R d * B2R d' - B2R a * B2R a' - B2R b * B2R b' - B2R c * B2R c')) by (eapply X_ext; [xs; lra | reflexivity | lra]) end.
    destruct (fixed_X _ _ _ _ _ _ Qx) as [X1 [_ X2]], (fixed_X _ _ _ _ _ _ Qy) as [Y1 [_ Y2]], (fixed_X _ _ _ _ _ _ Qz) as [Z1 [_ Z2]], (fixed_X _ _ _ _ _ _ Qw) as [W1 [_ W2]].
    split; [exact (conj X1 (conj Y1 (conj Z1 W1))) |]. rewrite X2, Y2, Z2, W2. unfold vadd, vscale, vcross, vdot. cbn [vx vy vz]. f_equal; [f_equal |]; ring.
  Qed.
  Lemma qconj_fx (q : quat F) s K : fixq s K q -> fixq s K (quat_conjugate q) /\ qval (quat_conjugate q : quat bf) = hconj (qval (q : quat bf)).
  Proof.
    intros (A1 & A2 & A3 & A4). destruct q as [a b c d]. cbn [qx qy qz qw] in *. unfold quat_conjugate, fixq, qval, hconj, vscale. cbn [qx qy qz qw hv hs vx vy vz].
    destruct (fixed_X _ _ _ _ _ _ (X_neg prec emax lm s K a _ (X_fixed _ _ _ _ _ A1))) as [X1 [_ X2]]. destruct (fixed_X _ _ _ _ _ _ (X_neg prec emax lm s K b _ (X_fixed _ _ _ _ _ A2))) as [Y1 [_ Y2]]. destruct (fixed_X _ _ _ _ _ _ (X_neg prec emax lm s K c _ (X_fixed _ _ _ _ _ A3))) as [Z1 [_ Z2]].
    split; [exact (conj X1 (conj Y1 (conj Z1 A4))) |]. rewrite X2, Y2, Z2. f_equal. f_equal; ring.
  Qed.
  Lemma qlen2_fx (q : quat F) s K : room (s + s) -> fixq s K q -> 4 * (K * K) <= full -> exactly (quat_length_squared q) (hdot (qval (q : quat bf)) (qval (q : quat bf))).
  Proof.
    intros R (A1 & A2 & A3 & A4) H. assert (P : 0 <= K * K) by (eapply KL_pos; eassumption). destruct q as [a b c d]. cbn [qx qy qz qw] in *. unfold quat_length_squared, hdot, vdot, qval. cbn [qx qy qz qw hv hs vx vy vz].
    apply (X_ex _ _ (s + s) (4 * (K * K))). eapply X_ext; [xs; lra | ring | lra].
  Qed.
  Lemma qassoc_fx (p q r : quat F) s t w K L M : room (s + t) -> room (t + w) -> room (s + t + w) -> fixq s K p -> fixq t L q -> fixq w M r -> 1 <= K -> 1 <= L -> 1 <= M -> 16 * (K * L * M) <= full ->
    qval (quat_mul (quat_mul p q) r : quat bf) = qval (quat_mul p (quat_mul q r) : quat bf) /\ qval (quat_mul (quat_mul p q) r : quat bf) = hmul (hmul (qval (p : quat bf)) (qval (q : quat bf))) (qval (r : quat bf)).
  Proof.
    intros R1 R2 R3 P Q R K1 L1 M1 H. assert (KL1 : 1 <= K * L) by nra. assert (LM1 : 1 <= L * M) by nra. assert (Q1 : K * L <= K * L * M) by nra. assert (Q2 : L * M <= K * L * M) by nra. assert (R3' : room (s + (t + w))) by (rewrite Z.add_assoc; exact R3).
    destruct (qmul_fx p q s t K L R1 P Q ltac:(lra)) as [A1 A2]. destruct (qmul_fx q r t w L M R2 Q R ltac:(lra)) as [B1 B2].
    destruct (qmul_fx _ r (s + t) w (4 * (K * L)) M R3 A1 R ltac:(lra)) as [_ C2]. destruct (qmul_fx p _ s (t + w) K (4 * (L * M)) R3' P B1 ltac:(lra)) as [_ D2].
    rewrite C2, D2, A2, B2. split; [| reflexivity]. generalize (qval (p : quat bf)) (qval (q : quat bf)) (qval (r : quat bf)). intros [[a b c] d] [[a' b' c'] d'] [[a'' b'' c''] d'']. unfold hmul, vadd, vscale, vcross, vdot. cbn [hv hs vx vy vz]. f_equal; [f_equal |]; ring.
  Qed.
  Lemma rotate_fx (q : quat F) (a b c : F) s t K L : room (s + t) -> room (s + t + s) -> fixq s K q -> fixed t L a -> fixed t L b -> fixed t L c -> 1 <= K -> 1 <= L -> 16 * (K * K * L) <= full ->
    exists x y z, quat_rotate_vector q (M3x1 (A3 a b c)) = M3x1 (A3 x y z) /\ fin x /\ fin y /\ fin z /\ V (val x) (val y) (val z) = hrot (qval (q : quat bf)) (V (val a) (val b) (val c)).
  Proof.
    intros R1 R2 Q A B C K1 L1 HB. assert (KL1 : 1 <= K * L) by nra. assert (Q1 : K * L <= K * K * L) by nra.
    assert (P : fixq t L (quat_of_vec (M3x1 (A3 a b c)))). { unfold quat_of_vec, fixq. cbn [qx qy qz qw]. split; [assumption |]. split; [assumption |]. split; [assumption |]. apply (fixed_X _ _ _ _ _ 0). eapply X_ext; [apply X_zero | reflexivity | lra]. }
    assert (Pv : qval (quat_of_vec (M3x1 (A3 a b c)) : quat bf) = H (V (val a) (val b) (val c)) 0). { unfold quat_of_vec, qval. cbn [qx qy qz qw]. f_equal. exact (proj2 (fv_lit_0 prec emax)). }
    destruct (qmul_fx q _ s t K L R1 Q P ltac:(lra)) as [A1 A2]. destruct (qconj_fx q s K Q) as [J1 J2].
    destruct (qmul_fx _ _ (s + t) s (4 * (K * L)) K R2 A1 J1 ltac:(lra)) as [B1 B2].
    unfold quat_rotate_vector. cbv zeta. do 3 eexists. split; [reflexivity |]. destruct B1 as ((F1 & _) & (F2 & _) & (F3 & _) & _). do 3 (split; [assumption |]).
    unfold hrot. rewrite <- Pv, <- A2, <- J2, <- B2. reflexivity.
  Qed.
  (** the matrix of a quaternion with fixed-point components; s <= 0 so that 1 is on the grid *)
  Lemma matrix_fx (q : quat F) rm s K f : (s <= 0)%Z -> room (s + s) -> fixq s K q -> bpow radix2 (- (s + s)) + 4 * (K * K) <= full -> repr4 (quat_to_rotation_matrix q rm) f ->
    let x := val (qx q) in let y := val (qy q) in let z := val (qz q) in let w := val (qw q) in
    forall i j, (i < 4)%N -> (j < 4)%N -> exactly (f i j) (rows16 (A16 (1 - 2 * (y * y + z * z)) (2 * (x * y - z * w)) (2 * (x * z + y * w)) 0
      (2 * (x * y + z * w)) (1 - 2 * (x * x + z * z)) (2 * (y * z - x * w)) 0 (2 * (x * z - y * w)) (2 * (y * z + x * w)) (1 - 2 * (x * x + y * y)) 0 0 0 0 1) (if rm then i else j) (if rm then j else i)).
  Proof.
    intros S R (A1 & A2 & A3 & A4) H Hr x y z w i j Hi Hj. assert (P : 0 <= K * K) by (eapply KL_pos; eassumption). pose proof (bpow_gt_0 radix2 (- (s + s))) as B0.
    apply repr4_iff in Hr. rewrite <- (Hr i j Hi Hj). destruct q as [a b c d]. cbn [qx qy qz qw] in *. subst x y z w.
    assert (O : X (s + s) (bpow radix2 (- (s + s))) (n1 : F) 1). { eapply X_ext; [apply (X_lit prec emax (s + s) 1); [lia | apply fv_lit_1] | reflexivity | rewrite Rabs_R1; lra]. }
    assert (T : X 0 2 (n2 : F) 2). { destruct (fv_lit_2 prec emax) as [T1 T2]. split; [exact T1 |]. split; [exact T2 |]. exists 2%Z. cbn [bpow]. split; [ring | rewrite Rabs_pos_eq; lra]. }
    assert (R0 : room (0 + (s + s))) by exact R.
    assert (Dg : forall u v, fixed s K u -> fixed s K v -> exactly (nsub F n1 (nmul F n2 (nadd F (nmul F u u) (nmul F v v)))) (1 - 2 * (val u * val u + val v * val v))).
    { intros u v U V. apply (X_ex _ _ (s + s) (bpow radix2 (- (s + s)) + 4 * (K * K))). eapply X_ext; [eapply X_minus; [exact R | exact O | change (s + s)%Z with (0 + (s + s))%Z; eapply X_mult; [exact R0 | exact T | xs; lra | lra] | lra] | ring | lra]. }
    assert (Op : forall u v u' v', fixed s K u -> fixed s K v -> fixed s K u' -> fixed s K v' -> exactly (nmul F n2 (nadd F (nmul F u v) (nmul F u' v'))) (2 * (val u * val v + val u' * val v'))).
    { intros u v u' v' U V U' V'. apply (X_ex _ _ (0 + (s + s)) (4 * (K * K))). eapply X_ext; [eapply X_mult; [exact R0 | exact T | xs; lra | lra] | ring | lra]. }
    assert (Om : forall u v u' v', fixed s K u -> fixed s K v -> fixed s K u' -> fixed s K v' -> exactly (nmul F n2 (nsub F (nmul F u v) (nmul F u' v'))) (2 * (val u * val v - val u' * val v'))).
    { intros u v u' v' U V U' V'. apply (X_ex _ _ (0 + (s + s)) (4 * (K * K))). eapply X_ext; [eapply X_mult; [exact R0 | exact T | xs; lra | lra] | ring | lra]. }
    assert (Z0 : exactly (n0 : F) 0) by apply fv_lit_0. assert (E1 : exactly (n1 : F) 1) by apply fv_lit_1.
    assert (E_eq : forall x v v', exactly x v -> v = v' -> exactly x v') by (intros x v v' E <-; exact E).
    destruct rm; cases4 i Hi; cases4 j Hj; cbn [rows16 log4 m4_rm m4_val quat_to_rotation_matrix mat4_init qx qy qz qw];
      first [exact Z0 | exact E1 | eapply E_eq; [first [eapply Dg | eapply Om | eapply Op]; eassumption | ring]].
  Qed.
End PInt2.
