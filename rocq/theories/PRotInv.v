(** PRotInv.v — Mat4::inverse of matrices close to a rotation, in IEEE arithmetic (C132). *)
From Coq Require Import Reals List ZArith NArith Bool Lra Lia Psatz.
From Flocq Require Import Core BinarySingleNaN.
Import ListNotations.
From Verif Require Import Base Num Vec Mat Quat Float FloatFacts FloatRound SpecMat SpecReal SpecRound SpecGeom SpecBound SpecQuat SpecBuild SpecFq SpecRun SpecRunV SpecRotM SpecSpin ExactFacts PMat PMat2 PMat3 PGeo1 PRound PRound2 PRound3 PQuat PQuat2 PIeee2 PIeee3 PIeee4 PIeee5 PIeee6 PPow PRun PRunM PRunV PRotM PRotMF PInvF PSpinM.
Local Open Scope R_scope.

(** ---- determinants of nearby matrices ---- *)
Lemma prod_near a b a' b' A B da db : Rabs a <= A -> Rabs b' <= B -> Rabs (a - a') <= da -> Rabs (b - b') <= db -> Rabs (a * b - a' * b') <= da * B + A * db.
Proof.
  intros HA HB Da Db. replace (a * b - a' * b') with ((a - a') * b' + a * (b - b')) by ring. eapply Rle_trans; [apply Rabs_triang |]. rewrite !Rabs_mult.
  apply Rplus_le_compat; apply Rmult_le_compat; try apply Rabs_pos; assumption.
Qed.
Definition boxed (n : N) (K : R) (f : rmat) : Prop := forall i j, (i < n)%N -> (j < n)%N -> Rabs (f i j) <= K.
Definition boxed_near (n : N) (e : R) (f g : rmat) : Prop := forall i j, (i < n)%N -> (j < n)%N -> Rabs (f i j - g i j) <= e.
Lemma skip_lt c j n : (j < n)%N -> (skip c j < n + 1)%N.
Proof. intro H. unfold skip. destruct (N.ltb_spec j c); lia. Qed.
Lemma boxed_minor n K f c : boxed (n + 1) K f -> boxed n K (minor f c).
Proof. intros H i j Hi Hj. unfold minor. apply H; [lia | apply skip_lt, Hj]. Qed.
Lemma near_minor n e f g c : boxed_near (n + 1) e f g -> boxed_near n e (minor f c) (minor g c).
Proof. intros H i j Hi Hj. unfold minor. apply H; [lia | apply skip_lt, Hj]. Qed.
Lemma det2_box K f : 0 <= K -> boxed 2 K f -> Rabs (rdet2 f) <= 2 * (K * K).
Proof.
  intros K0 B. unfold rdet2. assert (Q : forall a b, Rabs a <= K -> Rabs b <= K -> Rabs (a * b) <= K * K) by (intros; rewrite Rabs_mult; apply Rmult_le_compat; (apply Rabs_pos || assumption)).
  pose proof (Q _ _ (B 0%N 0%N eq_refl eq_refl) (B 1%N 1%N eq_refl eq_refl)) as P1. pose proof (Q _ _ (B 0%N 1%N eq_refl eq_refl) (B 1%N 0%N eq_refl eq_refl)) as P2. apply Rabs_le_inv in P1. apply Rabs_le_inv in P2. apply Rabs_le. lra.
Qed.
Lemma det2_near K e f g : 0 <= K -> boxed 2 K f -> boxed 2 K g -> boxed_near 2 e f g -> Rabs (rdet2 f - rdet2 g) <= 4 * K * e.
Proof.
  intros K0 Bf Bg Nr. unfold rdet2. pose proof (prod_near _ _ _ _ _ _ _ _ (Bf 0%N 0%N eq_refl eq_refl) (Bg 1%N 1%N eq_refl eq_refl) (Nr 0%N 0%N eq_refl eq_refl) (Nr 1%N 1%N eq_refl eq_refl)) as P1.
  pose proof (prod_near _ _ _ _ _ _ _ _ (Bf 0%N 1%N eq_refl eq_refl) (Bg 1%N 0%N eq_refl eq_refl) (Nr 0%N 1%N eq_refl eq_refl) (Nr 1%N 0%N eq_refl eq_refl)) as P2. apply Rabs_le_inv in P1. apply Rabs_le_inv in P2. apply Rabs_le. lra.
Qed.
Lemma det3_box K f : 0 <= K -> boxed 3 K f -> Rabs (rdet3 f) <= 6 * (K * K * K).
Proof.
  intros K0 B. unfold rdet3. assert (Q : forall c, (c < 3)%N -> Rabs (f 0%N c * rdet2 (minor f c)) <= K * (2 * (K * K))).
  { intros c Hc. rewrite Rabs_mult. apply Rmult_le_compat; try apply Rabs_pos; [apply B; [reflexivity | exact Hc] |]. apply det2_box; [exact K0 | apply (boxed_minor 2), B]. }
  pose proof (Q 0%N eq_refl) as P1. pose proof (Q 1%N eq_refl) as P2. pose proof (Q 2%N eq_refl) as P3. apply Rabs_le_inv in P1. apply Rabs_le_inv in P2. apply Rabs_le_inv in P3. apply Rabs_le. lra.
Qed.
Lemma det3_near K e f g : 0 <= K -> boxed 3 K f -> boxed 3 K g -> boxed_near 3 e f g -> Rabs (rdet3 f - rdet3 g) <= 18 * (K * K) * e.
Proof.
  intros K0 Bf Bg Nr. unfold rdet3. assert (Q : forall c, (c < 3)%N -> Rabs (f 0%N c * rdet2 (minor f c) - g 0%N c * rdet2 (minor g c)) <= e * (2 * (K * K)) + K * (4 * K * e)).
  { intros c Hc. apply prod_near; [apply Bf; [reflexivity | exact Hc] | apply det2_box; [exact K0 | apply (boxed_minor 2), Bg] | apply Nr; [reflexivity | exact Hc] | apply det2_near; [exact K0 | apply (boxed_minor 2), Bf | apply (boxed_minor 2), Bg | apply (near_minor 2), Nr]]. }
  pose proof (Q 0%N eq_refl) as P1. pose proof (Q 1%N eq_refl) as P2. pose proof (Q 2%N eq_refl) as P3. apply Rabs_le_inv in P1. apply Rabs_le_inv in P2. apply Rabs_le_inv in P3. apply Rabs_le. lra.
Qed.
Lemma det4_near K e f g : 0 <= K -> boxed 4 K f -> boxed 4 K g -> boxed_near 4 e f g -> Rabs (rdet4 f - rdet4 g) <= 96 * (K * K * K) * e.
Proof.
  intros K0 Bf Bg Nr. unfold rdet4. assert (Q : forall c, (c < 4)%N -> Rabs (f 0%N c * rdet3 (minor f c) - g 0%N c * rdet3 (minor g c)) <= e * (6 * (K * K * K)) + K * (18 * (K * K) * e)).
  { intros c Hc. apply prod_near; [apply Bf; [reflexivity | exact Hc] | apply det3_box; [exact K0 | apply (boxed_minor 3), Bg] | apply Nr; [reflexivity | exact Hc] | apply det3_near; [exact K0 | apply (boxed_minor 3), Bf | apply (boxed_minor 3), Bg | apply (near_minor 3), Nr]]. }
  pose proof (Q 0%N eq_refl) as P1. pose proof (Q 1%N eq_refl) as P2. pose proof (Q 2%N eq_refl) as P3. pose proof (Q 3%N eq_refl) as P4. apply Rabs_le_inv in P1. apply Rabs_le_inv in P2. apply Rabs_le_inv in P3. apply Rabs_le_inv in P4. apply Rabs_le. lra.
Qed.
Lemma hmat_det q : hunit q -> rdet4 (hmat q) = 1.
Proof.
  intro Hu. pose proof (hmat_rot q Hu) as E. rewrite <- (rot_det q Hu). transitivity (rdet4 (rotmat q)); [| destruct q as [[x y z] w]; cbv -[Rplus Rmult Rminus Ropp IZR]; ring].
  unfold rdet4, rdet3, rdet2, minor, skip. cbn [N.ltb N.compare Pos.compare Pos.compare_cont N.add Pos.add Pos.succ]. rewrite !E by reflexivity. reflexivity.
Qed.
Lemma hmat_rowlen q i : hunit q -> (i < 4)%N -> rowlen (hmat q) i = 1.
Proof. intros U Hi. rewrite rowlen_row. unfold hlen. rewrite (hmat_orth q i i U Hi Hi). unfold riden. rewrite N.eqb_refl. apply sqrt_1. Qed.
(** the transposed inverse of a matrix close to a rotation is close to the rotation *)
Lemma inv_near f g q e : hunit q -> 0 <= e <= / 1000 -> rows_within e f (hmat q) -> (forall i j, (i < 4)%N -> (j < 4)%N -> rsum4 (fun k => f j k * g i k) = riden j i) -> rows_within (2005 / 1000 * e) g (hmat q).
Proof.
  intros U [E0 E1] Rw I i Hi. set (M := hmat q) in *. pose proof (row_rot (rminus g M) (hconj q) i (hunit_conj q U)) as RR. rewrite <- RR. clear RR.
  pose proof (hmat_rowlen q i U Hi) as LM. fold M in LM. set (x := rowlen g i). assert (X0 : 0 <= x) by (unfold x; rewrite rowlen_row; apply hlen_pos).
  assert (B : rowlen (rmul4 (rminus g M) (hmat (hconj q))) i <= 2 * (e * x)).
  { apply row_box; [apply Rmult_le_pos; assumption |]. intros j Hj. unfold rmul4, rsum4. rewrite !(hmat_transposed q U _ j) by (reflexivity || assumption). fold M.
    pose proof (hmat_orth q i j U Hi Hj) as O. fold M in O. unfold hdot, vdot, row in O. cbn in O. pose proof (I i j Hi Hj) as Ij. unfold rsum4 in Ij.
    assert (SY : riden j i = riden i j) by (unfold riden; rewrite N.eqb_sym; reflexivity). rewrite SY in Ij.
    replace (rminus g M i 0%N * M j 0%N + rminus g M i 1%N * M j 1%N + rminus g M i 2%N * M j 2%N + rminus g M i 3%N * M j 3%N) with (- hdot (row (rminus f M) j) (row g i)).
    - rewrite Rabs_Ropp. eapply Rle_trans; [apply hdot_abs |]. rewrite <- !rowlen_row. fold x. apply Rmult_le_compat_r; [exact X0 | apply Rw; exact Hj].
    - unfold hdot, vdot, row, rminus. cbn. lra. }
  assert (XB : x <= 1 + 2 * (e * x)). { unfold x at 1. rewrite rowlen_row. pose proof (hlen_near (row g i) (row M i)) as K. rewrite <- rowdist, <- (rowlen_row M), LM in K. pose proof (row_rot (rminus g M) (hconj q) i (hunit_conj q U)) as RR. rewrite RR in B. lra. }
  assert (X1 : x <= 10025 / 10000) by nra. nra.
Qed.

Section RotInv.
  Context (prec emax : Z) {Hp : Prec_gt_0 prec} {Hm : Prec_lt_emax prec emax} (lm : libm (binary_float prec emax)).
  Notation bf := (binary_float prec emax).
  Notation F := (@Ieee prec emax Hp Hm lm).
  Notation u := (uro prec).
  Notation et := (eta prec emax).
  Notation val := (@B2R prec emax).
  Notation real f := ((fun i j => val (f i j : bf)) : rmat).
  Notation hq q := (qval (q : quat bf)).
  Notation rot q := (quat_to_rotation_matrix (q : quat F) true).
  Theorem inverse_near (m : mat4 F) (f : lmat F) (q : H4) (e : R) : (9 < prec)%Z -> repr4 m f -> mfin4 (f : lmat bf) -> hunit q -> 0 <= e <= / 1000 -> rows_within e (real f) (hmat q) ->
    exists r g, mat4_inverse m = Ok (Some r) /\ m4_rm r = true /\ repr4 r g /\ mfin4 (g : lmat bf) /\
      (forall i j, (i < 4)%N -> (j < 4)%N -> Rabs (val (g i j : bf) - hmat q i j) <= 2005 / 1000 * e + 3254 * u) /\
      (forall i j, (i < 4)%N -> (j < 4)%N -> Rabs (val (g i j : bf) - val (f i j : bf)) <= 3005 / 1000 * e + 3254 * u).
  Proof.
    intros P Hr Fi U [E0 E1] Rw. pose proof (u_pos prec) as U0. pose proof (u_small prec P) as U1. pose proof (et_small prec emax P) as T. assert (HE : (prec < emax)%Z) by exact Hm.
    assert (Nf : boxed_near 4 e (real f) (hmat q)) by (intros i j Hi Hj; pose proof (row_entry (rminus (real f) (hmat q)) i j Hj) as K; specialize (Rw i Hi); unfold rminus in K at 1; lra).
    assert (Bm : boxed 4 1 (hmat q)) by (intros i j Hi Hj; rewrite <- (hmat_rowlen q i U Hi); apply row_entry, Hj).
    set (K := 1001 / 1000). assert (Bf : boxed 4 K (real f)) by (intros i j Hi Hj; pose proof (Nf i j Hi Hj) as A; pose proof (Bm i j Hi Hj) as B; apply Rabs_le_inv in A; apply Rabs_le_inv in B; apply Rabs_le; unfold K; lra).
    assert (Bm' : boxed 4 K (hmat q)) by (intros i j Hi Hj; specialize (Bm i j Hi Hj); unfold K; lra).
    pose proof (det4_near K e _ _ ltac:(unfold K; lra) Bf Bm' Nf) as DN. rewrite (hmat_det q U) in DN. set (D := rdet4 (real f)) in *. assert (DB : 9 / 10 <= D <= 11 / 10) by (apply Rabs_le_inv in DN; unfold K in DN; split; nra).
    assert (Wk : forall i j, (i < 4)%N -> (j < 4)%N -> is_finite (f i j : bf) = true /\ Rabs (val (f i j)) <= K) by (intros i j Hi Hj; split; [apply Fi; assumption | apply (Bf i j); assumption]).
    assert (KB : 128 * (K * K * K * K) <= bpow radix2 emax) by (apply Rle_trans with (bpow radix2 8); [change (bpow radix2 8) with 256; unfold K; lra | apply bpow_le; lia]).
    assert (HD : 423 * u * (K * K * K * K) <= Rabs D) by (rewrite (Rabs_pos_eq D) by lra; unfold K; lra).
    destruct (inverse_ieee prec emax lm K P ltac:(unfold K; lra) KB f Wk m Hr HD) as (r & g & E & Rm & Rr & G).
    set (X := (fun i j => radj4 (real f) j i / D) : rmat).
    assert (XN : rows_within (2005 / 1000 * e) X (hmat q)).
    { apply (inv_near (real f) X q e U (conj E0 E1) Rw). intros i j Hi Hj. destruct (radj4_inverse (real f) ltac:(fold D; lra)) as [I _]. specialize (I j i Hj Hi). fold D in I. exact I. }
    assert (ERR : forall i j, (i < 4)%N -> (j < 4)%N -> Rabs (val (g i j : bf) - X i j) <= 3254 * u).
    { intros i j Hi Hj. destruct (G i j Hi Hj) as [_ Q]. change (Rabs (val (g i j : bf) - X i j) <= u * (91 * (K * K * K) / Rabs D + 2534 * (K * K * K) * (K * K * K * K) / (D * D)) + et) in Q. eapply Rle_trans; [exact Q |]. rewrite (Rabs_pos_eq D) by lra. assert (I1 : 0 < / D <= 10 / 9) by (split; [apply Rinv_0_lt_compat; lra | replace (10 / 9) with (/ (9 / 10)) by lra; apply Rinv_le; lra]).
      unfold Rdiv. rewrite Rinv_mult. assert (I2 : / D * / D <= 10 / 9 * (10 / 9)) by (apply Rmult_le_compat; lra).
      assert (A : 91 * (K * K * K) * / D + 2534 * (K * K * K) * (K * K * K * K) * (/ D * / D) <= 3253) by (unfold K; lra). assert (u * (91 * (K * K * K) * / D + 2534 * (K * K * K) * (K * K * K * K) * (/ D * / D)) <= u * 3253) by (apply Rmult_le_compat_l; lra). lra. }
    assert (FIN : forall i j, (i < 4)%N -> (j < 4)%N -> Rabs (val (g i j : bf) - hmat q i j) <= 2005 / 1000 * e + 3254 * u).
    { intros i j Hi Hj. pose proof (ERR i j Hi Hj) as A. pose proof (row_entry (rminus X (hmat q)) i j Hj) as B. specialize (XN i Hi). unfold rminus in B at 1. apply Rabs_le_inv in A. assert (B' : Rabs (X i j - hmat q i j) <= 2005 / 1000 * e) by lra. apply Rabs_le_inv in B'. apply Rabs_le. lra. }
    exists r, g. split; [exact E |]. split; [exact Rm |]. split; [exact Rr |]. split; [intros i j Hi Hj; apply (G i j Hi Hj) |]. split; [exact FIN |].
    intros i j Hi Hj. pose proof (FIN i j Hi Hj) as A. pose proof (Nf i j Hi Hj) as B. apply Rabs_le_inv in A. apply Rabs_le_inv in B. apply Rabs_le. lra.
  Qed.
End RotInv.
