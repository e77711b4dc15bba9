(** PSqr.v — the rounded root of the rounded square is the number itself (C119, C120). *)
From Coq Require Import Reals List ZArith NArith Bool Lra Lia Psatz.
From Flocq Require Import Core Relative BinarySingleNaN.
Import ListNotations.
From Verif Require Import Base Num Vec Mat Bound Shape Float FloatFacts FloatRound SpecMat SpecRound SpecGeom SpecBuild SpecInt PBuild PRound PMirror1 ExactFacts PIeee2 PIeee3 PIeee5 PIeee6.
Local Open Scope R_scope.

Section Sqr.
  Context (prec emax : Z) {Hp : Prec_gt_0 prec} {Hm : Prec_lt_emax prec emax} (lm : libm (binary_float prec emax)).
  Notation bf := (binary_float prec emax).
  Notation fmt := (SpecFloat.fexp prec emax).
  Notation rnd := (round radix2 fmt ZnearestE).
  Notation F := (@Ieee prec emax Hp Hm lm).
  Notation val := (@B2R prec emax).
  Notation fin x := (is_finite (x : bf) = true).
  Notation u := (uro prec).
  Instance fmt_valid : Valid_exp fmt := fexp_correct prec emax Hp.
  Lemma bpow_fmt k : (3 - emax - prec <= k)%Z -> generic_format radix2 fmt (bpow radix2 k).
  Proof. intro H. apply generic_format_bpow. unfold SpecFloat.fexp, SpecFloat.emin. unfold Prec_gt_0 in Hp. lia. Qed.
  Lemma sqrt_sq w : generic_format radix2 fmt w -> 0 < w -> bpow radix2 (2 - emax) <= w * w -> rnd (sqrt (rnd (w * w))) = w.
  Proof.
    intros G P L. set (e := mag radix2 w). assert (A1 : bpow radix2 (e - 1) <= w). { rewrite <- (Rabs_pos_eq w) by lra. apply bpow_mag_le. lra. }
    assert (A2 : w < bpow radix2 e). { rewrite <- (Rabs_pos_eq w) at 1 by lra. apply bpow_mag_gt. }
    assert (E2 : (2 - emax < e + e)%Z). { apply (lt_bpow radix2). rewrite bpow_plus. assert (0 < bpow radix2 e) by apply bpow_gt_0. nra. }
    assert (Ee : (3 - emax <= e)%Z). { unfold Prec_gt_0 in Hp. unfold Prec_lt_emax in Hm. lia. }
    set (E := bpow radix2 e) in *. assert (E0 : 0 < E) by apply bpow_gt_0.
    assert (U0 : 0 < u) by apply bpow_gt_0. assert (U1 : u <= / 2) by (unfold uro; change (/ 2) with (bpow radix2 (-1)); apply bpow_le; unfold Prec_gt_0 in Hp; lia).
    assert (Ul : ulp radix2 fmt w = E * u). { rewrite ulp_neq_0 by lra. unfold cexp. fold e. unfold SpecFloat.fexp, SpecFloat.emin. rewrite Z.max_l by lia. unfold E, uro. rewrite <- bpow_plus. f_equal. }
    assert (B1 : E = 2 * bpow radix2 (e - 1)). { unfold E. replace (e : Z) with (1 + (e - 1))%Z at 1 by lia. rewrite bpow_plus. reflexivity. }
    assert (B2 : w + E * u <= E) by (rewrite <- Ul; apply id_p_ulp_le_bpow; assumption).
    destruct (Req_dec w (bpow radix2 (e - 1))) as [Q | Q].
    - assert (S : w * w = bpow radix2 (e - 1 + (e - 1))) by (rewrite bpow_plus, <- Q; reflexivity).
      rewrite S, (round_generic radix2 fmt ZnearestE (bpow radix2 (e - 1 + (e - 1)))).
      + rewrite <- S. fold (Rsqr w). rewrite sqrt_Rsqr by lra. apply round_generic; [apply valid_rnd_N | exact G].
      + apply bpow_fmt. rewrite S in L. apply le_bpow in L. unfold Prec_gt_0 in Hp. lia.
    - destruct (rnd_rel prec emax (w * w)) as (d & Bd & Ed); [rewrite Rabs_pos_eq by nra; exact L |]. apply Rabs_le_inv in Bd. rewrite Ed.
      assert (D0 : 0 <= w * w * (1 + d)) by (apply Rmult_le_pos; nra). set (q := sqrt (w * w * (1 + d))). assert (Q0 : 0 <= q) by apply sqrt_pos. assert (QQ : q * q = w * w * (1 + d)) by (apply sqrt_sqrt; exact D0).
      apply Rle_antisym.
      + apply round_N_le_midp; [exact fmt_valid | exact G |]. rewrite succ_eq_pos, Ul by lra. apply Rnot_le_lt. intro C. assert (Eu : 0 < E * u) by nra. assert (C1 : w + E * u / 2 <= q) by lra.
        assert (C2 : (w + E * u / 2) * (w + E * u / 2) <= q * q) by (apply Rmult_le_compat; lra). assert (W2 : 0 <= w * w) by (apply Rle_0_sqr). assert (H0 : w * w * (1 + d) <= w * w * (1 + u)) by (apply Rmult_le_compat_l; lra).
        assert (H1 : 0 < w * u * (E - w)) by (apply Rmult_lt_0_compat; [apply Rmult_lt_0_compat |]; lra). assert (H2 : 0 <= E * u * (E * u)) by (apply Rle_0_sqr). lra.
      + apply round_N_ge_midp; [exact fmt_valid | exact G |]. rewrite pred_eq_pos by lra. unfold pred_pos. fold e. rewrite Req_bool_false by exact Q. rewrite Ul.
        apply Rnot_le_lt. intro C. assert (Eu : 0 < E * u) by nra. assert (C1 : q <= w - E * u / 2) by lra.
        assert (C2 : q * q <= (w - E * u / 2) * (w - E * u / 2)) by (apply Rmult_le_compat; lra). assert (W2 : 0 <= w * w) by (apply Rle_0_sqr). assert (H0 : w * w * (1 - u) <= w * w * (1 + d)) by (apply Rmult_le_compat_l; lra).
        assert (H1 : E / 2 * (E * u) <= w * (E - w)) by (apply Rmult_le_compat; lra). assert (H2 : u * (E / 2 * (E * u)) <= u * (w * (E - w))) by (apply Rmult_le_compat_l; lra).
        assert (H3 : 0 < E * u * (E * u)) by (apply Rmult_lt_0_compat; lra). lra.
  Qed.
  Lemma sqrt_sq_abs w : generic_format radix2 fmt w -> bpow radix2 (2 - emax) <= w * w -> rnd (sqrt (rnd (w * w))) = Rabs w.
  Proof.
    intros G L. destruct (Rtotal_order w 0) as [N | [-> | P]].
    - rewrite Rabs_left by exact N. replace (w * w) with ((- w) * (- w)) by ring. apply sqrt_sq; [apply generic_format_opp, G | lra | lra].
    - rewrite Rmult_0_l in L. pose proof (bpow_gt_0 radix2 (2 - emax)). lra.
    - rewrite Rabs_pos_eq by lra. apply sqrt_sq; assumption.
  Qed.
  Lemma sq_ok (w : F) : fin w -> Rabs (val w) <= bpow radix2 (emax / 2 - 3) -> fv prec emax (nmul F w w) (rnd (val w * val w)) /\ 0 <= rnd (val w * val w).
  Proof.
    intros Fw B. assert (E : (3 - emax - prec <= emax - 6)%Z \/ (emax < 4)%Z) by (unfold Prec_lt_emax in Hm; unfold Prec_gt_0 in Hp; lia).
    assert (P : 0 <= val w * val w) by apply Rle_0_sqr. assert (P0 : 0 <= rnd (val w * val w)). { rewrite <- (round_0 radix2 fmt ZnearestE). apply (rnd_le prec emax), P. }
    split; [| exact P0]. apply (mult_round prec emax w w Fw Fw). rewrite Rabs_pos_eq by exact P0. assert (Q : val w * val w <= bpow radix2 (emax - 6)).
    { rewrite <- (Rabs_pos_eq (val w * val w)), Rabs_mult by exact P. apply Rle_trans with (bpow radix2 (emax / 2 - 3) * bpow radix2 (emax / 2 - 3)); [apply Rmult_le_compat; try apply Rabs_pos; exact B |]. rewrite <- bpow_plus. apply bpow_le. pose proof (Z.mul_div_le emax 2). lia. }
    destruct E as [E | E].
    - apply Rle_lt_trans with (bpow radix2 (emax - 6)); [| apply bpow_lt; lia]. rewrite <- (round_generic radix2 fmt ZnearestE _ (bpow_fmt _ E)). apply (rnd_le prec emax), Q.
    - apply Rle_lt_trans with (bpow radix2 (3 - emax - prec)); [| apply bpow_lt; unfold Prec_lt_emax in Hm; unfold Prec_gt_0 in Hp; lia].
      rewrite <- (round_generic radix2 fmt ZnearestE _ (bpow_fmt (3 - emax - prec) (Z.le_refl _))). apply (rnd_le prec emax). eapply Rle_trans; [exact Q | apply bpow_le; unfold Prec_lt_emax in Hm; unfold Prec_gt_0 in Hp; lia].
  Qed.
  Lemma add_zero (x y : F) : fin x -> fin y -> val x = 0 \/ val y = 0 -> fin (nadd F x y) /\ val (nadd F x y) = val x + val y.
  Proof.
    intros Fx Fy [H | H].
    - destruct (fv_plus_exact prec emax (x : bf) (y : bf) (y : bf) Fx Fy ltac:(rewrite H; ring)) as [A B]. split; [exact A |]. cbn [nadd Ieee]. rewrite B, H. ring.
    - destruct (fv_plus_exact prec emax (x : bf) (y : bf) (x : bf) Fx Fy ltac:(rewrite H; ring)) as [A B]. split; [exact A |]. cbn [nadd Ieee]. rewrite B, H. ring.
  Qed.
  Lemma axial_norm v : axial v -> norm v = Rabs (vx v) + Rabs (vy v) + Rabs (vz v).
  Proof.
    intros [_ D]. unfold norm, vdot. destruct D as [[-> ->] | [[-> ->] | [-> ->]]]; rewrite !Rabs_R0; match goal with |- sqrt ?t = _ + _ + _ => match goal with |- context [Rabs ?w] => replace t with (Rsqr w) by (unfold Rsqr; ring) end end; rewrite sqrt_Rsqr_abs; ring.
  Qed.
  (** the length of a vector along an axis is exact *)
  Theorem mag_axial (n : mat3x1 F) : good_normal (n : mat3x1 bf) -> axial (v3 (n : mat3x1 bf)) -> fin (vmag n) /\ val (vmag n) = norm (v3 (n : mat3x1 bf)).
  Proof.
    destruct n as [[x y z]]. intros [[(Fx & Fy & Fz) (Bx & By & Bz)] G] A. rewrite (axial_norm _ A). cbn [v3 vx vy vz] in *. unfold vmag. cbn [c0 c1 c2].
    destruct (sq_ok x Fx Bx) as [[P1 P2] P3]. destruct (sq_ok y Fy By) as [[Q1 Q2] Q3]. destruct (sq_ok z Fz Bz) as [[R1 R2] R3]. change (@npowi2 F ?t) with (nmul F t t).
    assert (Z : forall t : F, val t = 0 -> rnd (val t * val t) = 0) by (intros t ->; rewrite Rmult_0_l; apply round_0, valid_rnd_N).
    assert (L : bpow radix2 (2 - emax) <= bpow radix2 (6 - emax)) by (apply bpow_le; lia). unfold vdot in G. cbn [vx vy vz] in G.
    assert (Fin : forall (t : F) w, fin t -> generic_format radix2 fmt w -> val t = rnd (w * w) -> bpow radix2 (2 - emax) <= w * w -> fin (nsqrt F t) /\ val (nsqrt F t) = Rabs w).
    { intros t w Ft Gw Et Lw. assert (Pt : 0 <= val t). { rewrite Et. rewrite <- (round_0 radix2 fmt ZnearestE). apply (rnd_le prec emax), Rle_0_sqr. } destruct (sqrt_ok prec emax t Ft Pt) as [S1 S2]. split; [exact S1 |]. cbn [nsqrt Ieee]. rewrite S2, Et. apply sqrt_sq_abs; assumption. }
    destruct A as [_ A]. cbn [vx vy vz] in A. destruct A as [[Y Z'] | [[Y Z'] | [Y Z']]]; rewrite Y, Z' in G |- *; rewrite ?Rabs_R0, ?Rplus_0_l, ?Rplus_0_r.
    - rewrite (Z _ Y) in Q2. rewrite (Z _ Z') in R2. destruct (add_zero _ _ P1 Q1 (or_intror Q2)) as [S1 S2]. destruct (add_zero _ _ S1 R1 (or_intror R2)) as [T1 T2]. apply Fin; [exact T1 | apply generic_format_B2R | rewrite T2, S2; cbn [nmul Ieee] in *; rewrite P2, Q2, R2; ring | lra].
    - rewrite (Z _ Y) in P2. rewrite (Z _ Z') in R2. destruct (add_zero _ _ P1 Q1 (or_introl P2)) as [S1 S2]. destruct (add_zero _ _ S1 R1 (or_intror R2)) as [T1 T2]. apply Fin; [exact T1 | apply generic_format_B2R | rewrite T2, S2; cbn [nmul Ieee] in *; rewrite P2, Q2, R2; ring | lra].
    - rewrite (Z _ Y) in P2. rewrite (Z _ Z') in Q2. destruct (add_zero _ _ P1 Q1 (or_introl P2)) as [S1 S2].
      destruct (add_zero _ _ S1 R1) as [T1 T2]; [left; rewrite S2; cbn [nmul Ieee] in *; rewrite P2, Q2; ring |]. apply Fin; [exact T1 | apply generic_format_B2R | rewrite T2, S2; cbn [nmul Ieee] in *; rewrite P2, Q2, R2; ring | lra].
  Qed.
End Sqr.
