(** PScale.v — IEEE operations on data scaled by powers of two (C115). *)
From Coq Require Import Reals List ZArith NArith Bool Lra Lia.
From Flocq Require Import Core BinarySingleNaN.
Import ListNotations.
From Verif Require Import Base Num Vec Mat Bound Shape Intersect Gjk Float FloatFacts FloatRound Order SpecMat SpecGeom SpecBound SpecBuild SpecMirror SpecScale
  PMat PBound PShape PInter PBuild PRound PIeee1 PIeee2.
Local Open Scope R_scope.

Section Grid.
  Definition gr (lo : Z) (x : R) : Prop := exists m : Z, x = IZR m * bpow radix2 lo.
  Lemma gr_le lo lo' x : (lo' <= lo)%Z -> gr lo x -> gr lo' x.
  Proof.
    intros H [m ->]. exists (m * Zpower radix2 (lo - lo'))%Z. rewrite mult_IZR, IZR_Zpower by lia. rewrite Rmult_assoc, <- bpow_plus. do 2 f_equal. lia.
  Qed.
  Lemma gr_plus lo x y : gr lo x -> gr lo y -> gr lo (x + y).
  Proof. intros [m ->] [n ->]. exists (m + n)%Z. rewrite plus_IZR. ring. Qed.
  Lemma gr_opp lo x : gr lo x -> gr lo (- x).
  Proof. intros [m ->]. exists (- m)%Z. rewrite opp_IZR. ring. Qed.
  Lemma gr_minus lo x y : gr lo x -> gr lo y -> gr lo (x - y).
  Proof. intros Hx Hy. apply gr_plus; [exact Hx | apply gr_opp; exact Hy]. Qed.
  Lemma gr_mult l1 l2 x y : gr l1 x -> gr l2 y -> gr (l1 + l2) (x * y).
  Proof. intros [m ->] [n ->]. exists (m * n)%Z. rewrite mult_IZR, bpow_plus. ring. Qed.
  Lemma gr_scale lo s x : gr lo x -> gr (lo + s) (x * bpow radix2 s).
  Proof. intros [m ->]. exists m. rewrite bpow_plus. ring. Qed.
  Lemma gr_0 lo : gr lo 0. Proof. exists 0%Z. ring. Qed.
  Lemma gr_lower lo x : gr lo x -> x <> 0 -> bpow radix2 lo <= Rabs x.
  Proof.
    intros [m ->] N. rewrite Rabs_mult, (Rabs_pos_eq (bpow _ _)) by apply bpow_ge_0. rewrite <- (Rmult_1_l (bpow radix2 lo)) at 1.
    apply Rmult_le_compat_r; [apply bpow_ge_0 |]. rewrite <- abs_IZR. apply IZR_le. assert (m <> 0)%Z by (intros ->; apply N; ring). lia.
  Qed.
End Grid.

Section Scale.
  Context (prec emax : Z) {Hp : Prec_gt_0 prec} {Hm : Prec_lt_emax prec emax} (lm : libm (binary_float prec emax)).
  Notation bf := (binary_float prec emax).
  Notation F := (@Ieee prec emax Hp Hm lm).
  Notation fmt := (SpecFloat.fexp prec emax).
  Notation rnd := (round radix2 fmt ZnearestE).
  Notation rx := (round radix2 (FLX_exp prec) ZnearestE).
  Notation val := (@B2R prec emax).
  Notation fin x := (is_finite (x : bf) = true).
  Notation emin := (3 - emax - prec)%Z.
  Notation fv := (fv prec emax).
  Notation bnd := (bnd prec emax).

  Lemma rx_scale x s : rx (x * bpow radix2 s) = rx x * bpow radix2 s.
  Proof.
    destruct (Req_dec x 0) as [-> | N]; [rewrite Rmult_0_l, round_0 by apply valid_rnd_N; ring |].
    unfold round, scaled_mantissa, cexp, F2R. cbn [Fnum Fexp]. rewrite (mag_mult_bpow radix2 x s N). unfold FLX_exp.
    replace (- (mag radix2 x + s - prec))%Z with (- s + - (mag radix2 x - prec))%Z by lia. rewrite bpow_plus.
    replace (x * bpow radix2 s * (bpow radix2 (- s) * bpow radix2 (- (mag radix2 x - prec)))) with (x * bpow radix2 (- (mag radix2 x - prec)) * (bpow radix2 s * bpow radix2 (- s))) by ring.
    rewrite <- bpow_plus. replace (s + - s)%Z with 0%Z by lia. cbn [bpow]. rewrite Rmult_1_r.
    replace (mag radix2 x + s - prec)%Z with ((mag radix2 x - prec) + s)%Z by lia. rewrite bpow_plus. ring.
  Qed.
  Lemma rnd_big x : bpow radix2 (emin + prec - 1) <= Rabs x -> rnd x = rx x.
  Proof. intro H. change fmt with (FLT_exp emin prec). apply round_FLT_FLX. exact H. Qed.
  Lemma rnd_grid lo x : (emin <= lo)%Z -> gr lo x -> rnd x = rx x.
  Proof.
    intros H G. destruct (Rle_dec (bpow radix2 (emin + prec - 1)) (Rabs x)) as [B | B]; [apply rnd_big; exact B |].
    apply Rnot_le_lt in B. apply (gr_le _ emin) in G; [| exact H]. destruct G as [m ->].
    assert (M : (Z.abs m < Zpower radix2 prec)%Z).
    { apply lt_IZR. rewrite IZR_Zpower by (unfold Prec_gt_0 in Hp; lia). rewrite abs_IZR. rewrite Rabs_mult, (Rabs_pos_eq (bpow _ _)) in B by apply bpow_ge_0.
      apply (Rmult_lt_reg_r (bpow radix2 emin)); [apply bpow_gt_0 |]. rewrite <- bpow_plus. eapply Rlt_le_trans; [exact B | apply bpow_le; lia]. }
    change (IZR m * bpow radix2 emin) with (F2R (Float radix2 m emin)).
    rewrite !round_generic; try reflexivity; try apply valid_rnd_N.
    - apply generic_format_FLX. exists (Float radix2 m emin); [reflexivity | exact M].
    - change fmt with (FLT_exp emin prec). apply generic_format_FLT. exists (Float radix2 m emin); [reflexivity | exact M | cbn; lia].
  Qed.
  Lemma rnd_scale lo s x : (emin <= lo)%Z -> (emin <= lo + s)%Z -> gr lo x -> rnd (x * bpow radix2 s) = rnd x * bpow radix2 s.
  Proof. intros A B G. rewrite (rnd_grid lo x A G), (rnd_grid (lo + s) _ B (gr_scale _ _ _ G)). apply rx_scale. Qed.
  Lemma rnd_gr lo x : (emin <= lo)%Z -> gr lo x -> gr lo (rnd x).
  Proof.
    intros H G. destruct (Z_le_gt_dec lo (cexp radix2 fmt x)) as [C | C].
    - apply (gr_le (cexp radix2 fmt x)); [exact C |]. exists (ZnearestE (scaled_mantissa radix2 fmt x)). reflexivity.
    - rewrite round_generic; [exact G | apply valid_rnd_N |]. destruct G as [m ->]. change (IZR m * bpow radix2 lo) with (F2R (Float radix2 m lo)) in *.
      apply generic_format_F2R. intros _. lia.
  Qed.
  (** a quotient or a root need not lie on a grid before rounding; its rounding does *)
  Definition above (l : Z) (x : R) : Prop := x = 0 \/ bpow radix2 l <= Rabs x.
  Lemma above_scale l s x : above l x -> above (l + s) (x * bpow radix2 s).
  Proof.
    intros [-> | H]; [left; ring | right]. rewrite Rabs_mult, (Rabs_pos_eq (bpow radix2 s)) by apply bpow_ge_0. rewrite bpow_plus.
    apply Rmult_le_compat_r; [apply bpow_ge_0 | exact H].
  Qed.
  Lemma rnd_above l s x : (emin + prec - 1 <= l)%Z -> (emin + prec - 1 <= l + s)%Z -> above l x -> rnd (x * bpow radix2 s) = rnd x * bpow radix2 s.
  Proof.
    intros A B H. pose proof (above_scale l s x H) as H'. destruct H as [-> | H]; [rewrite Rmult_0_l, round_0 by apply valid_rnd_N; ring |].
    destruct H' as [Z | H']; [exfalso; assert (x = 0) as -> by (apply Rmult_integral in Z as [Z | Z]; [exact Z | pose proof (bpow_gt_0 radix2 s); lra]);
      rewrite Rabs_R0 in H; pose proof (bpow_gt_0 radix2 l); lra |].
    rewrite (rnd_big x), (rnd_big (x * bpow radix2 s)); [apply rx_scale | eapply Rle_trans; [apply bpow_le; exact B | exact H'] | eapply Rle_trans; [apply bpow_le; exact A | exact H]].
  Qed.
  Lemma rnd_above_gr l x : (emin + prec - 1 <= l)%Z -> above l x -> gr (l + 1 - prec) (rnd x).
  Proof.
    intros A [-> | H]; [rewrite round_0 by apply valid_rnd_N; apply gr_0 |].
    apply (gr_le (cexp radix2 fmt x)); [| exists (ZnearestE (scaled_mantissa radix2 fmt x)); reflexivity].
    unfold cexp. change fmt with (FLT_exp emin prec). unfold FLT_exp. pose proof (mag_ge_bpow radix2 x (l + 1)) as M. replace (l + 1 - 1)%Z with l in M by lia. specialize (M H). lia.
  Qed.

  (** [x'] is 2^s [x]; [x] a multiple of 2^lo up to 2^hi *)
  Definition G (s lo hi : Z) (x' x : bf) : Prop := fin x' /\ fin x /\ val x' = val x * bpow radix2 s /\ gr lo (val x) /\ Rabs (val x) <= bpow radix2 hi.
  Definition ok (s lo hi : Z) : Prop := (emin <= lo /\ emin <= lo + s /\ emin <= hi /\ emin <= hi + s /\ hi < emax /\ hi + s < emax)%Z.
  Lemma G_weak s lo hi lo' hi' x' x : (lo' <= lo)%Z -> (hi <= hi')%Z -> G s lo hi x' x -> G s lo' hi' x' x.
  Proof. intros A B (F1 & F2 & V & R & H). repeat split; try assumption; [apply (gr_le lo); assumption | eapply Rle_trans; [exact H | apply bpow_le; exact B]]. Qed.
  Lemma G_bnd s lo hi x' x : G s lo hi x' x -> bnd (hi + s) x' /\ bnd hi x.
  Proof.
    intros (F1 & F2 & V & R & H). split; split; try assumption. rewrite V, Rabs_mult, (Rabs_pos_eq (bpow radix2 s)) by apply bpow_ge_0. rewrite bpow_plus.
    apply Rmult_le_compat_r; [apply bpow_ge_0 | exact H].
  Qed.
  Lemma G_upper s lo hi hi' x' x : G s lo hi x' x -> Rabs (val x) <= bpow radix2 hi' -> G s lo hi' x' x.
  Proof. intros (F1 & F2 & V & R & H) H'. repeat split; assumption. Qed.
  Lemma G_plus s lo hi (x' x y' y : bf) : ok s lo hi -> ok s lo (hi + 1) -> G s lo hi x' x -> G s lo hi y' y -> G s lo (hi + 1) (Bplus mode_NE x' y') (Bplus mode_NE x y).
  Proof.
    intros O O1 Gx Gy. destruct (G_bnd _ _ _ _ _ Gx) as [Bx' Bx]. destruct (G_bnd _ _ _ _ _ Gy) as [By' By]. unfold ok in *.
    destruct (plus_bnd prec emax (hi + s) x' y' ltac:(lia) ltac:(lia) Bx' By') as [[F1 V1] _]. destruct (plus_bnd prec emax hi x y ltac:(lia) ltac:(lia) Bx By) as [[F2 V2] [_ B]].
    destruct Gx as (_ & _ & Vx & Rx & _), Gy as (_ & _ & Vy & Ry & _). repeat split; try assumption.
    - rewrite V1, V2, Vx, Vy, <- Rmult_plus_distr_r. apply (rnd_scale lo); try lia. apply gr_plus; assumption.
    - rewrite V2. apply rnd_gr; [lia |]. apply gr_plus; assumption.
  Qed.
  Lemma G_minus s lo hi (x' x y' y : bf) : ok s lo hi -> ok s lo (hi + 1) -> G s lo hi x' x -> G s lo hi y' y -> G s lo (hi + 1) (Bminus mode_NE x' y') (Bminus mode_NE x y).
  Proof.
    intros O O1 Gx Gy. destruct (G_bnd _ _ _ _ _ Gx) as [Bx' Bx]. destruct (G_bnd _ _ _ _ _ Gy) as [By' By]. unfold ok in *.
    destruct (minus_bnd prec emax (hi + s) x' y' ltac:(lia) ltac:(lia) Bx' By') as [[F1 V1] _]. destruct (minus_bnd prec emax hi x y ltac:(lia) ltac:(lia) Bx By) as [[F2 V2] [_ B]].
    destruct Gx as (_ & _ & Vx & Rx & _), Gy as (_ & _ & Vy & Ry & _). repeat split; try assumption.
    - rewrite V1, V2, Vx, Vy. replace (val x * bpow radix2 s - val y * bpow radix2 s) with ((val x - val y) * bpow radix2 s) by ring. apply (rnd_scale lo); try lia. apply gr_minus; assumption.
    - rewrite V2. apply rnd_gr; [lia |]. apply gr_minus; assumption.
  Qed.
  Lemma G_mult s t lo lo' hi hi' (x' x y' y : bf) : ok (s + t) (lo + lo') (hi + hi') -> G s lo hi x' x -> G t lo' hi' y' y ->
    G (s + t) (lo + lo') (hi + hi') (Bmult mode_NE x' y') (Bmult mode_NE x y).
  Proof.
    intros O Gx Gy. destruct (G_bnd _ _ _ _ _ Gx) as [Bx' Bx]. destruct (G_bnd _ _ _ _ _ Gy) as [By' By]. unfold ok in *.
    destruct (mult_bnd prec emax (hi + s) (hi' + t) x' y' ltac:(lia) ltac:(lia) Bx' By') as [[F1 V1] _]. destruct (mult_bnd prec emax hi hi' x y ltac:(lia) ltac:(lia) Bx By) as [[F2 V2] [_ B]].
    destruct Gx as (_ & _ & Vx & Rx & _), Gy as (_ & _ & Vy & Ry & _). repeat split; try assumption.
    - rewrite V1, V2, Vx, Vy. replace (val x * bpow radix2 s * (val y * bpow radix2 t)) with (val x * val y * bpow radix2 (s + t)) by (rewrite bpow_plus; ring).
      apply (rnd_scale (lo + lo')); try lia. apply gr_mult; assumption.
    - rewrite V2. apply rnd_gr; [lia |]. apply gr_mult; assumption.
  Qed.
  Lemma G_opp s lo hi (x' x : bf) : G s lo hi x' x -> G s lo hi (Bopp x') (Bopp x).
  Proof.
    intros (F1 & F2 & V & R & H). repeat split; rewrite ?is_finite_Bopp, ?B2R_Bopp; try assumption; [rewrite V; ring | apply gr_opp; exact R | rewrite Rabs_Ropp; exact H].
  Qed.
  Lemma G_abs s lo hi (x' x : bf) : G s lo hi x' x -> G s lo hi (Babs x') (Babs x).
  Proof.
    intros (F1 & F2 & V & R & H). repeat split; rewrite ?is_finite_Babs, ?B2R_Babs; try assumption.
    - rewrite V, Rabs_mult, (Rabs_pos_eq (bpow radix2 s)) by apply bpow_ge_0. reflexivity.
    - unfold Rabs. destruct (Rcase_abs (val x)); [apply gr_opp |]; exact R.
    - rewrite Rabs_Rabsolu. exact H.
  Qed.
  Lemma G_div s t lo lo' hi hi' (x' x y' y : bf) : val y <> 0 -> G s lo hi x' x -> G t lo' hi' y' y ->
    (emin + prec - 1 <= lo - hi')%Z -> (emin + prec - 1 <= lo - hi' + (s - t))%Z -> ok (s - t) (lo - hi') (hi - lo') ->
    G (s - t) (lo - hi' + 1 - prec) (hi - lo') (Bdiv mode_NE x' y') (Bdiv mode_NE x y).
  Proof.
    intros N (F1 & F2 & Vx & Rx & Bx) (F3 & F4 & Vy & Ry & By) L1 L2 O. unfold ok in O.
    pose proof (bpow_gt_0 radix2 t) as T0. assert (N' : val y' <> 0) by (rewrite Vy; intro Q; apply Rmult_integral in Q as [Q | Q]; [exact (N Q) | lra]).
    pose proof (gr_lower _ _ Ry N) as Ly. pose proof (bpow_gt_0 radix2 lo') as P.
    assert (Q : val x' / val y' = val x / val y * bpow radix2 (s - t)).
    { rewrite Vx, Vy. unfold Zminus. rewrite bpow_plus, bpow_opp. field. split; [lra | exact N]. }
    assert (A : above (lo - hi') (val x / val y)).
    { destruct (Req_dec (val x) 0) as [-> | Nx]; [left; unfold Rdiv; ring | right]. unfold Rdiv. rewrite Rabs_mult, Rabs_inv. unfold Zminus. rewrite bpow_plus.
      apply Rmult_le_compat; try apply bpow_ge_0; [apply gr_lower; assumption |]. rewrite bpow_opp. apply Rinv_le; [| exact By]. apply Rabs_pos_lt. exact N. }
    assert (B : Rabs (val x / val y) <= bpow radix2 (hi - lo')).
    { unfold Rdiv. rewrite Rabs_mult, Rabs_inv. unfold Zminus. rewrite bpow_plus. apply Rmult_le_compat; [apply Rabs_pos | left; apply Rinv_0_lt_compat, Rabs_pos_lt; exact N | exact Bx |].
      rewrite bpow_opp. apply Rinv_le; assumption. }
    assert (B' : Rabs (rnd (val x / val y)) <= bpow radix2 (hi - lo')) by (apply rnd_bpow; [exact Hp | lia | exact B]).
    assert (E : rnd (val x / val y * bpow radix2 (s - t)) = rnd (val x / val y) * bpow radix2 (s - t)) by (apply (rnd_above (lo - hi')); assumption).
    destruct (div_round prec emax x y F2 N) as [D _]. specialize (D (below_big emax (hi - lo')%Z _ ltac:(lia) B')). destruct D as [D1 D2].
    destruct (div_round prec emax x' y' F1 N') as [D' _]. rewrite Q, E in D'.
    assert (B2 : Rabs (rnd (val x / val y) * bpow radix2 (s - t)) <= bpow radix2 (hi - lo' + (s - t))).
    { rewrite Rabs_mult, (Rabs_pos_eq (bpow radix2 (s - t))) by apply bpow_ge_0. rewrite (bpow_plus _ (hi - lo')). apply Rmult_le_compat_r; [apply bpow_ge_0 | exact B']. }
    specialize (D' (below_big emax (hi - lo' + (s - t))%Z _ ltac:(lia) B2)). destruct D' as [D3 D4].
    repeat split; try assumption.
    - rewrite D4, D2. reflexivity.
    - rewrite D2. apply rnd_above_gr; assumption.
    - rewrite D2. exact B'.
  Qed.
  Lemma G_sqrt s lo hi (x' x : bf) : 0 <= val x -> (emin + prec - 1 <= lo)%Z -> (emin + prec - 1 <= lo + s)%Z -> ok s lo hi ->
    G (s + s) (lo + lo) (hi + hi) x' x -> G s (lo + 1 - prec) hi (Bsqrt mode_NE x') (Bsqrt mode_NE x).
  Proof.
    intros P L1 L2 O (F1 & F2 & V & R & B). unfold ok in O. pose proof (bpow_gt_0 radix2 s) as S0.
    assert (P' : 0 <= val x') by (rewrite V; apply Rmult_le_pos; [exact P | apply bpow_ge_0]).
    destruct (sqrt_ok prec emax x F2 P) as [D1 D2]. destruct (sqrt_ok prec emax x' F1 P') as [D3 D4].
    assert (SQ : forall k, sqrt (bpow radix2 (k + k)) = bpow radix2 k) by (intro k; rewrite bpow_plus; apply sqrt_square, bpow_ge_0).
    assert (E : sqrt (val x') = sqrt (val x) * bpow radix2 s) by (rewrite V, sqrt_mult_alt, SQ by exact P; reflexivity).
    assert (A : above lo (sqrt (val x))).
    { destruct (Req_dec (val x) 0) as [-> | Nx]; [left; apply sqrt_0 | right]. rewrite (Rabs_pos_eq (sqrt _)) by apply sqrt_pos. rewrite <- SQ. apply sqrt_le_1_alt.
      pose proof (gr_lower _ _ R Nx) as Q. rewrite Rabs_pos_eq in Q by exact P. exact Q. }
    repeat split; try assumption.
    - rewrite D4, D2, E. apply (rnd_above lo); assumption.
    - rewrite D2. apply rnd_above_gr; assumption.
    - rewrite D2. apply rnd_bpow; [exact Hp | lia |]. rewrite Rabs_pos_eq by apply sqrt_pos. rewrite <- SQ. apply sqrt_le_1_alt. rewrite Rabs_pos_eq in B by exact P. exact B.
  Qed.
  (** order *)
  Lemma cmp_scaled s (x' x y' y : bf) : times2 s x' x -> times2 s y' y -> Bcompare x' y' = Bcompare x y.
  Proof.
    intros (F1 & F2 & V) (F3 & F4 & W). rewrite !Bcompare_correct by assumption. f_equal. rewrite V, W. apply Rcompare_mult_r. apply bpow_gt_0.
  Qed.
  (** a bound: scaled, or the same infinity *)
  Definition T (s : Z) (x' x : bf) : Prop := times2 s x' x \/ (x' = x /\ exists b, x = B754_infinity b).
  Lemma cmp_T s (x' x y' y : bf) : T s x' x -> T s y' y -> Bcompare x' y' = Bcompare x y.
  Proof.
    intros [A | (-> & b & ->)] [B | (-> & c & ->)]; [eapply cmp_scaled; eassumption | | | reflexivity].
    - destruct A as (F1 & F2 & _). destruct x', x; try discriminate; destruct c; reflexivity.
    - destruct B as (F1 & F2 & _). destruct y', y; try discriminate; destruct b; reflexivity.
  Qed.
  Lemma G_times2 s lo hi x' x : G s lo hi x' x -> times2 s x' x.
  Proof. intros (A & B & C & _). repeat split; assumption. Qed.
  Lemma medium_G L s x' x : medium L x -> times2 s x' x -> G s (- L) L x' x.
  Proof. intros (A & B & C) (A' & _ & V). repeat split; assumption. Qed.
End Scale.
