(** PMirror.v — signs through IEEE arithmetic (C108). *)
From Coq Require Import Reals List ZArith NArith Bool Lra Lia.
From Flocq Require Import Core BinarySingleNaN.
Import ListNotations.
From Verif Require Import Base Num Vec Mat Bound Shape Intersect Gjk Float FloatFacts FloatRound Order SpecMat SpecGeom SpecBound SpecBuild SpecMirror
  PMat PBound PShape PInter PBuild PRound PIeee1 PIeee2.
Local Open Scope R_scope.

Section Mirror.
  Context (prec emax : Z) {Hp : Prec_gt_0 prec} {Hm : Prec_lt_emax prec emax} (lm : libm (binary_float prec emax)).
  Notation bf := (binary_float prec emax).
  Notation F := (@Ieee prec emax Hp Hm lm).
  Notation val := (@B2R prec emax).
  Notation fin x := (@is_finite prec emax x = true).
  Notation fmt := (SpecFloat.fexp prec emax).
  Notation rnd := (round radix2 fmt ZnearestE).
  Notation big := (bpow radix2 emax).

  (** all zeros to +0 *)
  Definition zr (x : bf) : bf := match x with B754_zero _ => B754_zero false | _ => x end.
  Definition E (b : bool) (x' x : bf) : Prop := zr x' = zr (sgn b x).
  Lemma zr_fin (x y : bf) : fin x -> fin y -> val x = val y -> zr x = zr y.
  Proof.
    intros Fx Fy V. destruct x as [s | s | | s m e h]; try discriminate Fx; destruct y as [s' | s' | | s' m' e' h']; try discriminate Fy.
    - reflexivity.
    - exfalso. cbn in V. symmetry in V. apply eq_0_F2R in V. destruct s'; discriminate V.
    - exfalso. cbn in V. apply eq_0_F2R in V. destruct s; discriminate V.
    - f_equal. apply B2R_inj; try reflexivity. exact V.
  Qed.
  Lemma zr_alike (x y : bf) : zr x = zr y <-> alike x y.
  Proof.
    split.
    - intro H. destruct x, y; cbn in H; try discriminate H; try (left; exact H); try (right; repeat split; reflexivity).
    - intros [-> | (Fx & Fy & Vx & Vy)]; [reflexivity |]. apply zr_fin; try assumption. congruence.
  Qed.
  Lemma opp_opp (x : bf) : Bopp (Bopp x) = x.
  Proof. apply Bopp_involutive. Qed.
  Lemma sgn_sgn b c (x : bf) : sgn b (sgn c x) = sgn (xorb b c) x.
  Proof. destruct b, c; cbn; try reflexivity. apply opp_opp. Qed.
  Lemma zr_opp (x : bf) : zr (Bopp (zr x)) = zr (Bopp x).
  Proof. destruct x; reflexivity. Qed.
  Lemma zr_sgn b (x y : bf) : zr x = zr y -> zr (sgn b x) = zr (sgn b y).
  Proof. intro H. destruct b; cbn; [| exact H]. rewrite <- (zr_opp x), <- (zr_opp y), H. reflexivity. Qed.
  Lemma E_refl x : E false x x.
  Proof. reflexivity. Qed.
  Lemma E_sgn b x : E b (sgn b x) x.
  Proof. reflexivity. Qed.
  Lemma inf_of (z : bf) s : B2SF z = SpecFloat.S754_infinity s -> z = B754_infinity s.
  Proof. destruct z; intro H; try discriminate H. injection H as ->. reflexivity. Qed.

  Lemma mult_oppl (x y : bf) : Bmult mode_NE (Bopp x) y = Bopp (Bmult mode_NE x y).
  Proof.
    destruct x as [s | s | | s m e h] eqn:Ex; destruct y as [s' | s' | | s' m' e' h'] eqn:Ey; try reflexivity; try (destruct s, s'; reflexivity).
    rewrite <- Ex, <- Ey. assert (Fx : fin x) by (subst; reflexivity). assert (Fy : fin y) by (subst; reflexivity). clear Ex Ey.
    pose proof (Bmult_correct prec emax Hp Hm mode_NE (Bopp x) y) as A. pose proof (Bmult_correct prec emax Hp Hm mode_NE x y) as B. change (round_mode mode_NE) with ZnearestE in A, B.
    rewrite B2R_Bopp, Ropp_mult_distr_l_reverse, (rnd_opp prec emax), Rabs_Ropp in A. rewrite is_finite_Bopp, Fx, Fy in A. rewrite Fx, Fy in B. rewrite Bsign_Bopp in A by (destruct x; try discriminate Fx; reflexivity).
    assert (NN : forall z : bf, fin z -> is_nan z = false) by (intros z Fz; destruct z; try discriminate Fz; reflexivity).
    destruct (Rlt_bool _ _).
    - destruct A as (VA & FA & SA), B as (VB & FB & SB). apply B2R_Bsign_inj; [exact FA | rewrite is_finite_Bopp; exact FB | rewrite B2R_Bopp; congruence |].
      rewrite Bsign_Bopp by (apply NN; exact FB). rewrite SA, SB by (apply NN; assumption). destruct (Bsign x), (Bsign y); reflexivity.
    - apply inf_of in A, B. rewrite A, B. cbn. f_equal. destruct (Bsign x), (Bsign y); reflexivity.
  Qed.
  Lemma mult_comm (x y : bf) : Bmult mode_NE x y = Bmult mode_NE y x.
  Proof. apply (FloatFacts.Bmult_comm prec emax). Qed.
  Lemma mult_oppr (x y : bf) : Bmult mode_NE x (Bopp y) = Bopp (Bmult mode_NE x y).
  Proof. rewrite mult_comm, mult_oppl, mult_comm. reflexivity. Qed.
  Lemma mult_sgn b c (x y : bf) : Bmult mode_NE (sgn b x) (sgn c y) = sgn (xorb b c) (Bmult mode_NE x y).
  Proof. destruct b, c; cbn; rewrite ?mult_oppl, ?mult_oppr, ?opp_opp; reflexivity. Qed.
  Lemma div_opps (x y : bf) : Bdiv mode_NE (Bopp x) y = Bopp (Bdiv mode_NE x y) /\ Bdiv mode_NE x (Bopp y) = Bopp (Bdiv mode_NE x y).
  Proof.
    destruct x as [s | s | | s m e h] eqn:Ex; destruct y as [s' | s' | | s' m' e' h'] eqn:Ey; try (split; reflexivity); try (destruct s, s'; split; reflexivity).
    rewrite <- Ex, <- Ey. assert (Fx : fin x) by (subst; reflexivity). assert (Y0 : val y <> 0) by (rewrite Ey; cbn; intro Z; apply eq_0_F2R in Z; destruct s'; discriminate Z).
    assert (Fy : fin y) by (subst; reflexivity). clear Ex Ey.
    assert (NN : forall z : bf, fin z -> is_nan z = false) by (intros z Fz; destruct z; try discriminate Fz; reflexivity).
    pose proof (Bdiv_correct prec emax Hp Hm mode_NE x y Y0) as B. change (round_mode mode_NE) with ZnearestE in B. rewrite Fx in B.
    split.
    - pose proof (Bdiv_correct prec emax Hp Hm mode_NE (Bopp x) y Y0) as A. change (round_mode mode_NE) with ZnearestE in A.
      rewrite B2R_Bopp in A. replace (- val x / val y) with (- (val x / val y)) in A by (field; exact Y0). rewrite (rnd_opp prec emax), Rabs_Ropp, is_finite_Bopp, Fx in A. rewrite Bsign_Bopp in A by (apply NN; exact Fx).
      destruct (Rlt_bool _ _).
      + destruct A as (VA & FA & SA), B as (VB & FB & SB). apply B2R_Bsign_inj; [exact FA | rewrite is_finite_Bopp; exact FB | rewrite B2R_Bopp; congruence |].
        rewrite Bsign_Bopp by (apply NN; exact FB). rewrite SA, SB by (apply NN; assumption). destruct (Bsign x), (Bsign y); reflexivity.
      + apply inf_of in A, B. rewrite A, B. cbn. f_equal. destruct (Bsign x), (Bsign y); reflexivity.
    - pose proof (Bdiv_correct prec emax Hp Hm mode_NE x (Bopp y)) as A. rewrite B2R_Bopp in A. specialize (A ltac:(lra)). change (round_mode mode_NE) with ZnearestE in A.
      replace (val x / - val y) with (- (val x / val y)) in A by (field; exact Y0). rewrite (rnd_opp prec emax), Rabs_Ropp, Fx in A. rewrite Bsign_Bopp in A by (apply NN; exact Fy).
      destruct (Rlt_bool _ _).
      + destruct A as (VA & FA & SA), B as (VB & FB & SB). apply B2R_Bsign_inj; [exact FA | rewrite is_finite_Bopp; exact FB | rewrite B2R_Bopp; congruence |].
        rewrite Bsign_Bopp by (apply NN; exact FB). rewrite SA, SB by (apply NN; assumption). destruct (Bsign x), (Bsign y); reflexivity.
      + apply inf_of in A, B. rewrite A, B. cbn. f_equal. destruct (Bsign x), (Bsign y); reflexivity.
  Qed.
  Lemma div_sgn b c (x y : bf) : Bdiv mode_NE (sgn b x) (sgn c y) = sgn (xorb b c) (Bdiv mode_NE x y).
  Proof. destruct b, c; cbn; rewrite ?(proj1 (div_opps _ _)), ?(proj2 (div_opps _ _)), ?opp_opp; reflexivity. Qed.
  Lemma plus_opp (x y : bf) : zr (Bplus mode_NE (Bopp x) (Bopp y)) = zr (Bopp (Bplus mode_NE x y)).
  Proof.
    destruct x as [s | s | | s m e h] eqn:Ex; destruct y as [s' | s' | | s' m' e' h'] eqn:Ey; try reflexivity; try (destruct s, s'; reflexivity).
    rewrite <- Ex, <- Ey. assert (Fx : fin x) by (subst; reflexivity). assert (Fy : fin y) by (subst; reflexivity). clear Ex Ey.
    assert (NN : forall z : bf, fin z -> is_nan z = false) by (intros z Fz; destruct z; try discriminate Fz; reflexivity).
    assert (Fx' : fin (Bopp x)) by (rewrite is_finite_Bopp; exact Fx). assert (Fy' : fin (Bopp y)) by (rewrite is_finite_Bopp; exact Fy).
    pose proof (Bplus_correct prec emax Hp Hm mode_NE (Bopp x) (Bopp y) Fx' Fy') as A. pose proof (Bplus_correct prec emax Hp Hm mode_NE x y Fx Fy) as B. change (round_mode mode_NE) with ZnearestE in A, B.
    rewrite !B2R_Bopp in A. replace (- val x + - val y) with (- (val x + val y)) in A by ring. rewrite (rnd_opp prec emax), Rabs_Ropp in A. rewrite !Bsign_Bopp in A by (apply NN; assumption).
    destruct (Rlt_bool _ _).
    - destruct A as (VA & FA & _), B as (VB & FB & _). apply zr_fin; [exact FA | rewrite is_finite_Bopp; exact FB | rewrite B2R_Bopp; congruence].
    - destruct A as [A _], B as [B _]. apply inf_of in A, B. rewrite A, B. reflexivity.
  Qed.
  Lemma zr_cases (x y : bf) : zr x = zr y -> x = y \/ (exists s t, x = B754_zero s /\ y = B754_zero t).
  Proof. intro H. destruct x, y; cbn in H; try discriminate H; try (left; exact H). right. do 2 eexists. split; reflexivity. Qed.
  Lemma plus_zr (x x' y y' : bf) : zr x = zr x' -> zr y = zr y' -> zr (Bplus mode_NE x y) = zr (Bplus mode_NE x' y').
  Proof.
    intros Hx Hy. destruct (zr_cases _ _ Hx) as [-> | (s & t & -> & ->)], (zr_cases _ _ Hy) as [-> | (s' & t' & -> & ->)]; [reflexivity | | |].
    - destruct x' as [b | b | | b m e h]; try reflexivity. destruct b, s', t'; reflexivity.
    - destruct y' as [b | b | | b m e h]; try reflexivity. destruct b, s, t; reflexivity.
    - destruct s, t, s', t'; reflexivity.
  Qed.
  Lemma mult_zr (x x' y y' : bf) : zr x = zr x' -> zr y = zr y' -> zr (Bmult mode_NE x y) = zr (Bmult mode_NE x' y').
  Proof.
    intros Hx Hy. destruct (zr_cases _ _ Hx) as [-> | (s & t & -> & ->)], (zr_cases _ _ Hy) as [-> | (s' & t' & -> & ->)]; [reflexivity | | |].
    - destruct x' as [b | b | | b m e h]; reflexivity.
    - destruct y' as [b | b | | b m e h]; reflexivity.
    - reflexivity.
  Qed.
  Lemma div_zr (x x' y : bf) : zr x = zr x' -> zr (Bdiv mode_NE x y) = zr (Bdiv mode_NE x' y).
  Proof. intros Hx. destruct (zr_cases _ _ Hx) as [-> | (s & t & -> & ->)]; [reflexivity |]. destruct y as [b | b | | b m e h]; reflexivity. Qed.
  Lemma sqrt_zr (x x' : bf) : zr x = zr x' -> zr (Bsqrt mode_NE x) = zr (Bsqrt mode_NE x').
  Proof. intros Hx. destruct (zr_cases _ _ Hx) as [-> | (s & t & -> & ->)]; reflexivity. Qed.
  Lemma cmp_zr (x x' y y' : bf) : zr x = zr x' -> zr y = zr y' -> Bcompare x y = Bcompare x' y'.
  Proof.
    intros Hx Hy. destruct (zr_cases _ _ Hx) as [-> | (s & t & -> & ->)], (zr_cases _ _ Hy) as [-> | (s' & t' & -> & ->)]; [reflexivity | | |].
    - destruct x' as [b | b | | b m e h]; reflexivity.
    - destruct y' as [b | b | | b m e h]; reflexivity.
    - reflexivity.
  Qed.
  Lemma cmp_opp (x y : bf) : Bcompare (Bopp x) (Bopp y) = Bcompare y x.
  Proof.
    destruct x as [s | s | | s m e h] eqn:Ex; destruct y as [s' | s' | | s' m' e' h'] eqn:Ey; try reflexivity; try (destruct s, s'; reflexivity).
    rewrite <- Ex, <- Ey. rewrite !Bcompare_correct by (subst; reflexivity). rewrite !B2R_Bopp. f_equal. apply Rcompare_opp.
  Qed.
End Mirror.
