(** FloatRound.v — one IEEE operation equals the rounded exact one; rounding errors. *)
From Coq Require Import Reals ZArith Bool Lra Lia.
From Flocq Require Import Core BinarySingleNaN.
From Verif Require Import Base Num Float Exact FloatFacts.
Local Open Scope R_scope.

Section FloatRound.
  Context (prec emax : Z) {Hp : Prec_gt_0 prec} {Hm : Prec_lt_emax prec emax}.
  Notation bf := (binary_float prec emax).
  Notation fmt := (SpecFloat.fexp prec emax).
  Notation rnd := (round radix2 fmt ZnearestE).
  Notation big := (bpow radix2 emax).

  Lemma SFovf_inf s : binary_overflow prec emax mode_NE s = SpecFloat.S754_infinity s.
  Proof. reflexivity. Qed.
  Lemma plus_round (x y : bf) : is_finite x = true -> is_finite y = true ->
    (Rabs (rnd (B2R x + B2R y)) < big -> fv prec emax (Bplus mode_NE x y) (rnd (B2R x + B2R y))) /\
    (is_finite (Bplus mode_NE x y) = true -> Rabs (rnd (B2R x + B2R y)) < big).
  Proof.
    intros Fx Fy. pose proof (Bplus_correct prec emax Hp Hm mode_NE x y Fx Fy) as Q.
    change (round_mode mode_NE) with ZnearestE in Q. split; intro H.
    - rewrite (Rlt_bool_true _ _ H) in Q. destruct Q as [Q1 [Q2 _]]. split; assumption.
    - destruct (Rlt_bool_spec (Rabs (rnd (B2R x + B2R y))) big) as [Hl | Hl]; [exact Hl |].
      destruct Q as [Q _]. rewrite SFovf_inf in Q.
      destruct (Bplus mode_NE x y); discriminate.
  Qed.
  Lemma minus_round (x y : bf) : is_finite x = true -> is_finite y = true ->
    (Rabs (rnd (B2R x - B2R y)) < big -> fv prec emax (Bminus mode_NE x y) (rnd (B2R x - B2R y))) /\
    (is_finite (Bminus mode_NE x y) = true -> Rabs (rnd (B2R x - B2R y)) < big).
  Proof.
    intros Fx Fy. pose proof (Bminus_correct prec emax Hp Hm mode_NE x y Fx Fy) as Q.
    change (round_mode mode_NE) with ZnearestE in Q. split; intro H.
    - rewrite (Rlt_bool_true _ _ H) in Q. destruct Q as [Q1 [Q2 _]]. split; assumption.
    - destruct (Rlt_bool_spec (Rabs (rnd (B2R x - B2R y))) big) as [Hl | Hl]; [exact Hl |].
      destruct Q as [Q _]. rewrite SFovf_inf in Q.
      destruct (Bminus mode_NE x y); discriminate.
  Qed.
  Lemma mult_round (x y : bf) : is_finite x = true -> is_finite y = true ->
    (Rabs (rnd (B2R x * B2R y)) < big -> fv prec emax (Bmult mode_NE x y) (rnd (B2R x * B2R y))) /\
    (is_finite (Bmult mode_NE x y) = true -> Rabs (rnd (B2R x * B2R y)) < big).
  Proof.
    intros Fx Fy. pose proof (Bmult_correct prec emax Hp Hm mode_NE x y) as Q.
    change (round_mode mode_NE) with ZnearestE in Q. split; intro H.
    - rewrite (Rlt_bool_true _ _ H) in Q. destruct Q as [Q1 [Q2 _]]. rewrite Fx, Fy in Q2. split; assumption.
    - destruct (Rlt_bool_spec (Rabs (rnd (B2R x * B2R y))) big) as [Hl | Hl]; [exact Hl |].
      rewrite SFovf_inf in Q. destruct (Bmult mode_NE x y); discriminate.
  Qed.
  Lemma div_round (x y : bf) : is_finite x = true -> B2R y <> 0 ->
    (Rabs (rnd (B2R x / B2R y)) < big -> fv prec emax (Bdiv mode_NE x y) (rnd (B2R x / B2R y))) /\
    (is_finite (Bdiv mode_NE x y) = true -> Rabs (rnd (B2R x / B2R y)) < big).
  Proof.
    intros Fx Ny. pose proof (Bdiv_correct prec emax Hp Hm mode_NE x y Ny) as Q.
    change (round_mode mode_NE) with ZnearestE in Q. split; intro H.
    - rewrite (Rlt_bool_true _ _ H) in Q. destruct Q as [Q1 [Q2 _]]. rewrite Fx in Q2. split; assumption.
    - destruct (Rlt_bool_spec (Rabs (rnd (B2R x / B2R y))) big) as [Hl | Hl]; [exact Hl |].
      rewrite SFovf_inf in Q. destruct (Bdiv mode_NE x y); discriminate.
  Qed.

  (** doubling keeps a number representable *)
  Lemma fmt_double (x : bf) : generic_format radix2 fmt (2 * B2R x).
  Proof.
    pose proof (generic_format_B2R prec emax x) as G.
    destruct (Req_dec (B2R x) 0) as [-> | Hx]; [rewrite Rmult_0_r; apply generic_format_0 |].
    apply generic_format_FLT. apply FLT_format_generic in G; [| exact Hp]. destruct G as [[m e] G1 G2 G3].
    exists (Float radix2 m (e + 1)); simpl in *; [| assumption | lia].
    rewrite G1. unfold F2R. cbn [Fnum Fexp]. rewrite bpow_plus. change (bpow radix2 1) with 2. ring.
  Qed.
  Lemma rnd_double (x : bf) : rnd (2 * B2R x) = 2 * B2R x.
  Proof. apply round_generic; [apply valid_rnd_N | apply fmt_double]. Qed.

  (** half of the rounded sum lies between the operands *)
  Lemma half_sum (x y t : bf) : is_finite x = true -> is_finite y = true -> B2R x <= B2R y -> fv prec emax t 2 ->
    is_finite (Bplus mode_NE x y) = true ->
    let c := Bdiv mode_NE (Bplus mode_NE x y) t in
    is_finite c = true /\ B2R x <= B2R c <= B2R y /\ B2R c = rnd (rnd (B2R x + B2R y) / 2).
  Proof.
    intros Fx Fy Hxy [Ft Vt] Fs c. destruct (plus_round x y Fx Fy) as [P1 P2]. specialize (P1 (P2 Fs)). destruct P1 as [_ Vs].
    assert (Nt : B2R t <> 0) by lra. destruct (div_round (Bplus mode_NE x y) t Fs Nt) as [D1 _].
    rewrite Vs, Vt in D1.
    assert (L1 : 2 * B2R x <= rnd (B2R x + B2R y)) by (rewrite <- (rnd_double x); apply rnd_le; [exact Hp |]; lra).
    assert (L2 : rnd (B2R x + B2R y) <= 2 * B2R y) by (rewrite <- (rnd_double y); apply rnd_le; [exact Hp |]; lra).
    assert (M1 : B2R x <= rnd (rnd (B2R x + B2R y) / 2)) by (rewrite <- (rnd_B2R prec emax x) at 1; apply rnd_le; [exact Hp |]; lra).
    assert (M2 : rnd (rnd (B2R x + B2R y) / 2) <= B2R y) by (rewrite <- (rnd_B2R prec emax y) at 2; apply rnd_le; [exact Hp |]; lra).
    destruct D1 as [Fc Vc].
    - pose proof (B2R_lt_emax prec emax x) as Bx. pose proof (B2R_lt_emax prec emax y) as By.
      apply Rabs_def2 in Bx. apply Rabs_def2 in By. apply Rabs_def1; lra.
    - subst c. rewrite Vc. split; [exact Fc | split; [lra | reflexivity]].
  Qed.
End FloatRound.
