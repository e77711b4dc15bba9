(** FloatFacts.v — facts about the IEEE instance: commutativity, the order embedding into extended reals, special
    values, exact operations, literals. *)
From Coq Require Import ZArith Bool Reals Lra Lia Psatz.
From Flocq Require Import Core BinarySingleNaN.
From Verif Require Import Base Num Float Exact.
Local Open Scope R_scope.

Section FloatFacts.
  Context (prec emax : Z) {Hp : Prec_gt_0 prec} {Hm : Prec_lt_emax prec emax}.
  Notation bf := (binary_float prec emax).
  Notation rnd := (round radix2 (SpecFloat.fexp prec emax) ZnearestE).

  (** ---- commutativity, bit for bit ---- *)
  Lemma SF2B_eq x y Hx Hy : x = y -> @SF2B prec emax x Hx = SF2B y Hy.
  Proof. intros ->. apply B2SF_inj. rewrite !B2SF_SF2B. reflexivity. Qed.

  Lemma Bmult_comm (x y : bf) : Bmult mode_NE x y = Bmult mode_NE y x.
  Proof.
    destruct x as [sx | sx | | sx mx ex Hx], y as [sy | sy | | sy my ey Hy]; simpl;
      try (rewrite xorb_comm); try reflexivity.
    apply SF2B_eq. rewrite (Pos.mul_comm mx), (Z.add_comm ex), (xorb_comm sy). reflexivity.
  Qed.

  Lemma Bplus_comm (x y : bf) : Bplus mode_NE x y = Bplus mode_NE y x.
  Proof.
    destruct x as [sx | sx | | sx mx ex Hx], y as [sy | sy | | sy my ey Hy]; simpl;
      try reflexivity; try (destruct sx, sy; reflexivity).
    rewrite (Z.min_comm ey). f_equal. unfold Fplus_naive. apply Z.add_comm.
  Qed.

  Lemma Bminus_plus (x y : bf) : Bminus mode_NE x y = Bplus mode_NE x (Bopp y).
  Proof. destruct x, y; reflexivity. Qed.

  (** ---- order embedding ---- *)
  Definition b2x (x : bf) : XR :=
    match x with
    | B754_zero _ => Fin 0
    | B754_infinity false => PInf
    | B754_infinity true => NInf
    | B754_nan => NaN
    | B754_finite _ _ _ _ => Fin (B2R x)
    end.

  Lemma b2x_finite x : is_finite x = true -> b2x x = Fin (B2R x).
  Proof. destruct x; simpl; intro; try discriminate; reflexivity. Qed.
  Lemma b2x_fin_inv x r : b2x x = Fin r -> is_finite x = true /\ B2R x = r.
  Proof. destruct x as [s | [] | | s m e H]; simpl; intro Q; try discriminate; inversion Q; split; reflexivity. Qed.
  Lemma b2x_nan x : b2x x = NaN <-> x = B754_nan.
  Proof. destruct x as [s | [] | | s m e H]; simpl; split; intro Q; try discriminate; reflexivity. Qed.

  Lemma Rcompare_xcmp a b : Some (Rcompare a b) = xcmp (Fin a) (Fin b).
  Proof.
    simpl. destruct (Rcompare_spec a b) as [H | H | H]; destruct (Rlt_dec a b), (Rlt_dec b a); try reflexivity; exfalso; lra.
  Qed.

  Lemma Bcompare_xcmp x y : Bcompare x y = xcmp (b2x x) (b2x y).
  Proof.
    destruct (is_finite x) eqn:Fx; [destruct (is_finite y) eqn:Fy |].
    - rewrite Bcompare_correct by assumption. rewrite !b2x_finite by assumption. apply Rcompare_xcmp.
    - rewrite (b2x_finite x Fx). destruct y as [s | [] | | s m e H]; try discriminate; destruct x as [? | [] | | [] ? ? ?]; try discriminate; reflexivity.
    - destruct x as [s | [] | | s m e H]; try discriminate; destruct y as [? | [] | | [] ? ? ?]; reflexivity.
  Qed.

  (** ---- rounding ---- *)
  Lemma rnd_B2R (x : bf) : rnd (B2R x) = B2R x.
  Proof. apply round_generic; [apply valid_rnd_N | apply generic_format_B2R]. Qed.
  Lemma B2R_lt_emax (x : bf) : Rabs (B2R x) < bpow radix2 emax.
  Proof. apply abs_B2R_lt_emax. Qed.
  Lemma no_ovf (x : bf) : Rlt_bool (Rabs (rnd (B2R x))) (bpow radix2 emax) = true.
  Proof. rewrite rnd_B2R. apply Rlt_bool_true, B2R_lt_emax. Qed.

  Lemma rnd_le a b : a <= b -> rnd a <= rnd b.
  Proof. apply round_le; [apply fexp_correct; exact Hp | apply valid_rnd_N]. Qed.
  Lemma rnd_opp a : rnd (- a) = - rnd a.
  Proof. apply round_NE_opp. Qed.

  (** a finite float with value [r] *)
  Definition fv (x : bf) (r : R) : Prop := is_finite x = true /\ B2R x = r.
  Lemma fv_b2x x r : fv x r <-> b2x x = Fin r.
  Proof.
    split.
    - intros [H1 H2]. rewrite b2x_finite by assumption. rewrite H2. reflexivity.
    - apply b2x_fin_inv.
  Qed.

  Lemma fv_plus_exact (x y z : bf) : is_finite x = true -> is_finite y = true -> B2R x + B2R y = B2R z ->
    fv (Bplus mode_NE x y) (B2R z).
  Proof.
    intros Fx Fy H. pose proof (Bplus_correct prec emax Hp Hm mode_NE x y Fx Fy) as Q. rewrite H in Q.
    change (round_mode mode_NE) with ZnearestE in Q. rewrite no_ovf in Q. destruct Q as [Q1 [Q2 _]].
    split; [exact Q2 | rewrite Q1; apply rnd_B2R].
  Qed.
  Lemma fv_mult_exact (x y z : bf) : is_finite x = true -> is_finite y = true -> B2R x * B2R y = B2R z ->
    fv (Bmult mode_NE x y) (B2R z).
  Proof.
    intros Fx Fy H. pose proof (Bmult_correct prec emax Hp Hm mode_NE x y) as Q. rewrite H in Q.
    change (round_mode mode_NE) with ZnearestE in Q. rewrite no_ovf in Q. destruct Q as [Q1 [Q2 _]].
    split; [rewrite Q2, Fx, Fy; reflexivity | rewrite Q1; apply rnd_B2R].
  Qed.
  Lemma fv_div_exact (x y z : bf) : is_finite x = true -> B2R y <> 0 -> B2R x / B2R y = B2R z ->
    fv (Bdiv mode_NE x y) (B2R z).
  Proof.
    intros Fx Ny H. pose proof (Bdiv_correct prec emax Hp Hm mode_NE x y Ny) as Q. rewrite H in Q.
    change (round_mode mode_NE) with ZnearestE in Q. rewrite no_ovf in Q. destruct Q as [Q1 [Q2 _]].
    split; [rewrite Q2; assumption | rewrite Q1; apply rnd_B2R].
  Qed.

  (** ---- literals ---- *)
  Lemma f_int_exact p (z : bf) : IZR p = B2R z -> fv (@f_int prec emax Hp Hm p) (IZR p).
  Proof.
    intro H. unfold f_int.
    pose proof (binary_normalize_correct prec emax Hp Hm mode_NE p 0 false) as Q. cbv zeta in Q.
    assert (HF : F2R (Float radix2 p 0) = IZR p) by (unfold F2R; simpl; ring).
    rewrite HF, H in Q. change (round_mode mode_NE) with ZnearestE in Q. rewrite no_ovf in Q.
    destruct Q as [Q1 [Q2 _]]. split; [exact Q2 | rewrite Q1, rnd_B2R; symmetry; exact H].
  Qed.
  Lemma fv_int0 : fv (@f_int prec emax Hp Hm 0) 0.
  Proof. apply (f_int_exact 0 (B754_zero false)). reflexivity. Qed.
  Lemma fv_int1 : fv (@f_int prec emax Hp Hm 1) 1.
  Proof. apply (f_int_exact 1 (@Bone prec emax Hp Hm)). rewrite Bone_correct. reflexivity. Qed.
  Lemma fv_int2 : fv (@f_int prec emax Hp Hm 2) 2.
  Proof.
    assert (Hpp : (0 < prec)%Z) by exact Hp. assert (Hmm : (prec < emax)%Z) by exact Hm.
    unfold f_int.
    pose proof (binary_normalize_correct prec emax Hp Hm mode_NE 2 0 false) as Q. cbv zeta in Q.
    assert (HF : F2R (Float radix2 2 0) = bpow radix2 1) by (unfold F2R; cbn; lra).
    rewrite HF in Q. change (round_mode mode_NE) with ZnearestE in Q.
    assert (HG : rnd (bpow radix2 1) = bpow radix2 1).
    { apply round_generic; [apply valid_rnd_N |]. apply generic_format_bpow. unfold SpecFloat.fexp, SpecFloat.emin. lia. }
    rewrite HG in Q. rewrite Rlt_bool_true in Q.
    - destruct Q as [Q1 [Q2 _]]. split; [exact Q2 | rewrite Q1; reflexivity].
    - rewrite Rabs_pos_eq by apply bpow_ge_0. apply bpow_lt. lia.
  Qed.
  Lemma fv_lit1 p : fv (@f_int prec emax Hp Hm p) (IZR p) -> fv (@f_lit prec emax Hp Hm p 1) (IZR p).
  Proof.
    intros [H1 H2]. destruct fv_int1 as [G1 G2]. unfold f_lit. rewrite <- H2.
    apply fv_div_exact; [exact H1 | rewrite G2; lra | rewrite G2; field].
  Qed.
  Lemma fv_lit_0 : fv (@f_lit prec emax Hp Hm 0 1) 0. Proof. apply (fv_lit1 0), fv_int0. Qed.
  Lemma fv_lit_1 : fv (@f_lit prec emax Hp Hm 1 1) 1. Proof. apply (fv_lit1 1), fv_int1. Qed.
  Lemma fv_lit_2 : fv (@f_lit prec emax Hp Hm 2 1) 2. Proof. apply (fv_lit1 2), fv_int2. Qed.

  (** the zero literal is positive zero *)
  Lemma lit_zero : @f_lit prec emax Hp Hm 0 1 = B754_zero false.
  Proof.
    unfold f_lit. change (@f_int prec emax Hp Hm 0) with (B754_zero false : bf).
    destruct fv_int1 as [G1 G2]. pose proof (binary_normalize_correct prec emax Hp Hm mode_NE 1 0 false) as Q. cbv zeta in Q.
    destruct (@f_int prec emax Hp Hm 1) as [s | s | | s m e H] eqn:Ei; simpl in G1, G2; try discriminate; try lra.
    simpl. f_equal. destruct s; [|reflexivity]. exfalso.
    assert (F2R (Float radix2 (cond_Zopp true (Z.pos m)) e) < 0) by (apply F2R_lt_0; reflexivity).
    simpl in *. lra.
  Qed.

  (** ---- the exact arithmetic of a literal: division of two exactly represented integers, correctly rounded ---- *)
  Lemma lit_correct p q : fv (@f_int prec emax Hp Hm p) (IZR p) -> fv (@f_int prec emax Hp Hm (Zpos q)) (IZR (Zpos q)) ->
    Rabs (rnd (IZR p / IZR (Zpos q))) < bpow radix2 emax ->
    fv (@f_lit prec emax Hp Hm p q) (rnd (IZR p / IZR (Zpos q))).
  Proof.
    intros [H1 H2] [G1 G2] Ho. unfold f_lit.
    assert (Hq : B2R (@f_int prec emax Hp Hm (Zpos q)) <> 0) by (rewrite G2; apply not_0_IZR; discriminate).
    pose proof (Bdiv_correct prec emax Hp Hm mode_NE (f_int prec emax p) (f_int prec emax (Zpos q)) Hq) as Q.
    rewrite H2, G2 in Q. change (round_mode mode_NE) with ZnearestE in Q.
    rewrite Rlt_bool_true in Q by exact Ho. destruct Q as [Q1 [Q2 _]]. split; [rewrite Q2; exact H1 | exact Q1].
  Qed.
End FloatFacts.

(** ---- the instance ---- *)
Section IeeeFacts.
  Context (prec emax : Z) {Hp : Prec_gt_0 prec} {Hm : Prec_lt_emax prec emax} (lm : libm (binary_float prec emax)).
  Notation F := (@Ieee prec emax Hp Hm lm).

  Lemma ncmp_F (a b : F) : ncmp F a b = xcmp (b2x prec emax a) (b2x prec emax b).
  Proof. apply Bcompare_xcmp. Qed.
  Lemma nmul_comm_F (a b : F) : nmul F a b = nmul F b a. Proof. apply Bmult_comm. Qed.
  Lemma nadd_comm_F (a b : F) : nadd F a b = nadd F b a. Proof. apply Bplus_comm. Qed.
End IeeeFacts.

(** All literals of the library: numerators and denominators are exact in f64; in f32 all but 10^11. *)
Lemma fv_int_check prec emax {Hp : Prec_gt_0 prec} {Hm : Prec_lt_emax prec emax} p s m e :
  B2SF (@f_int prec emax Hp Hm p) = SpecFloat.S754_finite s m e ->
  F2R (Float radix2 (cond_Zopp s (Zpos m)) e) = IZR p -> fv prec emax (@f_int prec emax Hp Hm p) (IZR p).
Proof.
  intros H1 H2. split.
  - rewrite <- is_finite_SF_B2SF, H1. reflexivity.
  - rewrite <- SF2R_B2SF, H1. exact H2.
Qed.

Lemma f_int_fmt prec emax {Hp : Prec_gt_0 prec} {Hm : Prec_lt_emax prec emax} p m k :
  (p = m * 2 ^ k)%Z -> (0 <= k)%Z -> (Z.abs m < 2 ^ prec)%Z -> (Z.abs p < 2 ^ emax)%Z ->
  fv prec emax (@f_int prec emax Hp Hm p) (IZR p).
Proof.
  intros Hpe Hk Hmm Hpp. assert (Hp0 : (0 < prec)%Z) by exact Hp. assert (Hm0 : (prec < emax)%Z) by exact Hm.
  unfold f_int.
  pose proof (binary_normalize_correct prec emax Hp Hm mode_NE p 0 false) as Q. cbv zeta in Q.
  assert (HF : F2R (Float radix2 p 0) = IZR p) by (unfold F2R; simpl; ring).
  assert (HF2 : F2R (Float radix2 m k) = IZR p).
  { unfold F2R. simpl. rewrite Hpe, mult_IZR. f_equal. rewrite <- (IZR_Zpower radix2) by lia. reflexivity. }
  rewrite HF in Q. change (round_mode mode_NE) with ZnearestE in Q.
  assert (HG : round radix2 (SpecFloat.fexp prec emax) ZnearestE (IZR p) = IZR p).
  { apply round_generic; [apply valid_rnd_N |]. change (SpecFloat.fexp prec emax) with (FLT_exp (SpecFloat.emin prec emax) prec).
    apply generic_format_FLT. exists (Float radix2 m k); [symmetry; exact HF2 | exact Hmm | unfold SpecFloat.emin; cbn [Fexp]; lia]. }
  rewrite HG in Q. rewrite Rlt_bool_true in Q.
  - destruct Q as [Q1 [Q2 _]]. split; assumption.
  - rewrite <- abs_IZR. rewrite <- IZR_Zpower by lia. apply IZR_lt. exact Hpp.
Qed.

(** every literal of the library is the correctly rounded decimal, in f64 and (1e-11 apart, next lemma) in f32 *)
Lemma lit_ok prec emax {Hp : Prec_gt_0 prec} {Hm : Prec_lt_emax prec emax} p q :
  (Z.abs p <= Zpos q \/ q = xH)%Z ->
  fv prec emax (@f_int prec emax Hp Hm p) (IZR p) -> fv prec emax (@f_int prec emax Hp Hm (Zpos q)) (IZR (Zpos q)) ->
  fv prec emax (@f_lit prec emax Hp Hm p q)
     (round radix2 (SpecFloat.fexp prec emax) ZnearestE (IZR p / IZR (Zpos q))).
Proof.
  intros Hc H1 H2. destruct Hc as [Hc | ->].
  - apply lit_correct; try assumption.
    apply Rle_lt_trans with 1.
    + assert (HG : round radix2 (SpecFloat.fexp prec emax) ZnearestE 1 = 1).
      { rewrite <- (Bone_correct prec emax Hp Hm). apply rnd_B2R. }
      assert (Hq : 0 < IZR (Zpos q)) by (apply IZR_lt; reflexivity).
      assert (Hab : Rabs (IZR p / IZR (Z.pos q)) <= 1).
      { unfold Rdiv. rewrite Rabs_mult, Rabs_inv, <- !abs_IZR. change (Z.abs (Zpos q)) with (Zpos q).
        apply Rmult_le_reg_r with (IZR (Zpos q)); [exact Hq |]. field_simplify; [apply IZR_le; exact Hc | lra]. }
      apply Rabs_le. apply Rabs_le_inv in Hab. split.
      * pose proof (rnd_le prec emax (- (1)) (IZR p / IZR (Z.pos q)) ltac:(lra)) as HL. rewrite rnd_opp, HG in HL. exact HL.
      * pose proof (rnd_le prec emax (IZR p / IZR (Z.pos q)) 1 ltac:(lra)) as HL. rewrite HG in HL. exact HL.
    + change 1 with (bpow radix2 0). apply bpow_lt. assert (Hq0 : (0 < prec)%Z) by exact Hp. assert (Hq1 : (prec < emax)%Z) by exact Hm. lia.
  - replace (IZR p / IZR 1) with (IZR p) by (simpl; field). destruct H1 as [H1 H1'].
    pose proof (rnd_B2R prec emax (@f_int prec emax Hp Hm p)) as HR. rewrite H1' in HR. rewrite HR.
    apply fv_lit1. split; assumption.
Qed.

Definition lib_literals : list (Z * positive) :=
  ((0%Z, 1%positive) :: (1%Z, 1%positive) :: (2%Z, 1%positive) :: (180%Z, 1%positive) :: (1%Z, 2%positive)
  :: (1%Z, 10000%positive) :: (9999%Z, 10000%positive) :: (1%Z, 1000000%positive) :: (1%Z, 10000000000%positive) :: nil)%list.
Ltac litok :=
  repeat match goal with
  | H : List.In _ nil |- _ => destruct H
  | H : List.In _ _ |- _ => destruct H as [H | H]; [injection H as <- <-; apply lit_ok; [lia | ..] |]
  end.
Lemma lits_f64 p q : List.In (p, q) ((1%Z, 100000000000%positive) :: lib_literals)%list ->
  fv 53 1024 (@f_lit 53 1024 f64_prec_gt_0 f64_prec_lt_emax p q)
    (round radix2 (SpecFloat.fexp 53 1024) ZnearestE (IZR p / IZR (Zpos q))).
Proof. unfold lib_literals. intro H. litok; (eapply f_int_fmt with (k := 0%Z); [rewrite Z.mul_1_r; reflexivity | lia | reflexivity | reflexivity]). Qed.
Lemma lits_f32 p q : List.In (p, q) lib_literals ->
  fv 24 128 (@f_lit 24 128 f32_prec_gt_0 f32_prec_lt_emax p q)
    (round radix2 (SpecFloat.fexp 24 128) ZnearestE (IZR p / IZR (Zpos q))).
Proof.
  unfold lib_literals. intro H. litok;
    first [ eapply f_int_fmt with (k := 0%Z); [rewrite Z.mul_1_r; reflexivity | lia | reflexivity | reflexivity]
          | eapply f_int_fmt with (m := 9765625%Z) (k := 10%Z); [reflexivity | lia | reflexivity | reflexivity] ].
Qed.
Lemma lit_1em11_f32 :
  fv 24 128 (@f_lit 24 128 f32_prec_gt_0 f32_prec_lt_emax 1 100000000000)
    (round radix2 (SpecFloat.fexp 24 128) ZnearestE (1 / 100000000000)).
Proof.
  assert (Hs : B2SF (@f_lit 24 128 f32_prec_gt_0 f32_prec_lt_emax 1 100000000000) = SpecFloat.S754_finite false 11529215 (-60))
    by (vm_compute; reflexivity).
  split; [rewrite <- is_finite_SF_B2SF, Hs; reflexivity |].
  rewrite <- SF2R_B2SF, Hs. cbn [SF2R cond_Zopp]. unfold round.
  assert (Hmag : mag radix2 (1 / 100000000000) = (-36)%Z :> Z).
  { apply mag_unique_pos. cbn. lra. }
  assert (Hc : cexp radix2 (SpecFloat.fexp 24 128) (1 / 100000000000) = (-60)%Z).
  { unfold cexp. rewrite Hmag. reflexivity. }
  rewrite Hc. f_equal. f_equal. symmetry. apply Znearest_imp.
  unfold scaled_mantissa. rewrite Hc. cbn. apply Rabs_def1; lra.
Qed.
