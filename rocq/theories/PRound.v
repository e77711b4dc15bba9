(** PRound.v — rounding errors of sums of products, magnitudes and normalised vectors in IEEE arithmetic. *)
From Coq Require Import Reals ZArith NArith Bool Lra Lia Psatz.
From Flocq Require Import Core BinarySingleNaN Relative Plus_error.
From Verif Require Import Base Num Float Exact FloatFacts FloatRound SpecRound.
Local Open Scope R_scope.

Section Round.
  Context (prec emax : Z) {Hp : Prec_gt_0 prec} {Hm : Prec_lt_emax prec emax}.
  Notation bf := (binary_float prec emax).
  Notation fmt := (SpecFloat.fexp prec emax).
  Notation rnd := (round radix2 fmt ZnearestE).
  Notation big := (bpow radix2 emax).
  Notation u := (uro prec).
  Notation et := (eta prec emax).

  Lemma u_pos : 0 < u.
  Proof. apply bpow_gt_0. Qed.
  Lemma u_half : u <= / 2.
  Proof. unfold uro. change (/ 2) with (bpow radix2 (-1)). apply bpow_le. unfold Prec_gt_0 in Hp. lia. Qed.
  Lemma et_pos : 0 < et.
  Proof. apply bpow_gt_0. Qed.
  Lemma u_ro_eq : u_ro radix2 prec = u.
  Proof. unfold u_ro, uro. rewrite bpow_plus. change (bpow radix2 1) with 2. field. Qed.
  Lemma half_emin : / 2 * bpow radix2 (3 - emax - prec) = et.
  Proof.
    unfold eta. replace (3 - emax - prec)%Z with ((2 - emax - prec) + 1)%Z by lia. rewrite bpow_plus.
    change (bpow radix2 1) with 2. field.
  Qed.

  (** ---- one operation ---- *)
  Lemma rnd_err x : exists e h, Rabs e <= u /\ Rabs h <= et /\ rnd x = x * (1 + e) + h.
  Proof.
    destruct (error_N_FLT radix2 (3 - emax - prec) prec Hp (fun t => negb (Z.even t)) x) as (e & h & He & Hh & _ & E).
    exists e, h. rewrite half_emin in Hh. split; [| split; [exact Hh | exact E]].
    fold (u_ro radix2 prec) in He. rewrite u_ro_eq in He. exact He.
  Qed.
  Lemma rnd_err_sum x y : generic_format radix2 fmt x -> generic_format radix2 fmt y ->
    exists e, Rabs e <= u /\ rnd (x + y) = (x + y) * (1 + e).
  Proof.
    intros Fx Fy.
    destruct (FLT_plus_error_N_ex radix2 (3 - emax - prec) prec (fun t => negb (Z.even t)) x y Fx Fy) as (e & He & E).
    exists e. split; [| exact E]. eapply Rle_trans; [exact He |].
    rewrite <- u_ro_eq. apply u_rod1pu_ro_le_u_ro.
  Qed.
  Lemma plus_fin (x y : bf) : is_finite (Bplus mode_NE x y) = true -> is_finite x = true /\ is_finite y = true.
  Proof. destruct x as [sx | sx | | sx mx ex hx], y as [sy | sy | | sy my ey hy]; try (split; reflexivity); simpl; try discriminate.
    destruct sx, sy; discriminate. Qed.
  Lemma minus_fin (x y : bf) : is_finite (Bminus mode_NE x y) = true -> is_finite x = true /\ is_finite y = true.
  Proof. destruct x as [sx | sx | | sx mx ex hx], y as [sy | sy | | sy my ey hy]; try (split; reflexivity); simpl; try discriminate.
    destruct sx, sy; discriminate. Qed.
  Lemma mult_fin (x y : bf) : is_finite (Bmult mode_NE x y) = true -> is_finite x = true /\ is_finite y = true.
  Proof. destruct x as [sx | sx | | sx mx ex hx], y as [sy | sy | | sy my ey hy]; try (split; reflexivity); simpl; discriminate. Qed.

  (** ---- sums of products ---- *)
  Notation er := (err prec emax).
  Definition approx (n : nat) (t : bf) (v A : R) : Prop := within t v (er n A) /\ Rabs v <= A.

  Lemma pow1u n : 1 <= (1 + u) ^ n.
  Proof. apply pow_R1_Rle. pose proof u_pos. lra. Qed.
  Lemma approx_mul (x y : bf) : is_finite (Bmult mode_NE x y) = true ->
    approx 1 (Bmult mode_NE x y) (B2R x * B2R y) (Rabs (B2R x * B2R y)).
  Proof.
    intro H. destruct (mult_fin x y H) as [Fx Fy]. destruct (mult_round prec emax x y Fx Fy) as [M1 M2].
    destruct (M1 (M2 H)) as [_ V]. split; [| lra]. split; [exact H |]. rewrite V.
    destruct (rnd_err (B2R x * B2R y)) as (e & h & He & Hh & ->). unfold err. simpl.
    replace (B2R x * B2R y * (1 + e) + h - B2R x * B2R y) with (B2R x * B2R y * e + h) by ring.
    eapply Rle_trans; [apply Rabs_triang |]. rewrite Rabs_mult.
    pose proof (Rabs_pos (B2R x * B2R y)).
    pose proof (Rmult_le_compat_l _ _ _ H0 He). lra.
  Qed.
  Lemma approx_step n (x p : bf) (r S P A B e : R) : (1 <= n)%nat -> approx n x S A -> approx 1 p P B ->
    Rabs e <= u -> r = (B2R x + B2R p) * (1 + e) ->
    Rabs (r - (S + P)) <= er (n + 1) (A + B) /\ Rabs (S + P) <= A + B.
  Proof.
    intros Hn [[_ Hx] HS] [[_ Hq] HP] He ->.
    pose proof (Rabs_triang S P) as T. split; [| lra].
    replace ((B2R x + B2R p) * (1 + e) - (S + P)) with (((B2R x - S) + (B2R p - P)) * (1 + e) + (S + P) * e) by ring.
    pose proof u_pos as U. pose proof et_pos as ET.
    pose proof (Rabs_pos S) as S0. pose proof (Rabs_pos P) as P0. pose proof (Rabs_pos e) as E0.
    assert (L : Rabs (((B2R x - S) + (B2R p - P)) * (1 + e) + (S + P) * e)
                <= (er n A + er 1 B) * (1 + u) + (A + B) * u).
    { eapply Rle_trans; [apply Rabs_triang |]. rewrite !Rabs_mult.
      assert (T1 : Rabs (B2R x - S + (B2R p - P)) <= er n A + er 1 B) by (eapply Rle_trans; [apply Rabs_triang |]; lra).
      assert (T2 : Rabs (1 + e) <= 1 + u) by (eapply Rle_trans; [apply Rabs_triang |]; rewrite Rabs_R1; lra).
      apply Rplus_le_compat; apply Rmult_le_compat; try apply Rabs_pos; lra. }
    eapply Rle_trans; [exact L |]. clear L. unfold err.
    replace (n + 1)%nat with (Datatypes.S n) by lia. replace (Datatypes.S n - 1)%nat with n by lia.
    rewrite (S_INR n). simpl (_ ^ 1). simpl (_ ^ (1 - 1)). simpl (INR 1).
    change ((1 + u) ^ (Datatypes.S n)) with ((1 + u) * (1 + u) ^ n).
    destruct n as [| m]; [lia |]. replace (Datatypes.S m - 1)%nat with m by lia.
    change ((1 + u) ^ (Datatypes.S m)) with ((1 + u) * (1 + u) ^ m).
    pose proof (pow1u m) as Q. set (q := (1 + u) ^ m) in *. set (k := INR (Datatypes.S m)).
    assert (A0 : 0 <= A) by lra. assert (B0 : 0 <= B) by lra.
    assert (N1 : 0 <= B * ((q - 1) * (1 + u) * (1 + u))).
    { apply Rmult_le_pos; [exact B0 |]. apply Rmult_le_pos; [| lra]. apply Rmult_le_pos; lra. }
    assert (N2 : 0 <= et * ((q - 1) * (1 + u))).
    { apply Rmult_le_pos; [lra |]. apply Rmult_le_pos; lra. }
    match goal with |- ?l <= ?r => replace r with (l + (B * ((q - 1) * (1 + u) * (1 + u)) + et * ((q - 1) * (1 + u)))) by ring end.
    lra.
  Qed.
  Lemma approx_add n (x p : bf) S P A B : (1 <= n)%nat -> is_finite (Bplus mode_NE x p) = true ->
    approx n x S A -> approx 1 p P B -> approx (n + 1) (Bplus mode_NE x p) (S + P) (A + B).
  Proof.
    intros Hn H Hx Hq. destruct (plus_fin x p H) as [Fx Fq]. destruct (plus_round prec emax x p Fx Fq) as [M1 M2].
    destruct (M1 (M2 H)) as [_ V].
    destruct (rnd_err_sum (B2R x) (B2R p)) as (e & He & E); try apply generic_format_B2R.
    rewrite E in V. destruct (approx_step n x p _ S P A B e Hn Hx Hq He V). split; [split |]; assumption.
  Qed.
  Lemma B2R_opp_fin (p : bf) : B2R (Bopp p) = - B2R p.
  Proof. apply B2R_Bopp. Qed.
  Lemma approx_opp n (p : bf) P B : approx n p P B -> approx n (Bopp p) (- P) B.
  Proof.
    intros [[F H] H']. split; [split |].
    - rewrite is_finite_Bopp. exact F.
    - rewrite B2R_Bopp. replace (- B2R p - - P) with (- (B2R p - P)) by ring. rewrite Rabs_Ropp. exact H.
    - rewrite Rabs_Ropp. exact H'.
  Qed.
  Lemma approx_sub n (x p : bf) S P A B : (1 <= n)%nat -> is_finite (Bminus mode_NE x p) = true ->
    approx n x S A -> approx 1 p P B -> approx (n + 1) (Bminus mode_NE x p) (S - P) (A + B).
  Proof.
    intros Hn H Hx Hq. rewrite Bminus_plus in *. apply approx_add; [exact Hn | exact H | exact Hx |].
    apply approx_opp, Hq.
  Qed.
  (** products, from the right *)
  Ltac fin_parts H := match type of H with
    | is_finite (Bplus _ ?x ?y) = true => let A := fresh "A" in let B := fresh "B" in destruct (plus_fin x y H) as [A B]; fin_parts A
    | is_finite (Bminus _ ?x ?y) = true => let A := fresh "A" in let B := fresh "B" in destruct (minus_fin x y H) as [A B]; fin_parts A
    | _ => idtac end.
  Ltac approx_tac := repeat match goal with
    | |- approx ?n (Bplus _ _ _) _ _ =>
        let k := eval compute in (Nat.pred n) in refine (approx_add k _ _ _ _ _ _ _ _ _ _); [lia | assumption | |]
    | |- approx ?n (Bminus _ _ _) _ _ =>
        let k := eval compute in (Nat.pred n) in refine (approx_sub k _ _ _ _ _ _ _ _ _ _); [lia | assumption | |]
    | |- approx _ (Bmult _ _ _) _ _ => apply approx_mul; assumption end.
  Lemma sum2_approx (a b c d : bf) : let t := Bplus mode_NE (Bmult mode_NE a b) (Bmult mode_NE c d) in
    is_finite t = true -> approx 2 t (B2R a * B2R b + B2R c * B2R d) (Rabs (B2R a * B2R b) + Rabs (B2R c * B2R d)).
  Proof. intros t H. subst t. fin_parts H. approx_tac.
Qed.
  Lemma diff2_approx (a b c d : bf) : let t := Bminus mode_NE (Bmult mode_NE a b) (Bmult mode_NE c d) in
    is_finite t = true -> approx 2 t (B2R a * B2R b - B2R c * B2R d) (Rabs (B2R a * B2R b) + Rabs (B2R c * B2R d)).
  Proof. intros t H. subst t. fin_parts H. approx_tac. Qed.
  Lemma sum3_approx (a b c d e f : bf) :
    let t := Bplus mode_NE (Bplus mode_NE (Bmult mode_NE a b) (Bmult mode_NE c d)) (Bmult mode_NE e f) in
    is_finite t = true -> approx 3 t (B2R a * B2R b + B2R c * B2R d + B2R e * B2R f)
      (Rabs (B2R a * B2R b) + Rabs (B2R c * B2R d) + Rabs (B2R e * B2R f)).
  Proof. intros t H. subst t. fin_parts H. approx_tac. Qed.
  Definition pm (s : bool) (x y : bf) : bf := if s then Bminus mode_NE x y else Bplus mode_NE x y.
  Definition rpm (s : bool) (x y : R) : R := if s then x - y else x + y.
  Lemma sum4_approx s1 s2 s3 (a b c d e f g h : bf) :
    let t := pm s3 (pm s2 (pm s1 (Bmult mode_NE a b) (Bmult mode_NE c d)) (Bmult mode_NE e f)) (Bmult mode_NE g h) in
    is_finite t = true ->
    approx 4 t (rpm s3 (rpm s2 (rpm s1 (B2R a * B2R b) (B2R c * B2R d)) (B2R e * B2R f)) (B2R g * B2R h))
      (Rabs (B2R a * B2R b) + Rabs (B2R c * B2R d) + Rabs (B2R e * B2R f) + Rabs (B2R g * B2R h)).
  Proof. intros t H. subst t. destruct s1, s2, s3; cbn [pm rpm] in *; fin_parts H; approx_tac. Qed.
End Round.
