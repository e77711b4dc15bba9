(** PRunM.v — running products of 4x4 matrices in IEEE arithmetic. *)
From Coq Require Import Reals List ZArith NArith Bool Lra Lia.
From Flocq Require Import Core BinarySingleNaN.
Import ListNotations.
From Verif Require Import Base Num Vec Mat Float FloatFacts FloatRound SpecMat SpecReal SpecRound SpecRun PMat PMat2 PMat3 PRound PRound2 PRound3 PIeee2 PIeee3 PIeee4 PInt2.
Local Open Scope R_scope.

(** ---- over the reals ---- *)
Lemma rsum4_le f g : (forall j, (j < 4)%N -> f j <= g j) -> rsum4 f <= rsum4 g.
Proof. intro H. unfold rsum4. pose proof (H 0%N eq_refl). pose proof (H 1%N eq_refl). pose proof (H 2%N eq_refl). pose proof (H 3%N eq_refl). lra. Qed.
Lemma rsum4_plus f g : rsum4 (fun j => f j + g j) = rsum4 f + rsum4 g. Proof. unfold rsum4. ring. Qed.
Lemma rsum4_scale c f : rsum4 (fun j => c * f j) = c * rsum4 f. Proof. unfold rsum4. ring. Qed.
Lemma rsum4_abs f : Rabs (rsum4 f) <= rsum4 (fun j => Rabs (f j)).
Proof. unfold rsum4. repeat (eapply Rle_trans; [apply Rabs_triang |]; apply Rplus_le_compat_r). apply Rle_refl. Qed.
(** sum over j of sum over k of |a_k| |b_kj| *)
Lemma rows_abs (f g : rmat) i x m : (i < 4)%N -> rsum4 (fun k => Rabs (f i k)) <= x -> rows4 g m -> 0 <= m -> rsum4 (fun j => rsum4 (fun k => Rabs (f i k * g k j))) <= x * m.
Proof.
  intros Hi Hx Hg Pm. assert (E : rsum4 (fun j => rsum4 (fun k => Rabs (f i k * g k j))) = rsum4 (fun k => Rabs (f i k) * rsum4 (fun j => Rabs (g k j)))) by (unfold rsum4; rewrite !Rabs_mult; ring). rewrite E.
  apply Rle_trans with (rsum4 (fun k => Rabs (f i k) * m)).
  - apply rsum4_le. intros k Hk. apply Rmult_le_compat_l; [apply Rabs_pos | apply Hg, Hk].
  - replace (rsum4 (fun k => Rabs (f i k) * m)) with (rsum4 (fun k => Rabs (f i k)) * m) by (unfold rsum4; ring). apply Rmult_le_compat_r; assumption.
Qed.
Lemma rows_mul f g x m : 0 <= m -> rows4 f x -> rows4 g m -> rows4 (rmul4 f g) (x * m).
Proof. intros Pm Hf Hg i Hi. eapply Rle_trans; [| apply (rows_abs f g i x m Hi (Hf i Hi) Hg Pm)]. apply rsum4_le. intros j Hj. apply rsum4_abs. Qed.
Lemma rows_le f x y : rows4 f x -> x <= y -> rows4 f y. Proof. intros H L i Hi. eapply Rle_trans; [apply H, Hi | exact L]. Qed.
Lemma rows_near f g x d : rows4 g x -> rows4 (rminus f g) d -> rows4 f (x + d).
Proof.
  intros Hg Hd i Hi. eapply Rle_trans; [| apply Rplus_le_compat; [apply (Hg i Hi) | apply (Hd i Hi)]]. rewrite <- rsum4_plus. apply rsum4_le. intros j Hj. unfold rminus. replace (f i j) with (g i j + (f i j - g i j)) at 1 by ring. apply Rabs_triang.
Qed.
Lemma rows_entry f x i j : (i < 4)%N -> (j < 4)%N -> rows4 f x -> Rabs (f i j) <= x.
Proof.
  intros Hi Hj H. eapply Rle_trans; [| apply (H i Hi)]. unfold rsum4. pose proof (Rabs_pos (f i 0%N)). pose proof (Rabs_pos (f i 1%N)). pose proof (Rabs_pos (f i 2%N)). pose proof (Rabs_pos (f i 3%N)).
  assert (C : (j = 0 \/ j = 1 \/ j = 2 \/ j = 3)%N) by lia. destruct C as [-> | [-> | [-> | ->]]]; lra.
Qed.

Section RunM.
  Context (prec emax : Z) {Hp : Prec_gt_0 prec} {Hm : Prec_lt_emax prec emax} (lm : libm (binary_float prec emax)).
  Notation bf := (binary_float prec emax).
  Notation F := (@Ieee prec emax Hp Hm lm).
  Notation u := (uro prec).
  Notation et := (eta prec emax).
  Notation val := (@B2R prec emax).
  Notation real f := ((fun i j => val (f i j : bf)) : rmat).
  Notation mfin4 := (@mfin4 prec emax).
  Lemma err4_le A : (9 < prec)%Z -> 0 <= A -> err prec emax 4 A <= 9 / 2 * u * A + 9 / 2 * et.
  Proof. intros P HA. pose proof (err4_small prec emax A P HA). lra. Qed.
  Lemma mul_rows (a b : mat4 F) f g e x m : (9 < prec)%Z -> (0 <= e)%Z -> (e <= emax - 6)%Z -> m4_rm a = m4_rm b -> repr4 a f -> repr4 b g -> mfin4 f -> mfin4 g -> 0 <= m -> 0 <= x -> m <= bpow radix2 e -> x <= bpow radix2 (emax - 5 - e) -> rows4 (real f) x -> rows4 (real g) m ->
    exists c h, mat4_mul a b = Ok (Some c) /\ m4_rm c = m4_rm a /\ repr4 c h /\ mfin4 h /\ rows4 (rminus (real h) (rmul4 (real f) (real g))) (9 / 2 * u * (x * m) + 18 * et).
  Proof.
    intros P E0 E1 E Ha Hb Ff Fg Pm Px Lm Lx Rf Rg. assert (HP : (0 < prec)%Z) by exact Hp. assert (HE : (prec < emax)%Z) by exact Hm.
    destruct (mul4_repr a b f g E Ha Hb) as (c & C1 & C2 & C3). exists c, (lmul4 f g). do 3 (split; [assumption |]).
    assert (Ff' : mfin4 (lmul4 f g)).
    { intros i j Hi Hj. assert (M : forall k, (k < 4)%N -> bnd prec emax (emax - 5) (Bmult mode_NE (f i k : bf) (g k j : bf))).
      { intros k Hk. replace (emax - 5)%Z with (emax - 5 - e + e)%Z by lia. apply (mult_bnd prec emax); [lia | lia | split; [apply Ff; assumption |] | split; [apply Fg; assumption |]].
        - eapply Rle_trans; [apply (rows_entry (real f) x i k Hi Hk Rf) | exact Lx].
        - eapply Rle_trans; [apply (rows_entry (real g) m k j Hk Hj Rg) | exact Lm]. }
      exact (proj1 (sum4_fin prec emax false false false (emax - 5) _ _ _ _ ltac:(lia) ltac:(lia) (M 0%N eq_refl) (M 1%N eq_refl) (M 2%N eq_refl) (M 3%N eq_refl))). }
    split; [exact Ff' |]. intros i Hi. pose proof (rows_abs (real f) (real g) i x m Hi (Rf i Hi) Rg Pm) as S. pose proof (u_pos prec) as U0.
    apply Rle_trans with (rsum4 (fun j => 9 / 2 * u * rsum4 (fun k => Rabs (real f i k * real g k j)) + 9 / 2 * et)).
    - apply rsum4_le. intros j Hj. unfold rminus. pose proof (proj2 (proj1 (sum4_approx prec emax false false false (f i 0%N : bf) (g 0%N j) (f i 1%N) (g 1%N j) (f i 2%N) (g 2%N j) (f i 3%N) (g 3%N j) (Ff' i j Hi Hj)))) as H.
      eapply Rle_trans; [exact H |]. apply err4_le; [exact P |]. repeat apply Rplus_le_le_0_compat; apply Rabs_pos.
    - assert (Q : 9 / 2 * u * rsum4 (fun j => rsum4 (fun k => Rabs (real f i k * real g k j))) <= 9 / 2 * u * (x * m)) by (apply Rmult_le_compat_l; [lra | exact S]).
      set (T := fun j => rsum4 (fun k => Rabs (real f i k * real g k j))) in *. change (rsum4 (fun j => 9 / 2 * u * T j + 9 / 2 * et) <= 9 / 2 * u * (x * m) + 18 * et). replace (rsum4 (fun j => 9 / 2 * u * T j + 9 / 2 * et)) with (9 / 2 * u * rsum4 T + 18 * et) by (unfold rsum4; field). lra.
  Qed.
  (** after k factors the accumulated product is within M^k - m^k + 18 k eta M^k of the true one *)
  Theorem mat_run_ok (e : Z) (m : R) : (9 < prec)%Z -> (0 <= e)%Z -> (e <= emax - 6)%Z -> 1 <= m <= bpow radix2 e ->
    let M := m * (1 + 9 / 2 * u) in
    forall (l : list (mat4 F)) (gs : list (lmat F)) (k : nat) (a : mat4 F) (f : lmat F) (X : rmat),
    repr4 a f -> mfin4 f -> Forall2 (fun (b : mat4 F) (g : lmat F) => repr4 b g /\ mfin4 g /\ m4_rm b = m4_rm a /\ rows4 (real g) m) l gs ->
    rows4 X (m ^ k) -> rows4 (rminus (real f) X) (M ^ k - m ^ k + 18 * INR k * et * M ^ k) ->
    let n := (k + length l)%nat in M ^ n * (1 + 18 * INR n * et) <= bpow radix2 (emax - 5 - e) ->
    exists c h, mat_run a l = Ok (Some c) /\ m4_rm c = m4_rm a /\ repr4 c h /\ mfin4 h /\
      rows4 (rminus (real h) (fold_left rmul4 (map (fun g => real g) gs) X)) (M ^ n - m ^ n + 18 * INR n * et * M ^ n).
  Proof.
    intros P E0 E1 [m1 m2] M. pose proof (u_pos prec) as U0. pose proof (et_pos prec emax) as T0. assert (HM : m <= M) by (unfold M; nra). assert (M1 : 1 <= M) by lra.
    induction l as [| b l IH]; intros gs k a f X Ra Fa Hl HX Hd n B.
    - inversion Hl; subst. exists a, f. unfold n. cbn [length]. rewrite Nat.add_0_r. cbn [map fold_left mat_run]. repeat (split; [first [reflexivity | assumption] |]). exact Hd.
    - inversion Hl as [| ? g ? gs' (Rb & Fb & Eb & Gb) Hl']; subst. cbn [length] in n. set (d := M ^ k - m ^ k + 18 * INR k * et * M ^ k) in *.
      assert (mk : 1 <= m ^ k) by (apply pow_R1_Rle; exact m1). assert (Mk : 1 <= M ^ k) by (apply pow_R1_Rle; exact M1). assert (mM : m ^ k <= M ^ k) by (apply pow_incr; lra). assert (K0 : 0 <= INR k) by apply pos_INR.
      assert (W0 : 0 <= 18 * INR k * et) by (repeat apply Rmult_le_pos; lra). assert (Pd : 0 <= d) by (unfold d; assert (0 <= 18 * INR k * et * M ^ k) by (apply Rmult_le_pos; lra); lra).
      pose proof (rows_near _ _ _ _ HX Hd) as Rf. set (x := m ^ k + d) in *. assert (Ex : x = M ^ k * (1 + 18 * INR k * et)) by (unfold x, d; ring).
      assert (Lx : x <= bpow radix2 (emax - 5 - e)).
      { eapply Rle_trans; [| exact B]. rewrite Ex. assert (KN : INR k <= INR n) by (apply le_INR; unfold n; lia). apply Rmult_le_compat; [lra | lra | apply Rle_pow; [exact M1 | unfold n; lia] |]. apply Rplus_le_compat_l. apply Rmult_le_compat_r; [lra |]. lra. }
      destruct (mul_rows a b f g e x m P E0 E1 (eq_sym Eb) Ra Rb Fa Fb ltac:(lra) ltac:(unfold x; lra) m2 Lx Rf Gb) as (c & h & C1 & C2 & C3 & C4 & C5).
      cbn [mat_run]. rewrite C1. cbn [bind].
      assert (HX' : rows4 (rmul4 X (real g)) (m ^ S k)) by (cbn [pow]; rewrite (Rmult_comm m); apply rows_mul; [lra | exact HX | exact Gb]).
      assert (Hd' : rows4 (rminus (real h) (rmul4 X (real g))) (M ^ S k - m ^ S k + 18 * INR (S k) * et * M ^ S k)).
      { assert (D1 : rows4 (rmul4 (rminus (real f) X) (real g)) (d * m)) by (apply rows_mul; [lra | exact Hd | exact Gb]).
        apply rows_le with ((9 / 2 * u * (x * m) + 18 * et) + d * m).
        - intros i Hi. eapply Rle_trans; [| apply Rplus_le_compat; [apply (C5 i Hi) | apply (D1 i Hi)]]. rewrite <- rsum4_plus. apply rsum4_le. intros j Hj. unfold rminus.
          replace (real h i j - rmul4 X (real g) i j) with ((real h i j - rmul4 (real f) (real g) i j) + rmul4 (fun i0 j0 => real f i0 j0 - X i0 j0) (real g) i j) by (unfold rmul4, rsum4; ring). apply Rabs_triang.
        - rewrite S_INR. cbn [pow]. assert (EQ : 9 / 2 * u * (x * m) + d * m = d * M + m ^ k * (M - m)) by (unfold x, M; ring).
          assert (A5 : 18 * et * 1 <= 18 * et * (M * M ^ k)) by (apply Rmult_le_compat_l; nra).
          replace (M * M ^ k - m * m ^ k + 18 * (INR k + 1) * et * (M * M ^ k)) with (d * M + m ^ k * (M - m) + 18 * et * (M * M ^ k)) by (unfold d; ring). lra. }
      assert (En : n = (S k + length l)%nat) by (unfold n; lia).
      assert (Hl'' : Forall2 (fun (b : mat4 F) (g : lmat F) => repr4 b g /\ mfin4 g /\ m4_rm b = m4_rm c /\ rows4 (real g) m) l gs') by (rewrite C2; exact Hl').
      destruct (IH gs' (S k) c h _ C3 C4 Hl'' HX' Hd') as (r & hr & R1 & R2 & R3 & R4 & R5); [rewrite <- En; exact B |]. exists r, hr. split; [exact R1 |]. split; [congruence |]. split; [exact R3 |]. split; [exact R4 |]. rewrite <- En in R5. exact R5.
  Qed.
End RunM.
