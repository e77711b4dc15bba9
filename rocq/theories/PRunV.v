(** PRunV.v — a vector under one matrix after the other, in IEEE arithmetic (C124). *)
From Coq Require Import Reals List ZArith NArith Bool Lra Lia.
From Flocq Require Import Core BinarySingleNaN.
Import ListNotations.
From Verif Require Import Base Num Vec Mat Float FloatFacts FloatRound SpecMat SpecReal SpecRound SpecRun SpecRunV PMat PMat2 PMat3 PRound PRound2 PRound3 PIeee2 PIeee3 PIeee4 PRunM.
Local Open Scope R_scope.

Lemma rapp_abs (f : rmat) v i m x : (i < 4)%N -> rows4 f m -> vmax v x -> 0 <= x -> rsum4 (fun k => Rabs (f i k * v k)) <= m * x.
Proof.
  intros Hi Rf Rv Px. apply Rle_trans with (rsum4 (fun k => Rabs (f i k) * x)).
  - apply rsum4_le. intros k Hk. rewrite Rabs_mult. apply Rmult_le_compat_l; [apply Rabs_pos | apply Rv, Hk].
  - replace (rsum4 (fun k => Rabs (f i k) * x)) with (rsum4 (fun k => Rabs (f i k)) * x) by (unfold rsum4; ring). apply Rmult_le_compat_r; [exact Px | apply Rf, Hi].
Qed.
Lemma rapp_max f v m x : rows4 f m -> vmax v x -> 0 <= x -> vmax (rapp f v) (m * x).
Proof. intros Rf Rv Px i Hi. eapply Rle_trans; [apply rsum4_abs | apply (rapp_abs f v i m x Hi Rf Rv Px)]. Qed.
Lemma rapp_mul f g v i : rapp (rmul4 f g) v i = rapp f (rapp g v) i.
Proof. unfold rapp, rmul4, rsum4. ring. Qed.
Lemma rapp_ext f g v i : (forall k, (k < 4)%N -> f i k = g i k) -> rapp f v i = rapp g v i.
Proof. intro E. unfold rapp, rsum4. rewrite !E by reflexivity. reflexivity. Qed.
Lemma rapp_vext f v w i : (forall k, (k < 4)%N -> v k = w k) -> rapp f v i = rapp f w i.
Proof. intro E. unfold rapp, rsum4. rewrite !E by reflexivity. reflexivity. Qed.
Lemma rapp_fold gs : forall X v i, (i < 4)%N -> rapp (fold_left rmul4 gs X) v i = rapp X (fold_right rapp v gs) i.
Proof. induction gs as [| g gs IH]; intros X v i Hi; [reflexivity |]. cbn [fold_left fold_right]. rewrite (IH (rmul4 X g) v i Hi). apply rapp_mul. Qed.

Section RunV.
  Context (prec emax : Z) {Hp : Prec_gt_0 prec} {Hm : Prec_lt_emax prec emax} (lm : libm (binary_float prec emax)).
  Notation bf := (binary_float prec emax).
  Notation F := (@Ieee prec emax Hp Hm lm).
  Notation u := (uro prec).
  Notation et := (eta prec emax).
  Notation val := (@B2R prec emax).
  Notation real f := ((fun i j => val (f i j : bf)) : rmat).
  Notation realv f := ((fun i => val (f i : bf)) : lvec R).
  Notation vfin4 := (@vfin4 prec emax).
  Lemma vec_step (a : mat4 F) (v : mat4x1 F) f g e m x : (9 < prec)%Z -> (5 - emax <= e)%Z -> (e <= emax - 6)%Z -> repr4 a f -> reprc4 v g -> mfin4 (f : lmat bf) -> vfin4 g -> 0 <= m -> 0 <= x -> m <= bpow radix2 e -> x <= bpow radix2 (emax - 5 - e) -> rows4 (real f) m -> vmax (realv g) x ->
    exists r h, mat4_mul_mat4x1 a v = Ok (Some r) /\ reprc4 r h /\ vfin4 h /\ forall i, (i < 4)%N -> Rabs (val (h i) - rapp (real f) (realv g) i) <= 9 / 2 * u * (m * x) + 9 / 2 * et.
  Proof.
    intros P E0 E1 Ra Rv Ff Fg Pm Px Lm Lx Rf Rg. assert (HP : (0 < prec)%Z) by exact Hp. assert (HE : (prec < emax)%Z) by exact Hm.
    destruct (mulv4_repr a v f g Ra Rv) as (r & C1 & C2). exists r, (lmulv4 f g). do 2 (split; [assumption |]).
    assert (Fh : vfin4 (lmulv4 f g)).
    { intros i Hi. assert (M : forall k, (k < 4)%N -> bnd prec emax (emax - 5) (Bmult mode_NE (f i k : bf) (g k : bf))).
      { intros k Hk. replace (emax - 5)%Z with (e + (emax - 5 - e))%Z by lia. apply (mult_bnd prec emax); [lia | lia | split; [apply Ff; assumption |] | split; [apply Fg; assumption |]].
        - eapply Rle_trans; [apply (rows_entry (real f) m i k Hi Hk Rf) | exact Lm].
        - eapply Rle_trans; [apply (Rg k Hk) | exact Lx]. }
      exact (proj1 (sum4_fin prec emax false false false (emax - 5) _ _ _ _ ltac:(lia) ltac:(lia) (M 0%N eq_refl) (M 1%N eq_refl) (M 2%N eq_refl) (M 3%N eq_refl))). }
    split; [exact Fh |]. intros i Hi. pose proof (rapp_abs (real f) (realv g) i m x Hi Rf Rg Px) as S. pose proof (u_pos prec) as U0.
    pose proof (proj2 (proj1 (sum4_approx prec emax false false false (f i 0%N : bf) (g 0%N) (f i 1%N) (g 1%N) (f i 2%N) (g 2%N) (f i 3%N) (g 3%N) (Fh i Hi)))) as K.
    eapply Rle_trans; [exact K |]. eapply Rle_trans; [apply err4_le; [exact P | repeat apply Rplus_le_le_0_compat; apply Rabs_pos] |].
    apply Rplus_le_compat_r. apply Rmult_le_compat_l; [lra | exact S].
  Qed.
  Theorem vec_run_ok (e : Z) (m V : R) (v : mat4x1 F) g : (9 < prec)%Z -> (0 <= e)%Z -> (e <= emax - 6)%Z -> 1 <= m <= bpow radix2 e -> 0 <= V -> reprc4 v g -> vfin4 g -> vmax (realv g) V ->
    let M := m * (1 + 9 / 2 * u) in
    forall (l : list (mat4 F)) (gs : list (lmat F)), Forall2 (fun (b : mat4 F) (g : lmat F) => repr4 b g /\ mfin4 (g : lmat bf) /\ rows4 (real g) m) l gs ->
    let n := length l in M ^ n * (V + 9 / 2 * INR n * et) <= bpow radix2 (emax - 5 - e) ->
    exists w h, vec_run l v = Ok (Some w) /\ reprc4 w h /\ vfin4 h /\ vmax (fold_right rapp (realv g) (map (fun g => real g) gs)) (m ^ n * V) /\
      forall i, (i < 4)%N -> Rabs (val (h i) - fold_right rapp (realv g) (map (fun g => real g) gs) i) <= (M ^ n - m ^ n) * V + 9 / 2 * INR n * et * M ^ n.
  Proof.
    intros P E0 E1 [m1 m2] PV Rv Fv Bv M. pose proof (u_pos prec) as U0. pose proof (et_pos prec emax) as T0. assert (HM : m <= M) by (unfold M; nra). assert (M1 : 1 <= M) by lra.
    induction l as [| a l IH]; intros gs Hl n B.
    - inversion Hl; subst. exists v, g. unfold n. cbn [length vec_run map fold_right pow]. split; [reflexivity |]. split; [exact Rv |]. split; [exact Fv |]. split; [rewrite Rmult_1_l; exact Bv |]. intros i Hi. rewrite Rminus_diag_eq, Rabs_R0 by reflexivity. cbn [INR]. lra.
    - inversion Hl as [| ? f ? gs' (Ra & Fa & Ga) Hl']; subst. specialize (IH gs' Hl'). set (k := length l) in *. cbn [length] in n. fold k in n.
      assert (mk : 1 <= m ^ k) by (apply pow_R1_Rle; exact m1). assert (Mk : 1 <= M ^ k) by (apply pow_R1_Rle; exact M1). assert (mM : m ^ k <= M ^ k) by (apply pow_incr; lra). assert (K0 : 0 <= INR k) by apply pos_INR.
      assert (W0 : 0 <= 9 / 2 * INR k * et) by (repeat apply Rmult_le_pos; lra).
      set (x := M ^ k * (V + 9 / 2 * INR k * et)). assert (Lx : x <= bpow radix2 (emax - 5 - e)).
      { eapply Rle_trans; [| exact B]. unfold x, n. assert (KN : INR k <= INR (S k)) by (apply le_INR; lia). apply Rmult_le_compat; [lra | lra | apply Rle_pow; [exact M1 | lia] |]. apply Rplus_le_compat_l. apply Rmult_le_compat_r; [lra |]. lra. }
      destruct (IH Lx) as (w & h & W1 & W2 & W3 & W4 & W5). cbn [vec_run]. rewrite W1. cbn [bind]. cbn [map fold_right]. set (T := fold_right rapp (realv g) (map (fun g0 => real g0) gs')) in *.
      set (d := (M ^ k - m ^ k) * V + 9 / 2 * INR k * et * M ^ k) in *.
      assert (Pd : 0 <= d) by (unfold d; apply Rplus_le_le_0_compat; apply Rmult_le_pos; lra). assert (PmV : 0 <= m ^ k * V) by (apply Rmult_le_pos; lra).
      assert (Ex : x = m ^ k * V + d) by (unfold x, d; ring). assert (Bh : vmax (realv h) x).
      { intros i Hi. rewrite Ex. replace (val (h i)) with (T i + (val (h i) - T i)) by ring. eapply Rle_trans; [apply Rabs_triang |]. apply Rplus_le_compat; [apply W4, Hi | apply W5, Hi]. }
      destruct (vec_step a w f h e m x P ltac:(pose proof (Hm : (prec < emax)%Z); lia) E1 Ra W2 Fa W3 ltac:(lra) ltac:(lra) m2 Lx Ga Bh) as (r & hr & R1 & R2 & R3 & R4). exists r, hr. split; [exact R1 |]. split; [exact R2 |]. split; [exact R3 |].
      split; [unfold n; cbn [pow]; rewrite Rmult_assoc; apply rapp_max; assumption |]. intros i Hi.
      assert (D : Rabs (rapp (real f) (realv h) i - rapp (real f) T i) <= m * d).
      { assert (Q : rapp (real f) (realv h) i - rapp (real f) T i = rapp (real f) (fun k0 => realv h k0 - T k0) i) by (unfold rapp, rsum4; ring). rewrite Q. apply (rapp_max (real f) (fun k0 => realv h k0 - T k0) m d Ga); [exact W5 | exact Pd | exact Hi]. }
      replace (val (hr i) - rapp (real f) T i) with ((val (hr i) - rapp (real f) (realv h) i) + (rapp (real f) (realv h) i - rapp (real f) T i)) by ring. eapply Rle_trans; [apply Rabs_triang |]. eapply Rle_trans; [apply Rplus_le_compat; [apply R4, Hi | exact D] |].
      unfold n. rewrite S_INR. cbn [pow]. rewrite Ex. assert (A5 : 9 / 2 * et * 1 <= 9 / 2 * et * (M * M ^ k)) by (apply Rmult_le_compat_l; nra).
      replace ((M * M ^ k - m * m ^ k) * V + 9 / 2 * (INR k + 1) * et * (M * M ^ k)) with (9 / 2 * u * (m * (m ^ k * V + d)) + m * d + 9 / 2 * et * (M * M ^ k)) by (unfold d, M; field). lra.
  Qed.
  (** composing first and applying once, against applying one after the other *)
  Theorem compose_apply (e e' : Z) (m V : R) (v : mat4x1 F) g (a : mat4 F) f (l : list (mat4 F)) gs : (9 < prec)%Z -> (0 <= e)%Z -> (e <= emax - 6)%Z -> (0 <= e')%Z -> (e' <= emax - 6)%Z -> 1 <= m <= bpow radix2 e -> 0 <= V -> reprc4 v g -> vfin4 g -> vmax (realv g) V ->
    Forall2 (fun (b : mat4 F) (g : lmat F) => repr4 b g /\ mfin4 (g : lmat bf) /\ m4_rm b = m4_rm a /\ rows4 (real g) m) (a :: l) (f :: gs) ->
    let M := m * (1 + 9 / 2 * u) in let n := length (a :: l) in let X := M ^ n * (1 + 18 * INR n * et) in
    X <= bpow radix2 (emax - 5 - e) -> M ^ n * (V + 9 / 2 * INR n * et) <= bpow radix2 (emax - 5 - e) -> X <= bpow radix2 e' -> V <= bpow radix2 (emax - 5 - e') ->
    exists c w1 w2 h1 h2, mat_run a l = Ok (Some c) /\ mat4_mul_mat4x1 c v = Ok (Some w1) /\ vec_run (a :: l) v = Ok (Some w2) /\ reprc4 w1 h1 /\ reprc4 w2 h2 /\ vfin4 h1 /\ vfin4 h2 /\
      forall i, (i < 4)%N -> Rabs (val (h1 i) - val (h2 i)) <= (X * (1 + 9 / 2 * u) + M ^ n - 2 * m ^ n) * V + 9 / 2 * et * (1 + INR n * M ^ n).
  Proof.
    intros P E0 E1 E0' E1' Hmm PV Rv Fv Bv Hl M n X B1 B2 B3 B4. pose proof (u_pos prec) as U0. pose proof (et_pos prec emax) as T0. assert (HE : (prec < emax)%Z) by exact Hm. assert (HP : (0 < prec)%Z) by exact Hp.
    assert (HM : m <= M) by (unfold M; nra). assert (M1 : 1 <= M) by lra. assert (Mn : 1 <= M ^ n) by (apply pow_R1_Rle; exact M1). assert (N0 : 0 <= INR n) by apply pos_INR. assert (W0 : 0 <= 18 * INR n * et) by (repeat apply Rmult_le_pos; lra).
    assert (PX : 0 <= X) by (unfold X; apply Rmult_le_pos; lra).
    inversion Hl as [| ? ? ? ? (Ra & Fa & _ & Ga) Hl']; subst.
    assert (D0 : rows4 (rminus (real f) (real f)) (M ^ 1 - m ^ 1 + 18 * INR 1 * et * M ^ 1)).
    { intros i Hi. assert (Z : rsum4 (fun j => Rabs (rminus (real f) (real f) i j)) = 0) by (unfold rsum4, rminus; rewrite !Rminus_diag_eq, !Rabs_R0 by reflexivity; ring). rewrite Z. rewrite !pow_1. cbn [INR]. assert (0 <= 18 * 1 * et * M) by (repeat apply Rmult_le_pos; lra). lra. }
    destruct (mat_run_ok prec emax lm e m P E0 E1 Hmm l gs 1 a f (real f) Ra Fa Hl' ltac:(rewrite pow_1; exact Ga) D0 B1) as (c & hc & C1 & C2 & C3 & C4 & C5). change (1 + length l)%nat with n in C5. fold M in C5. set (Q := fold_left rmul4 (map (fun g0 => real g0) gs) (real f)) in *.
    set (D := M ^ n - m ^ n + 18 * INR n * et * M ^ n) in *.
    assert (Hv : Forall2 (fun (b : mat4 F) (g : lmat F) => repr4 b g /\ mfin4 (g : lmat bf) /\ rows4 (real g) m) (a :: l) (f :: gs)) by (clear -Hl; induction Hl; constructor; tauto).
    destruct (vec_run_ok e m V v g P E0 E1 Hmm PV Rv Fv Bv (a :: l) (f :: gs) Hv B2) as (w2 & h2 & W1 & W2 & W3 & W4 & W5). change (length (a :: l)) with n in W4, W5. fold M in W5. cbn [map fold_right] in W4, W5.
    assert (EQ : forall i, (i < 4)%N -> rapp Q (realv g) i = rapp (real f) (fold_right rapp (realv g) (map (fun g0 => real g0) gs)) i) by (intros i Hi; unfold Q; apply rapp_fold, Hi).
    assert (RQ : rows4 Q (m ^ n)).
    { unfold Q. clear -Hl' Ga Hmm. assert (G : forall l gs k X, Forall2 (fun (b : mat4 F) (g : lmat F) => repr4 b g /\ mfin4 (g : lmat bf) /\ m4_rm b = m4_rm a /\ rows4 (real g) m) l gs -> rows4 X (m ^ k) -> rows4 (fold_left rmul4 (map (fun g0 => real g0) gs) X) (m ^ (k + length l))).
      { induction l0 as [| b l0 IH]; intros gs0 k X0 HF HX; inversion HF; subst; cbn [map fold_left length]; [rewrite Nat.add_0_r; exact HX |]. replace (k + S (length l0))%nat with (S k + length l0)%nat by lia. apply IH; [assumption |]. cbn [pow]. rewrite (Rmult_comm m). apply rows_mul; [lra | exact HX | tauto]. }
      apply (G l gs 1%nat (real f) Hl'). rewrite pow_1. exact Ga. }
    assert (Rh : rows4 (real hc) X) by (apply rows_le with (m ^ n + D); [apply (rows_near _ _ _ _ RQ C5) | apply Req_le; unfold X, D; ring]).
    destruct (vec_step c v hc g e' X V P ltac:(lia) E1' C3 Rv C4 Fv PX PV B3 B4 Rh Bv) as (w1 & h1 & V1 & V2 & V3 & V4).
    exists c, w1, w2, h1, h2. do 7 (split; [assumption |]). intros i Hi.
    assert (D1 : Rabs (rapp (real hc) (realv g) i - rapp Q (realv g) i) <= D * V).
    { assert (K : rapp (real hc) (realv g) i - rapp Q (realv g) i = rapp (rminus (real hc) Q) (realv g) i) by (unfold rapp, rminus, rsum4; ring). rewrite K. apply (rapp_max (rminus (real hc) Q) (realv g) D V C5 Bv PV i Hi). }
    pose proof (V4 i Hi) as K1. pose proof (W5 i Hi) as K2. rewrite <- (EQ i Hi) in K2.
    replace (val (h1 i) - val (h2 i)) with ((val (h1 i) - rapp (real hc) (realv g) i) + (rapp (real hc) (realv g) i - rapp Q (realv g) i) - (val (h2 i) - rapp Q (realv g) i)) by ring.
    unfold Rminus at 1. eapply Rle_trans; [apply Rabs_triang |]. rewrite Rabs_Ropp. eapply Rle_trans; [apply Rplus_le_compat; [eapply Rle_trans; [apply Rabs_triang | apply Rplus_le_compat; [exact K1 | exact D1]] | exact K2] |].
    apply Req_le. unfold D, X. field.
  Qed.
End RunV.
