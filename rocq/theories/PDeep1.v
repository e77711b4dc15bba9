(** PDeep1.v — the first directions of the GJK search in IEEE arithmetic (C110). *)
From Coq Require Import Reals List ZArith NArith Bool Lra Lia Psatz.
From Flocq Require Import Core BinarySingleNaN Relative.
Import ListNotations.
From Verif Require Import Base Num Vec Mat Bound Shape Gjk Intersect Float Exact FloatFacts FloatRound Order SpecMat SpecGeom SpecBound
  SpecRound SpecBuild SpecTrace ExactFacts PMat PShape PGeo1 PBuild PSup2 PRound PRound2 PRound3 PIeee1 PIeee2 PIeee3 PIeee5 PIeee6 PIeee7 PPrismF PRayR PNan2 PMirror1 PMirror3 PDeep0.
Local Open Scope R_scope.

Section Deep1.
  Context (prec emax : Z) {Hp : Prec_gt_0 prec} {Hm : Prec_lt_emax prec emax} (lm : libm (binary_float prec emax)).
  Notation bf := (binary_float prec emax).
  Notation fmt := (SpecFloat.fexp prec emax).
  Notation rnd := (round radix2 fmt ZnearestE).
  Notation val := (@B2R prec emax).
  Notation fin x := (is_finite (x : bf) = true).
  Notation u := (uro prec).
  Notation et := (eta prec emax).
  Notation fv := (fv prec emax).
  Notation bnd := (bnd prec emax).
  Notation F := (@Ieee prec emax Hp Hm lm).
  Notation vec := (mat3x1 F).
  Notation w3 v := (v3 (v : mat3x1 bf)).
  Notation nr := (nr prec emax u).
  Notation sz := (sz prec emax u).

  Lemma minus_val (x y : bf) : fin x -> fin y -> fin (Bminus mode_NE x y) -> val (Bminus mode_NE x y) = rnd (val x - val y).
  Proof. intros X Y G. destruct (minus_round prec emax x y X Y) as [H1 H2]. apply (H1 (H2 G)). Qed.
  (** ---- along the x axis ---- *)
  Lemma axis_reach s (c : vec) (r x y z : F) : s = 1 \/ s = -1 -> fv x s -> fv y 0 -> fv z 0 -> fin3 (c : mat3x1 bf) -> fin r ->
    exists p, reach c r (M3x1 (A3 x y z)) = Some p /\ fv (c1 p) (val (c1 c)) /\ fv (c2 p) (val (c2 c)).
  Proof.
    intros Hs Hx Hy Hz Fc Fr. destruct (axis_nrm prec emax lm s x y z Hs Hx Hy Hz) as [M [a [b [d [En [_ [Hb Hd]]]]]]].
    unfold reach. assert (N : nne (vmag (M3x1 (A3 x y z))) n0 = true) by exact M. rewrite N, En. eexists. split; [reflexivity |].
    destruct c as [[p0 p1 p2]]. destruct Fc as (_ & F1 & F2). unfold vplus, vtimes. cbn [c0 c1 c2].
    split; (apply (add0 prec emax); [split; [assumption | reflexivity] | apply (mul0l prec emax _ _ (val r)); [assumption | split; [exact Fr | reflexivity]]]).
  Qed.
  Lemma axis_mink s (c c' : vec) (r r' x y z : F) p : s = 1 \/ s = -1 -> fv x s -> fv y 0 -> fv z 0 -> fin3 (c : mat3x1 bf) -> fin3 (c' : mat3x1 bf) -> fin r -> fin r' ->
    mink c r c' r' (M3x1 (A3 x y z)) = Some p -> fin3 (p : mat3x1 bf) -> val (c1 p) = rnd (val (c1 c) - val (c1 c')) /\ val (c2 p) = rnd (val (c2 c) - val (c2 c')).
  Proof.
    intros Hs Hx Hy Hz Fc Fc' Fr Fr' E Fp. pose proof (fv_m1 prec emax lm) as M1.
    destruct (axis_reach s c r x y z Hs Hx Hy Hz Fc Fr) as [q [Eq [Q1 Q2]]].
    assert (Hs' : - s = 1 \/ - s = -1) by (destruct Hs; [right | left]; lra).
    destruct (axis_reach (- s) c' r' (Bmult mode_NE (x : bf) (@minus1 F)) (Bmult mode_NE (y : bf) (@minus1 F)) (Bmult mode_NE (z : bf) (@minus1 F)) Hs'
      (mulm1 prec emax _ _ _ Hx M1) (mul0l prec emax _ _ _ Hy M1) (mul0l prec emax _ _ _ Hz M1) Fc' Fr') as [q' [Eq' [Q1' Q2']]].
    assert (Eq2 : reach c' r' (vtimes (M3x1 (A3 x y z)) minus1) = Some q') by exact Eq'. unfold mink in E. rewrite Eq, Eq2 in E. injection E as <-. unfold vminus in *. cbn [c0 c1 c2]. destruct Fp as (_ & G1 & G2).
    destruct Q1 as [A1 B1], Q2 as [A2 B2], Q1' as [A1' B1'], Q2' as [A2' B2'].
    split.
    - rewrite <- B1, <- B1'. apply (minus_val _ _); assumption.
    - rewrite <- B2, <- B2'. apply (minus_val _ _); assumption.
  Qed.
  (** ---- the first direction found by the search ---- *)
  Lemma nr_zero (t : bf) P : fv t 0 -> nr t 0 0 0 P.
  Proof. intros [H1 H2]. split; [exact H1 |]. rewrite H2, Rminus_diag_eq by reflexivity. rewrite Rabs_R0. lra. Qed.
  Lemma nr_self (t : bf) P : fin t -> Rabs (val t) <= P -> nr t (val t) 1 0 P.
  Proof. intros H1 H2. apply nr_entry; assumption. Qed.
  Section Dir.
  Variables (s p : vec) (T : R).
  Notation sx := (c0 s). Notation px := (c0 p). Notation py := (c1 p). Notation pz := (c2 p).
  Notation A := (val (Bminus mode_NE (sx : bf) px)).
  Notation a := (Rabs A). Notation m := (Rabs (val px)).
  Notation ao := (vtimes p minus1).
  Notation w := (vcrossn (vminus s p) ao).
  Notation n := (vcrossn w ao).
  Hypotheses (HP : (9 < prec)%Z) (Fs : fin3 (s : mat3x1 bf)) (Fp : fin3 (p : mat3x1 bf)) (FA : fin (Bminus mode_NE (sx : bf) px)) (Ey : val (c1 s) = val py) (Ez : val (c2 s) = val pz)
    (Ty : Rabs (val py) <= T) (Tz : Rabs (val pz) <= T) (S1 : sz (a * T)) (S2 : sz (a * T * T)) (S3 : sz (a * T * m)).
  Lemma unit_u : unit_ok prec u.
  Proof. split; [exact HP |]. pose proof (u_small prec HP). lra. Qed.
  Lemma fins : fin (c1 s) /\ fin (c2 s) /\ fin px /\ fin py /\ fin pz.
  Proof. destruct s as [[s0 s1 s2]], p as [[p0 p1 p2]]. cbn [c0 c1 c2]. destruct Fs as (_ & ? & ?), Fp as (? & ? & ?). tauto. Qed.
  Lemma neg_fv (x : bf) : fin x -> fv (Bmult mode_NE x (@minus1 F)) (- val x).
  Proof. apply neg_val. Qed.
  Lemma sub_same (x y : bf) : fin x -> fin y -> val x = val y -> fv (Bminus mode_NE x y) 0.
  Proof.
    intros X Y E. destruct (minus_round prec emax x y X Y) as [H _]. rewrite E, Rminus_diag_eq, round_0 in H by (reflexivity || apply valid_rnd_N). apply H. rewrite Rabs_R0. apply bpow_gt_0.
  Qed.
  Lemma mul_fv0 (x y : bf) : fv x 0 -> fin y -> fv (Bmult mode_NE x y) 0.
  Proof. intros X Y. apply (mul0l prec emax _ _ (val y)); [exact X | split; [exact Y | reflexivity]]. Qed.
  Lemma w_vals : fv (c0 w) 0 /\ nr (c1 w) (A * val pz) 1 (203 / 100) (a * T) /\ nr (c2 w) (- (A * val py)) 1 (203 / 100) (a * T).
  Proof.
    destruct fins as (G1 & G2 & G3 & G4 & G5). pose proof (neg_fv _ G3) as N3. pose proof (neg_fv _ G4) as N4. pose proof (neg_fv _ G5) as N5.
    pose proof (sub_same _ _ G1 G4 Ey) as Z1. pose proof (sub_same _ _ G2 G5 Ez) as Z2.
    assert (T0 : 0 <= T) by (eapply Rle_trans; [apply Rabs_pos | exact Ty]).
    assert (MA : nr (Bminus mode_NE (sx : bf) px) A 1 0 a) by (apply nr_self; [exact FA | lra]).
    assert (My : nr (Bmult mode_NE (py : bf) (@minus1 F)) (- val py) 1 0 T) by (destruct N4 as [X Y]; rewrite <- Y; apply nr_self; [exact X | rewrite Y, Rabs_Ropp; exact Ty]).
    assert (Mz : nr (Bmult mode_NE (pz : bf) (@minus1 F)) (- val pz) 1 0 T) by (destruct N5 as [X Y]; rewrite <- Y; apply nr_self; [exact X | rewrite Y, Rabs_Ropp; exact Tz]).
    pose proof (Rabs_pos A) as A0. split; [| split].
    - change (fv (Bminus mode_NE (Bmult mode_NE (Bminus mode_NE (c1 s : bf) py) (Bmult mode_NE (pz : bf) (@minus1 F))) (Bmult mode_NE (Bminus mode_NE (c2 s : bf) pz) (Bmult mode_NE (py : bf) (@minus1 F)))) 0).
      pose proof (mul_fv0 _ _ Z1 (proj1 N5)) as Q1. pose proof (mul_fv0 _ _ Z2 (proj1 N4)) as Q2. apply sub_same; [apply Q1 | apply Q2 | rewrite (proj2 Q1), (proj2 Q2); reflexivity].
    - change (nr (Bminus mode_NE (Bmult mode_NE (Bminus mode_NE (c2 s : bf) pz) (Bmult mode_NE (px : bf) (@minus1 F))) (Bmult mode_NE (Bminus mode_NE (sx : bf) px) (Bmult mode_NE (pz : bf) (@minus1 F)))) (A * val pz) 1 (203 / 100) (a * T)).
      pose proof (nr_zero _ (a * T) (mul_fv0 _ _ Z2 (proj1 N3))) as Q1.
      assert (Q2 : nr (Bmult mode_NE (Bminus mode_NE (sx : bf) px) (Bmult mode_NE (pz : bf) (@minus1 F))) (A * - val pz) (1 * 1) (1002 / 1000) (a * T)) by (apply (nr_mul prec emax u unit_u _ _ _ _ 1 1 0 0 a T); assumption || lra).
      replace (A * val pz) with (0 - A * - val pz) by ring. replace 1 with (0 + 1 * 1) by ring.
      apply (nr_pm prec emax u unit_u true _ _ _ _ 0 (1 * 1) 0 (1002 / 1000) (a * T)); assumption || lra.
    - change (nr (Bminus mode_NE (Bmult mode_NE (Bminus mode_NE (sx : bf) px) (Bmult mode_NE (py : bf) (@minus1 F))) (Bmult mode_NE (Bminus mode_NE (c1 s : bf) py) (Bmult mode_NE (px : bf) (@minus1 F)))) (- (A * val py)) 1 (203 / 100) (a * T)).
      pose proof (nr_zero _ (a * T) (mul_fv0 _ _ Z1 (proj1 N3))) as Q1.
      assert (Q2 : nr (Bmult mode_NE (Bminus mode_NE (sx : bf) px) (Bmult mode_NE (py : bf) (@minus1 F))) (A * - val py) (1 * 1) (1002 / 1000) (a * T)) by (apply (nr_mul prec emax u unit_u _ _ _ _ 1 1 0 0 a T); assumption || lra).
      replace (- (A * val py)) with (A * - val py - 0) by ring. replace 1 with (1 * 1 + 0) by ring.
      apply (nr_pm prec emax u unit_u true _ _ _ _ (1 * 1) 0 (1002 / 1000) 0 (a * T)); assumption || lra.
  Qed.
  Lemma n_vals : nr (c0 n) (- (A * (val py * val py + val pz * val pz))) 2 (82 / 10) (a * T * T) /\
    nr (c1 n) (A * val py * val px) 1 (41 / 10) (a * T * m) /\ nr (c2 n) (A * val pz * val px) 1 (41 / 10) (a * T * m).
  Proof.
    destruct fins as (G1 & G2 & G3 & G4 & G5). pose proof (neg_fv _ G3) as N3. pose proof (neg_fv _ G4) as N4. pose proof (neg_fv _ G5) as N5.
    destruct w_vals as (W0 & W1 & W2). set (ww := w) in *. 
    assert (T0 : 0 <= T) by (eapply Rle_trans; [apply Rabs_pos | exact Ty]). pose proof (Rabs_pos A) as A0. pose proof (Rabs_pos (val px)) as M0. assert (AT : 0 <= a * T) by (apply Rmult_le_pos; assumption).
    assert (Mx : nr (Bmult mode_NE (px : bf) (@minus1 F)) (- val px) 1 0 m) by (destruct N3 as [X Y]; rewrite <- Y; apply nr_self; [exact X | rewrite Y, Rabs_Ropp; lra]).
    assert (My : nr (Bmult mode_NE (py : bf) (@minus1 F)) (- val py) 1 0 T) by (destruct N4 as [X Y]; rewrite <- Y; apply nr_self; [exact X | rewrite Y, Rabs_Ropp; exact Ty]).
    assert (Mz : nr (Bmult mode_NE (pz : bf) (@minus1 F)) (- val pz) 1 0 T) by (destruct N5 as [X Y]; rewrite <- Y; apply nr_self; [exact X | rewrite Y, Rabs_Ropp; exact Tz]).
    split; [| split].
    - change (nr (Bminus mode_NE (Bmult mode_NE (c1 ww : bf) (Bmult mode_NE (pz : bf) (@minus1 F))) (Bmult mode_NE (c2 ww : bf) (Bmult mode_NE (py : bf) (@minus1 F)))) (- (A * (val py * val py + val pz * val pz))) 2 (82 / 10) (a * T * T)).
      assert (Q1 : nr (Bmult mode_NE (c1 ww : bf) (Bmult mode_NE (pz : bf) (@minus1 F))) (A * val pz * - val pz) (1 * 1) (304 / 100) (a * T * T)) by (apply (nr_mul prec emax u unit_u _ _ _ _ 1 1 (203 / 100) 0 (a * T) T); assumption || lra).
      assert (Q2 : nr (Bmult mode_NE (c2 ww : bf) (Bmult mode_NE (py : bf) (@minus1 F))) (- (A * val py) * - val py) (1 * 1) (304 / 100) (a * T * T)) by (apply (nr_mul prec emax u unit_u _ _ _ _ 1 1 (203 / 100) 0 (a * T) T); assumption || lra).
      replace (- (A * (val py * val py + val pz * val pz))) with (A * val pz * - val pz - - (A * val py) * - val py) by ring. replace 2 with (1 * 1 + 1 * 1) by ring.
      apply (nr_pm prec emax u unit_u true _ _ _ _ (1 * 1) (1 * 1) (304 / 100) (304 / 100) (a * T * T)); assumption || lra.
    - change (nr (Bminus mode_NE (Bmult mode_NE (c2 ww : bf) (Bmult mode_NE (px : bf) (@minus1 F))) (Bmult mode_NE (c0 ww : bf) (Bmult mode_NE (pz : bf) (@minus1 F)))) (A * val py * val px) 1 (41 / 10) (a * T * m)).
      assert (Q1 : nr (Bmult mode_NE (c2 ww : bf) (Bmult mode_NE (px : bf) (@minus1 F))) (- (A * val py) * - val px) (1 * 1) (304 / 100) (a * T * m)) by (apply (nr_mul prec emax u unit_u _ _ _ _ 1 1 (203 / 100) 0 (a * T) m); assumption || lra).
      pose proof (nr_zero _ (a * T * m) (mul_fv0 _ _ W0 (proj1 N5))) as Q2.
      replace (A * val py * val px) with (- (A * val py) * - val px - 0) by ring. replace 1 with (1 * 1 + 0) by ring.
      apply (nr_pm prec emax u unit_u true _ _ _ _ (1 * 1) 0 (304 / 100) 0 (a * T * m)); assumption || lra.
    - change (nr (Bminus mode_NE (Bmult mode_NE (c0 ww : bf) (Bmult mode_NE (py : bf) (@minus1 F))) (Bmult mode_NE (c1 ww : bf) (Bmult mode_NE (px : bf) (@minus1 F)))) (A * val pz * val px) 1 (41 / 10) (a * T * m)).
      assert (Q1 : nr (Bmult mode_NE (c1 ww : bf) (Bmult mode_NE (px : bf) (@minus1 F))) (A * val pz * - val px) (1 * 1) (304 / 100) (a * T * m)) by (apply (nr_mul prec emax u unit_u _ _ _ _ 1 1 (203 / 100) 0 (a * T) m); assumption || lra).
      pose proof (nr_zero _ (a * T * m) (mul_fv0 _ _ W0 (proj1 N4))) as Q2.
      replace (A * val pz * val px) with (0 - A * val pz * - val px) by ring. replace 1 with (0 + 1 * 1) by ring.
      apply (nr_pm prec emax u unit_u true _ _ _ _ 0 (1 * 1) 0 (304 / 100) (a * T * m)); assumption || lra.
  Qed.
  Lemma n_fin : fin3 (n : mat3x1 bf).
  Proof. destruct n_vals as ((H0 & _) & (H1 & _) & (H2 & _)). exact (conj H0 (conj H1 H2)). Qed.
  Lemma w3_c (v : vec) : w3 v = V (val (c0 v)) (val (c1 v)) (val (c2 v)). Proof. destruct v as [[x y z]]. reflexivity. Qed.
  Lemma n_dot : Rabs (vdot (w3 n) (w3 p)) <= 17 * u * T * (a * T * m).
  Proof.
    destruct n_vals as ((_ & H0 & _) & (_ & H1 & _) & (_ & H2 & _)). rewrite !w3_c. unfold vdot. cbn [vx vy vz].
    set (x := val (c0 n)) in *. set (y := val (c1 n)) in *. set (z := val (c2 n)) in *. clearbody x y z.
    replace (x * val px + y * val py + z * val pz) with ((x - - (A * (val py * val py + val pz * val pz))) * val px + (y - A * val py * val px) * val py + (z - A * val pz * val px) * val pz) by ring.
    eapply Rle_trans; [apply Rabs_triang |]. eapply Rle_trans; [apply Rplus_le_compat_r, Rabs_triang |]. rewrite (Rabs_mult _ (val px)), (Rabs_mult _ (val py)), (Rabs_mult _ (val pz)).
    pose proof (u_pos prec) as U0. assert (T0 : 0 <= T) by (eapply Rle_trans; [apply Rabs_pos | exact Ty]). pose proof (Rabs_pos A) as A0. pose proof (Rabs_pos (val px)) as M0.
    assert (AT : 0 <= a * T * m) by (repeat apply Rmult_le_pos; assumption).
    assert (L0 : Rabs (x - - (A * (val py * val py + val pz * val pz))) * m <= 82 / 10 * u * (a * T * T) * m) by (apply Rmult_le_compat_r; assumption).
    assert (L1 : Rabs (y - A * val py * val px) * Rabs (val py) <= 41 / 10 * u * (a * T * m) * T) by (apply Rmult_le_compat; try apply Rabs_pos; assumption).
    assert (L2 : Rabs (z - A * val pz * val px) * Rabs (val pz) <= 41 / 10 * u * (a * T * m) * T) by (apply Rmult_le_compat; try apply Rabs_pos; assumption).
    assert (0 <= u * T * (a * T * m)) by (repeat apply Rmult_le_pos; lra). lra.
  Qed.
  Lemma n_len : T <= Rabs (val py) \/ T <= Rabs (val pz) -> 99 / 100 * (a * T * m) <= norm (w3 n).
  Proof.
    intro HT. destruct n_vals as ((_ & H0 & _) & (_ & H1 & _) & (_ & H2 & _)). pose proof (abs_comp_norm (w3 n)) as (_ & N1 & N2). rewrite w3_c in N1, N2. cbn [vx vy vz] in N1, N2.
    pose proof (u_small prec HP) as U. pose proof (u_pos prec) as U0. assert (T0 : 0 <= T) by (eapply Rle_trans; [apply Rabs_pos | exact Ty]). pose proof (Rabs_pos A) as A0. pose proof (Rabs_pos (val px)) as M0.
    assert (AT : 0 <= a * T * m) by (repeat apply Rmult_le_pos; assumption).
    assert (UA : 41 / 10 * u * (a * T * m) <= / 100 * (a * T * m)) by (apply Rmult_le_compat_r; lra).
    assert (Q : forall q g : R, T <= Rabs q -> Rabs (g - A * q * val px) <= 41 / 10 * u * (a * T * m) -> 99 / 100 * (a * T * m) <= Rabs g).
    { intros q g HQ HG. assert (E : a * T * m <= Rabs (A * q * val px)). { rewrite !Rabs_mult. apply Rmult_le_compat_r; [exact M0 |]. apply Rmult_le_compat_l; assumption. }
      pose proof (Rabs_triang (A * q * val px - g) g) as R. replace (A * q * val px - g + g) with (A * q * val px) in R by ring. rewrite Rabs_minus_sym in R. lra. }
    rewrite w3_c. destruct HT as [HT | HT]; [apply Rle_trans with (Rabs (val (c1 n))); [apply (Q (val py)) | exact N1] | apply Rle_trans with (Rabs (val (c2 n))); [apply (Q (val pz)) | exact N2]]; assumption.
  Qed.
  Lemma n_perp : 0 < a * T * m -> T <= Rabs (val py) \/ T <= Rabs (val pz) -> Rabs (vdot (unit (w3 n)) (w3 p)) <= 18 * u * T.
  Proof.
    intros AT HT. pose proof (n_len HT) as L. pose proof n_dot as D. set (N := w3 n) in *. assert (N0 : 0 < norm N) by lra.
    replace (vdot (unit N) (w3 p)) with (vdot N (w3 p) / norm N) by (unfold unit, vdot, vscale; cbn [vx vy vz]; field; lra).
    unfold Rdiv. rewrite Rabs_mult, (Rabs_pos_eq (/ norm N)) by (left; apply Rinv_0_lt_compat; exact N0).
    apply Rmult_le_reg_r with (norm N); [exact N0 |]. rewrite Rmult_assoc, Rinv_l, Rmult_1_r by lra. eapply Rle_trans; [exact D |].
    pose proof (u_pos prec) as U0. assert (T0 : 0 <= T) by (eapply Rle_trans; [apply Rabs_pos | exact Ty]). assert (UT : 0 <= u * T) by (apply Rmult_le_pos; lra).
    assert (u * T * (99 / 100 * (a * T * m)) <= u * T * norm N) by (apply Rmult_le_compat_l; assumption). assert (0 <= u * T * (a * T * m)) by (apply Rmult_le_pos; lra). lra.
  Qed.
  Lemma n_size X : a * T * T <= X -> a * T * m <= X -> Rabs (val (c0 n)) <= 3 * X /\ Rabs (val (c1 n)) <= 3 * X /\ Rabs (val (c2 n)) <= 3 * X.
  Proof.
    intros X1 X2. destruct n_vals as ((_ & H0 & G0) & (_ & H1 & G1) & (_ & H2 & G2)).
    pose proof (u_small prec HP) as U. pose proof (u_pos prec) as U0. assert (T0 : 0 <= T) by (eapply Rle_trans; [apply Rabs_pos | exact Ty]). pose proof (Rabs_pos A) as A0. pose proof (Rabs_pos (val px)) as M0.
    assert (AT : 0 <= a * T * m) by (repeat apply Rmult_le_pos; assumption). assert (AT2 : 0 <= a * T * T) by (repeat apply Rmult_le_pos; assumption).
    assert (UA : 41 / 10 * u * (a * T * m) <= / 100 * (a * T * m)) by (apply Rmult_le_compat_r; lra).
    assert (UB : 82 / 10 * u * (a * T * T) <= / 100 * (a * T * T)) by (apply Rmult_le_compat_r; lra).
    assert (Q : forall g v : R, Rabs g <= Rabs (g - v) + Rabs v) by (intros g v; replace g with (g - v + v) at 1 by ring; apply Rabs_triang).
    split; [| split].
    - eapply Rle_trans; [apply (Q _ (- (A * (val py * val py + val pz * val pz)))) |]. lra.
    - eapply Rle_trans; [apply (Q _ (A * val py * val px)) |]. lra.
    - eapply Rle_trans; [apply (Q _ (A * val pz * val px)) |]. lra.
  Qed.
  End Dir.
  (** ---- a direction of no length ---- *)
  Lemma n_zero (s p : vec) : fin3 (s : mat3x1 bf) -> fin3 (p : mat3x1 bf) -> fin (Bminus mode_NE (c0 s : bf) (c0 p)) -> val (c1 s) = 0 -> val (c2 s) = 0 -> val (c1 p) = 0 -> val (c2 p) = 0 ->
    neqb (vmag (vcrossn (vcrossn (vminus s p) (vtimes p minus1)) (vtimes p minus1))) n0 = true.
  Proof.
    intros Fs Fp FA Y Z Y' Z'. destruct s as [[s0 s1 s2]], p as [[p0 p1 p2]]. cbn [c0 c1 c2] in *. destruct Fs as (A0 & A1 & A2), Fp as (B0 & B1 & B2).
    pose proof (fv_m1 prec emax lm) as M1. unfold vmag, vcrossn, vminus, vtimes. cbn [c0 c1 c2].
    set (x := nsub F s0 p0) in *. set (y := nsub F s1 p1). set (z := nsub F s2 p2). set (i := nmul F p0 minus1). set (j := nmul F p1 minus1). set (k := nmul F p2 minus1).
    assert (Hy : fv (y : bf) 0) by (apply sub_same; [exact A1 | exact B1 | congruence]). assert (Hz : fv (z : bf) 0) by (apply sub_same; [exact A2 | exact B2 | congruence]).
    assert (Hi : fin (i : bf)) by (apply (neg_fv _ B0)). assert (Hj : fv (j : bf) 0) by (apply (mul0l prec emax _ _ (-1)); [split; assumption | exact M1]). assert (Hk : fv (k : bf) 0) by (apply (mul0l prec emax _ _ (-1)); [split; assumption | exact M1]).
    assert (Hx : fin (x : bf)) by exact FA. clearbody x y z i j k.
    assert (L : forall g h : bf, fv g 0 -> fin h -> fv (Bmult mode_NE g h) 0) by (intros; apply mul_fv0; assumption).
    assert (R : forall g h : bf, fin g -> fv h 0 -> fv (Bmult mode_NE g h) 0) by (intros g h G H; rewrite Bmult_comm; apply mul_fv0; assumption).
    assert (Sb : forall g h : bf, fv g 0 -> fv h 0 -> fv (Bminus mode_NE g h) 0) by (intros g h [G G'] [H H']; apply sub_same; [exact G | exact H | congruence]).
    assert (Ad : forall g h : bf, fv g 0 -> fv h 0 -> fv (Bplus mode_NE g h) 0) by (intros g h G H; apply (add0 prec emax); assumption).
    set (w0 := nsub F (nmul F y k) (nmul F z j)). assert (W0 : fv (w0 : bf) 0) by (apply Sb; [apply L; [exact Hy | apply Hk] | apply L; [exact Hz | apply Hj]]).
    set (w1 := nsub F (nmul F z i) (nmul F x k)). assert (W1 : fv (w1 : bf) 0) by (apply Sb; [apply L; [exact Hz | apply Hi] | apply R; [exact Hx | apply Hk]]).
    set (w2 := nsub F (nmul F x j) (nmul F y i)). assert (W2 : fv (w2 : bf) 0) by (apply Sb; [apply R; [exact Hx | apply Hj] | apply L; [exact Hy | apply Hi]]).
    clearbody w0 w1 w2.
    set (n0' := nsub F (nmul F w1 k) (nmul F w2 j)). assert (N0 : fv (n0' : bf) 0) by (apply Sb; apply L; assumption || apply Hk || apply Hj).
    set (n1' := nsub F (nmul F w2 i) (nmul F w0 k)). assert (N1 : fv (n1' : bf) 0) by (apply Sb; apply L; assumption || apply Hk).
    set (n2' := nsub F (nmul F w0 j) (nmul F w1 i)). assert (N2 : fv (n2' : bf) 0) by (apply Sb; apply L; assumption || apply Hj).
    clearbody n0' n1' n2'.
    assert (Q : fv (Bplus mode_NE (Bplus mode_NE (Bmult mode_NE (n0' : bf) n0') (Bmult mode_NE (n1' : bf) n1')) (Bmult mode_NE (n2' : bf) n2')) 0).
    { apply Ad; [apply Ad |]; (apply L; [assumption | apply N0 || apply N1 || apply N2]). }
    destruct Q as [FQ VQ]. destruct (sqrt_ok prec emax _ FQ ltac:(lra)) as [FS VS]. destruct (fv_n0 prec emax lm) as [Fz Vz].
    apply (neqb_val prec emax lm); [exact FS | exact Fz |]. etransitivity; [exact VS |]. rewrite VQ, sqrt_0, round_0 by apply valid_rnd_N. symmetry. exact Vz.
  Qed.
End Deep1.

Section Tri3.
  Context (prec emax : Z) {Hp : Prec_gt_0 prec} {Hm : Prec_lt_emax prec emax} (lm : libm (binary_float prec emax)).
  Notation bf := (binary_float prec emax).
  Notation val := (@B2R prec emax).
  Notation fin x := (is_finite (x : bf) = true).
  Notation u := (uro prec).
  Notation F := (@Ieee prec emax Hp Hm lm).
  Notation vec := (mat3x1 F).
  Notation w3 v := (v3 (v : mat3x1 bf)).
  Variable (U : R).
  Notation sz := (sz prec emax U).
  Notation nr := (nr prec emax U).
  Notation nr3 := (nr3 prec emax U).
  Hypothesis HU : unit_ok prec U.
  Lemma nr3_tight (t : vec) v m m' c P : norm v <= m' * P -> nr3 (t : mat3x1 bf) v m c P -> nr3 (t : mat3x1 bf) v m' c P.
  Proof.
    intros N. destruct (abs_comp_norm v) as (N0 & N1 & N2). destruct t as [[x y z]]. intros ((A0 & B0 & _) & (A1 & B1 & _) & (A2 & B2 & _)). repeat split; assumption || lra.
  Qed.
  Lemma nr3_near (t : vec) v c P m : fin3 (t : mat3x1 bf) -> dist (w3 t) v <= c * U * P -> norm v <= m * P -> nr3 (t : mat3x1 bf) v m c P.
  Proof.
    intros Ft D N. destruct (abs_comp_norm v) as (N0 & N1 & N2). unfold dist in D. destruct (abs_comp_norm (vsub (w3 t) v)) as (M0 & M1 & M2).
    destruct t as [[x y z]]. destruct Ft as (F0 & F1 & F2). unfold vsub, v3 in M0, M1, M2. cbn [vx vy vz] in M0, M1, M2. unfold v3 in D. repeat split; assumption || (eapply Rle_trans; [eassumption |]; assumption).
  Qed.
  Lemma nr3_neg (t : vec) v m c P : nr3 (t : mat3x1 bf) v m c P -> nr3 (vtimes t minus1 : mat3x1 bf) (vscale (-1) v) m c P.
  Proof.
    destruct t as [[x y z]]. intros (A0 & A1 & A2). unfold vtimes. cbn [c0 c1 c2].
    assert (Q : forall (g : bf) r, nr g r m c P -> nr (Bmult mode_NE g (@minus1 F)) (-1 * r) m c P) by (intros g r G; replace (-1 * r) with (- r) by ring; apply nr_neg; exact G).
    split; [| split]; apply Q; assumption.
  Qed.
  Lemma vdotn_some (a b : vec) t : mat3x1_dot a b = Some t -> PMirror1.vdotn a b = t.
  Proof. destruct a as [[]], b as [[]]. intro H. injection H as <-. reflexivity. Qed.
  Lemma norm_sub a b : norm (vsub a b) <= norm a + norm b.
  Proof.
    replace (vsub a b) with (vadd a (vscale (-1) b)) by (apply V3_eq; unfold vadd, vsub, vscale; cbn [vx vy vz]; ring).
    eapply Rle_trans; [apply triangle |]. rewrite norm_scale_abs. replace (Rabs (-1)) with 1 by (rewrite Rabs_left; lra). lra.
  Qed.
  (** one side of a triangle, for edges [x], [y] of length at most 2K from the corner [a] *)
  Section Side.
  Variables (K : R) (x y a : vec) (vx_ vy_ va : V3).
  Hypotheses (K0 : 0 < K) (Z1 : sz K) (Z2 : sz (K * K)) (Z3 : sz (K * K * K)) (Z4 : sz (K * K * K * K)).
  Hypotheses (Nx : nr3 (x : mat3x1 bf) vx_ (3 / 2) 1 K) (Ny : nr3 (y : mat3x1 bf) vy_ (3 / 2) 1 K) (Na : nr3 (a : mat3x1 bf) va (3 / 2) 1 K).
  Hypotheses (Lx : norm (vsub vx_ va) <= 2 * K) (Ly : norm (vsub vy_ va) <= 2 * K).
  Lemma side_near : nr3 (vcrossn (vcrossn (vminus x a) (vminus y a)) (vminus y a) : mat3x1 bf) (vcross (vcross (vsub vx_ va) (vsub vy_ va)) (vsub vy_ va)) 8 (2985 / 10) (K * K * K).
  Proof.
    assert (EX : nr3 (vminus x a : mat3x1 bf) (vsub vx_ va) 2 (501 / 100) K) by (apply (nr3_tight _ _ (3 / 2 + 3 / 2)); [exact Lx |]; apply (nr3_minus prec emax lm U HU _ _ _ _ (3 / 2) (3 / 2) 1 1); assumption || lra).
    assert (EY : nr3 (vminus y a : mat3x1 bf) (vsub vy_ va) 2 (501 / 100) K) by (apply (nr3_tight _ _ (3 / 2 + 3 / 2)); [exact Ly |]; apply (nr3_minus prec emax lm U HU _ _ _ _ (3 / 2) (3 / 2) 1 1); assumption || lra).
    pose proof (norm_pos (vsub vx_ va)) as P1. pose proof (norm_pos (vsub vy_ va)) as P2. pose proof (cross_norm_le (vsub vx_ va) (vsub vy_ va)) as C1.
    pose proof (cross_norm_le (vcross (vsub vx_ va) (vsub vy_ va)) (vsub vy_ va)) as C2. pose proof (norm_pos (vcross (vsub vx_ va) (vsub vy_ va))) as P3.
    assert (C3 : norm (vcross (vsub vx_ va) (vsub vy_ va)) <= 4 * (K * K)) by (eapply Rle_trans; [exact C1 |]; replace (4 * (K * K)) with (2 * K * (2 * K)) by ring; apply Rmult_le_compat; assumption).
    assert (C4 : norm (vcross (vcross (vsub vx_ va) (vsub vy_ va)) (vsub vy_ va)) <= 8 * (K * K * K)) by (eapply Rle_trans; [exact C2 |]; replace (8 * (K * K * K)) with (4 * (K * K) * (2 * K)) by ring; apply Rmult_le_compat; assumption).
    assert (EW : nr3 (vcrossn (vminus x a) (vminus y a) : mat3x1 bf) (vcross (vsub vx_ va) (vsub vy_ va)) 4 (563 / 10) (K * K)).
    { apply (nr3_tight _ _ (2 * 2 + 2 * 2)); [exact C3 |]. apply (nr3_cross prec emax lm U HU _ _ _ _ 2 2 (501 / 100) (501 / 100) K K (241 / 10)); assumption || lra. }
    apply (nr3_tight _ _ (4 * 2 + 4 * 2)); [exact C4 |]. assert (KK : 0 <= K * K) by (apply Rmult_le_pos; lra).
    apply (nr3_cross prec emax lm U HU _ _ _ _ 4 2 (563 / 10) (501 / 100) (K * K) K (1411 / 10)); assumption || lra.
  Qed.
  Lemma side_dot : nr (PMirror1.vdotn (vcrossn (vcrossn (vminus x a) (vminus y a)) (vminus y a)) (vtimes a minus1)) (vdot (vcross (vcross (vsub vx_ va) (vsub vy_ va)) (vsub vy_ va)) (vscale (-1) va))
    36 (14684 / 10) (K * K * K * K).
  Proof.
    pose proof side_near as N. pose proof (nr3_neg _ _ _ _ _ Na) as M. assert (KK : 0 <= K * K * K) by (repeat apply Rmult_le_pos; lra).
    destruct (nr_dot prec emax lm U HU _ _ _ _ 8 (3 / 2) (2985 / 10) 1 (K * K * K) K (4686 / 10) (9622 / 10) (14684 / 10) Z4 ltac:(lra) ltac:(lra) ltac:(lra) ltac:(lra) KK ltac:(lra) N M
      ltac:(lra) ltac:(lra) ltac:(lra) ltac:(lra) ltac:(lra) ltac:(lra) ltac:(lra) ltac:(lra)) as [t [Et Ht]].
    rewrite (vdotn_some _ _ _ Et). replace 36 with (8 * (3 / 2) + 8 * (3 / 2) + 8 * (3 / 2)) by lra. exact Ht.
  Qed.
  End Side.
End Tri3.

