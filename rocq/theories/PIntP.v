(** PIntP.v — prisms over triangles perpendicular to an axis, on fixed-point data in IEEE arithmetic (C119). *)
From Coq Require Import Reals List ZArith NArith Bool Lra Lia Psatz.
From Flocq Require Import Core Relative BinarySingleNaN.
Import ListNotations.
From Verif Require Import Base Num Vec Mat Bound Shape Intersect Float FloatFacts FloatRound Order SpecMat SpecRound SpecGeom SpecBound SpecBuild SpecShape SpecInt
  PMat PBound PShape PInter PBuild PRound ExactFacts PGeo1 PGeo2 PGeo3 PIeee1 PIeee2 PIeee3 PIeee5 PIeee6 PIeee7 PNan PMirror1 PMirror2 PNan2 PPrismF PInt PInt2 PSqr PIntQ.
Local Open Scope R_scope.

Section IntP.
  Context (prec emax : Z) {Hp : Prec_gt_0 prec} {Hm : Prec_lt_emax prec emax} (lm : libm (binary_float prec emax)).
  Notation bf := (binary_float prec emax).
  Notation F := (@Ieee prec emax Hp Hm lm).
  Notation val := (@B2R prec emax).
  Notation fin x := (is_finite (x : bf) = true).
  Notation full := (bpow radix2 prec).
  Notation room := (room prec emax).
  Notation X := (X prec emax).
  Notation X3 := (X3 prec emax lm).
  Notation vec := (mat3x1 F).
  Notation v3 v := (v3 (v : mat3x1 bf)).
  Lemma X3_plus s K L (v w : vec) a b : room s -> X3 s K v a -> X3 s L w b -> K + L <= full -> X3 s (K + L) (vplus v w) (vadd a b).
  Proof. intros R (A & B & C) (A' & B' & C') H. split; [| split]; apply (X_plus prec emax lm); assumption. Qed.
  Lemma X3_times s t K L (v : vec) (c : F) a r : room (s + t) -> X3 s K v a -> X t L c r -> K * L <= full -> X3 (s + t) (K * L) (vtimes v c) (vscale r a).
  Proof. intros R (A & B & C) Q H. split; [| split]; cbn [vtimes c0 c1 c2 vscale vx vy vz]; rewrite (Rmult_comm r); apply (X_mult prec emax lm); assumption. Qed.
  Lemma X3_cross s t K L (v w : vec) a b : room (s + t) -> X3 s K v a -> X3 t L w b -> 2 * (K * L) <= full -> X3 (s + t) (2 * (K * L)) (vcrossn v w) (vcross a b).
  Proof.
    intros R (A & B & C) (A' & B' & C') H. assert (P : 0 <= K * L) by (apply Rmult_le_pos; [exact (X_pos _ _ _ _ _ _ A) | exact (X_pos _ _ _ _ _ _ A')]). replace (2 * (K * L)) with (K * L + K * L) in * by ring.
    split; [| split]; cbn [vcrossn c0 c1 c2 vcross vx vy vz]; (apply (X_minus prec emax lm); [exact R | apply (X_mult prec emax lm); try assumption; lra | apply (X_mult prec emax lm); try assumption; lra | exact H]).
  Qed.
  Lemma X3_v3 s K (v : vec) a : X3 s K v a -> fin3 (v : mat3x1 bf) /\ v3 v = a.
  Proof. destruct v as [[x y z]]. intros ((A1 & A2 & _) & (B1 & B2 & _) & (C1 & C2 & _)). cbn [c0 c1 c2] in *. split; [split; [exact A1 | split; [exact B1 | exact C1]] |]. cbn [SpecBuild.v3]. rewrite A2, B2, C2. destruct a; reflexivity. Qed.
  (** the six vertices span the prism *)
  Lemma prism_hull a b c h x : s_prism a b c h x -> let w := vscale h (tri_normal a b c) in s_hull [a; b; c; vadd a w; vadd b w; vadd c w] x.
  Proof.
    intros (y & k & (p & q & P & Q & PQ & ->) & K0 & ->) w. unfold w. generalize (tri_normal a b c). clear w. intro n. exists [(1 - p - q) * (1 - k); p * (1 - k); q * (1 - k); (1 - p - q) * k; p * k; q * k]. split; [reflexivity |]. split; [| split].
    - intros w H. repeat (destruct H as [<- | H]; [nra |]). destruct H.
    - cbn [fold_right]. ring.
    - cbn [wsum]. apply V3_eq; cbn [vadd vscale vsub vzero vx vy vz]; ring.
  Qed.
  Section Prism.
    Variables (a b c p : vec) (h : F) (s : Z) (K : R).
    Notation A := (v3 a). Notation B := (v3 b). Notation C := (v3 c). Notation P := (v3 p). Notation H := (val h).
    Notation N := (vcross (vsub B A) (vsub C A)).
    Hypothesis S1 : (6 - emax <= 4 * s)%Z.
    Hypothesis S2 : (2 * s + prec <= emax / 2 - 3)%Z.
    Hypothesis K1 : 1 <= K.
    Hypothesis KB : 24 * (K * K * K) <= full.
    Hypotheses (Fa : fix3 s K (a : mat3x1 bf)) (Fb : fix3 s K (b : mat3x1 bf)) (Fc : fix3 s K (c : mat3x1 bf)) (Fh : fixed s K (h : bf)) (Fp : fix3 s K (p : mat3x1 bf)).
    Hypothesis Ax : axial N.
    Notation wf := (hvec a b c h).
    Lemma rooms : room s /\ room (s + s) /\ room (s + (s + s)).
    Proof. unfold Prec_gt_0 in Hp. unfold Prec_lt_emax in Hm. pose proof (Z.mul_div_le emax 2 ltac:(lia)). unfold SpecInt.room. lia. Qed.
    Lemma sizes : K <= K * K /\ K * K <= K * K * K.
    Proof. nra. Qed.
    Lemma normal_X : X3 (s + s) (8 * (K * K)) (vcrossn (vminus b a) (vminus c a)) N.
    Proof.
      destruct rooms as (R1 & R2 & _). destruct sizes as [Q1 Q2].
      pose proof (X3_minus prec emax lm s K K b a _ _ R1 (X3_fix prec emax lm _ _ _ Fb) (X3_fix prec emax lm _ _ _ Fa) ltac:(lra)) as E1. pose proof (X3_minus prec emax lm s K K c a _ _ R1 (X3_fix prec emax lm _ _ _ Fc) (X3_fix prec emax lm _ _ _ Fa) ltac:(lra)) as E2.
      replace (8 * (K * K)) with (2 * ((K + K) * (K + K))) by ring. apply X3_cross; try assumption. lra.
    Qed.
    Lemma big_square k : (1 <= Rabs (IZR k)) -> bpow radix2 (6 - emax) <= IZR k * bpow radix2 (s + s) * (IZR k * bpow radix2 (s + s)).
    Proof.
      intro L. apply Rle_trans with (bpow radix2 (s + s) * bpow radix2 (s + s)); [rewrite <- bpow_plus; apply bpow_le; lia |]. assert (B0 := bpow_gt_0 radix2 (s + s)).
      assert (1 <= IZR k * IZR k) by (rewrite <- (Rabs_pos_eq (IZR k * IZR k)) by apply Rle_0_sqr; rewrite Rabs_mult; nra). nra.
    Qed.
    Lemma normal_good : good_normal (vcrossn (vminus b a) (vminus c a) : mat3x1 bf).
    Proof.
      pose proof normal_X as NX. destruct (X3_v3 _ _ _ _ NX) as [FN VN]. set (n := vcrossn _ _) in *. destruct sizes as [Q1 Q2].
      assert (Bd : forall x v, X (s + s) (8 * (K * K)) x v -> Rabs (val x) <= bpow radix2 (emax / 2 - 3)).
      { intros x v (_ & -> & k & -> & Bk). rewrite Rabs_mult, (Rabs_pos_eq (bpow _ _)) by apply bpow_ge_0. apply Rle_trans with (full * bpow radix2 (s + s)); [apply Rmult_le_compat_r; [apply bpow_ge_0 | lra] |]. rewrite <- bpow_plus. apply bpow_le. lia. }
      split; [split; [exact FN |] |].
      - destruct NX as (N0 & N1 & N2). destruct n as [[x y z]]. split; [exact (Bd _ _ N0) | split; [exact (Bd _ _ N1) | exact (Bd _ _ N2)]].
      - rewrite VN. destruct NX as ((_ & _ & k0 & E0 & _) & (_ & _ & k1 & E1 & _) & (_ & _ & k2 & E2 & _)).
        assert (Nz : forall k v, v = IZR k * bpow radix2 (s + s) -> v <> 0 -> bpow radix2 (6 - emax) <= v * v). { intros k v -> Hv. apply big_square. rewrite <- abs_IZR. apply IZR_le. assert (k <> 0)%Z by (intros ->; apply Hv; ring). lia. }
        destruct Ax as [NN AA]. unfold vdot. destruct AA as [[Y Z] | [[Y Z] | [Y Z]]]; rewrite Y, Z.
        + apply Rle_trans with (vx N * vx N); [apply (Nz k0 _ E0) | right; ring]. intro W. apply NN, V3_eq; assumption.
        + apply Rle_trans with (vy N * vy N); [apply (Nz k1 _ E1) | right; ring]. intro W. apply NN, V3_eq; assumption.
        + apply Rle_trans with (vz N * vz N); [apply (Nz k2 _ E2) | right; ring]. intro W. apply NN, V3_eq; assumption.
    Qed.
    Lemma height_X : X3 s K wf (vscale H (tri_normal A B C)).
    Proof.
      destruct rooms as (R1 & _). pose proof sizes as [Q1 Q2]. assert (VN : v3 (vcrossn (vminus b a) (vminus c a)) = N) by apply (X3_v3 _ _ _ _ normal_X).
      pose proof (nrm_axial prec emax lm (vcrossn (vminus b a) (vminus c a)) normal_good) as U. rewrite VN in U. specialize (U Ax). pose proof (X3_times 0 s 1 K _ h _ _ R1 U (X_fixed _ _ _ _ _ Fh) ltac:(lra)) as W. rewrite Rmult_1_l in W. exact W.
    Qed.
    Lemma dot_some (v w : vec) : mat3x1_dot v w = Some (vdotn v w).
    Proof. destruct v as [[]], w as [[]]. reflexivity. Qed.
    Lemma tests_X : all_inside (ftests prec emax lm a b c h) p = Ok (inside (ptests A B C H) P).
    Proof.
      destruct rooms as (R1 & R2 & R3). destruct sizes as [Q1 Q2]. pose proof height_X as W. fold (pnh A B C H) in W. set (w := pnh A B C H) in *.
      pose proof (X3_fix prec emax lm _ _ _ Fa) as XA. pose proof (X3_fix prec emax lm _ _ _ Fb) as XB. pose proof (X3_fix prec emax lm _ _ _ Fc) as XC. pose proof (X3_fix prec emax lm _ _ _ Fp) as XP.
      assert (M1 : X 0 1 (nlit F (-1) 1) (-1)).
      { destruct (fv_m1 prec emax lm) as [L1 L2]. split; [exact L1 |]. split; [exact L2 |]. exists (-1)%Z. cbn [bpow]. split; [ring |]. rewrite <- abs_IZR. cbn. lra. }
      assert (W1 : X3 s K (vtimes wf (nlit F (-1) 1)) (vscale (-1) w)). { pose proof (X3_times s 0 K 1 wf _ _ _ ltac:(rewrite Z.add_0_r; exact R1) W M1 ltac:(lra)) as T. rewrite Z.add_0_r, Rmult_1_r in T. exact T. }
      assert (Side : forall q r v z, X3 s K q v -> X3 s K r z -> X (s + (s + s)) (3 * ((K + K) * (2 * ((K + K) * K)))) (vdotn (vminus p q) (vcrossn (vminus r q) wf)) (vdot (vsub P v) (vcross (vsub z v) w))).
      { intros q r v z Xq Xr. pose proof (X3_minus prec emax lm s K K p q _ _ R1 XP Xq ltac:(lra)) as D1. pose proof (X3_minus prec emax lm s K K r q _ _ R1 Xr Xq ltac:(lra)) as D2. pose proof (X3_cross s s _ _ _ _ _ _ R2 D2 W ltac:(lra)) as D3.
        apply (X_dot prec emax lm); try assumption. lra. }
      assert (Cap : forall q n v z L, X3 s L q v -> X3 s K n z -> L <= 2 * K -> X (s + s) (3 * ((K + L) * K)) (vdotn (vminus p q) n) (vdot (vsub P v) z)).
      { intros q n v z L Xq Xn HL. assert (KL : K * L <= K * (2 * K)) by (apply Rmult_le_compat_l; lra). pose proof (X3_minus prec emax lm s K L p q _ _ R1 XP Xq ltac:(lra)) as D1. apply (X_dot prec emax lm); try assumption. lra. }
      pose proof (Cap a _ _ _ K XA W1 ltac:(lra)) as T1. pose proof (Cap (vplus a wf) wf _ _ (K + K) (X3_plus s K K a wf _ _ R1 XA W ltac:(lra)) W ltac:(lra)) as T2.
      pose proof (Side a b _ _ XA XB) as T3. pose proof (Side b c _ _ XB XC) as T4. pose proof (Side c a _ _ XC XA) as T5. clear Side Cap.
      assert (Sg : forall t K' (x : F) v, X t K' x v -> ngt x n0 = (if Rlt_dec 0 v then true else false)).
      { intros t K' x v Xx. pose proof (X_gt prec emax lm _ _ _ _ _ _ _ _ Xx (lit0 prec emax lm t)) as G. destruct (Rlt_dec 0 v) as [L | L]; [apply G, L | apply not_true_is_false; intro T; apply L, G, T]. }
      unfold ftests. rewrite !(inside_step prec emax lm _ _ _ _ _ (dot_some _ _)), (Sg _ _ _ _ T1), (Sg _ _ _ _ T2), (Sg _ _ _ _ T3), (Sg _ _ _ _ T4), (Sg _ _ _ _ T5).
      unfold inside, ptests. cbn [forallb]. unfold PGeo3.val. cbn [fst snd]. fold w.
      repeat match goal with |- context [Rlt_dec 0 ?t] => destruct (Rlt_dec 0 t); cbn [andb]; [reflexivity |] end. reflexivity.
    Qed.
    Theorem prism_point_int e f (x y : shape F) : mk_prism a b c h e x -> mk_point p f y ->
      (0 < H -> (s_prism A B C H P -> shape_get_intersect x y = Ok (true, Some p)) /\ (~ s_prism A B C H P -> shape_get_intersect x y = Ok (false, None))) /\
      (H < 0 -> shape_get_intersect x y = Ok (false, None)).
    Proof.
      intros Ms Mq. assert (Ok' : tri_ok A B C) by exact (proj1 Ax). pose proof Ms as Ms'. pose proof Mq as Mq'. apply prism_any in Ms. apply point_any in Mq.
      assert (CE : core x y = let! i := all_inside (ftests prec emax lm a b c h) p in Ok (if i then (true, Some p) else miss)).
      { subst x y. cbn [core shape_get_shape_data pt_ori]. unfold triprism_point. replace (vec_at (vec_data p) 0) with (Ok p) by (destruct p as [[]]; reflexivity). cbn [bind].
        replace (triprism_tests _) with (Ok (ftests prec emax lm a b c h)); [reflexivity |]. unfold triprism_tests. cbn [tp_nh tp_base tp_base2]. unfold ftests.
        destruct wf as [[]], a as [[]], b as [[]], c as [[]]. reflexivity. }
      rewrite (intersect_core (ieee_ordered prec emax lm)), CE, tests_X. cbn [bind]. split.
      - intro H0. pose proof (inside_prism A B C Ok' H P H0) as I. split; intro M.
        + rewrite (proj2 I M). rewrite (overlap_of prec emax lm x y); [reflexivity |].
          apply (owns_meet prec emax lm x y P); [| eapply own_point; [exact Mq' | apply (fin_of prec emax lm _ _ _ Fp) | reflexivity]].
          destruct rooms as (R1 & _ & _). destruct sizes as [Q1 Q2]. pose proof height_X as W.
          assert (Tp : forall q : vec, fix3 s K (q : mat3x1 bf) -> fin3 (vplus q wf : mat3x1 bf) /\ v3 (vplus q wf) = vadd (v3 q) (vscale H (tri_normal A B C))).
          { intros q Fq. apply (X3_v3 s (K + K)). apply X3_plus; [exact R1 | apply (X3_fix prec emax lm), Fq | exact W | lra]. }
          destruct (Tp a Fa) as [Ta1 Ta2]. destruct (Tp b Fb) as [Tb1 Tb2]. destruct (Tp c Fc) as [Tc1 Tc2].
          eapply own_prism; [exact Ms' | exact Ms | |].
          * intros q Hq. cbn [six list3 tp_base tp_base2 app] in Hq. repeat (destruct Hq as [<- | Hq]; [first [assumption | eapply (fin_of prec emax lm); eassumption] |]). destruct Hq.
          * unfold six. cbn [tp_base tp_base2 list3 app map]. rewrite Ta2, Tb2, Tc2. apply prism_hull, M.
        + destruct (overlap x y); [| reflexivity]. destruct (inside _ _); [| reflexivity]. exfalso. apply M, I. reflexivity.
      - intro H0. rewrite (inside_negative A B C Ok' H P H0). destruct (overlap x y); reflexivity.
    Qed.
  End Prism.
End IntP.
