(** PRayP.v — ray against point in IEEE arithmetic (C104). *)
From Coq Require Import Reals List ZArith NArith Bool Lra Lia Psatz.
From Flocq Require Import Core BinarySingleNaN.
Import ListNotations.
From Verif Require Import Base Num Vec Mat Bound Shape Intersect Float Exact FloatFacts FloatRound ExactFacts Order SpecMat SpecGeom
  SpecBound SpecShape SpecBuild SpecRound SpecFr PMat PBound PShape PBuild PRound PRound2 PRound3 PGeo1 PIeee1 PIeee2 PIeee3 PIeee5.
Local Open Scope R_scope.

Section RayP.
  Context (prec emax : Z) {Hp : Prec_gt_0 prec} {Hm : Prec_lt_emax prec emax} (lm : libm (binary_float prec emax)).
  Notation bf := (binary_float prec emax).
  Notation fmt := (SpecFloat.fexp prec emax).
  Notation rnd := (round radix2 fmt ZnearestE).
  Notation val := (@B2R prec emax).
  Notation fin x := (is_finite (x : bf) = true).
  Notation u := (uro prec).
  Notation et := (eta prec emax).
  Notation fv := (fv prec emax).
  Notation bnd := (bnd prec emax).
  Notation bnd3 := (bnd3 prec emax lm).
  Notation ovf := (ovf emax).
  Notation F := (@Ieee prec emax Hp Hm lm).
  Notation "# a" := (b2x prec emax a) (at level 9).
  Notation w3 v := (v3 (v : mat3x1 bf)).
  Notation wv := (@Shape.within F).

  Lemma ovf_ge (b : bf) r : xle (Fin (val b)) (ovf (rnd r)) -> val b <= rnd r.
  Proof.
    unfold PIeee1.ovf. pose proof (B2R_lt_emax prec emax b) as B. apply Rabs_def2 in B. destruct (Rlt_dec _ _) as [L | L]; [intro H; exact H |].
    destruct (Rlt_dec 0 _) as [P | P]; [intros _ | intros []]. rewrite Rabs_pos_eq in L by lra. lra.
  Qed.
  Lemma ovf_le (b : bf) r : xle (ovf (rnd r)) (Fin (val b)) -> rnd r <= val b.
  Proof.
    unfold PIeee1.ovf. pose proof (B2R_lt_emax prec emax b) as B. apply Rabs_def2 in B. destruct (Rlt_dec _ _) as [L | L]; [intro H; exact H |].
    destruct (Rlt_dec 0 _) as [P | P]; [intros [] | intros _]. rewrite Rabs_left1 in L by lra. lra.
  Qed.
  Lemma wv_x (w a b : F) : wv w a b = true <-> xle #b #(nadd F a w) /\ xle #(nsub F a w) #b.
  Proof.
    unfold Shape.within. rewrite andb_true_iff. rewrite (nge_iff (ieee_ordered prec emax lm)), (nle_iff (ieee_ordered prec emax lm)). reflexivity.
  Qed.
  Lemma not_fin_x (x : bf) : ~ fin x -> #x = NaN \/ #x = PInf \/ #x = NInf.
  Proof. destruct x as [s | s | | s m e h]; simpl; intro H; try (exfalso; apply H; reflexivity); auto. destruct s; auto. Qed.
  Lemma wv_fwd (w a b : F) k : (3 - emax - prec <= k)%Z -> (k + 1 < emax)%Z -> bnd k w -> bnd k a -> wv w a b = true -> fin b.
  Proof.
    intros K1 K2 Bw Ba H. apply wv_x in H. destruct H as [H1 H2]. destruct (plus_bnd prec emax k a w K1 K2 Ba Bw) as [[F1 _] _].
    destruct (minus_bnd prec emax k a w K1 K2 Ba Bw) as [[F2 _] _]. cbn [nadd nsub Ieee] in H1, H2. rewrite (fin_x prec emax _ F1) in H1. rewrite (fin_x prec emax _ F2) in H2.
    destruct (is_finite (b : bf)) eqn:Fb; [reflexivity | exfalso]. destruct (not_fin_x b) as [E | [E | E]]; [congruence | | |]; rewrite E in *; simpl in *; tauto.
  Qed.
  Lemma wv_bwd (w a b : F) : fin w -> fin b -> wv w a b = true -> fin a.
  Proof.
    intros Fw Fb H. apply wv_x in H. destruct H as [H1 H2]. rewrite (fin_x prec emax b Fb) in H1, H2. cbn [nadd nsub Ieee] in H1, H2.
    destruct a as [s | [|] | | s m e h]; try reflexivity; destruct w as [s' | s' | | s' m' e' h']; try discriminate Fw; simpl in *; tauto.
  Qed.
  Lemma wv_err (w a b : F) : fin w -> fin a -> fin b -> 0 <= val w -> wv w a b = true -> Rabs (val a - val b) <= val w + u * (Rabs (val a) + val w).
  Proof.
    intros Fw Fa Fb W H. apply wv_x in H. destruct H as [H1 H2]. cbn [nadd nsub Ieee] in H1, H2. rewrite (plus_x prec emax a w Fa Fw) in H1. rewrite (minus_x prec emax a w Fa Fw) in H2.
    rewrite (fin_x prec emax b Fb) in H1, H2. apply ovf_ge in H1. apply ovf_le in H2.
    destruct (plus_rel prec emax a w) as [e [He Re]]. destruct (minus_rel prec emax a w) as [f [Hf Rf]]. rewrite Re in H1. rewrite Rf in H2.
    assert (Q1 : Rabs ((val a + val w) * e) <= u * (Rabs (val a) + val w)).
    { rewrite Rabs_mult, Rmult_comm. pose proof (Rabs_triang (val a) (val w)) as T. rewrite (Rabs_pos_eq (val w)) in T by exact W. apply Rmult_le_compat; try apply Rabs_pos; assumption. }
    assert (Q2 : Rabs ((val a - val w) * f) <= u * (Rabs (val a) + val w)).
    { rewrite Rabs_mult, Rmult_comm. pose proof (Rabs_triang (val a) (- val w)) as T. rewrite Rabs_Ropp, (Rabs_pos_eq (val w)) in T by exact W. apply Rmult_le_compat; try apply Rabs_pos; assumption. }
    apply Rabs_le_inv in Q1, Q2. apply Rabs_le. lra.
  Qed.
  Lemma wv_ok (w a b : F) : fin w -> fin a -> fin b -> Rabs (val a - val b) <= val w -> wv w a b = true.
  Proof.
    intros Fw Fa Fb H. apply Rabs_le_inv in H. apply wv_x. cbn [nadd nsub Ieee]. rewrite (plus_x prec emax a w Fa Fw), (minus_x prec emax a w Fa Fw), (fin_x prec emax b Fb).
    split; [apply (val_le_ovf prec emax) | apply (ovf_le_val prec emax)]; lra.
  Qed.
  (** a finite quotient times the divisor *)
  Lemma quot_fin (x y : bf) : fin x -> fin y -> fin (Bdiv mode_NE x y) -> val y <> 0 /\ Rabs (val y * val (Bdiv mode_NE x y) - val x) <= u * Rabs (val x) + et * Rabs (val y).
  Proof.
    intros Fx Fy Fd. assert (Ny : val y <> 0).
    { intro Z. destruct y as [s | s | | s m e h]; try discriminate Fy.
      - destruct x as [s' | s' | | s' m' e' h']; try discriminate Fx; simpl in Fd; discriminate Fd.
      - revert Z. simpl. apply F2R_neq_0. destruct s; simpl; lia. }
    split; [exact Ny |]. destruct (div_round prec emax x y Fx Ny) as [A B]. destruct (A (B Fd)) as [_ V]. rewrite V.
    destruct (rnd_err prec emax (val x / val y)) as (e & h & He & Hh & E). rewrite E.
    replace (val y * (val x / val y * (1 + e) + h) - val x) with (e * val x + h * val y) by (field; exact Ny).
    eapply Rle_trans; [apply Rabs_triang |]. rewrite !Rabs_mult. apply Rplus_le_compat; (apply Rmult_le_compat_r; [apply Rabs_pos | assumption]).
  Qed.
  (** one axis: t = (p - o) / k *)
  Definition par (p o k : F) : F := ndiv F (nsub F p o) k.
  Lemma diff_axis (p o : F) k : (9 < prec)%Z -> (3 - emax - prec <= k)%Z -> (k + 1 < emax)%Z -> bnd k p -> bnd k o ->
    fin (nsub F p o) /\ Rabs (val (nsub F p o) - (val p - val o)) <= u * Rabs (val p - val o) /\ Rabs (val (nsub F p o)) <= bpow radix2 (k + 1).
  Proof.
    intros P K1 K2 Bp Bo. destruct (minus_bnd prec emax k p o K1 K2 Bp Bo) as [[F1 V1] [_ B1]]. cbn [nsub Ieee]. split; [exact F1 |]. split; [| exact B1]. rewrite V1.
    destruct (minus_rel prec emax p o) as [e [He Re]]. rewrite Re. replace ((val p - val o) * (1 + e) - (val p - val o)) with (e * (val p - val o)) by ring.
    rewrite Rabs_mult. apply Rmult_le_compat_r; [apply Rabs_pos | exact He].
  Qed.
  Lemma par_err (p o k : F) j : (9 < prec)%Z -> (3 - emax - prec <= j)%Z -> (j + 1 < emax)%Z -> bnd j p -> bnd j o -> bnd 1 k -> fin (par p o k) ->
    val k <> 0 /\ Rabs (val k * val (par p o k) - (val p - val o)) <= 201 / 100 * u * Rabs (val p - val o) + et * Rabs (val k).
  Proof.
    intros P K1 K2 Bp Bo [Fk Bk] Fd. destruct (diff_axis p o j P K1 K2 Bp Bo) as [Fm [Em _]]. unfold par in *. cbn [ndiv Ieee] in Fd |- *.
    destruct (quot_fin (nsub F p o) k Fm Fk Fd) as [Nk Q]. split; [exact Nk |]. pose proof (u_small prec P) as U. pose proof (u_pos prec) as U0.
    set (x := val (nsub F p o)) in *. set (y := val p - val o) in *. set (z := val k * _) in *.
    assert (Hx : Rabs x <= (1 + u) * Rabs y) by (replace x with ((x - y) + y) by ring; eapply Rle_trans; [apply Rabs_triang |]; lra).
    assert (u * Rabs x <= u * ((1 + u) * Rabs y)) by (apply Rmult_le_compat_l; lra). pose proof (Rabs_pos y) as Y0.
    assert (u * (u * Rabs y) <= / 1024 * (u * Rabs y)) by (apply Rmult_le_compat_r; [apply Rmult_le_pos |]; lra).
    assert (0 <= u * Rabs y) by (apply Rmult_le_pos; lra).
    replace (z - y) with ((z - x) + (x - y)) by ring. eapply Rle_trans; [apply Rabs_triang |]. lra.
  Qed.
  Lemma par_large (p o k : F) : (9 < prec)%Z -> bnd (emax / 2 - 3) p -> bnd (emax / 2 - 3) o -> bnd 1 k -> / 2 <= Rabs (val k) -> bnd (emax / 2) (par p o k : bf).
  Proof.
    intros P Bp Bo [Fk Bk] Lk. pose proof (half_k prec emax P) as [Hk1 Hk2]. assert (HM : (prec < emax)%Z) by exact Hm. assert (HP : (0 < prec)%Z) by exact Hp.
    assert (K1 : (3 - emax - prec <= emax / 2 - 3)%Z) by lia. assert (K2 : (emax / 2 - 3 + 1 < emax)%Z) by lia. assert (K3 : (3 - emax - prec <= emax / 2)%Z) by lia. assert (K4 : (emax / 2 < emax)%Z) by lia.
    destruct (diff_axis p o _ P K1 K2 Bp Bo) as [Fm [_ Bm]]. assert (Nk : val k <> 0) by (intro Z; rewrite Z, Rabs_R0 in Lk; lra).
    assert (Q : Rabs (rnd (val (nsub F p o) / val k)) <= bpow radix2 (emax / 2)).
    { apply (rnd_bpow prec emax); [exact K3 |]. replace (emax / 2)%Z with (emax / 2 - 3 + 1 + 2)%Z by ring. rewrite (bpow_plus _ (emax / 2 - 3 + 1)). change (bpow radix2 2) with 4.
      unfold Rdiv. rewrite Rabs_mult, Rabs_inv. pose proof (Rabs_pos (val (nsub F p o))) as X0. assert (I : / Rabs (val k) <= 2) by (replace 2 with (/ / 2) by field; apply Rinv_le_contravar; lra).
      assert (0 < / Rabs (val k)) by (apply Rinv_0_lt_compat; lra).
      apply Rle_trans with (bpow radix2 (emax / 2 - 3 + 1) * 2); [apply Rmult_le_compat; lra | pose proof (bpow_gt_0 radix2 (emax / 2 - 3 + 1)); lra]. }
    destruct (div_round prec emax (nsub F p o) k Fm Nk) as [A _]. destruct (A (below_big emax _ _ K4 Q)) as [F1 V1]. unfold par. cbn [ndiv Ieee]. split; [exact F1 | rewrite V1; exact Q].
  Qed.
  Lemma large_axis (k : mat3x1 F) : 9 / 10 <= norm (w3 k) -> match k with M3x1 (A3 a b c) => / 2 <= Rabs (val a) \/ / 2 <= Rabs (val b) \/ / 2 <= Rabs (val c) end.
  Proof.
    destruct k as [[a b c]]. intro H. destruct (Rle_dec (/ 2) (Rabs (val a))); [left; assumption |]. destruct (Rle_dec (/ 2) (Rabs (val b))); [right; left; assumption |].
    destruct (Rle_dec (/ 2) (Rabs (val c))); [right; right; assumption |]. exfalso.
    assert (Q : forall x, ~ / 2 <= Rabs x -> x * x <= / 4).
    { intros x Hx. apply Rnot_le_lt in Hx. apply Rabs_def2 in Hx. nra. }
    pose proof (Q _ n). pose proof (Q _ n0). pose proof (Q _ n1). pose proof (norm_sq (w3 (M3x1 (A3 a b c)))) as S. unfold vdot, v3 in S. cbn [vx vy vz] in S. unfold v3 in H. nra.
  Qed.

  Lemma nabs_fin (e : F) : fin e -> fin (nabs F e) /\ val (nabs F e) = Rabs (val e).
  Proof. intro H. cbn [nabs Ieee]. split; [rewrite is_finite_Babs; exact H | apply B2R_Babs]. Qed.
  Lemma ray_point_form (o0 o1 o2 p0 p1 p2 k0 k1 k2 w f : F) (B : aabb F) (B' : aabb F) :
    let r := SRay (MkRay (M3x1 (A3 o0 o1 o2)) (M3x1 (A3 k0 k1 k2)) B w) in let s := SPoint (MkPoint (M3x1 (A3 p0 p1 p2)) B' f) in
    shape_get_intersect r s = (let! bi := ibound_intersect (BBox B) (BBox B') in if negb bi then Ok (@miss F) else
      if (negb (wv w (par p0 o0 k0) (par p1 o1 k1)) || negb (wv w (par p1 o1 k1) (par p2 o2 k2)))%bool then Ok (@miss F)
      else if nge (par p0 o0 k0) n0 then let! q := along (M3x1 (A3 k0 k1 k2)) (par p0 o0 k0) (M3x1 (A3 o0 o1 o2)) in Ok (true, Some q) else Ok (@miss F)).
  Proof. reflexivity. Qed.
  Lemma hit_form (o0 o1 o2 p0 p1 p2 k0 k1 k2 w f : F) (B : aabb F) (B' : aabb F) q :
    shape_get_intersect (SRay (MkRay (M3x1 (A3 o0 o1 o2)) (M3x1 (A3 k0 k1 k2)) B w)) (SPoint (MkPoint (M3x1 (A3 p0 p1 p2)) B' f)) = Ok (true, Some q) ->
    wv w (par p0 o0 k0) (par p1 o1 k1) = true /\ wv w (par p1 o1 k1) (par p2 o2 k2) = true /\ nge (par p0 o0 k0) n0 = true /\
    along (M3x1 (A3 k0 k1 k2)) (par p0 o0 k0) (M3x1 (A3 o0 o1 o2)) = Ok q.
  Proof.
    rewrite ray_point_form. destruct (ibound_intersect _ _) as [bi |]; cbn [bind]; [| discriminate]. destruct bi; cbn [negb]; [| discriminate].
    destruct (wv w (par p0 o0 k0) (par p1 o1 k1)); cbn [negb orb]; [| discriminate]. destruct (wv w (par p1 o1 k1) (par p2 o2 k2)); cbn [negb orb]; [| discriminate].
    destruct (nge _ _); [| discriminate]. destruct (along _ _ _) as [x |]; cbn [bind]; [| discriminate]. intro H. injection H as ->. repeat split; reflexivity.
  Qed.
  Lemma form_cases (o0 o1 o2 p0 p1 p2 k0 k1 k2 w f : F) (B : aabb F) (B' : aabb F) :
    let X := shape_get_intersect (SRay (MkRay (M3x1 (A3 o0 o1 o2)) (M3x1 (A3 k0 k1 k2)) B w)) (SPoint (MkPoint (M3x1 (A3 p0 p1 p2)) B' f)) in
    X = Ok (false, None) \/ exists q, X = Ok (true, Some q).
  Proof.
    cbv zeta. rewrite ray_point_form. cbn [ibound_intersect]. rewrite intersect_eval. cbn [bind]. destruct (negb _); [left; reflexivity |]. destruct (_ || _); [left; reflexivity |].
    destruct (nge _ _); [right | left; reflexivity]. eexists. reflexivity.
  Qed.

  (** a hit: every parameter is finite, and the parameters differ by about the vicinity *)
  Lemma hit_pars (o0 o1 o2 p0 p1 p2 k0 k1 k2 w : F) : (9 < prec)%Z ->
    bnd (emax / 2 - 3) o0 -> bnd (emax / 2 - 3) o1 -> bnd (emax / 2 - 3) o2 -> bnd (emax / 2 - 3) p0 -> bnd (emax / 2 - 3) p1 -> bnd (emax / 2 - 3) p2 ->
    bnd 1 k0 -> bnd 1 k1 -> bnd 1 k2 -> 9 / 10 <= norm (w3 (M3x1 (A3 k0 k1 k2))) -> bnd (emax / 2) w -> 0 <= val w ->
    let t0 := par p0 o0 k0 in let t1 := par p1 o1 k1 in let t2 := par p2 o2 k2 in
    wv w t0 t1 = true -> wv w t1 t2 = true ->
    bnd (emax / 2 + 2) t0 /\ fin t1 /\ fin t2 /\ Rabs (val t0 - val t1) <= val w + u * (Rabs (val t0) + val w) /\ Rabs (val t1 - val t2) <= val w + u * (Rabs (val t1) + val w).
  Proof.
    intros P O0 O1 O2 P0 P1 P2 B0 B1 B2 Nk Bw W t0 t1 t2 H1 H2. pose proof (u_small prec P) as U. pose proof (u_pos prec) as U0.
    pose proof (half_k prec emax P) as [Hk1 Hk2]. assert (HM : (prec < emax)%Z) by exact Hm. assert (HP : (0 < prec)%Z) by exact Hp.
    assert (E4 : bpow radix2 (emax / 2 + 2) = 4 * bpow radix2 (emax / 2)) by (rewrite bpow_plus; change (bpow radix2 2) with 4; ring).
    assert (E2 : bpow radix2 (emax / 2 + 1) = 2 * bpow radix2 (emax / 2)) by (rewrite bpow_plus; change (bpow radix2 1) with 2; ring).
    set (L := bpow radix2 (emax / 2)) in *. assert (L1 : 0 < L) by apply bpow_gt_0.
    assert (Z1 : (3 - emax - prec <= emax / 2 + 2)%Z) by lia. assert (Z2 : (emax / 2 + 2 + 1 < emax)%Z) by lia. assert (Z3 : (emax / 2 <= emax / 2 + 2)%Z) by lia.
    assert (Bw' : bnd (emax / 2 + 2) w) by (apply (bnd_le prec emax (emax / 2)); assumption). destruct Bw as [Fw Lw]. rewrite Rabs_pos_eq in Lw by exact W. fold L in Lw.
    assert (Fwd : forall a b : F, bnd (emax / 2 + 2) a -> wv w a b = true -> fin b) by (intros a b Ba; apply (wv_fwd w a b (emax / 2 + 2) Z1 Z2 Bw' Ba)).
    assert (Er : forall a b : F, fin a -> fin b -> wv w a b = true -> Rabs (val a - val b) <= val w + u * (Rabs (val a) + val w)) by (intros a b Fa Fb; exact (wv_err w a b Fw Fa Fb W)).
    assert (Up : forall a b l, Rabs (a - b) <= val w + u * (Rabs a + val w) -> Rabs a <= l * L -> Rabs b <= (101 / 100 * l + 102 / 100) * L).
    { intros a b l H Ha. replace b with (a - (a - b)) by ring. unfold Rminus at 1. eapply Rle_trans; [apply Rabs_triang |]. rewrite Rabs_Ropp.
      pose proof (Rabs_pos a). assert (u * (Rabs a + val w) <= / 1024 * (Rabs a + val w)) by (apply Rmult_le_compat_r; lra). lra. }
    assert (Dn : forall a b l, Rabs (a - b) <= val w + u * (Rabs a + val w) -> Rabs b <= l * L -> Rabs a <= (101 / 100 * l + 102 / 100) * L).
    { intros a b l H Hb. assert (Rabs a <= Rabs b + Rabs (a - b)) by (replace a with (b + (a - b)) at 1 by ring; apply Rabs_triang).
      pose proof (Rabs_pos a). assert (u * (Rabs a + val w) <= / 1024 * (Rabs a + val w)) by (apply Rmult_le_compat_r; lra). lra. }
    destruct (large_axis (M3x1 (A3 k0 k1 k2)) Nk) as [K | [K | K]].
    - destruct (par_large p0 o0 k0 P P0 O0 B0 K) as [F0 L0]. fold t0 in F0, L0. fold L in L0.
      assert (T0 : bnd (emax / 2 + 2) t0) by (split; [exact F0 | rewrite E4; lra]). pose proof (Fwd t0 t1 T0 H1) as F1. pose proof (Er t0 t1 F0 F1 H1) as D1.
      pose proof (Up (val t0) (val t1) 1 D1 ltac:(lra)) as L1'. assert (T1 : bnd (emax / 2 + 2) t1) by (split; [exact F1 | rewrite E4; lra]).
      pose proof (Fwd t1 t2 T1 H2) as F2. repeat split; try assumption; [apply T0 | apply Er; assumption].
    - destruct (par_large p1 o1 k1 P P1 O1 B1 K) as [F1 L1']. fold t1 in F1, L1'. fold L in L1'.
      assert (T1 : bnd (emax / 2 + 2) t1) by (split; [exact F1 | rewrite E4; lra]). pose proof (wv_bwd w t0 t1 Fw F1 H1) as F0. pose proof (Fwd t1 t2 T1 H2) as F2.
      pose proof (Er t0 t1 F0 F1 H1) as D1. pose proof (Dn (val t0) (val t1) 1 D1 ltac:(lra)) as L0.
      split; [split; [exact F0 | rewrite E4; lra] |]. repeat split; try assumption. apply Er; assumption.
    - destruct (par_large p2 o2 k2 P P2 O2 B2 K) as [F2 L2]. fold t2 in F2, L2. fold L in L2.
      pose proof (wv_bwd w t1 t2 Fw F2 H2) as F1. pose proof (wv_bwd w t0 t1 Fw F1 H1) as F0. pose proof (Er t0 t1 F0 F1 H1) as D1. pose proof (Er t1 t2 F1 F2 H2) as D2.
      pose proof (Dn (val t1) (val t2) 1 D2 ltac:(lra)) as L1'. pose proof (Dn (val t0) (val t1) _ D1 L1') as L0.
      split; [split; [exact F0 | rewrite E4; lra] |]. repeat split; assumption.
  Qed.
  (** the real-number part: M = |p - o|, T the parameter used, T1 the second, kap = |k| *)
  Lemma loc_core (M w T T1 D u' et' kap X : R) : 0 <= u' <= / 1024 -> 0 <= et' <= u' * / 256 -> 0 <= M -> 0 <= w -> 0 <= T -> Rabs (T - T1) <= w + u' * (T + w) ->
    D = (w + u' * (T + w)) + (w + u' * (Rabs T1 + w)) -> 1 - 8 * u' <= kap <= 1 + 8 * u' -> X <= D * kap + 201 / 100 * u' * M + 21 / 10 * et' -> T * kap <= M + X ->
    X + 8 * u' * T <= 2 * w + 48 * u' * (M + w) + 3 * et'.
  Proof.
    intros U E M0 W0 T0 H1 HD K HX HT. apply Rabs_le_inv in H1.
    assert (UT : 0 <= u' * T) by (apply Rmult_le_pos; lra). assert (UW : 0 <= u' * w) by (apply Rmult_le_pos; lra). assert (UM : 0 <= u' * M) by (apply Rmult_le_pos; lra).
    assert (T1b : Rabs T1 <= T + (w + u' * (T + w))) by (apply Rabs_le; lra).
    assert (uu : forall x, 0 <= x -> u' * x <= / 1024 * x) by (intros x Hx; apply Rmult_le_compat_r; lra).
    assert (S1 : u' * (Rabs T1 + w) <= u' * (T + (w + u' * (T + w)) + w)) by (apply Rmult_le_compat_l; lra).
    assert (S2 : u' * (u' * (T + w)) <= / 1024 * (u' * (T + w))) by (apply uu; apply Rmult_le_pos; lra).
    assert (D1 : D <= 2 * w + u' * (201 / 100 * T + 401 / 100 * w)) by lra. assert (D0 : 0 <= D) by (rewrite HD; pose proof (Rabs_pos T1); assert (0 <= u' * (Rabs T1 + w)) by (apply Rmult_le_pos; lra); lra).
    assert (DK : D * kap <= D * (1 + 8 * u')) by (apply Rmult_le_compat_l; lra).
    assert (DU : u' * D <= u' * (2 * w + u' * (201 / 100 * T + 401 / 100 * w))) by (apply Rmult_le_compat_l; lra).
    assert (S3 : u' * (u' * (201 / 100 * T + 401 / 100 * w)) <= / 1024 * (u' * (201 / 100 * T + 401 / 100 * w))) by (apply uu; apply Rmult_le_pos; lra).
    assert (X1 : X <= 2 * w + 204 / 100 * (u' * T) + 202 / 10 * (u' * w) + 201 / 100 * (u' * M) + 21 / 10 * et') by lra.
    assert (TK : T * (1 - 8 * u') <= T * kap) by (apply Rmult_le_compat_l; lra).
    assert (T2 : T <= 102 / 100 * M + 207 / 100 * w + 22 / 10 * et') by (pose proof (uu T T0); pose proof (uu w W0); pose proof (uu M M0); lra).
    assert (S4 : u' * T <= u' * (102 / 100 * M + 207 / 100 * w + 22 / 10 * et')) by (apply Rmult_le_compat_l; lra). pose proof (uu et' ltac:(lra)). lra.
  Qed.
  Theorem ray_point_loc (o d : mat3x1 F) e (p : mat3x1 F) f (a b : shape F) q : (9 < prec)%Z -> moderate (o : mat3x1 bf) -> good_normal (d : mat3x1 bf) -> moderate (p : mat3x1 bf) ->
    bnd (emax / 2) e -> mk_ray o d e a -> mk_point p f b -> shape_get_intersect a b = Ok (true, Some q) ->
    let w := Rabs (val e) in
    fin3 (q : mat3x1 bf) /\ exists t, 0 <= t /\ dist (w3 q) (ray_at (w3 o) (w3 d) t) <= 11 * u * t + u * norm (w3 o) + 3 * et /\
      dist (ray_at (w3 o) (w3 d) t) (w3 p) <= 2 * w + 48 * u * (dist (w3 p) (w3 o) + w) + 3 * et.
  Proof.
    intros P Mo Gd Mp Be Ma Mb H w. apply ray_any_eq in Ma. apply point_any in Mb. subst a b.
    destruct (nrm_ieee prec emax lm d P Gd) as [Bk [Dk Uk]]. pose proof (u_small prec P) as U. pose proof (u_pos prec) as U0. pose proof (et_pos prec emax) as T0. pose proof (et_small prec emax P) as Ts.
    pose proof (norm_close (w3 (nrm d)) (unit (w3 d))) as N1. pose proof (norm_close (unit (w3 d)) (w3 (nrm d))) as N2. rewrite (dist_sym (unit (w3 d))) in N2. rewrite Uk in N1, N2.
    destruct (nabs_fin e (proj1 Be)) as [Fw Vw]. assert (Bw : bnd (emax / 2) (nabs F e)) by (split; [exact Fw | rewrite Vw, Rabs_Rabsolu; apply Be]).
    assert (W0 : 0 <= val (nabs F e)) by (rewrite Vw; apply Rabs_pos).
    pose proof (moderate_bnd3 prec emax lm o Mo) as Bo. pose proof (moderate_bnd3 prec emax lm p Mp) as Bp.
    assert (Al : forall t : F, bnd (emax / 2 + 2) t -> exists q, along (nrm d) t o = Ok q /\ fin3 (q : mat3x1 bf) /\
      dist (w3 q) (vadd (w3 o) (vscale (val t) (unit (w3 d)))) <= 102 / 100 * Rabs (val t - val t) + 11 * u * Rabs (val t) + u * norm (w3 o) + 3 * et).
    { intros t Bt. exact (along_ieee prec emax lm (nrm d) o t (unit (w3 d)) (val t) P Bk Dk Uk Bt Mo). }
    set (D := unit (w3 d)) in *. change (ray_at (w3 o) (w3 d)) with (fun t => vadd (w3 o) (vscale t D)). cbv beta.
    set (k := nrm d) in *. destruct k as [[k0 k1 k2]], o as [[o0 o1 o2]], p as [[p0 p1 p2]]. 
    apply hit_form in H. destruct H as (H1 & H2 & H3 & H4). destruct Bk as (B0 & B1 & B2), Bo as (O0 & O1 & O2), Bp as (P0 & P1 & P2).
    destruct (hit_pars o0 o1 o2 p0 p1 p2 k0 k1 k2 (nabs F e) P O0 O1 O2 P0 P1 P2 B0 B1 B2 ltac:(lra) Bw W0 H1 H2) as (T0b & F1 & F2 & D1 & D2).
    destruct (Al _ T0b) as [q' [Eq [Fq Hq]]]. rewrite H4 in Eq. injection Eq as <-. split; [exact Fq |].
    pose proof (half_k prec emax P) as [Hk1 Hk2]. assert (K1 : (3 - emax - prec <= emax / 2 - 3)%Z) by lia. assert (K2 : (emax / 2 - 3 + 1 < emax)%Z) by lia.
    destruct (par_err p0 o0 k0 _ P K1 K2 P0 O0 B0 (proj1 T0b)) as [_ E0]. destruct (par_err p1 o1 k1 _ P K1 K2 P1 O1 B1 F1) as [_ E1]. destruct (par_err p2 o2 k2 _ P K1 K2 P2 O2 B2 F2) as [_ E2].
    rewrite Vw in D1, D2. fold w in D1, D2. assert (Pw : 0 <= w) by apply Rabs_pos.
    set (t0 := val (par p0 o0 k0)) in *. set (t1 := val (par p1 o1 k1)) in *. set (t2 := val (par p2 o2 k2)) in *.
    assert (Pt : 0 <= t0).
    { apply (nge_iff (ieee_ordered prec emax lm)) in H3. cbn [emb ieee_ordered] in H3. rewrite n0_x, (fin_x prec emax _ (proj1 T0b)) in H3. exact H3. }
    exists t0. split; [exact Pt |]. rewrite Rminus_diag_eq, Rabs_R0, Rmult_0_r, Rplus_0_l in Hq by reflexivity. rewrite (Rabs_pos_eq t0) in Hq, D1 by exact Pt. split; [exact Hq |].
    set (DD := (w + u * (t0 + w)) + (w + u * (Rabs t1 + w))). set (kv := w3 (M3x1 (A3 k0 k1 k2))) in *. set (ov := w3 (M3x1 (A3 o0 o1 o2))) in *. set (pv := w3 (M3x1 (A3 p0 p1 p2))) in *.
    set (X := dist (vadd ov (vscale t0 kv)) pv).
    assert (U1 : 0 <= u * (t0 + w)) by (apply Rmult_le_pos; lra). assert (U2 : 0 <= u * (Rabs t1 + w)) by (apply Rmult_le_pos; [| pose proof (Rabs_pos t1)]; lra).
    assert (HX : X <= DD * norm kv + 201 / 100 * u * dist pv ov + 21 / 10 * et).
    { destruct (abs_comp_norm kv) as [C0 [C1 C2]]. assert (Nk : norm kv <= 101 / 100) by lra.
      assert (G : forall kk oo pp tt, Rabs kk <= norm kv -> Rabs (t0 - tt) <= DD -> Rabs (kk * tt - (pp - oo)) <= 201 / 100 * u * Rabs (pp - oo) + et * Rabs kk ->
        Rabs (oo + t0 * kk - pp) <= DD * Rabs kk + 201 / 100 * u * Rabs (pp - oo) + 105 / 100 * et).
      { intros kk oo pp tt A1 A2 A3. replace (oo + t0 * kk - pp) with ((t0 - tt) * kk + (kk * tt - (pp - oo))) by ring. eapply Rle_trans; [apply Rabs_triang |]. rewrite Rabs_mult.
        assert (Rabs (t0 - tt) * Rabs kk <= DD * Rabs kk) by (apply Rmult_le_compat_r; [apply Rabs_pos | exact A2]). assert (et * Rabs kk <= et * (105 / 100)) by (apply Rmult_le_compat_l; lra). lra. }
      assert (Q2 : Rabs (t0 - t2) <= DD) by (replace (t0 - t2) with ((t0 - t1) + (t1 - t2)) by ring; eapply Rle_trans; [apply Rabs_triang |]; unfold DD; lra).
      assert (Q1 : Rabs (t0 - t1) <= DD) by (unfold DD; lra). assert (Q0 : Rabs (t0 - t0) <= DD) by (rewrite Rminus_diag_eq, Rabs_R0 by reflexivity; unfold DD; lra).
      unfold X, dist. replace (21 / 10 * et) with (2 * (105 / 100 * et)) by field. apply norm_comb; [unfold DD; lra | lra | lra | | |].
      - exact (G (val k0) (val o0) (val p0) t0 C0 Q0 E0).
      - exact (G (val k1) (val o1) (val p1) t1 C1 Q1 E1).
      - exact (G (val k2) (val o2) (val p2) t2 C2 Q2 E2). }
    assert (HT : t0 * norm kv <= dist pv ov + X).
    { rewrite <- (norm_scale_pos t0 kv Pt). replace (vscale t0 kv) with (vsub (vadd ov (vscale t0 kv)) ov) by (apply V3_eq; unfold vadd, vsub, vscale; cbn [vx vy vz]; ring).
      fold (dist (vadd ov (vscale t0 kv)) ov). pose proof (dist_tri3 (vadd ov (vscale t0 kv)) pv ov). unfold X. lra. }
    assert (Y : dist (vadd ov (vscale t0 D)) (vadd ov (vscale t0 kv)) <= 8 * u * t0).
    { unfold dist. replace (vsub (vadd ov (vscale t0 D)) (vadd ov (vscale t0 kv))) with (vscale t0 (vsub D kv)) by (apply V3_eq; unfold vadd, vsub, vscale; cbn [vx vy vz]; ring).
      rewrite (norm_scale_pos t0 _ Pt). fold (dist D kv). rewrite dist_sym, Rmult_comm. apply Rmult_le_compat_r; [exact Pt | exact Dk]. }
    pose proof (dist_tri3 (vadd ov (vscale t0 D)) (vadd ov (vscale t0 kv)) pv) as TR. fold X in TR.
    pose proof (loc_core (dist pv ov) w t0 t1 DD u et (norm kv) X ltac:(lra) ltac:(lra) ltac:(apply norm_pos) Pw Pt D1 eq_refl ltac:(lra) HX HT). lra.
  Qed.
  Theorem ray_point_far (o d : mat3x1 F) e (p : mat3x1 F) f (a b : shape F) : (9 < prec)%Z -> moderate (o : mat3x1 bf) -> good_normal (d : mat3x1 bf) -> moderate (p : mat3x1 bf) ->
    bnd (emax / 2) e -> mk_ray o d e a -> mk_point p f b -> let w := Rabs (val e) in
    (forall t, 0 <= t -> 2 * w + 48 * u * (dist (w3 p) (w3 o) + w) + 3 * et < dist (ray_at (w3 o) (w3 d) t) (w3 p)) -> shape_get_intersect a b = Ok (false, None).
  Proof.
    intros P Mo Gd Mp Be Ma Mb w Far. assert (C : shape_get_intersect a b = Ok (false, None) \/ exists q, shape_get_intersect a b = Ok (true, Some q)).
    { apply ray_any_eq in Ma. apply point_any in Mb. subst a b. destruct (nrm d) as [[k0 k1 k2]], o as [[o0 o1 o2]], p as [[p0 p1 p2]]. apply form_cases. }
    destruct C as [C | [q C]]; [exact C | exfalso]. destruct (ray_point_loc o d e p f a b q P Mo Gd Mp Be Ma Mb C) as [_ [t [Pt [_ H]]]].
    pose proof (Far t Pt) as G. unfold w in G. lra.
  Qed.
  Lemma zero_div (x y : bf) : fin x -> val x = 0 -> val (Bdiv mode_NE x y) = 0.
  Proof.
    intros Fx Z. destruct x as [s | s | | s m e h]; try discriminate Fx.
    - destruct y; reflexivity.
    - exfalso. revert Z. simpl. apply F2R_neq_0. destruct s; simpl; lia.
  Qed.
  Theorem ray_point_flat (o d : mat3x1 F) e (p : mat3x1 F) f (a b : shape F) : (9 < prec)%Z -> moderate (o : mat3x1 bf) -> good_normal (d : mat3x1 bf) -> moderate (p : mat3x1 bf) ->
    bnd (emax / 2) e -> mk_ray o d e a -> mk_point p f b -> vx (w3 d) = 0 \/ vy (w3 d) = 0 \/ vz (w3 d) = 0 -> shape_get_intersect a b = Ok (false, None).
  Proof.
    intros P Mo Gd Mp Be Ma Mb Z. apply ray_any_eq in Ma. apply point_any in Mb. subst a b.
    destruct (nrm_ieee prec emax lm d P Gd) as [Bk [Dk Uk]]. pose proof (u_small prec P) as U. pose proof (u_pos prec) as U0.
    pose proof (norm_close (unit (w3 d)) (w3 (nrm d))) as N2. rewrite (dist_sym (unit (w3 d))) in N2. rewrite Uk in N2.
    destruct (nabs_fin e (proj1 Be)) as [Fw Vw]. assert (Bw : bnd (emax / 2) (nabs F e)) by (split; [exact Fw | rewrite Vw, Rabs_Rabsolu; apply Be]).
    assert (W0 : 0 <= val (nabs F e)) by (rewrite Vw; apply Rabs_pos).
    assert (Zk : vx (w3 (nrm d)) = 0 \/ vy (w3 (nrm d)) = 0 \/ vz (w3 (nrm d)) = 0).
    { destruct d as [[d0 d1 d2]]. destruct Gd as [[(G0 & G1 & G2) _] _]. cbn [v3 vx vy vz] in Z. cbn [nrm v3 vx vy vz ndiv Ieee].
      destruct Z as [Z | [Z | Z]]; [left | right; left | right; right]; apply zero_div; assumption. }
    pose proof (moderate_bnd3 prec emax lm o Mo) as Bo. pose proof (moderate_bnd3 prec emax lm p Mp) as Bp.
    set (B := ray_any o d). clearbody B. destruct (nrm d) as [[k0 k1 k2]], o as [[o0 o1 o2]], p as [[p0 p1 p2]]. 
    destruct Bk as (B0 & B1 & B2), Bo as (O0 & O1 & O2), Bp as (P0 & P1 & P2). cbn [v3 vx vy vz] in Zk.
    destruct (form_cases o0 o1 o2 p0 p1 p2 k0 k1 k2 (nabs F e) (nabs F f) B (AABB (v3x1 (M3x1 (A3 p0 p1 p2))) (v3x1 (M3x1 (A3 p0 p1 p2))))) as [C | [q C]]; [exact C | exfalso].
    apply hit_form in C. destruct C as (H1 & H2 & _ & _).
    destruct (hit_pars o0 o1 o2 p0 p1 p2 k0 k1 k2 (nabs F e) P O0 O1 O2 P0 P1 P2 B0 B1 B2 ltac:(lra) Bw W0 H1 H2) as (T0b & F1 & F2 & _ & _).
    pose proof (half_k prec emax P) as [Hk1 Hk2]. assert (K1 : (3 - emax - prec <= emax / 2 - 3)%Z) by (clear - Hk1 Hk2 P; lia). assert (K2 : (emax / 2 - 3 + 1 < emax)%Z) by (clear - Hk1 Hk2 P; lia).
    destruct (par_err p0 o0 k0 _ P K1 K2 P0 O0 B0 (proj1 T0b)) as [N0 _]. destruct (par_err p1 o1 k1 _ P K1 K2 P1 O1 B1 F1) as [N1 _]. destruct (par_err p2 o2 k2 _ P K1 K2 P2 O2 B2 F2) as [N3 _].
    tauto.
  Qed.

  (** the computed unit vector, component by component *)
  Lemma nrm_comp (d : mat3x1 F) : (9 < prec)%Z -> good_normal (d : mat3x1 bf) -> let D := unit (w3 d) in
    let ok x X := Rabs (x - X) <= 7 * u * Rabs X + et in
    ok (vx (w3 (nrm d))) (vx D) /\ ok (vy (w3 (nrm d))) (vy D) /\ ok (vz (w3 (nrm d))) (vz D).
  Proof.
    intros P [[Fn Ln] HS] D ok. destruct d as [[a b c]]. destruct Fn as [Fa [Fb Fc]]. destruct Ln as [La [Lb Lc]]. pose proof (half_k prec emax P) as [Hk1 Hk2]. set (k := (emax / 2 - 3)%Z) in *.
    destruct (len3_ok prec emax k a b c ltac:(lia) ltac:(lia) (conj Fa La) (conj Fb Lb) (conj Fc Lc)) as [_ [_ [Fl _]]].
    destruct (norm3 prec emax lm a b c (len3 prec emax a b c) P eq_refl Fl HS) as [_ [x [y [z [E [[Fx Ex] [[Fy Ey] [[Fz Ez] _]]]]]]]].
    rewrite normalize_nrm in E.
    apply (f_equal (fun r => match r with Ok (Some v) => v | _ => M3x1 (A3 x y z) end)) in E. rewrite E. clear E.
    change (val a * val a + val b * val b + val c * val c) with (vdot (w3 (M3x1 (A3 a b c))) (w3 (M3x1 (A3 a b c)))) in *.
    unfold D. set (nv := w3 (M3x1 (A3 a b c))) in *. change (sqrt (vdot nv nv)) with (norm nv) in *.
    assert (Sc : forall s, / norm nv * s = s / norm nv) by (intro s; unfold Rdiv; ring).
    unfold ok, unit, vscale. cbn [v3 vx vy vz]. change (vx nv) with (val a). change (vy nv) with (val b). change (vz nv) with (val c). rewrite !Sc. split; [exact Ex | split; [exact Ey | exact Ez]].
  Qed.
  Lemma found_core (k K m s dl y tk u' et' : R) : 0 <= u' <= / 1024 -> 0 <= et' -> 0 < m -> m <= Rabs K -> et' <= u' * m -> 0 <= s -> 0 <= dl -> Rabs (k - K) <= 7 * u' * Rabs K + et' ->
    Rabs (y - s * K) <= dl -> Rabs (k * tk - y) <= 201 / 100 * u' * Rabs y + et' * Rabs k -> Rabs (tk - s) <= 102 / 100 * (dl / m) + 11 * u' * s + et'.
  Proof.
    intros U E M0 MK EM S0 D0 Hk Hy Ht. pose proof (Rabs_pos K) as PK. assert (KP : 0 < Rabs K) by lra.
    assert (uu : forall x, 0 <= x -> u' * x <= / 1024 * x) by (intros x Hx; apply Rmult_le_compat_r; lra).
    assert (EK : et' <= u' * Rabs K) by (eapply Rle_trans; [exact EM | apply Rmult_le_compat_l; lra]).
    assert (Lk : (1 - 8 * u') * Rabs K <= Rabs k) by (assert (Rabs K <= Rabs (k - K) + Rabs k) by (replace K with (- (k - K) + k) at 1 by ring; eapply Rle_trans; [apply Rabs_triang |]; rewrite Rabs_Ropp; lra); lra).
    assert (Kp : 0 < Rabs k) by (pose proof (uu _ PK); lra).
    assert (Yb : Rabs y <= s * Rabs K + dl) by (replace y with (s * K + (y - s * K)) by ring; eapply Rle_trans; [apply Rabs_triang |]; rewrite Rabs_mult, (Rabs_pos_eq s) by exact S0; lra).
    assert (N : Rabs (k * (tk - s)) <= dl * (1 + 201 / 100 * u') + (1001 / 100) * u' * s * Rabs K + et' * Rabs k).
    { replace (k * (tk - s)) with ((k * tk - y) + (y - s * K) - s * (k - K)) by ring. unfold Rminus at 1. eapply Rle_trans; [apply Rabs_triang |]. eapply Rle_trans; [apply Rplus_le_compat_r, Rabs_triang |].
      rewrite Rabs_Ropp, Rabs_mult, (Rabs_pos_eq s) by exact S0.
      assert (s * Rabs (k - K) <= s * (7 * u' * Rabs K + u' * Rabs K)) by (apply Rmult_le_compat_l; lra).
      assert (201 / 100 * u' * Rabs y <= 201 / 100 * u' * (s * Rabs K + dl)) by (apply Rmult_le_compat_l; lra). lra. }
    rewrite Rabs_mult in N. pose proof (Rabs_pos (tk - s)) as T0. set (t := Rabs (tk - s)) in *.
    assert (Q0 : t - et' <= (dl * (1 + 201 / 100 * u') + 1001 / 100 * u' * s * Rabs K) * / Rabs k).
    { apply Rmult_le_reg_l with (Rabs k); [exact Kp |]. rewrite (Rmult_comm _ (/ Rabs k)), <- Rmult_assoc, Rinv_r, Rmult_1_l by lra. lra. }
    assert (IK : / Rabs k <= 1009 / 1000 * / Rabs K).
    { apply Rmult_le_reg_l with (Rabs k); [exact Kp |]. rewrite Rinv_r by lra. apply Rmult_le_reg_r with (Rabs K); [exact KP |]. rewrite !Rmult_assoc, Rinv_l by lra. pose proof (uu _ PK). lra. }
    assert (P1 : 0 <= dl * (1 + 201 / 100 * u')) by (apply Rmult_le_pos; lra). assert (P2 : 0 <= u' * s) by (apply Rmult_le_pos; lra). assert (P3 : 0 <= u' * s * Rabs K) by (apply Rmult_le_pos; lra).
    assert (Q1 : (dl * (1 + 201 / 100 * u') + 1001 / 100 * u' * s * Rabs K) * / Rabs k <= (dl * (1 + 201 / 100 * u') + 1001 / 100 * u' * s * Rabs K) * (1009 / 1000 * / Rabs K)) by (apply Rmult_le_compat_l; lra).
    assert (Q2 : 1001 / 100 * u' * s * Rabs K * (1009 / 1000 * / Rabs K) = 1010009 / 100000 * u' * s) by (field; lra).
    assert (IM : / Rabs K <= / m) by (apply Rinv_le_contravar; lra). assert (IK0 : 0 < / Rabs K) by (apply Rinv_0_lt_compat; exact KP).
    assert (Q3 : dl * (1 + 201 / 100 * u') * (1009 / 1000 * / Rabs K) <= 102 / 100 * (dl / m)).
    { apply Rle_trans with (dl * (102 / 100) * / Rabs K).
      - assert ((1 + 201 / 100 * u') * (1009 / 1000) <= 102 / 100) by lra. assert (0 <= dl * / Rabs K) by (apply Rmult_le_pos; lra).
        replace (dl * (1 + 201 / 100 * u') * (1009 / 1000 * / Rabs K)) with ((1 + 201 / 100 * u') * (1009 / 1000) * (dl * / Rabs K)) by ring.
        replace (dl * (102 / 100) * / Rabs K) with (102 / 100 * (dl * / Rabs K)) by ring. apply Rmult_le_compat_r; assumption.
      - unfold Rdiv. replace (102 * / 100 * (dl * / m)) with (dl * (102 * / 100) * / m) by ring. apply Rmult_le_compat_l; [apply Rmult_le_pos; lra | exact IM]. }
    lra.
  Qed.
  Theorem ray_point_found (o d : mat3x1 F) e (p : mat3x1 F) f (a b : shape F) (m s dl : R) : (9 < prec)%Z -> moderate (o : mat3x1 bf) -> good_normal (d : mat3x1 bf) -> moderate (p : mat3x1 bf) ->
    fin e -> mk_ray o d e a -> mk_point p f b -> let D := s_unit (w3 d) in
    2 * u <= m -> m <= Rabs (vx D) -> m <= Rabs (vy D) -> m <= Rabs (vz D) -> 0 <= s -> dist (w3 p) (ray_at (w3 o) (w3 d) s) <= dl -> dl <= s * m ->
    204 / 100 * (dl / m) + 22 * u * s + 2 * et <= Rabs (val e) -> exists q, shape_get_intersect a b = Ok (true, Some q).
  Proof.
    intros P Mo Gd Mp Fe Ma Mb D Um M0 M1 M2 S0 Hp' Dm He. apply ray_any_eq in Ma. apply point_any in Mb. subst a b.
    pose proof (u_small prec P) as U. pose proof (u_pos prec) as U0. pose proof (et_pos prec emax) as T0. assert (Em : et <= u * m).
    { rewrite (PRound2.et_u prec emax). apply Rmult_le_compat_l; [lra |]. eapply Rle_trans; [| exact Um]. unfold uro. change 2 with (bpow radix2 1) at 1. rewrite <- bpow_plus. apply bpow_le. unfold Prec_lt_emax in Hm. lia. }
    destruct (nrm_ieee prec emax lm d P Gd) as [Bk [_ UN]]. destruct (nrm_comp d P Gd) as (C0 & C1 & C2). change (unit (w3 d)) with D in UN, C0, C1, C2.
    destruct (nabs_fin e Fe) as [Fw Vw]. rewrite <- Vw in He. clear Vw.
    assert (D0 : 0 <= dl) by (eapply Rle_trans; [apply norm_pos | exact Hp']). assert (Mp0 : 0 < m) by lra.
    change (ray_at (w3 o) (w3 d) s) with (vadd (w3 o) (vscale s D)) in Hp'.
    pose proof (moderate_norm prec emax lm o Mo) as Lo. pose proof (moderate_norm prec emax lm p Mp) as Lp.
    (* m <= 3/5 and s <= 10 L *)
    assert (Sq : forall x, m <= Rabs x -> m * m <= x * x) by (intros x Hx; rewrite <- (sqr_abs x), Rabs_mult; apply Rmult_le_compat; lra).
    pose proof (Sq _ M0) as Q0. pose proof (Sq _ M1) as Q1. pose proof (Sq _ M2) as Q2. pose proof (norm_sq D) as Q3. rewrite UN in Q3. unfold vdot in Q3.
    assert (M35 : m <= 3 / 5) by (apply Rnot_lt_le; intro; nra).
    set (L := bpow radix2 (emax / 2 - 3)) in *.
    assert (Sb : s <= 10 * L).
    { assert (s = dist (vadd (w3 o) (vscale s D)) (w3 o)).
      { unfold dist. replace (vsub (vadd (w3 o) (vscale s D)) (w3 o)) with (vscale s D) by (apply V3_eq; unfold vadd, vsub, vscale; cbn [vx vy vz]; ring). rewrite norm_scale_pos, UN by exact S0. ring. }
      pose proof (dist_tri3 (vadd (w3 o) (vscale s D)) (w3 p) (w3 o)) as T1. rewrite (dist_sym _ (w3 p)) in T1. pose proof (dist_tri3 (w3 p) vzero (w3 o)) as T2.
      assert (Z1 : dist (w3 p) vzero = norm (w3 p)) by (unfold dist; f_equal; apply V3_eq; unfold vsub, vzero; cbn [vx vy vz]; ring).
      assert (Z2 : dist vzero (w3 o) = norm (w3 o)) by (rewrite dist_sym; unfold dist; f_equal; apply V3_eq; unfold vsub, vzero; cbn [vx vy vz]; ring).
      assert (s * m <= s * (3 / 5)) by (apply Rmult_le_compat_l; lra). lra. }
    clear Sq Q0 Q1 Q2 Q3 UN Lo Lp.
    destruct Gd as [[Fd _] _]. pose proof (moderate_bnd3 prec emax lm o Mo) as Bo. pose proof (moderate_bnd3 prec emax lm p Mp) as Bp. destruct Mo as [Fo _], Mp as [Fp _].
    destruct (abs_comp_norm (vsub (w3 p) (vadd (w3 o) (vscale s D)))) as [Y0 [Y1 Y2]]. fold (dist (w3 p) (vadd (w3 o) (vscale s D))) in Y0, Y1, Y2.
    (* the boxes overlap *)
    assert (OV : ibound_intersect (BBox (ray_any o d)) (BBox (AABB (v3x1 p) (v3x1 p))) = Ok true).
    { apply (rholds_meet prec emax lm (ray_any o d) (AABB (v3x1 p) (v3x1 p)) (w3 p)); [| apply (point_holds prec emax lm); exact Fp].
      assert (NP : 0 < norm (w3 d)).
      { destruct (Rle_lt_or_eq_dec 0 (norm (w3 d)) (norm_pos _)) as [X | X]; [exact X | exfalso]. unfold D, s_unit, vscale in M0. cbn [vx] in M0. rewrite <- X, Rinv_0, Rmult_0_l, Rabs_R0 in M0. lra. }
      assert (AX : forall oo dd pp : F, fin oo -> fin dd -> m <= Rabs (/ norm (w3 d) * val dd) -> Rabs (val pp - (val oo + s * (/ norm (w3 d) * val dd))) <= dl ->
        xle #(rl dd oo) (ovf (rnd (val pp))) /\ xle (ovf (rnd (val pp))) #(ru dd oo)).
      { intros oo dd pp Foo Fdd HM HP. set (K := / norm (w3 d) * val dd) in *. assert (Nd : val dd <> 0) by (intro Z; unfold K in HM; rewrite Z, Rmult_0_r, Rabs_R0 in HM; lra).
        assert (NK : K <> 0) by (intro Z; rewrite Z, Rabs_R0 in HM; lra).
        assert (PT : 0 <= (val pp - val oo) / val dd).
        { replace ((val pp - val oo) / val dd) with ((val pp - val oo) / K * / norm (w3 d)) by (unfold K; field; split; [exact Nd | lra]).
          apply Rmult_le_pos; [| left; apply Rinv_0_lt_compat; exact NP]. apply Rabs_le_inv in HP.
          assert (SM : s * m <= s * Rabs K) by (apply Rmult_le_compat_l; lra).
          destruct (Rtotal_order K 0) as [N | [N | N]]; [| contradiction |].
          - rewrite Rabs_left in SM by exact N. assert (/ K < 0) by (apply Rinv_lt_0_compat; exact N). unfold Rdiv. assert (val pp - val oo <= 0) by lra. nra.
          - rewrite Rabs_pos_eq in SM by lra. assert (0 < / K) by (apply Rinv_0_lt_compat; exact N). unfold Rdiv. assert (0 <= val pp - val oo) by lra. nra. }
        replace (val pp) with (val oo + (val pp - val oo) / val dd * val dd) by (field; exact Nd). apply axis_ray; assumption. }
      clear - AX Fo Fd M0 M1 M2 Y0 Y1 Y2 Hp'. assert (Y0' := Rle_trans _ _ _ Y0 Hp'). assert (Y1' := Rle_trans _ _ _ Y1 Hp'). assert (Y2' := Rle_trans _ _ _ Y2 Hp').
      destruct o as [[o0 o1 o2]], d as [[d0 d1 d2]], p as [[p0 p1 p2]]. destruct Fo as (A0 & A1 & A2), Fd as (G0 & G1 & G2). apply (rholds3 prec emax lm); apply AX; assumption. }
    assert (Y0' := Rle_trans _ _ _ Y0 Hp'). assert (Y1' := Rle_trans _ _ _ Y1 Hp'). assert (Y2' := Rle_trans _ _ _ Y2 Hp'). clear Y0 Y1 Y2 Hp'.
    set (Bx := ray_any o d) in *. clearbody Bx. set (k := nrm d) in *. clearbody k D. clear Fd d.
    destruct o as [[o0 o1 o2]], p as [[p0 p1 p2]], k as [[k0 k1 k2]]. destruct Bo as (O0 & O1 & O2), Bp as (P0 & P1 & P2), Bk as (B0 & B1 & B2).
    cbn [v3 vx vy vz vadd vsub vscale] in *.
    pose proof (half_k prec emax P) as [Hk1 Hk2]. assert (HM : (prec < emax)%Z) by exact Hm. assert (HP : (0 < prec)%Z) by exact Hp.
    assert (K1 : (3 - emax - prec <= emax / 2 - 3)%Z) by (clear - Hk1 Hk2 P; lia). assert (K2 : (emax / 2 - 3 + 1 < emax)%Z) by (clear - Hk1 Hk2 P; lia).
    assert (K3 : (3 - emax - prec <= emax / 2 + 2)%Z) by (clear - Hk1 Hk2 P; lia). assert (K4 : (emax / 2 + 2 < emax)%Z) by (clear - Hk1 Hk2 P HM; lia).
    assert (L4 : bpow radix2 (emax / 2 + 2) = 32 * L) by (unfold L; replace (emax / 2 + 2)%Z with (emax / 2 - 3 + 5)%Z by ring; rewrite bpow_plus; change (bpow radix2 5) with 32; ring).
    assert (L0 : 0 < L) by apply bpow_gt_0.
    set (tol := 102 / 100 * (dl / m) + 11 * u * s + et).
    assert (Dq : dl / m <= s) by (apply Rmult_le_reg_r with m; [exact Mp0 |]; unfold Rdiv; rewrite Rmult_assoc, Rinv_l, Rmult_1_r by lra; exact Dm).
    assert (PAR : forall pp oo kk K, bnd (emax / 2 - 3) pp -> bnd (emax / 2 - 3) oo -> bnd 1 kk -> m <= Rabs K -> Rabs (val kk - K) <= 7 * u * Rabs K + et ->
      Rabs (val pp - (val oo + s * K)) <= dl -> fin (par pp oo kk) /\ Rabs (val (par pp oo kk) - s) <= tol).
    { intros pp oo kk K Bpp Boo Bkk HK HkK Hy.
      assert (PK := Rabs_pos K). assert (uK : u * Rabs K <= / 1024 * Rabs K) by (apply Rmult_le_compat_r; lra). assert (um : u * m <= u * Rabs K) by (apply Rmult_le_compat_l; lra).
      assert (Lk : 99 / 100 * Rabs K <= Rabs (val kk)).
      { assert (Rabs K <= Rabs (val kk - K) + Rabs (val kk)) by (replace K with (- (val kk - K) + val kk) at 1 by ring; eapply Rle_trans; [apply Rabs_triang |]; rewrite Rabs_Ropp; lra). lra. }
      assert (Nk : val kk <> 0) by (intro Z; rewrite Z, Rabs_R0 in Lk; lra).
      destruct (diff_axis pp oo _ P K1 K2 Bpp Boo) as [Fm [Em' _]].
      assert (YK : Rabs (val pp - val oo) <= 2 * s * Rabs K).
      { replace (val pp - val oo) with (s * K + (val pp - (val oo + s * K))) by ring. eapply Rle_trans; [apply Rabs_triang |]. rewrite Rabs_mult, (Rabs_pos_eq s) by exact S0.
        assert (s * m <= s * Rabs K) by (apply Rmult_le_compat_l; lra). lra. }
      assert (Bq : Rabs (rnd (val (nsub F pp oo) / val kk)) <= bpow radix2 (emax / 2 + 2)).
      { apply (rnd_bpow prec emax); [exact K3 |]. rewrite L4. unfold Rdiv. rewrite Rabs_mult, Rabs_inv. apply Rmult_le_reg_r with (Rabs (val kk)); [lra |]. rewrite Rmult_assoc, Rinv_l, Rmult_1_r by lra.
        set (x := val (nsub F pp oo)) in *. assert (Rabs x <= (1 + u) * Rabs (val pp - val oo)) by (replace x with ((x - (val pp - val oo)) + (val pp - val oo)) by ring; eapply Rle_trans; [apply Rabs_triang |]; lra).
        pose proof (Rabs_pos (val pp - val oo)) as R0. assert (u * Rabs (val pp - val oo) <= / 1024 * Rabs (val pp - val oo)) by (apply Rmult_le_compat_r; lra).
        assert (s * Rabs K <= 10 * L * Rabs K) by (apply Rmult_le_compat_r; lra). assert (32 * L * (99 / 100 * Rabs K) <= 32 * L * Rabs (val kk)) by (apply Rmult_le_compat_l; lra).
        assert (0 <= L * Rabs K) by (apply Rmult_le_pos; lra). lra. }
      destruct (div_round prec emax (nsub F pp oo) kk Fm Nk) as [A _]. destruct (A (below_big emax _ _ K4 Bq)) as [Fq _].
      assert (Fp' : fin (par pp oo kk)) by exact Fq. split; [exact Fp' |]. destruct (par_err pp oo kk _ P K1 K2 Bpp Boo Bkk Fp') as [_ E].
      apply (found_core (val kk) K m s dl (val pp - val oo) (val (par pp oo kk)) u et); try assumption; try lra.
      replace (val pp - val oo - s * K) with (val pp - (val oo + s * K)) by ring. exact Hy. }
    destruct (PAR p0 o0 k0 (vx D) P0 O0 B0 M0 C0 Y0') as [F0 E0]. destruct (PAR p1 o1 k1 (vy D) P1 O1 B1 M1 C1 Y1') as [F1 E1]. destruct (PAR p2 o2 k2 (vz D) P2 O2 B2 M2 C2 Y2') as [F2 E2].
    assert (TT : forall x y, Rabs (x - s) <= tol -> Rabs (y - s) <= tol -> Rabs (x - y) <= val (nabs F e)).
    { intros x y Hx Hy. replace (x - y) with ((x - s) - (y - s)) by ring. unfold Rminus at 1. eapply Rle_trans; [apply Rabs_triang |]. rewrite Rabs_Ropp. unfold tol in *. lra. }
    rewrite ray_point_form. rewrite OV. cbn [bind negb]. rewrite (wv_ok (nabs F e) _ _ Fw F0 F1 (TT _ _ E0 E1)), (wv_ok (nabs F e) _ _ Fw F1 F2 (TT _ _ E1 E2)). cbn [negb orb].
    assert (G : nge (par p0 o0 k0) n0 = true).
    { apply (nge_iff (ieee_ordered prec emax lm)). cbn [emb ieee_ordered]. rewrite n0_x, (fin_x prec emax _ F0). change (0 <= val (par p0 o0 k0)).
      destruct (diff_axis p0 o0 _ P K1 K2 P0 O0) as [Fm _]. destruct B0 as [Fk0 Bk0].
      assert (NK : Rabs (val k0 - vx D) <= Rabs (vx D) * / 64).
      { pose proof (Rabs_pos (vx D)). assert (u * Rabs (vx D) <= / 1024 * Rabs (vx D)) by (apply Rmult_le_compat_r; lra). assert (u * m <= u * Rabs (vx D)) by (apply Rmult_le_compat_l; lra). lra. }
      destruct (quot_fin (nsub F p0 o0) k0 Fm Fk0 F0) as [Nk0 _]. destruct (div_round prec emax (nsub F p0 o0) k0 Fm Nk0) as [A1 A2]. destruct (A1 (A2 F0)) as [_ V]. unfold par. cbn [ndiv Ieee]. rewrite V.
      apply (rnd_nonneg prec emax). destruct (minus_bnd prec emax _ p0 o0 K1 K2 P0 O0) as [[_ Vm] _]. cbn [nsub Ieee]. rewrite Vm.
      assert (SM : s * m <= s * Rabs (vx D)) by (apply Rmult_le_compat_l; lra). apply Rabs_le_inv in Y0'. apply Rabs_le_inv in NK.
      destruct (Rtotal_order (vx D) 0) as [N | [N | N]]; [| rewrite N, Rabs_R0 in M0; lra |].
      - rewrite Rabs_left in SM, NK, M0 by exact N. assert (val k0 < 0) by lra. assert (R0 : rnd (val p0 - val o0) <= 0) by (rewrite <- (rnd_0 prec emax); apply (rnd_le prec emax); lra).
        assert (/ val k0 < 0) by (apply Rinv_lt_0_compat; assumption). unfold Rdiv. nra.
      - rewrite Rabs_pos_eq in SM, NK, M0 by lra. assert (0 < val k0) by lra. assert (R0 : 0 <= rnd (val p0 - val o0)) by (apply (rnd_nonneg prec emax); lra).
        assert (0 < / val k0) by (apply Rinv_0_lt_compat; assumption). unfold Rdiv. nra. }
    rewrite G. eexists. reflexivity.
  Qed.
End RayP.
