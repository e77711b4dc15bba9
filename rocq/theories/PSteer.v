(** PSteer.v — steering an orientation by turns given as axis and angle, in IEEE arithmetic (C131). *)
From Coq Require Import Reals List ZArith Bool Lra Lia Psatz.
From Flocq Require Import Core BinarySingleNaN.
Import ListNotations.
From Verif Require Import Base Num Vec Mat Quat Float FloatFacts SpecGeom SpecQuat SpecRound SpecBuild SpecFq SpecTrig SpecRun SpecSteer PGeo1 PRound PShape PQuat PQuat2 PIeee2 PIeee3 PIeee4 PIeee5 PIeee6 ExactFacts PTrig PTrig2 PRun.
Local Open Scope R_scope.
Notation hturn := SpecTrig.turn.

Lemma hturn_add k a b : vdot k k = 1 -> hmul (hturn k a) (hturn k b) = hturn k (a + b).
Proof.
  intro K. change (hturn k a) with (H (vscale (sin (a / 2)) k) (cos (a / 2))). pose proof (hpolar_mul 1 1 k (a / 2) (b / 2) K) as Q. unfold hpolar in Q. rewrite !Rmult_1_l in Q. replace (a / 2 + b / 2) with ((a + b) / 2) in Q by field. exact Q.
Qed.
Lemma steer_axis k (l : list (control V3 R)) : forall a, vdot (s_unit k) (s_unit k) = 1 -> Forall (fun c => snd (fst c) = k) l -> fold_left hsteer l (hturn (s_unit k) a) = hturn (s_unit k) (a + angles l).
Proof.
  induction l as [| [[w k'] b] l IH]; intros a K Fl; [cbn; f_equal; ring |]. inversion Fl as [| ? ? E Fl']; subst. cbn [fst snd] in *. cbn [fold_left hsteer].
  replace (if w then hmul (hturn (s_unit k') b) (hturn (s_unit k') a) else hmul (hturn (s_unit k') a) (hturn (s_unit k') b)) with (hturn (s_unit k') (a + b)).
  - rewrite IH by assumption. f_equal. unfold angles. cbn. ring.
  - destruct w; rewrite hturn_add by exact K; f_equal; ring.
Qed.

Section Steer.
  Context (prec emax : Z) {Hp : Prec_gt_0 prec} {Hm : Prec_lt_emax prec emax} (lm : libm (binary_float prec emax)).
  Notation bf := (binary_float prec emax).
  Notation F := (@Ieee prec emax Hp Hm lm).
  Notation u := (uro prec).
  Notation et := (eta prec emax).
  Notation val := (@B2R prec emax).
  Notation hq q := (qval (q : quat bf)).
  Notation ctl := (control (mat3x1 F) F).
  Notation tru l := (map (fun c : ctl => cval (c : control (mat3x1 bf) bf)) l).
  Lemma steer_step_ok (q : quat F) (c : ctl) (U : H4) (B d e : R) : (9 < prec)%Z -> sincos_acc lm B d -> d <= / 64 -> near (q : quat bf) -> cgood B (c : control (mat3x1 bf) bf) -> hdist (hq q) U <= e -> hlen U = 1 ->
    exists r, steer_step q c = Ok r /\ near (r : quat bf) /\ hdist (hq r) (hsteer U (cval (c : control (mat3x1 bf) bf))) <= e + (6 * d + 57 * u) /\ hlen (hsteer U (cval (c : control (mat3x1 bf) bf))) = 1.
  Proof.
    destruct c as [[w k] a]. intros P A Hd Nq (G & Fa & Ba) D LU. pose proof (u_pos prec) as U0. pose proof (u_small prec P) as Us.
    destruct (axis_angle_ieee prec emax lm k a B d P G Fa Ba A Hd) as (p & Ep & Fp & Dp). destruct (nrm_ieee prec emax lm k P G) as (_ & _ & Nn). change (PShape.unit (v3 (k : mat3x1 bf))) with (s_unit (v3 (k : mat3x1 bf))) in Nn.
    cbn [cval hsteer steer_step]. set (T := hturn (s_unit (v3 (k : mat3x1 bf))) (val a)) in *. assert (LT : hlen T = 1) by (apply turn_len; exact Nn).
    pose proof (hlen_near (hq p) T) as N1. pose proof (hlen_near T (hq p)) as N2. rewrite (hdist_sym T) in N2. rewrite LT in N1, N2. assert (Lp : 0 < hlen (hq p)) by lra.
    assert (DT : hdist (hdir (hq p)) T <= 6 * d + 20 * u). { eapply Rle_trans; [apply (hdist_triangle _ (hq p)) |]. rewrite (hdist_sym (hdir (hq p))), hdir_near by exact Lp. assert (Rabs (hlen (hq p) - 1) <= 3 * d + 10 * u) by (apply Rabs_le; lra). lra. }
    assert (Fc : factor (p : quat bf)) by (split; [exact Fp |]; lra).
    rewrite Ep. cbn [bind]. destruct w.
    - destruct (step_ok prec emax lm q (Lead p) U e P Nq Fc D) as (r & E & Nr & Dr). exists r. split; [exact E |]. split; [exact Nr |]. cbn [turn_map htrack] in Dr. split; [| rewrite hlen_mul, LT, LU; ring].
      eapply Rle_trans; [apply (hdist_triangle _ (hmul (hdir (hq p)) U)) |]. rewrite hdist_mul_r, LU. lra.
    - destruct (step_ok prec emax lm q (Trail p) U e P Nq Fc D) as (r & E & Nr & Dr). exists r. split; [exact E |]. split; [exact Nr |]. cbn [turn_map htrack] in Dr. split; [| rewrite hlen_mul, LT, LU; ring].
      eapply Rle_trans; [apply (hdist_triangle _ (hmul U (hdir (hq p)))) |]. rewrite hdist_mul_l, LU. lra.
  Qed.
  Theorem steer_ok (B d : R) (l : list ctl) : forall (q : quat F) (U : H4) (e : R), (9 < prec)%Z -> sincos_acc lm B d -> d <= / 64 -> near (q : quat bf) -> Forall (fun c : ctl => cgood B (c : control (mat3x1 bf) bf)) l -> hdist (hq q) U <= e -> hlen U = 1 ->
    exists r, steer l q = Ok r /\ near (r : quat bf) /\ hdist (hq r) (fold_left hsteer (tru l) U) <= e + INR (length l) * (6 * d + 57 * u).
  Proof.
    induction l as [| c l IH]; intros q U e P A Hd Nq Fl D LU.
    - exists q. split; [reflexivity |]. split; [exact Nq |]. cbn. lra.
    - inversion Fl as [| ? ? Gc Fl']; subst. destruct (steer_step_ok q c U B d e P A Hd Nq Gc D LU) as (r & E & Nr & Dr & LV). destruct (IH r _ _ P A Hd Nr Fl' Dr LV) as (s & Es & Ns & Ds). exists s. cbn [steer]. rewrite E. cbn [bind].
      split; [exact Es |]. split; [exact Ns |]. cbn [map fold_left]. change (length (c :: l)) with (S (length l)). rewrite S_INR. lra.
  Qed.
  Lemma ident_near : near (quat_init : quat F) /\ hq (quat_init : quat F) = hone.
  Proof.
    destruct (fv_n0 prec emax lm) as [F0 V0]. destruct (PTrig2.fv_one prec emax lm) as [F1 V1]. assert (E : hq (quat_init : quat F) = hone) by (unfold quat_init, SpecFq.qval, hone, vzero; cbn [qx qy qz qw]; rewrite V0, V1; reflexivity).
    split; [| exact E]. split; [unfold quat_init; repeat split; assumption |]. rewrite E. replace (hlen hone) with 1; [rewrite Rminus_diag_eq, Rabs_R0 by reflexivity; pose proof (u_pos prec); lra |].
    unfold hlen, hone, hdot, vdot, vzero. cbn. rewrite <- sqrt_1 at 1. f_equal. ring.
  Qed.
  Theorem wheel_ok (B d : R) (k : mat3x1 F) (l : list ctl) (v : mat3x1 F) : (9 < prec)%Z -> sincos_acc lm B d -> d <= / 64 -> l <> [] -> Forall (fun c : ctl => cgood B (c : control (mat3x1 bf) bf)) l -> Forall (fun c : ctl => snd (fst c) = k) l ->
    fin3 (v : mat3x1 bf) -> norm (v3 (v : mat3x1 bf)) <= bpow radix2 (emax - 8) ->
    let K := s_unit (v3 (k : mat3x1 bf)) in let t := angles (tru l) in let D := INR (length l) * (6 * d + 57 * u) in
    exists r, steer l quat_init = Ok r /\ near (r : quat bf) /\ hdist (hq r) (hturn K t) <= D /\ fin3 (quat_rotate_vector r v : mat3x1 bf) /\
      dist (v3 (quat_rotate_vector r v : mat3x1 bf)) (rodrigues K t (v3 (v : mat3x1 bf))) <= (201 / 100 * D + 20 * u) * norm (v3 (v : mat3x1 bf)) + 28 * et.
  Proof.
    intros P A Hd NE Fl Fk Fv Lv K t D. pose proof (u_pos prec) as U0. pose proof (u_small prec P) as Us. destruct ident_near as [NI EI].
    assert (Gk : good_normal (k : mat3x1 bf)). { destruct l as [| [[w k'] b] l']; [congruence |]. inversion Fl as [| ? ? Gc _]; subst. inversion Fk as [| ? ? Ek _]; subst. cbn [fst snd] in *. destruct Gc as [G _]. exact G. }
    destruct (nrm_ieee prec emax lm k P Gk) as (_ & _ & Nn). change (PShape.unit (v3 (k : mat3x1 bf))) with K in Nn. assert (KK : vdot K K = 1) by (rewrite <- norm_sq, Nn; ring).
    assert (T0 : hturn K 0 = hone) by (unfold SpecTrig.turn, hone, vscale, vzero; replace (0 / 2) with 0 by field; rewrite sin_0, cos_0; f_equal; f_equal; ring). assert (LT : forall x, hlen (hturn K x) = 1) by (intro x; apply turn_len; exact Nn).
    destruct (steer_ok B d l quat_init (hturn K 0) 0 P A Hd NI Fl) as (r & E & Nr & Dr); [rewrite EI, T0; unfold hdist, hsub, hlen, hdot, vdot, vsub, hone, vzero; cbn; replace (_ + _) with 0 by ring; rewrite sqrt_0; lra | apply LT |].
    assert (Fk' : Forall (fun c => snd (fst c) = v3 (k : mat3x1 bf)) (tru l)). { clear - Fk. induction Fk as [| [[w k'] b] l' Ek Fk IH]; [constructor |]. cbn [map]. constructor; [| exact IH]. cbn [fst snd cval] in *. rewrite Ek. reflexivity. }
    unfold K in Dr. rewrite (steer_axis (v3 (k : mat3x1 bf)) (tru l) 0 KK Fk') in Dr. fold K in Dr. rewrite Rplus_0_l in Dr. fold t in Dr. rewrite Rplus_0_l in Dr. fold D in Dr.
    exists r. split; [exact E |]. split; [exact Nr |]. split; [exact Dr |]. destruct Nr as [Fr Lr]. apply Rabs_le_inv in Lr.
    destruct (rotate_ieee prec emax lm r v P Fr Fv ltac:(lra) Lv) as [Fv' Dv]. split; [exact Fv' |]. rewrite <- hlen_sq in Dv. set (n := norm (v3 (v : mat3x1 bf))) in *. assert (Pn : 0 <= n) by apply norm_pos. set (L := hlen (hq r)) in *.
    rewrite <- (haxis_turn _ _ _ Nn). pose proof (hrot_near (hq r) (hturn K t) (v3 (v : mat3x1 bf))) as HN. fold n L in HN. rewrite LT in HN. assert (Pd : 0 <= hdist (hq r) (hturn K t)) by apply hlen_pos.
    eapply Rle_trans; [apply (dist_tri3 _ (hrot (hq r) (v3 (v : mat3x1 bf)))) |].
    assert (A1 : (L + 1) * hdist (hq r) (hturn K t) * n <= 201 / 100 * D * n) by (apply Rmult_le_compat_r; [exact Pn |]; apply Rmult_le_compat; lra).
    assert (A2 : 19 * u * (L * L * n) <= 20 * u * n). { replace (19 * u * (L * L * n)) with (u * n * (19 * (L * L))) by ring. replace (20 * u * n) with (u * n * 20) by ring. apply Rmult_le_compat_l; [apply Rmult_le_pos; lra |]. assert (L <= 1009 / 1000) by lra. assert (0 <= L) by lra. nra. }
    lra.
  Qed.
End Steer.
