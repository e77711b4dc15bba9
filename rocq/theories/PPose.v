(** PPose.v — chains of poses in IEEE arithmetic (C134). *)
From Coq Require Import Reals List ZArith NArith Bool Lra Lia Psatz.
From Flocq Require Import Core BinarySingleNaN.
Import ListNotations.
From Verif Require Import Base Num Vec Mat Quat Shape Intersect Float FloatFacts FloatRound SpecMat SpecReal SpecRound SpecGeom SpecBound SpecQuat SpecBuild SpecFq SpecRun SpecRotM SpecTurnQ SpecPose ExactFacts PGeo1 PGeo2 PRound PRound2 PRound3 PQuat PQuat2 PIeee2 PIeee3 PIeee4 PIeee5 PRun PRotMF PTurnQ PropertiesIeee PropertiesLoc.
Local Open Scope R_scope.

Lemma hcarry_dist l : forall a b, Forall (fun qt : H4 * V3 => hunit (fst qt)) l -> dist (hcarry l a) (hcarry l b) = dist a b.
Proof.
  induction l as [| [q t] l IH]; intros a b Fl; [reflexivity |]. inversion Fl as [| ? ? U Fl']; subst. cbn [fst] in U. unfold hcarry in *. cbn [fold_left fst snd]. rewrite IH by exact Fl'. rewrite <- (hrot_dist q a b U). unfold dist. f_equal. apply V3_eq; unfold vsub, vadd; cbn [vx vy vz]; ring.
Qed.
Lemma dist_shift a b t : dist (vadd a t) (vadd b t) = dist a b.
Proof. unfold dist. f_equal. apply V3_eq; unfold vsub, vadd; cbn [vx vy vz]; ring. Qed.
Lemma dist_self a : dist a a = 0.
Proof. unfold dist. replace (vsub a a) with (V 0 0 0) by (apply V3_eq; unfold vsub; cbn [vx vy vz]; ring). unfold norm, vdot. cbn [vx vy vz]. rewrite Rmult_0_l, !Rplus_0_l. apply sqrt_0. Qed.
Lemma small_rel u e0 e1 e2 v w : 0 <= u -> Rabs e0 <= u -> Rabs e1 <= u -> Rabs e2 <= u -> w = V (vx v * (1 + e0)) (vy v * (1 + e1)) (vz v * (1 + e2)) -> dist w v <= u * norm v.
Proof.
  intros U E0 E1 E2 ->. unfold dist. apply norm_le_sq; [apply Rmult_le_pos; [exact U | apply norm_pos] |]. replace (u * norm v * (u * norm v)) with (u * u * (norm v * norm v)) by ring. rewrite norm_sq. unfold vdot, vsub. cbn [vx vy vz].
  assert (Q : forall e x, Rabs e <= u -> (x * (1 + e) - x) * (x * (1 + e) - x) <= u * u * (x * x)). { intros e x E. apply Rabs_le_inv in E. replace ((x * (1 + e) - x) * (x * (1 + e) - x)) with (e * e * (x * x)) by ring. apply Rmult_le_compat_r; [nra | nra]. }
  pose proof (Q e0 (vx v) E0). pose proof (Q e1 (vy v) E1). pose proof (Q e2 (vz v) E2). lra.
Qed.

Section Pose.
  Context (prec emax : Z) {Hp : Prec_gt_0 prec} {Hm : Prec_lt_emax prec emax} (lm : libm (binary_float prec emax)).
  Notation bf := (binary_float prec emax).
  Notation F := (@Ieee prec emax Hp Hm lm).
  Notation u := (uro prec).
  Notation et := (eta prec emax).
  Notation val := (@B2R prec emax).
  Notation w3 p := (v3 (p : mat3x1 bf)).
  Notation turned q p := (quat_rotate_vector (q : quat F) (p : mat3x1 F)).
  Notation trues l := (map (fun qt : quat F * mat3x1 F => pose_val (qt : quat bf * mat3x1 bf)) l).
  Notation okl T l := (Forall (fun qt : quat F * mat3x1 F => pose_ok T (qt : quat bf * mat3x1 bf)) l).

  Lemma plus_vec (a t : mat3x1 F) : (9 < prec)%Z -> fin3 (a : mat3x1 bf) -> fin3 (t : mat3x1 bf) -> norm (w3 a) <= bpow radix2 (emax - 3) -> norm (w3 t) <= bpow radix2 (emax - 3) ->
    exists c, mat3x1_plus a t = Some c /\ fin3 (c : mat3x1 bf) /\ dist (w3 c) (vadd (w3 a) (w3 t)) <= u * norm (vadd (w3 a) (w3 t)).
  Proof.
    intros P Fa Ft Na Nt. assert (HP : (0 < prec)%Z) by exact Hp. assert (HE : (prec < emax)%Z) by exact Hm. pose proof (u_pos prec) as U0.
    assert (CB : forall p : mat3x1 F, norm (w3 p) <= bpow radix2 (emax - 3) -> match p with M3x1 (A3 x y z) => Rabs (val (x : bf)) <= bpow radix2 (emax - 3) /\ Rabs (val (y : bf)) <= bpow radix2 (emax - 3) /\ Rabs (val (z : bf)) <= bpow radix2 (emax - 3) end).
    { intros [[x y z]] Np. pose proof (comp_norm (w3 (M3x1 (A3 x y z))) 0%N eq_refl) as A. pose proof (comp_norm (w3 (M3x1 (A3 x y z))) 1%N eq_refl) as B. pose proof (comp_norm (w3 (M3x1 (A3 x y z))) 2%N eq_refl) as C. cbn [SpecBound.comp v3 vx vy vz] in A, B, C. repeat split; eapply Rle_trans; eassumption. }
    apply CB in Na. apply CB in Nt. clear CB. destruct a as [[a0 a1 a2]], t as [[t0 t1 t2]]. destruct Fa as (A0 & A1 & A2), Ft as (T0 & T1 & T2), Na as (B0 & B1 & B2), Nt as (C0 & C1 & C2).
    assert (Q : forall x y : bf, is_finite x = true -> is_finite y = true -> Rabs (val x) <= bpow radix2 (emax - 3) -> Rabs (val y) <= bpow radix2 (emax - 3) -> is_finite (Bplus mode_NE x y) = true /\ exists e, Rabs e <= u /\ val (Bplus mode_NE x y) = (val x + val y) * (1 + e)).
    { intros x y Fx Fy Bx By. destruct (plus_bnd prec emax (emax - 3) x y ltac:(lia) ltac:(lia) (conj Fx Bx) (conj Fy By)) as [[F1 V1] _]. split; [exact F1 |]. destruct (plus_rel prec emax x y) as [e [He Re]]. exists e. split; [exact He |]. rewrite V1. exact Re. }
    destruct (Q a0 t0 A0 T0 B0 C0) as (F0 & e0 & H0 & V0). destruct (Q a1 t1 A1 T1 B1 C1) as (F1 & e1 & H1 & V1). destruct (Q a2 t2 A2 T2 B2 C2) as (F2 & e2 & H2 & V2).
    eexists. split; [reflexivity |]. split; [split; [exact F0 | split; [exact F1 | exact F2]] |].
    apply (small_rel u e0 e1 e2); [lra | exact H0 | exact H1 | exact H2 |]. unfold vadd. cbn [v3 vx vy vz]. rewrite <- V0, <- V1, <- V2. reflexivity.
  Qed.
  Lemma trues_unit T (l : list (quat F * mat3x1 F)) : (9 < prec)%Z -> okl T l -> Forall (fun qt : H4 * V3 => hunit (fst qt)) (trues l).
  Proof.
    intros P Fl. pose proof (u_small prec P) as U1. pose proof (u_pos prec) as U0. induction Fl as [| [q t] l [[Fq Nq] _] Fl IH]; [constructor |]. cbn [map]. constructor; [| exact IH]. cbn [fst pose_val] in *. apply hdir_unit. apply Rabs_le_inv in Nq. lra.
  Qed.
  Theorem carry_ok (T B : R) (l : list (quat F * mat3x1 F)) : forall (p : mat3x1 F) (x : V3) (e : R), (9 < prec)%Z -> okl T l -> 0 <= T -> B <= bpow radix2 (emax / 2 - 4) -> let E := 40 * u * B + 29 * et in
    fin3 (p : mat3x1 bf) -> 0 <= e -> dist (w3 p) x <= e -> norm x + INR (length l) * T <= B -> e + INR (length l) * E <= B / 100 ->
    exists p', carry l p = Some p' /\ fin3 (p' : mat3x1 bf) /\ dist (w3 p') (hcarry (trues l) x) <= e + INR (length l) * E /\ norm (hcarry (trues l) x) <= B.
  Proof.
    induction l as [| [q t] l IH]; intros p x e P Fl T0 HB E Fp E0 D NB EB.
    - cbn [length INR] in *. exists p. split; [reflexivity |]. split; [exact Fp |]. cbn [map hcarry fold_left]. unfold hcarry. cbn [fold_left]. split; lra.
    - inversion Fl as [| ? ? [Nq [Ft Nt]] Fl']; subst. cbn [fst snd] in Nq, Ft, Nt. cbn [length] in NB, EB |- *. rewrite S_INR in *. set (n := INR (length l)) in *. assert (N0 : 0 <= n) by apply pos_INR.
      pose proof (u_pos prec) as U0. pose proof (u_small prec P) as U1. pose proof (et_pos prec emax) as P0. destruct (big prec emax P) as (B1 & B2 & B3). pose proof (big4 prec emax P) as B4. assert (HE : (prec < emax)%Z) by exact Hm.
      assert (Bb : bpow radix2 (emax - 8) <= bpow radix2 (emax - 3)) by (apply bpow_le; lia). pose proof (norm_pos x) as X0. assert (nT : 0 <= n * T) by (apply Rmult_le_pos; lra). assert (B0 : 0 <= B) by lra. assert (Ep : 0 <= E) by (unfold E; assert (0 <= u * B) by (apply Rmult_le_pos; lra); lra). assert (nE : 0 <= n * E) by (apply Rmult_le_pos; lra).
      pose proof (norm_near (w3 p) x) as Np. assert (Np' : norm (w3 p) <= 101 / 100 * B) by lra.
      destruct (turn_close prec emax lm q p P Nq Fp ltac:(lra)) as (F1 & Uq & D1). set (Q := hdir (qval (q : quat bf))) in *.
      assert (UB : 0 <= u * B) by (apply Rmult_le_pos; lra). assert (UP : u * norm (w3 p) <= u * (101 / 100 * B)) by (apply Rmult_le_compat_l; lra).
      assert (D2 : dist (w3 (turned q p)) (hrot Q x) <= e + 3838 / 100 * (u * B) + 28 * et) by (eapply Rle_trans; [apply (dist_tri3 _ (hrot Q (w3 p))) |]; rewrite (hrot_dist Q _ _ Uq); lra).
      assert (Ne : e <= B / 100) by lra. assert (UBs : u * B <= / 1024 * B) by (apply Rmult_le_compat_r; lra).
      pose proof (norm_near (w3 (turned q p)) (hrot Q x)) as N1. rewrite (hrot_norm Q x Uq) in N1.
      assert (EE : 40 * (u * B) + 29 * et <= B / 100) by (unfold E in *; lra).
      assert (N2 : norm (w3 (turned q p)) <= 102 / 100 * B) by lra.
      destruct (plus_vec (turned q p) t P F1 Ft ltac:(lra) ltac:(lra)) as (c & Ec & Fc & Dc).
      set (y := vadd (hrot Q x) (w3 t)). assert (Ny : norm y <= norm x + T) by (unfold y; eapply Rle_trans; [apply triangle |]; rewrite (hrot_norm Q x Uq); lra).
      assert (Ds : dist (vadd (w3 (turned q p)) (w3 t)) y = dist (w3 (turned q p)) (hrot Q x)) by (unfold y; apply dist_shift).
      pose proof (norm_near (vadd (w3 (turned q p)) (w3 t)) y) as N3. rewrite Ds in N3. pose proof (norm_pos (vadd (w3 (turned q p)) (w3 t))) as N4.
      assert (UN : u * norm (vadd (w3 (turned q p)) (w3 t)) <= u * (102 / 100 * B)) by (apply Rmult_le_compat_l; lra).
      assert (Dy : dist (w3 c) y <= e + E) by (eapply Rle_trans; [apply (dist_tri3 _ (vadd (w3 (turned q p)) (w3 t))) |]; rewrite Ds; unfold E; lra).
      destruct (IH c y (e + E) P Fl' T0 HB Fc ltac:(lra) Dy) as (p' & H1 & H2 & H3 & H4); [fold n; lra | fold E n; lra |].
      exists p'. cbn [carry]. rewrite Ec. split; [exact H1 |]. split; [exact H2 |]. cbn [map]. change (hcarry (pose_val ((q, t) : quat bf * mat3x1 bf) :: trues l) x) with (hcarry (trues l) y). fold E n in H3. split; [lra | exact H4].
  Qed.
  Theorem carry_point (T B : R) (l : list (quat F * mat3x1 F)) (p : mat3x1 F) : (9 < prec)%Z -> okl T l -> 0 <= T -> B <= bpow radix2 (emax / 2 - 4) -> let n := INR (length l) in let E := 40 * u * B + 29 * et in
    fin3 (p : mat3x1 bf) -> norm (w3 p) + n * T <= B -> n * E <= B / 100 ->
    exists p', carry l p = Some p' /\ fin3 (p' : mat3x1 bf) /\ dist (w3 p') (hcarry (trues l) (w3 p)) <= n * E /\ norm (w3 p') <= 101 / 100 * B.
  Proof.
    intros P Fl T0 HB n E Fp NB EB. assert (Z : dist (w3 p) (w3 p) <= 0) by (right; apply dist_self).
    destruct (carry_ok T B l p (w3 p) 0 P Fl T0 HB Fp (Rle_refl 0) Z NB) as (p' & H1 & H2 & H3 & H4); [fold n E; lra |]. fold n E in H3. exists p'. split; [exact H1 |]. split; [exact H2 |]. split; [lra |]. pose proof (norm_near (w3 p') (hcarry (trues l) (w3 p))). lra.
  Qed.
  Theorem carry_dist (T B : R) (l : list (quat F * mat3x1 F)) (p r : mat3x1 F) : (9 < prec)%Z -> okl T l -> 0 <= T -> B <= bpow radix2 (emax / 2 - 4) -> let n := INR (length l) in let E := 40 * u * B + 29 * et in
    fin3 (p : mat3x1 bf) -> fin3 (r : mat3x1 bf) -> norm (w3 p) + n * T <= B -> norm (w3 r) + n * T <= B -> n * E <= B / 100 ->
    exists p' r', carry l p = Some p' /\ carry l r = Some r' /\ moderate (p' : mat3x1 bf) /\ moderate (r' : mat3x1 bf) /\ Rabs (dist (w3 p') (w3 r') - dist (w3 p) (w3 r)) <= 2 * n * E.
  Proof.
    intros P Fl T0 HB n E Fp Fr NP NR EB. destruct (carry_point T B l p P Fl T0 HB Fp NP EB) as (p' & P1 & P2 & P3 & P4). destruct (carry_point T B l r P Fl T0 HB Fr NR EB) as (r' & R1 & R2 & R3 & R4). fold n E in P3, R3.
    destruct (big prec emax P) as (B1 & B2 & B3). assert (B0 : 0 <= B). { pose proof (norm_pos (w3 p)). assert (0 <= n * T) by (apply Rmult_le_pos; [apply pos_INR | exact T0]). lra. }
    exists p', r'. split; [exact P1 |]. split; [exact R1 |]. split; [apply (in_moderate prec emax lm p' _ P2 P4); lra |]. split; [apply (in_moderate prec emax lm r' _ R2 R4); lra |].
    rewrite <- (hcarry_dist (trues l) (w3 p) (w3 r) (trues_unit T l P Fl)). set (A := hcarry (trues l) (w3 p)) in *. set (C := hcarry (trues l) (w3 r)) in *.
    pose proof (dist_tri3 (w3 p') A (w3 r')) as T1. pose proof (dist_tri3 A C (w3 r')) as T2. pose proof (dist_tri3 A (w3 p') C) as T3. pose proof (dist_tri3 (w3 p') (w3 r') C) as T4. rewrite (dist_comm C) in T2. rewrite (dist_comm A (w3 p')) in T3. apply Rabs_le. lra.
  Qed.
  Notation gi := (@shape_get_intersect F).
  Theorem carry_spheres (T B : R) (l : list (quat F * mat3x1 F)) (a b : mat3x1 F) (r s : F) e f e' f' (x y x' y' : shape F) : (9 < prec)%Z -> okl T l -> 0 <= T -> B <= bpow radix2 (emax / 2 - 4) -> let n := INR (length l) in let E := 40 * u * B + 29 * et in
    fin3 (a : mat3x1 bf) -> fin3 (b : mat3x1 bf) -> norm (w3 a) + n * T <= B -> norm (w3 b) + n * T <= B -> n * E <= B / 100 -> radius prec emax lm r -> radius prec emax lm s ->
    exists a' b', carry l a = Some a' /\ carry l b = Some b' /\ (mk_sphere a r e x -> mk_sphere b s f y -> mk_sphere a' r e' x' -> mk_sphere b' s f' y' ->
    let D := dist (w3 b) (w3 a) in let G := val (r : bf) + val (s : bf) in
    ((1 + u) ^ 4 * (D + 2 * n * E + 2 * sqrt et) <= (1 - u) * G -> exists p p', gi x y = Ok (true, Some p) /\ gi x' y' = Ok (true, Some p')) /\
    ((1 + u) * G < (1 - u) ^ 4 * (D - 2 * n * E) - 2 * sqrt et -> gi x y = Ok (false, None) /\ gi x' y' = Ok (false, None))).
  Proof.
    intros P Fl T0 HB n E Fa Fb NA NB EB (R1 & R2 & R3) (S1 & S2 & S3). destruct (carry_dist T B l b a P Fl T0 HB Fb Fa NB NA EB) as (b' & a' & Eb & Ea & Mb' & Ma' & TD). fold n E in TD.
    exists a', b'. split; [exact Ea |]. split; [exact Eb |]. intros X Y X' Y' D G. pose proof (u_pos prec) as U0. pose proof (u_small prec P) as U1. pose proof (et_pos prec emax) as P0. destruct (big prec emax P) as (B1 & B2 & B3). assert (nT : 0 <= n * T) by (apply Rmult_le_pos; [apply pos_INR | exact T0]).
    assert (Ma : moderate (a : mat3x1 bf)) by (apply (in_moderate prec emax lm a B Fa); lra). assert (Mb : moderate (b : mat3x1 bf)) by (apply (in_moderate prec emax lm b B Fb); lra).
    destruct (C79_spheres prec emax lm a b r s e f x y P Ma Mb (conj R1 R2) (conj S1 S2) R3 S3 X Y) as [H1 H2]. destruct (C79_spheres prec emax lm a' b' r s e' f' x' y' P Ma' Mb' (conj R1 R2) (conj S1 S2) R3 S3 X' Y') as [H3 H4].
    set (m := 2 * n * E) in *. fold D in TD. assert (m0 : 0 <= m) by (eapply Rle_trans; [apply Rabs_pos | exact TD]). apply Rabs_le_inv in TD. fold D G in H1, H2. fold G in H3, H4.
    assert (W1 : 0 < (1 + u) ^ 4) by (apply pow_lt; lra). assert (W2 : 0 < (1 - u) ^ 4) by (apply pow_lt; lra).
    split; intro M.
    - destruct H1 as [p Hq]; [apply Rle_trans with ((1 + u) ^ 4 * (D + m + 2 * sqrt et)); [apply Rmult_le_compat_l; lra | exact M] |]. destruct H3 as [p' Hq']; [apply Rle_trans with ((1 + u) ^ 4 * (D + m + 2 * sqrt et)); [apply Rmult_le_compat_l; lra | exact M] |]. exists p, p'. split; assumption.
    - split; [apply H2 | apply H4]; (eapply Rlt_le_trans; [exact M |]); unfold Rminus at 1 3; apply Rplus_le_compat_r, Rmult_le_compat_l; lra.
  Qed.
End Pose.
