(** PTurnQ.v — queries about shapes that are turned together by Quat::rotate_vector, in IEEE arithmetic (C133). *)
From Coq Require Import Reals List ZArith NArith Bool Lra Lia Psatz.
From Flocq Require Import Core BinarySingleNaN.
Import ListNotations.
From Verif Require Import Base Num Vec Mat Quat Shape Intersect Float FloatFacts FloatRound SpecMat SpecReal SpecRound SpecGeom SpecBound SpecQuat SpecBuild SpecFq SpecRun SpecRotM SpecTurnQ ExactFacts PGeo1 PGeo2 PRound PRound2 PRound3 PQuat PQuat2 PIeee2 PIeee3 PIeee4 PIeee5 PRun PRotMF SpecFr PropertiesIeee PropertiesFr PropertiesLoc.
Local Open Scope R_scope.

Lemma hrot_sub q a b : hrot q (vsub a b) = vsub (hrot q a) (hrot q b).
Proof. rewrite !hrot_formula. destruct q as [[x y z] w], a as [a1 a2 a3], b as [b1 b2 b3]. unfold vsub, vadd, vscale, vcross, vdot. cbn. apply V3_eq; cbn; ring. Qed.
Lemma hrot_lin q k a : hrot q (vscale k a) = vscale k (hrot q a).
Proof. rewrite !hrot_formula. destruct q as [[x y z] w], a as [a1 a2 a3]. unfold vsub, vadd, vscale, vcross, vdot. cbn. apply V3_eq; cbn; ring. Qed.
Lemma hrot_plus q a b : hrot q (vadd a b) = vadd (hrot q a) (hrot q b).
Proof. rewrite !hrot_formula. destruct q as [[x y z] w], a as [a1 a2 a3], b as [b1 b2 b3]. unfold vsub, vadd, vscale, vcross, vdot. cbn. apply V3_eq; cbn; ring. Qed.
Lemma hrot_dist q a b : hunit q -> dist (hrot q a) (hrot q b) = dist a b.
Proof. intro U. unfold dist. rewrite <- hrot_sub. apply hrot_norm, U. Qed.
Lemma norm_near a b : norm a <= norm b + dist a b.
Proof. pose proof (dist_tri3 a b vzero) as K. unfold dist in K at 1 3. replace (vsub a vzero) with a in K by (destruct a; unfold vsub, vzero; cbn; apply V3_eq; cbn; ring). replace (vsub b vzero) with b in K by (destruct b; unfold vsub, vzero; cbn; apply V3_eq; cbn; ring). lra. Qed.
Lemma dist_comm a b : dist a b = dist b a.
Proof. unfold dist, norm. f_equal. unfold vdot, vsub. cbn. ring. Qed.
Lemma norm_vsub a b : norm (vsub a b) <= norm a + norm b.
Proof. pose proof (dist_tri3 a vzero b) as K. unfold dist in K. replace (vsub a vzero) with a in K by (destruct a; unfold vsub, vzero; cbn; apply V3_eq; cbn; ring). replace (norm (vsub vzero b)) with (norm b) in K; [exact K |]. unfold norm. f_equal. unfold vdot, vsub, vzero. cbn. ring. Qed.
Lemma vsub_swap a b c d : vsub (vsub a b) (vsub c d) = vsub (vsub a c) (vsub b d).
Proof. apply V3_eq; unfold vsub; cbn [vx vy vz]; ring. Qed.
Lemma vsub_mix0 a : vsub a vzero = a.
Proof. apply V3_eq; unfold vsub, vzero; cbn [vx vy vz]; ring. Qed.
(** unit vectors of two close vectors *)
Lemma unit_near a b k : 0 < norm a -> 0 < norm b -> dist a b <= k * norm b -> dist (s_unit a) (s_unit b) <= 2 * k.
Proof.
  intros Pa Pb D. set (x := norm a) in *. set (y := norm b) in *. assert (XY : Rabs (y - x) <= dist a b) by (apply Rabs_le; pose proof (norm_near a b) as Q'; pose proof (norm_near b a) as Q; rewrite (dist_comm b a) in Q; fold x y in Q, Q'; lra).
  assert (T : dist (s_unit a) (s_unit b) <= Rabs (y - x) * / y + dist a b * / y).
  { eapply Rle_trans; [apply (dist_tri3 _ (vscale (/ y) a)) |]. apply Rplus_le_compat.
    - unfold dist, s_unit. fold x. replace (vsub (vscale (/ x) a) (vscale (/ y) a)) with (vscale ((y - x) * / y * / x) a) by (apply V3_eq; unfold vscale, vsub; cbn [vx vy vz]; field; lra). rewrite norm_vscale. fold x. rewrite !Rabs_mult, (Rabs_pos_eq (/ x)), (Rabs_pos_eq (/ y)) by (left; apply Rinv_0_lt_compat; assumption).
      rewrite Rmult_assoc, Rinv_l by lra. lra.
    - unfold dist, s_unit. fold y. replace (vsub (vscale (/ y) a) (vscale (/ y) b)) with (vscale (/ y) (vsub a b)) by (apply V3_eq; unfold vscale, vsub; cbn [vx vy vz]; ring). rewrite norm_vscale, (Rabs_pos_eq (/ y)) by (left; apply Rinv_0_lt_compat; assumption). lra. }
  assert (I : 0 < / y) by (apply Rinv_0_lt_compat, Pb). assert (Q : dist a b * / y <= k) by (apply (Rmult_le_reg_r y); [exact Pb |]; rewrite Rmult_assoc, Rinv_l by lra; lra).
  assert (Rabs (y - x) * / y <= dist a b * / y) by (apply Rmult_le_compat_r; lra). lra.
Qed.
Lemma s_unit_norm a : 0 < norm a -> norm (s_unit a) = 1.
Proof. intro P. unfold s_unit. rewrite norm_vscale, Rabs_pos_eq by (left; apply Rinv_0_lt_compat, P). apply Rinv_l. lra. Qed.
Lemma s_unit_rot q a : hunit q -> s_unit (hrot q a) = hrot q (s_unit a).
Proof. intro U. unfold s_unit. rewrite hrot_norm by exact U. symmetry. apply hrot_lin. Qed.
(** a dot product of nearby vectors *)
Lemma dot_near a b a' b' : Rabs (vdot a' b' - vdot a b) <= dist a' a * norm b' + norm a * dist b' b.
Proof.
  replace (vdot a' b' - vdot a b) with (vdot (vsub a' a) b' + vdot a (vsub b' b)) by (unfold vdot, vsub; cbn; ring). eapply Rle_trans; [apply Rabs_triang |]. apply Rplus_le_compat; apply cauchy.
Qed.

Section TurnQ.
  Context (prec emax : Z) {Hp : Prec_gt_0 prec} {Hm : Prec_lt_emax prec emax} (lm : libm (binary_float prec emax)).
  Notation bf := (binary_float prec emax).
  Notation F := (@Ieee prec emax Hp Hm lm).
  Notation u := (uro prec).
  Notation et := (eta prec emax).
  Notation val := (@B2R prec emax).
  Notation w3 p := (v3 (p : mat3x1 bf)).
  Notation turned q p := (quat_rotate_vector (q : quat F) (p : mat3x1 F)).
  Notation roomy' p := (roomy (p : mat3x1 bf)).
  Notation Qr q := (hdir (qval (q : quat bf))).

  Lemma turn_close (q : quat F) (a : mat3x1 F) : (9 < prec)%Z -> near (q : quat bf) -> fin3 (a : mat3x1 bf) -> norm (w3 a) <= bpow radix2 (emax - 8) ->
    fin3 (turned q a : mat3x1 bf) /\ hunit (Qr q) /\ dist (w3 (turned q a)) (hrot (Qr q) (w3 a)) <= 38 * u * norm (w3 a) + 28 * et.
  Proof.
    intros P [Fq Nq] Fa La. pose proof (u_pos prec) as U0. pose proof (u_small prec P) as U1. set (h := qval (q : quat bf)) in *. assert (NQ := Nq). apply Rabs_le_inv in NQ. assert (Lq : 0 < hlen h) by lra.
    destruct (rotate_ieee prec emax lm q a P Fq Fa ltac:(fold h; lra) La) as [F1 D1]. split; [exact F1 |]. split; [apply hdir_unit, Lq |].
    eapply Rle_trans; [apply (dist_tri3 _ (hrot h (w3 a))) |]. pose proof (hrot_near h (hdir h) (w3 a)) as HN. rewrite hdir_near, hdir_len in HN by exact Lq. fold h in D1. rewrite <- hlen_sq in D1. set (L := hlen h) in *. set (n := norm (w3 a)) in *. assert (Pn : 0 <= n) by apply norm_pos.
    assert (A1 : (L + 1) * Rabs (L - 1) * n <= 181 / 10 * u * n) by (apply Rmult_le_compat_r; [exact Pn |]; pose proof (Rabs_pos (L - 1)); nra).
    assert (A2 : 19 * u * (L * L * n) <= 197 / 10 * u * n). { replace (19 * u * (L * L * n)) with (u * n * (19 * (L * L))) by ring. replace (197 / 10 * u * n) with (u * n * (197 / 10)) by ring. apply Rmult_le_compat_l; [apply Rmult_le_pos; lra |]. assert (L <= 1009 / 1000) by lra. assert (0 <= L) by lra. nra. }
    assert (0 <= u * n) by (apply Rmult_le_pos; lra). lra.
  Qed.
  Lemma big : (9 < prec)%Z -> 2 <= bpow radix2 (emax / 2 - 4) /\ bpow radix2 (emax / 2 - 3) = 2 * bpow radix2 (emax / 2 - 4) /\ bpow radix2 (emax / 2 - 4) <= bpow radix2 (emax - 8) / 2.
  Proof.
    intro P. assert (HE : (prec < emax)%Z) by exact Hm. assert (E5 : (5 <= emax / 2)%Z) by (apply Z.div_le_lower_bound; lia). pose proof (Z.mul_div_le emax 2 ltac:(lia)) as E2.
    split; [change 2 with (bpow radix2 1); apply bpow_le; lia |]. split; [replace (emax / 2 - 3)%Z with (1 + (emax / 2 - 4))%Z by lia; rewrite bpow_plus; reflexivity |].
    replace (bpow radix2 (emax - 8) / 2) with (bpow radix2 (-1) * bpow radix2 (emax - 8)) by (change (bpow radix2 (-1)) with (/ 2); lra). rewrite <- bpow_plus. apply bpow_le. lia.
  Qed.
  Lemma big4 : (9 < prec)%Z -> 4 * bpow radix2 (emax / 2 - 4) <= bpow radix2 (emax - 8).
  Proof. intro P. assert (HE : (prec < emax)%Z) by exact Hm. change 4 with (bpow radix2 2). rewrite <- bpow_plus. apply bpow_le. pose proof (Z.mul_div_le emax 2 ltac:(lia)). assert (5 <= emax / 2)%Z by (apply Z.div_le_lower_bound; lia). lia. Qed.
  Lemma in_moderate (p : mat3x1 F) k : fin3 (p : mat3x1 bf) -> norm (w3 p) <= k -> k <= bpow radix2 (emax / 2 - 3) -> moderate (p : mat3x1 bf).
  Proof.
    intros Fp Np K. split; [exact Fp |]. destruct p as [[x y z]]. cbv zeta. pose proof (comp_norm (w3 (M3x1 (A3 x y z))) 0%N eq_refl) as A. pose proof (comp_norm (w3 (M3x1 (A3 x y z))) 1%N eq_refl) as B. pose proof (comp_norm (w3 (M3x1 (A3 x y z))) 2%N eq_refl) as C. cbn in A, B, C. cbn in Np. repeat split; lra.
  Qed.
  Lemma roomy_moderate (p : mat3x1 F) : (9 < prec)%Z -> roomy' p -> moderate (p : mat3x1 bf) /\ norm (w3 p) <= bpow radix2 (emax - 8).
  Proof. intros P [Fp Np]. destruct (big P) as (B1 & B2 & B3). split; [apply (in_moderate p _ Fp Np); lra | lra]. Qed.
  (** a turned point *)
  Lemma turn_point (q : quat F) (a : mat3x1 F) : (9 < prec)%Z -> near (q : quat bf) -> roomy' a ->
    hunit (Qr q) /\ moderate (turned q a : mat3x1 bf) /\ dist (w3 (turned q a)) (hrot (Qr q) (w3 a)) <= 38 * u * norm (w3 a) + 28 * et /\ norm (w3 (turned q a)) <= norm (w3 a) + 38 * u * norm (w3 a) + 28 * et.
  Proof.
    intros P Nq Ra. pose proof (u_pos prec) as U0. pose proof (u_small prec P) as U1. pose proof (et_small prec emax P) as T. destruct (big P) as (B1 & B2 & B3). destruct (roomy_moderate a P Ra) as [Ma La]. destruct Ra as [Fa Na]. destruct (turn_close q a P Nq Fa La) as (F1 & Uq & D1).
    assert (N1 : norm (w3 (turned q a)) <= norm (w3 a) + 38 * u * norm (w3 a) + 28 * et) by (pose proof (norm_near (w3 (turned q a)) (hrot (Qr q) (w3 a))) as K; rewrite hrot_norm in K by exact Uq; lra).
    split; [exact Uq |]. split; [| split; [exact D1 | exact N1]]. apply (in_moderate _ _ F1 N1). pose proof (norm_pos (w3 a)). nra.
  Qed.
  (** a turned direction *)
  Lemma turn_dir (q : quat F) (n : mat3x1 F) : (9 < prec)%Z -> near (q : quat bf) -> roomy_dir (n : mat3x1 bf) ->
    good_normal (n : mat3x1 bf) /\ 0 < norm (w3 n) /\ good_normal (turned q n : mat3x1 bf) /\ 0 < norm (w3 (turned q n)) /\ dist (s_unit (w3 (turned q n))) (hrot (Qr q) (s_unit (w3 n))) <= 78 * u.
  Proof.
    intros P Nq [Rn Sn]. pose proof (u_pos prec) as U0. pose proof (u_small prec P) as U1. assert (HE : (prec < emax)%Z) by exact Hm. destruct (roomy_moderate n P Rn) as [Mn _]. destruct (turn_point q n P Nq Rn) as (Uq & Mt & D1 & _).
    set (x := norm (w3 n)) in *. assert (X0 : 0 <= x) by apply norm_pos. pose proof (norm_sq (w3 n)) as XX. fold x in XX.
    assert (B7 : bpow radix2 (7 - emax) = 2 * bpow radix2 (6 - emax)) by (replace (7 - emax)%Z with (1 + (6 - emax))%Z by lia; rewrite bpow_plus; reflexivity). pose proof (bpow_gt_0 radix2 (6 - emax)) as B6.
    assert (Px : 0 < x) by nra.
    assert (ET : 28 * et <= u * x).
    { apply Rsqr_incr_0_var; [| apply Rmult_le_pos; lra]. unfold Rsqr. assert (EE : et * et * 1024 <= u * u * bpow radix2 (7 - emax)).
      { unfold eta, uro. change 1024 with (bpow radix2 10). rewrite <- !bpow_plus. apply bpow_le. lia. }
      assert (0 <= u * u) by nra. assert (u * u * bpow radix2 (7 - emax) <= u * u * (x * x)) by (apply Rmult_le_compat_l; lra). nra. }
    assert (D2 : dist (w3 (turned q n)) (hrot (Qr q) (w3 n)) <= 39 * u * x) by lra. pose proof (hrot_norm (Qr q) (w3 n) Uq) as HN. fold x in HN.
    pose proof (norm_near (hrot (Qr q) (w3 n)) (w3 (turned q n))) as K. rewrite dist_comm, HN in K. set (y := norm (w3 (turned q n))) in *. assert (Y : 96 / 100 * x <= y) by nra.
    split; [split; [exact Mn | lra] |]. split; [exact Px |]. split; [split; [exact Mt |] |].
    - pose proof (norm_sq (w3 (turned q n))) as YY. fold y in YY. assert (96 / 100 * x * (96 / 100 * x) <= y * y) by (apply Rmult_le_compat; lra). nra.
    - split; [lra |]. rewrite <- s_unit_rot by exact Uq. replace (78 * u) with (2 * (39 * u)) by ring. apply unit_near; [fold y; lra | rewrite HN; exact Px | rewrite HN; exact D2].
  Qed.
  (** distances of turned points *)
  Lemma turn_dist (q : quat F) (a b : mat3x1 F) : (9 < prec)%Z -> near (q : quat bf) -> roomy' a -> roomy' b -> Rabs (dist (w3 (turned q a)) (w3 (turned q b)) - dist (w3 a) (w3 b)) <= 38 * u * (norm (w3 a) + norm (w3 b)) + 56 * et.
  Proof.
    intros P Nq Ra Rb. destruct (turn_point q a P Nq Ra) as (Uq & _ & Da & _). destruct (turn_point q b P Nq Rb) as (_ & _ & Db & _). rewrite <- (hrot_dist (Qr q) (w3 a) (w3 b) Uq).
    set (A := hrot (Qr q) (w3 a)) in *. set (B := hrot (Qr q) (w3 b)) in *. set (A' := w3 (turned q a)) in *. set (B' := w3 (turned q b)) in *.
    pose proof (dist_tri3 A' A B') as T1. pose proof (dist_tri3 A B B') as T2. pose proof (dist_tri3 A A' B) as T3. pose proof (dist_tri3 A' B' B) as T4. rewrite (dist_comm B B') in T2. rewrite (dist_comm A A') in T3. apply Rabs_le. lra.
  Qed.
  (** signed distances to turned planes *)
  Lemma turn_side (q : quat F) (n p o : mat3x1 F) : (9 < prec)%Z -> near (q : quat bf) -> roomy_dir (n : mat3x1 bf) -> roomy' p -> roomy' o ->
    Rabs (vdot (s_unit (w3 (turned q n))) (vsub (w3 (turned q p)) (w3 (turned q o))) - vdot (s_unit (w3 n)) (vsub (w3 p) (w3 o))) <= 120 * u * (norm (w3 p) + norm (w3 o)) + 61 * et.
  Proof.
    intros P Nq Rn Rp Ro. pose proof (u_pos prec) as U0. pose proof (u_small prec P) as U1. pose proof (et_pos prec emax) as T0. destruct (turn_point q p P Nq Rp) as (Uq & _ & Dp & Np). destruct (turn_point q o P Nq Ro) as (_ & _ & Do & No). destruct (turn_dir q n P Nq Rn) as (_ & Pn & _ & _ & Dn).
    rewrite <- (hrot_dot (Qr q) (s_unit (w3 n)) _ Uq). eapply Rle_trans; [apply dot_near |]. rewrite (hrot_norm (Qr q) _ Uq), (s_unit_norm _ Pn), Rmult_1_l, hrot_sub.
    pose proof (norm_vsub (w3 (turned q p)) (w3 (turned q o))) as NV. set (A := hrot (Qr q) (w3 p)) in *. set (B := hrot (Qr q) (w3 o)) in *. set (A' := w3 (turned q p)) in *. set (B' := w3 (turned q o)) in *.
    assert (K : dist (vsub A' B') (vsub A B) <= dist A' A + dist B' B). { unfold dist. rewrite (vsub_swap A' B' A B). apply norm_vsub. }
    set (S := norm (w3 p) + norm (w3 o)). assert (S0 : 0 <= S) by (unfold S; pose proof (norm_pos (w3 p)); pose proof (norm_pos (w3 o)); lra).
    assert (N2 : norm (vsub A' B') <= S + 38 * u * S + 56 * et) by (unfold S; lra). pose proof (norm_pos (vsub A' B')) as N3.
    assert (Q : dist (s_unit (w3 (turned q n))) (hrot (Qr q) (s_unit (w3 n))) * norm (vsub A' B') <= 78 * u * (S + 38 * u * S + 56 * et)) by (apply Rmult_le_compat; try assumption; apply norm_pos).
    assert (K2 : dist A' A + dist B' B <= 38 * u * S + 56 * et) by (unfold S; lra). assert (0 <= u * S) by (apply Rmult_le_pos; lra). assert (u * (u * S) <= / 1024 * (u * S)) by (apply Rmult_le_compat_r; lra). assert (u * et <= / 1024 * et) by (apply Rmult_le_compat_r; lra). nra.
  Qed.
  Notation gi := (@shape_get_intersect F).
  (** spheres *)
  Theorem turn_spheres (q : quat F) (a b : mat3x1 F) (r s : F) e f e' f' (x y x' y' : shape F) : (9 < prec)%Z -> near (q : quat bf) -> roomy' a -> roomy' b -> radius prec emax lm r -> radius prec emax lm s ->
    mk_sphere a r e x -> mk_sphere b s f y -> mk_sphere (turned q a) r e' x' -> mk_sphere (turned q b) s f' y' ->
    let D := dist (w3 b) (w3 a) in let G := val (r : bf) + val (s : bf) in let m := 38 * u * (norm (w3 a) + norm (w3 b)) + 56 * et in
    ((1 + u) ^ 4 * (D + m + 2 * sqrt et) <= (1 - u) * G -> exists p p', gi x y = Ok (true, Some p) /\ gi x' y' = Ok (true, Some p')) /\
    ((1 + u) * G < (1 - u) ^ 4 * (D - m) - 2 * sqrt et -> gi x y = Ok (false, None) /\ gi x' y' = Ok (false, None)).
  Proof.
    intros P Nq Ra Rb (R1 & R2 & R3) (S1 & S2 & S3) X Y X' Y' D G m. pose proof (u_pos prec) as U0. pose proof (u_small prec P) as U1. pose proof (et_pos prec emax) as T0.
    destruct (roomy_moderate a P Ra) as [Ma _]. destruct (roomy_moderate b P Rb) as [Mb _]. destruct (turn_point q a P Nq Ra) as (_ & Ma' & _). destruct (turn_point q b P Nq Rb) as (_ & Mb' & _).
    destruct (C79_spheres prec emax lm a b r s e f x y P Ma Mb (conj R1 R2) (conj S1 S2) R3 S3 X Y) as [H1 H2]. destruct (C79_spheres prec emax lm (turned q a) (turned q b) r s e' f' x' y' P Ma' Mb' (conj R1 R2) (conj S1 S2) R3 S3 X' Y') as [H3 H4].
    pose proof (turn_dist q b a P Nq Rb Ra) as TD. replace (38 * u * (norm (w3 b) + norm (w3 a)) + 56 * et) with m in TD by (unfold m; ring). fold D in TD. apply Rabs_le_inv in TD. fold D G in H1, H2. fold G in H3, H4.
    assert (m0 : 0 <= m) by (unfold m; pose proof (norm_pos (w3 a)); pose proof (norm_pos (w3 b)); nra). assert (W1 : 0 < (1 + u) ^ 4) by (apply pow_lt; lra). assert (W2 : 0 < (1 - u) ^ 4) by (apply pow_lt; lra).
    split; intro M.
    - destruct H1 as [p Hq]; [apply Rle_trans with ((1 + u) ^ 4 * (D + m + 2 * sqrt et)); [apply Rmult_le_compat_l; lra | exact M] |]. destruct H3 as [p' Hq']; [apply Rle_trans with ((1 + u) ^ 4 * (D + m + 2 * sqrt et)); [apply Rmult_le_compat_l; lra | exact M] |]. exists p, p'. split; assumption.
    - split; [apply H2 | apply H4]; (eapply Rlt_le_trans; [exact M |]); unfold Rminus at 1 3; apply Rplus_le_compat_r, Rmult_le_compat_l; lra.
  Qed.
  (** where turned spheres touch: the turned place *)
  Theorem turn_spheres_loc (q : quat F) (a b : mat3x1 F) (r s : F) e f e' f' (x y x' y' : shape F) p p' : (9 < prec)%Z -> near (q : quat bf) -> roomy' a -> roomy' b -> radius prec emax lm r -> radius prec emax lm s -> 0 < val (r : bf) + val (s : bf) ->
    mk_sphere a r e x -> mk_sphere b s f y -> mk_sphere (turned q a) r e' x' -> mk_sphere (turned q b) s f' y' -> gi x y = Ok (true, Some p) -> gi x' y' = Ok (true, Some p') ->
    fin3 (p : mat3x1 bf) /\ fin3 (p' : mat3x1 bf) /\ dist (w3 p') (w3 (turned q p)) <= 92 * u * (norm (w3 a) + norm (w3 b)) + 92 * et.
  Proof.
    intros P Nq Ra Rb Rr Rs PG X Y X' Y' I I'. pose proof (u_pos prec) as U0. pose proof (u_small prec P) as U1. pose proof (et_pos prec emax) as T0. pose proof (et_small prec emax P) as T1.
    destruct (roomy_moderate a P Ra) as [Ma _]. destruct (roomy_moderate b P Rb) as [Mb _]. destruct (turn_point q a P Nq Ra) as (Uq & Ma' & Da & Na). destruct (turn_point q b P Nq Rb) as (_ & Mb' & Db & Nb).
    destruct (C113_spheres prec emax lm a b r s e f x y p P Ma Mb Rr Rs PG X Y I) as [Fp Dp]. destruct (C113_spheres prec emax lm (turned q a) (turned q b) r s e' f' x' y' p' P Ma' Mb' Rr Rs PG X' Y' I') as [Fp' Dp'].
    pose proof (turn_dist q b a P Nq Rb Ra) as TD. apply Rabs_le_inv in TD. destruct Rr as (_ & _ & R3). destruct Rs as (_ & _ & S3). destruct (big P) as (B1 & B2 & B3). destruct Ra as [_ La]. destruct Rb as [_ Lb].
    set (k := val (r : bf) / (val (r : bf) + val (s : bf))) in *. assert (K : 0 <= k <= 1). { unfold k. split; [apply Rmult_le_pos; [exact R3 | left; apply Rinv_0_lt_compat, PG] |]. apply (Rmult_le_reg_r (val (r : bf) + val (s : bf))); [exact PG |]. unfold Rdiv. rewrite Rmult_assoc, Rinv_l by lra. lra. }
    pose proof (norm_pos (w3 a)) as A0. pose proof (norm_pos (w3 b)) as B0. pose proof (norm_vsub (w3 b) (w3 a)) as DS. change (norm (vsub (w3 b) (w3 a))) with (dist (w3 b) (w3 a)) in DS.
    assert (MIX : forall (A B A' B' : V3), dist (vadd A' (vscale k (vsub B' A'))) (vadd A (vscale k (vsub B A))) <= dist A' A + dist B' B).
    { intros A B A' B'. unfold dist. replace (vsub (vadd A' (vscale k (vsub B' A'))) (vadd A (vscale k (vsub B A)))) with (vadd (vscale (1 - k) (vsub A' A)) (vscale k (vsub B' B))) by (apply V3_eq; unfold vsub, vadd, vscale; cbn [vx vy vz]; ring).
      eapply Rle_trans; [apply triangle |]. rewrite !norm_vscale, !Rabs_pos_eq by lra. pose proof (norm_pos (vsub A' A)). pose proof (norm_pos (vsub B' B)). nra. }
    set (P0 := vadd (w3 a) (vscale k (vsub (w3 b) (w3 a)))) in *. set (P1 := vadd (w3 (turned q a)) (vscale k (vsub (w3 (turned q b)) (w3 (turned q a))))) in *.
    assert (HP : hrot (Qr q) P0 = vadd (hrot (Qr q) (w3 a)) (vscale k (vsub (hrot (Qr q) (w3 b)) (hrot (Qr q) (w3 a))))) by (unfold P0; rewrite hrot_plus, hrot_lin, hrot_sub; reflexivity).
    pose proof (MIX (hrot (Qr q) (w3 a)) (hrot (Qr q) (w3 b)) (w3 (turned q a)) (w3 (turned q b))) as M1. fold P1 in M1. rewrite <- HP in M1.
    assert (N0 : norm P0 <= norm (w3 a) + norm (w3 b)). { pose proof (MIX vzero vzero (w3 a) (w3 b)) as M2. fold P0 in M2. unfold dist in M2. replace (vadd vzero (vscale k (vsub vzero vzero))) with vzero in M2 by (apply V3_eq; unfold vadd, vscale, vsub, vzero; cbn [vx vy vz]; ring). rewrite !vsub_mix0 in M2. exact M2. }
    pose proof (norm_near (w3 p) P0) as Np. set (S := norm (w3 a) + norm (w3 b)) in *. assert (S0 : 0 <= S) by (unfold S; lra). assert (US : 0 <= u * S) by (apply Rmult_le_pos; lra). assert (UUS : u * (u * S) <= / 1024 * (u * S)) by (apply Rmult_le_compat_r; lra). assert (UE : u * et <= / 1024 * et) by (apply Rmult_le_compat_r; lra). assert (UU : 0 <= u * et) by (apply Rmult_le_pos; lra).
    assert (uD : u * dist (w3 b) (w3 a) <= u * S) by (apply Rmult_le_compat_l; [lra | unfold S; lra]). assert (uA : u * norm (w3 a) <= u * S) by (apply Rmult_le_compat_l; [lra | unfold S; lra]).
    assert (uD' : u * dist (w3 (turned q b)) (w3 (turned q a)) <= u * (S + 38 * u * S + 56 * et)) by (apply Rmult_le_compat_l; [lra |]; unfold S in *; lra).
    assert (uA' : u * norm (w3 (turned q a)) <= u * (S + 38 * u * S + 28 * et)). { apply Rmult_le_compat_l; [lra |]. assert (38 * u * norm (w3 a) <= 38 * u * S) by nra. unfold S in *. lra. }
    assert (Dp2 : dist (w3 p) P0 <= 7 * (u * S) + 3 * et) by lra. assert (US' : u * S <= / 1024 * S) by (apply Rmult_le_compat_r; lra).
    assert (Lp : norm (w3 p) <= bpow radix2 (emax - 8)) by (assert (S <= 2 * bpow radix2 (emax / 2 - 4)) by (unfold S; lra); assert (LB : 4 * bpow radix2 (emax / 2 - 4) <= bpow radix2 (emax - 8)) by (exact (big4 P)); lra).
    destruct (turn_close q p P Nq Fp Lp) as (_ & _ & Dq). split; [exact Fp |]. split; [exact Fp' |].
    pose proof (dist_tri3 (w3 p') P1 (w3 (turned q p))) as T2. pose proof (dist_tri3 P1 (hrot (Qr q) P0) (w3 (turned q p))) as T3. pose proof (dist_tri3 (hrot (Qr q) P0) (hrot (Qr q) (w3 p)) (w3 (turned q p))) as T4. rewrite (hrot_dist (Qr q) P0 (w3 p) Uq), (dist_comm P0) in T4. rewrite (dist_comm (hrot (Qr q) (w3 p))) in T4.
    assert (M3 : dist (w3 (turned q a)) (hrot (Qr q) (w3 a)) + dist (w3 (turned q b)) (hrot (Qr q) (w3 b)) <= 38 * (u * S) + 56 * et) by (unfold S; lra).
    assert (Q1 : u * norm (w3 p) <= u * (S + 7 * (u * S) + 3 * et)) by (apply Rmult_le_compat_l; lra). lra.
  Qed.
  (** a plane and a point *)
  Theorem turn_plane_point (q : quat F) (o n p : mat3x1 F) (e : F) f f' (a b a' b' : shape F) : (9 < prec)%Z -> near (q : quat bf) -> roomy_dir (n : mat3x1 bf) -> roomy' o -> roomy' p -> is_finite (e : bf) = true ->
    mk_plane o n e a -> mk_point p f b -> mk_plane (turned q o) (turned q n) e a' -> mk_point (turned q p) f' b' ->
    let t := Rabs (vdot (s_unit (w3 n)) (vsub (w3 p) (w3 o))) in let M := 134 * u * (norm (w3 p) + norm (w3 o)) + 71 * et in
    (t + M <= Rabs (val (e : bf)) -> gi a b = Ok (true, Some p) /\ gi a' b' = Ok (true, Some (turned q p))) /\
    (Rabs (val (e : bf)) < t - M -> gi a b = Ok (false, None) /\ gi a' b' = Ok (false, None)).
  Proof.
    intros P Nq Rn Ro Rp Fe X Y X' Y' t M. pose proof (u_pos prec) as U0. pose proof (u_small prec P) as U1. pose proof (et_pos prec emax) as T0.
    destruct (roomy_moderate o P Ro) as [Mo _]. destruct (roomy_moderate p P Rp) as [Mp _]. destruct (turn_point q o P Nq Ro) as (_ & Mo' & _ & No). destruct (turn_point q p P Nq Rp) as (_ & Mp' & _ & Np). destruct (turn_dir q n P Nq Rn) as (Gn & _ & Gn' & _).
    destruct (C80_plane_point prec emax lm o n p e f a b P Gn Mo Mp Fe X Y) as [H1 H2]. destruct (C80_plane_point prec emax lm (turned q o) (turned q n) (turned q p) e f' a' b' P Gn' Mo' Mp' Fe X' Y') as [H3 H4].
    pose proof (turn_side q n p o P Nq Rn Rp Ro) as TS. fold t in H1, H2. set (S := norm (w3 p) + norm (w3 o)) in *. assert (S0 : 0 <= S) by (unfold S; pose proof (norm_pos (w3 p)); pose proof (norm_pos (w3 o)); lra). assert (US : 0 <= u * S) by (apply Rmult_le_pos; lra). assert (UUS : u * (u * S) <= / 1024 * (u * S)) by (apply Rmult_le_compat_r; lra). assert (UE : u * et <= / 1024 * et) by (apply Rmult_le_compat_r; lra).
    assert (ES : 13 * u * (norm (w3 o) + norm (w3 p)) = 13 * (u * S)) by (unfold S; ring). rewrite ES in H1, H2.
    assert (E' : 13 * u * (norm (w3 (turned q o)) + norm (w3 (turned q p))) + 9 * et <= 14 * (u * S) + 10 * et). { assert (u * (norm (w3 (turned q o)) + norm (w3 (turned q p))) <= u * (S + 38 * u * S + 56 * et)) by (apply Rmult_le_compat_l; [lra | unfold S; lra]). lra. }
    set (t' := vdot (s_unit (w3 (turned q n))) (vsub (w3 (turned q p)) (w3 (turned q o)))) in *. assert (TT : Rabs (Rabs t' - t) <= 120 * u * S + 61 * et) by (eapply Rle_trans; [apply Rabs_triang_inv2 | exact TS]). apply Rabs_le_inv in TT. assert (EM : M = 134 * (u * S) + 71 * et) by (unfold M; ring).
    split; intro Q; split; [apply H1 | apply H3 | apply H2 | apply H4]; lra.
  Qed.
  (** a sphere and a plane *)
  Theorem turn_sphere_plane (q : quat F) (c o n : mat3x1 F) (r : F) e f e' f' (a b a' b' : shape F) : (9 < prec)%Z -> near (q : quat bf) -> roomy_dir (n : mat3x1 bf) -> roomy' o -> roomy' c -> is_finite (r : bf) = true -> 0 <= val (r : bf) ->
    mk_sphere c r e a -> mk_plane o n f b -> mk_sphere (turned q c) r e' a' -> mk_plane (turned q o) (turned q n) f' b' ->
    let t := vdot (s_unit (w3 n)) (vsub (w3 c) (w3 o)) in let M := 134 * u * (norm (w3 c) + norm (w3 o)) + 71 * et in
    (t + M <= val (r : bf) -> exists p p', gi a b = Ok (true, Some p) /\ gi a' b' = Ok (true, Some p')) /\
    (val (r : bf) < t - M -> gi a b = Ok (false, None) /\ gi a' b' = Ok (false, None)).
  Proof.
    intros P Nq Rn Ro Rc Fr R0 X Y X' Y' t M. pose proof (u_pos prec) as U0. pose proof (u_small prec P) as U1. pose proof (et_pos prec emax) as T0.
    destruct (roomy_moderate o P Ro) as [Mo _]. destruct (roomy_moderate c P Rc) as [Mc _]. destruct (turn_point q o P Nq Ro) as (_ & Mo' & _ & No). destruct (turn_point q c P Nq Rc) as (_ & Mc' & _ & Nc). destruct (turn_dir q n P Nq Rn) as (Gn & _ & Gn' & _).
    destruct (C80_sphere_plane prec emax lm c r e o n f a b P Gn Mo Mc Fr R0 X Y) as [H1 H2]. destruct (C80_sphere_plane prec emax lm (turned q c) r e' (turned q o) (turned q n) f' a' b' P Gn' Mo' Mc' Fr R0 X' Y') as [H3 H4].
    pose proof (turn_side q n c o P Nq Rn Rc Ro) as TS. fold t in H1, H2, TS. set (S := norm (w3 c) + norm (w3 o)) in *. assert (S0 : 0 <= S) by (unfold S; pose proof (norm_pos (w3 c)); pose proof (norm_pos (w3 o)); lra). assert (US : 0 <= u * S) by (apply Rmult_le_pos; lra). assert (UUS : u * (u * S) <= / 1024 * (u * S)) by (apply Rmult_le_compat_r; lra). assert (UE : u * et <= / 1024 * et) by (apply Rmult_le_compat_r; lra).
    assert (E' : 13 * u * (norm (w3 (turned q c)) + norm (w3 (turned q o))) + 9 * et <= 14 * (u * S) + 10 * et). { assert (u * (norm (w3 (turned q c)) + norm (w3 (turned q o))) <= u * (S + 38 * u * S + 56 * et)) by (apply Rmult_le_compat_l; [lra | unfold S; lra]). lra. }
    set (t' := vdot (s_unit (w3 (turned q n))) (vsub (w3 (turned q c)) (w3 (turned q o)))) in *. apply Rabs_le_inv in TS. assert (EM : M = 134 * (u * S) + 71 * et) by (unfold M; ring).
    split; intro Q; [destruct H1 as [p Hp1]; [lra |]; destruct H3 as [p' Hp2]; [lra |]; exists p, p'; split; assumption | split; [apply H2 | apply H4]; lra].
  Qed.
  (** a ray and a plane *)
  Theorem turn_ray_plane (q : quat F) (o d p n : mat3x1 F) e f e' f' (a b a' b' : shape F) : (9 < prec)%Z -> near (q : quat bf) -> roomy' o -> roomy_dir (d : mat3x1 bf) -> roomy' p -> roomy_dir (n : mat3x1 bf) ->
    mk_ray o d e a -> mk_plane p n f b -> mk_ray (turned q o) (turned q d) e' a' -> mk_plane (turned q p) (turned q n) f' b' ->
    let s := vdot (s_unit (w3 n)) (vsub (w3 p) (w3 o)) in let c := vdot (s_unit (w3 n)) (s_unit (w3 d)) in let M := 134 * u * (norm (w3 p) + norm (w3 o)) + 75 * et in
    (c < - (177 * u) -> s <= - M -> exists x x', gi a b = Ok (true, Some x) /\ gi a' b' = Ok (true, Some x')) /\
    (c < - (177 * u) -> M <= s -> gi a b = Ok (false, None) /\ gi a' b' = Ok (false, None)) /\
    (177 * u < c -> gi a b = Ok (false, None) /\ gi a' b' = Ok (false, None)).
  Proof.
    intros P Nq Ro Rd Rp Rn X Y X' Y' s c M. pose proof (u_pos prec) as U0. pose proof (u_small prec P) as U1. pose proof (et_pos prec emax) as T0.
    destruct (roomy_moderate o P Ro) as [Mo _]. destruct (roomy_moderate p P Rp) as [Mp _]. destruct (turn_point q o P Nq Ro) as (Uq & Mo' & _ & No). destruct (turn_point q p P Nq Rp) as (_ & Mp' & _ & Np). destruct (turn_dir q n P Nq Rn) as (Gn & Pn & Gn' & Pn' & Dn). destruct (turn_dir q d P Nq Rd) as (Gd & Pd & Gd' & Pd' & Dd).
    destruct (C84_decision prec emax lm o d e p n f a b P Mo Gd Mp Gn X Y) as (H1 & H2 & H3). destruct (C84_decision prec emax lm (turned q o) (turned q d) e' (turned q p) (turned q n) f' a' b' P Mo' Gd' Mp' Gn' X' Y') as (H4 & H5 & H6).
    pose proof (turn_side q n p o P Nq Rn Rp Ro) as TS. fold s in TS. fold s c in H1, H2, H3. set (S := norm (w3 p) + norm (w3 o)) in *. assert (S0 : 0 <= S) by (unfold S; pose proof (norm_pos (w3 p)); pose proof (norm_pos (w3 o)); lra). assert (US : 0 <= u * S) by (apply Rmult_le_pos; lra). assert (UUS : u * (u * S) <= / 1024 * (u * S)) by (apply Rmult_le_compat_r; lra). assert (UE : u * et <= / 1024 * et) by (apply Rmult_le_compat_r; lra).
    assert (ES : 13 * u * (norm (w3 o) + norm (w3 p)) = 13 * (u * S)) by (unfold S; ring). rewrite ES in H1, H2.
    assert (E' : 13 * u * (norm (w3 (turned q o)) + norm (w3 (turned q p))) + 13 * et <= 14 * (u * S) + 14 * et). { assert (u * (norm (w3 (turned q o)) + norm (w3 (turned q p))) <= u * (S + 38 * u * S + 56 * et)) by (apply Rmult_le_compat_l; [lra | unfold S; lra]). lra. }
    assert (C : Rabs (vdot (s_unit (w3 (turned q n))) (s_unit (w3 (turned q d))) - c) <= 156 * u).
    { unfold c. rewrite <- (hrot_dot (Qr q) (s_unit (w3 n)) (s_unit (w3 d)) Uq). eapply Rle_trans; [apply dot_near |]. rewrite (hrot_norm (Qr q) _ Uq), (s_unit_norm _ Pn), (s_unit_norm _ Pd'). lra. }
    set (c' := vdot (s_unit (w3 (turned q n))) (s_unit (w3 (turned q d)))) in *. set (s' := vdot (s_unit (w3 (turned q n))) (vsub (w3 (turned q p)) (w3 (turned q o)))) in *. apply Rabs_le_inv in TS. apply Rabs_le_inv in C. assert (EM : M = 134 * (u * S) + 75 * et) by (unfold M; ring).
    split; [| split].
    - intros Q1 Q2. destruct H1 as [y Hy]; [lra | lra |]. destruct H4 as [y' Hy']; [lra | lra |]. exists y, y'. split; assumption.
    - intros Q1 Q2. split; [apply H2 | apply H5]; lra.
    - intros Q1. split; [apply H3 | apply H6]; lra.
  Qed.
  (** a ray and a sphere *)
  Theorem turn_ray_sphere (q : quat F) (o d c : mat3x1 F) (r : F) e f e' f' (a z a' z' : shape F) : (9 < prec)%Z -> near (q : quat bf) -> roomy (o : mat3x1 bf) -> roomy_dir (d : mat3x1 bf) -> roomy (c : mat3x1 bf) -> is_finite (r : bf) = true -> 0 <= val (r : bf) <= bpow radix2 (emax / 2 - 3) ->
    mk_ray o d e a -> mk_sphere c r f z -> mk_ray (turned q o) (turned q d) e' a' -> mk_sphere (turned q c) r f' z' ->
    let n := dist (w3 o) (w3 c) in let M := n * n + val (r : bf) * val (r : bf) in
    let B := ray_b (w3 o) (w3 d) (w3 c) in let C := ray_c (w3 o) (w3 c) (val (r : bf)) in let D := ray_disc (w3 o) (w3 d) (w3 c) (val (r : bf)) in
    let W := 120 * u * (norm (w3 o) + norm (w3 c)) + 61 * et in let Z := W * (2 * n + W) in
    (38 * u * M + 20 * et + 3 * Z <= D -> B <= - (13 * u * n + 4 * et + 2 * W) \/ C <= - (7 * u * M + 6 * et + 2 * Z) ->
       exists p p', gi a z = Ok (true, Some p) /\ gi a' z' = Ok (true, Some p')) /\
    (D < - (38 * u * M + 20 * et + 3 * Z) -> gi a z = Ok (false, None) /\ gi a' z' = Ok (false, None)) /\
    (13 * u * n + 4 * et + 2 * W < B -> 7 * u * M + 6 * et + 2 * Z < C -> gi a z = Ok (false, None) /\ gi a' z' = Ok (false, None)).
  Proof.
    intros P Nq Ro Rd Rc Fr R0 X Y X' Y' n M B C D W Z. pose proof (u_pos prec) as U0. pose proof (u_small prec P) as U1. pose proof (et_pos prec emax) as T0.
    destruct (roomy_moderate o P Ro) as [Mo _]. destruct (roomy_moderate c P Rc) as [Mc _]. destruct (turn_point q o P Nq Ro) as (_ & Mo' & _). destruct (turn_point q c P Nq Rc) as (_ & Mc' & _). destruct (turn_dir q d P Nq Rd) as (Gd & Pd & Gd' & Pd' & _).
    destruct (C85_decision prec emax lm o d e c r f a z P Mo Gd Mc Fr R0 X Y) as (H1 & H2 & H3). destruct (C85_decision prec emax lm (turned q o) (turned q d) e' (turned q c) r f' a' z' P Mo' Gd' Mc' Fr R0 X' Y') as (H4 & H5 & H6).
    pose proof (turn_side q d o c P Nq Rd Ro Rc) as TB. pose proof (turn_dist q o c P Nq Ro Rc) as TN. pose proof (norm_pos (w3 o)) as O0. pose proof (norm_pos (w3 c)) as C0. rewrite !(PGeo2.vdot_comm (s_unit _)) in TB. fold W in TB.
    fold n M in H1, H2, H3. change (ray_b (w3 o) (w3 d) (w3 c)) with B in H1, H3. change (ray_disc (w3 o) (w3 d) (w3 c) (val (r : bf))) with D in H1, H2. change (ray_c (w3 o) (w3 c) (val (r : bf))) with C in H1, H3.
    set (B' := ray_b (w3 (turned q o)) (w3 (turned q d)) (w3 (turned q c))) in *. set (D' := ray_disc (w3 (turned q o)) (w3 (turned q d)) (w3 (turned q c)) (val (r : bf))) in *. set (C' := ray_c (w3 (turned q o)) (w3 (turned q c)) (val (r : bf))) in *. set (n' := dist (w3 (turned q o)) (w3 (turned q c))) in *. fold n in TN.
    change (Rabs (B' - B) <= W) in TB. assert (DE : D = B * B - C) by reflexivity. assert (DE' : D' = B' * B' - C') by reflexivity.
    assert (CE : C = n * n - val (r : bf) * val (r : bf)) by (unfold C, ray_c, n, dist; rewrite norm_sq; reflexivity). assert (CE' : C' = n' * n' - val (r : bf) * val (r : bf)) by (unfold C', ray_c, n', dist; rewrite norm_sq; reflexivity).
    assert (BN : Rabs B <= n) by (unfold B, ray_b; eapply Rle_trans; [apply cauchy |]; rewrite (s_unit_norm _ Pd); unfold n, dist; lra). assert (BN' : Rabs B' <= n') by (unfold B', ray_b; eapply Rle_trans; [apply cauchy |]; rewrite (s_unit_norm _ Pd'); unfold n', dist; lra).
    assert (N0 : 0 <= n) by apply norm_pos. assert (N0' : 0 <= n') by apply norm_pos. assert (TN' : Rabs (n' - n) <= W). { eapply Rle_trans; [exact TN |]. unfold W. assert (0 <= u * (norm (w3 o) + norm (w3 c))) by (apply Rmult_le_pos; lra). lra. }
    assert (W0 : 0 <= W) by (eapply Rle_trans; [apply Rabs_pos | exact TB]). assert (NN : n' <= n + W) by (apply Rabs_le_inv in TN'; lra).
    assert (SQ : forall x y, Rabs (x - y) <= W -> Rabs x <= n' -> Rabs y <= n -> Rabs (x * x - y * y) <= Z). { intros x y Q1 Q2 Q3. replace (x * x - y * y) with ((x - y) * (x + y)) by ring. rewrite Rabs_mult. unfold Z. apply Rmult_le_compat; try apply Rabs_pos; [exact Q1 |]. eapply Rle_trans; [apply Rabs_triang |]. lra. }
    pose proof (SQ B' B TB BN' BN) as SB. pose proof (SQ n' n TN' ltac:(rewrite Rabs_pos_eq; lra) ltac:(rewrite Rabs_pos_eq; lra)) as SN. clear SQ. assert (Z0 : 0 <= Z) by (eapply Rle_trans; [apply Rabs_pos | exact SB]). clearbody Z. clearbody W. apply Rabs_le_inv in SB. apply Rabs_le_inv in SN. apply Rabs_le_inv in TB.
    set (r2 := val (r : bf) * val (r : bf)) in *. set (M' := n' * n' + r2) in *. assert (MM : u * M' <= u * M + / 1024 * Z). { assert (M' <= M + Z) by (unfold M', M; lra). assert (u * M' <= u * (M + Z)) by (apply Rmult_le_compat_l; lra). assert (u * Z <= / 1024 * Z) by (apply Rmult_le_compat_r; lra). lra. }
    assert (UN : u * n' <= u * n + / 1024 * W). { assert (u * n' <= u * (n + W)) by (apply Rmult_le_compat_l; lra). assert (u * W <= / 1024 * W) by (apply Rmult_le_compat_r; lra). lra. }
    split; [| split].
    - intros Q1 Q2. destruct H1 as [p Hp1]; [lra | destruct Q2; [left | right]; lra |]. destruct H4 as [p' Hp2]; [lra | destruct Q2; [left | right]; lra |]. exists p, p'. split; assumption.
    - intros Q1. split; [apply H2 | apply H5]; lra.
    - intros Q1 Q2. split; [apply H3 | apply H6]; lra.
  Qed.
End TurnQ.
