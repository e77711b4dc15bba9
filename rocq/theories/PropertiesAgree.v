(** PropertiesAgree.v — C136: two ways of computing the same thing, compared with the library's own is_equal, in IEEE arithmetic. *)
From Coq Require Import Reals List ZArith NArith Bool Lra Lia.
From Flocq Require Import Core BinarySingleNaN.
Import ListNotations.
From Verif Require Import Base Num Vec Mat Quat Float FloatFacts SpecMat SpecReal SpecRound SpecGeom SpecBound SpecQuat SpecBuild SpecFq SpecRun SpecFr SpecRotM SpecSpin SpecTurnQ SpecTol ExactFacts PMat PMat2 PEqual PVec PRound PQuat PIeee2 PIeee3 PIeee4 PIeee5 PRun PRotMF PSpinM PTurnQ PTol PropertiesRun PropertiesRotM PropertiesSpin PropertiesRotInv PropertiesTurnQ.
Local Open Scope R_scope.

Section Agree.
Context (prec emax : Z) {Hp : Prec_gt_0 prec} {Hm : Prec_lt_emax prec emax} (lm : libm (binary_float prec emax)).
Notation bf := (binary_float prec emax).
Notation F := (@Ieee prec emax Hp Hm lm).
Notation u := (uro prec).
Notation et := (eta prec emax).
Notation val := (@B2R prec emax).
Notation rot q := (quat_to_rotation_matrix (q : quat F) true).
Notation hq q := (qval (q : quat bf)).

Lemma accept4 (a b : mat4 F) f g (e : F) d : is_finite (e : bf) = true -> m4_rm a = m4_rm b -> repr4 a f -> repr4 b g -> mfin4 (f : lmat bf) -> mfin4 (g : lmat bf) ->
  (forall i j, (i < 4)%N -> (j < 4)%N -> Rabs (val (f i j : bf) - val (g i j : bf)) <= d) -> d <= val (e : bf) -> mat4_is_equal a b e = Ok (Some true).
Proof.
  intros Fe S A B Fa Fb D L. destruct (is_equal4_iff a b f g e A B) as (r & E & I). rewrite E. do 2 f_equal. apply I. split; [exact S |]. intros i j Hi Hj. apply (close_in prec emax lm e _ _ Fe (Fa i j Hi Hj) (Fb i j Hi Hj)). eapply Rle_trans; [apply D; assumption | exact L].
Qed.
Lemma accept3 (a b : mat3x1 F) (e : F) : is_finite (e : bf) = true -> fin3 (a : mat3x1 bf) -> fin3 (b : mat3x1 bf) -> dist (v3 (a : mat3x1 bf)) (v3 (b : mat3x1 bf)) <= val (e : bf) -> mat3x1_is_equal a b e = Some true.
Proof.
  intros Fe Fa Fb D. rewrite is_equal_3x1_eval. f_equal. destruct a as [[a0 a1 a2]], b as [[b0 b1 b2]]. destruct Fa as (A0 & A1 & A2), Fb as (B0 & B1 & B2). cbn [v3x1 list3 close_all].
  assert (C : forall i, (i < 3)%N -> Rabs (SpecBound.comp i (v3 (M3x1 (A3 a0 a1 a2) : mat3x1 bf)) - SpecBound.comp i (v3 (M3x1 (A3 b0 b1 b2) : mat3x1 bf))) <= val (e : bf)) by (intros i Hi; eapply Rle_trans; [apply comp_dist; exact Hi | exact D]).
  rewrite (close_in prec emax lm e a0 b0 Fe A0 B0 (C 0%N eq_refl)), (close_in prec emax lm e a1 b1 Fe A1 B1 (C 1%N eq_refl)), (close_in prec emax lm e a2 b2 Fe A2 B2 (C 2%N eq_refl)). reflexivity.
Qed.

(** the product of two rotation matrices against the matrix of the product *)
Theorem C136_product (p q : quat F) (e : F) : (9 < prec)%Z -> near (p : quat bf) -> near (q : quat bf) -> is_finite (e : bf) = true -> 410 * u <= val (e : bf) ->
  exists c, mat4_mul (rot p) (rot q) = Ok (Some c) /\ mat4_is_equal c (rot (quat_mul p q)) e = Ok (Some true).
Proof.
  intros P Np Nq Fe L. destruct (C125_product_ieee prec emax lm p q P Np Nq) as (c & h & g & C1 & C2 & C3 & C4 & C5 & C6 & _ & C7). exists c. split; [exact C1 |]. apply (accept4 c _ h g e (410 * u) Fe); try assumption.
Qed.
(** an orientation kept as a product of n + 1 matrices against the one kept as a quaternion *)
Theorem C136_course (q : quat F) (l : list (quat F)) (e : F) : (9 < prec)%Z -> near (q : quat bf) -> Forall (fun p : quat F => near (p : quat bf)) l -> is_finite (e : bf) = true ->
  let n := INR (S (length l)) in n * (227 * u) <= / 2 -> 542 * n * u <= val (e : bf) ->
  exists c r, mat_run (rot q) (map (fun p : quat F => rot p) l) = Ok (Some c) /\ turn_run (map Trail l) q = Ok r /\ mat4_is_equal c (rot r) e = Ok (Some true).
Proof.
  intros P Nq Nl Fe n B L. destruct (C128_linear prec emax lm q l P Nq Nl B) as (c & h & r & C1 & C2 & C3 & C4 & _ & C5). exists c, r. split; [exact C1 |]. split; [exact C4 |]. pose proof (u_pos prec) as U0. pose proof (u_small prec P) as U1.
  assert (HP : (0 < prec)%Z) by exact Hp. assert (HE : (prec < emax)%Z) by exact Hm. pose proof (pow_linear (227 * u) (S (length l)) ltac:(lra) B) as PL. fold n in PL.
  destruct (C128_both prec emax lm q l P Nq Nl) as (c' & h' & r' & D1 & D2 & D3 & D4 & _ & _ & D6 & D7 & _). { apply Rle_trans with 1; [lra |]. change 1 with (bpow radix2 0). apply bpow_le. lia. }
  assert (c' = c) by congruence. assert (r' = r) by congruence. subst c' r'. destruct (rot_near prec emax lm r P D7) as (Fr & _).
  apply (accept4 c (rot r) h (log4 (rot r)) e (542 * n * u) Fe); [rewrite D2; reflexivity | exact C2 | apply repr4_log | exact C3 | exact Fr | exact C5 | exact L].
Qed.
(** Mat4::inverse of a rotation matrix is accepted as the matrix itself, and rejected as its transpose unless the rotation is nearly its own inverse *)
Theorem C136_inverse (q : quat F) (e : F) : (16 < prec)%Z -> near (q : quat bf) -> is_finite (e : bf) = true ->
  exists r t, mat4_inverse (rot q) = Ok (Some r) /\ mat4_transpose (rot q) = Ok t /\
  (3515 * u <= val (e : bf) -> mat4_is_equal r (rot q) e = Ok (Some true)) /\
  (0 <= val (e : bf) -> (exists i j, (i < 4)%N /\ (j < 4)%N /\ (1 + u) * val (e : bf) + 3517 * u < Rabs (hmat (hdir (hq q)) i j - hmat (hdir (hq q)) j i)) -> mat4_is_equal r t e = Ok (Some false)).
Proof.
  intros P Nq Fe. assert (P9 : (9 < prec)%Z) by lia. pose proof (u_pos prec) as U0. pose proof (u_small prec P9) as U1. destruct (C132_rotation prec emax lm q P Nq) as (r & g & C1 & C2 & C3 & C4 & C5 & C6). destruct (rot_near prec emax lm q P9 Nq) as (Fr & Er & _ & Ur).
  destruct (transpose4_repr (rot q) _ (repr4_log _)) as (t & T1 & T2 & T3). exists r, t. split; [exact C1 |]. split; [exact T1 |]. split.
  - intro L. apply (accept4 r (rot q) g (log4 (rot q)) e (3515 * u) Fe); [rewrite C2; reflexivity | exact C3 | apply repr4_log | exact C4 | exact Fr | exact C6 | exact L].
  - intros E0 (i & j & Hi & Hj & Big). destruct (is_equal4_iff r t g _ e C3 T3) as (b & B1 & B2). rewrite B1. do 2 f_equal. destruct b; [| reflexivity]. exfalso. destruct (proj1 B2 eq_refl) as [_ B3]. specialize (B3 i j Hi Hj).
    apply (close_out prec emax lm e _ _ Fe (C4 i j Hi Hj) (Fr j i Hj Hi)) in B3. specialize (C5 i j Hi Hj). specialize (Er j i Hj Hi). rewrite (Rabs_pos_eq (val (e : bf))) in B3 by exact E0.
    set (G := val (g i j : bf)) in *. set (T := val (log4 (rot q) j i : bf)) in *. set (x := hmat (hdir (hq q)) i j) in *. set (y := hmat (hdir (hq q)) j i) in *.
    assert (Y1 : Rabs y <= 7 / 4). { pose proof (hmat_cols (hdir (hq q)) i Ur Hi) as HC. unfold rsum4 in HC. pose proof (Rabs_pos (hmat (hdir (hq q)) 0%N i)). pose proof (Rabs_pos (hmat (hdir (hq q)) 1%N i)). pose proof (Rabs_pos (hmat (hdir (hq q)) 2%N i)). pose proof (Rabs_pos (hmat (hdir (hq q)) 3%N i)). unfold y. clear - HC H H0 H1 H2 Hj. cases4 j Hj; lra. }
    assert (TT : Rabs T <= 7 / 4 + 52 * u) by (replace T with (y + (T - y)) by ring; eapply Rle_trans; [apply Rabs_triang |]; lra).
    assert (UT : u * Rabs T <= u * 2) by (apply Rmult_le_compat_l; lra).
    assert (Q : Rabs (x - y) <= Rabs (G - x) + Rabs (G - T) + Rabs (T - y)). { replace (x - y) with (- (G - x) + ((G - T) + (T - y))) by ring. eapply Rle_trans; [apply Rabs_triang |]. rewrite Rabs_Ropp. pose proof (Rabs_triang (G - T) (T - y)). lra. }
    lra.
Qed.
(** turning a vector by the matrix, or by the quaternion *)
Theorem C136_apply (q : quat F) (a b c d : F) V (e : F) : (9 < prec)%Z -> near (q : quat bf) -> let p : mat3x1 F := M3x1 (A3 a b c) in fin3 (p : mat3x1 bf) -> is_finite (d : bf) = true -> norm (v3 (p : mat3x1 bf)) <= V -> Rabs (val (d : bf)) <= V -> V <= bpow radix2 (emax - 8) ->
  is_finite (e : bf) = true -> 310 * u * V + 37 * et <= val (e : bf) ->
  exists x y z t, mat4_mul_mat4x1 (rot q) (M4x1 (A4 a b c d)) = Ok (Some (M4x1 (A4 x y z t))) /\ mat3x1_is_equal (M3x1 (A3 x y z)) (quat_rotate_vector q p) e = Some true.
Proof.
  intros P Nq p Fp Fd Np Nd B Fe L. destruct (C125_apply_ieee prec emax lm q a b c d V P Nq Fp Fd Np Nd B) as (x & y & z & t & H1 & H2 & _ & H3 & H4 & _). exists x, y, z, t. split; [exact H1 |]. apply accept3; try assumption. eapply Rle_trans; [exact H4 | exact L].
Qed.
(** turning a vector there and, by the conjugate, back *)
Theorem C136_return (q : quat F) (p : mat3x1 F) (e : F) : (9 < prec)%Z -> near (q : quat bf) -> roomy (p : mat3x1 bf) -> is_finite (e : bf) = true -> 78 * u * norm (v3 (p : mat3x1 bf)) + 58 * et <= val (e : bf) ->
  mat3x1_is_equal (quat_rotate_vector (quat_conjugate q) (quat_rotate_vector q p)) p e = Some true.
Proof.
  intros P Nq [Fp Np] Fe L. pose proof (u_pos prec) as U0. pose proof (u_small prec P) as U1. pose proof (et_pos prec emax) as P0. destruct (big prec emax P) as (B1 & B2 & B3). pose proof (big4 prec emax P) as B4. pose proof (et_small prec emax P) as T.
  assert (Nc : near (quat_conjugate q : quat bf) /\ qval (quat_conjugate q : quat bf) = hconj (hq q)).
  { destruct Nq as [Fq Lq]. destruct (qconj_val prec emax lm q Fq) as [Fc Ec]. split; [split; [exact Fc |]; rewrite Ec, hlen_conj; exact Lq | exact Ec]. }
  destruct Nc as [Nc Vc]. set (N := norm (v3 (p : mat3x1 bf))) in *. assert (N0 : 0 <= N) by apply norm_pos.
  destruct (turn_close prec emax lm q p P Nq Fp ltac:(fold N; lra)) as (F1 & Uq & D1). set (w := quat_rotate_vector q p) in *. set (Qh := hdir (hq q)) in *. fold N in D1.
  pose proof (norm_near (v3 (w : mat3x1 bf)) (hrot Qh (v3 (p : mat3x1 bf)))) as NW. rewrite (hrot_norm Qh _ Uq) in NW. fold N in NW. assert (UN : u * N <= / 1024 * N) by (apply Rmult_le_compat_r; lra).
  destruct (turn_close prec emax lm (quat_conjugate q) w P Nc F1 ltac:(lra)) as (F2 & Uc & D2). rewrite Vc, hdir_conj in D2, Uc. fold Qh in D2, Uc.
  apply accept3; [exact Fe | exact F2 | exact Fp |]. eapply Rle_trans; [apply (dist_tri3 _ (hrot (hconj Qh) (v3 (w : mat3x1 bf)))) |]. rewrite <- (hrot_inv Qh (v3 (p : mat3x1 bf)) Uq) at 1. rewrite (hrot_dist (hconj Qh) _ _ Uc).
  assert (NW' : norm (v3 (w : mat3x1 bf)) <= N + 38 * u * N + 28 * et) by lra. assert (UW : u * norm (v3 (w : mat3x1 bf)) <= u * (N + 38 * u * N + 28 * et)) by (apply Rmult_le_compat_l; lra). assert (UE : u * et <= / 1024 * et) by (apply Rmult_le_compat_r; lra). assert (UUN : u * (u * N) <= / 1024 * (u * N)) by (apply Rmult_le_compat_r; [apply Rmult_le_pos; lra | lra]).
  eapply Rle_trans; [apply Rplus_le_compat; [exact D2 | exact D1] |]. assert (M0 : 0 <= u * N) by (apply Rmult_le_pos; lra). eapply Rle_trans; [| exact L]. lra.
Qed.
End Agree.
Print Assumptions C136_product.
Print Assumptions C136_course.
Print Assumptions C136_inverse.
Print Assumptions C136_apply.
Print Assumptions C136_return.

Section Cases.
  Variable lm : libm f64.
  Notation F := (F64 lm).
  Notation rot q := (quat_to_rotation_matrix (q : quat F) true).
  (** the tolerance 2^-30 *)
  Definition case_tol : f64 := @B754_finite 53 1024 false 4503599627370496 (-82) eq_refl.
  Lemma case_tol_ok : is_finite case_tol = true /\ B2R case_tol = bpow radix2 (-30).
  Proof. split; [reflexivity |]. unfold case_tol, B2R, F2R. cbn. lra. Qed.
  (** a third of a turn, twice, and a thousand times: matrices and quaternions agree to 2^-30 *)
  Example C136_case : (exists c, mat4_mul (rot (third lm)) (rot (third lm)) = Ok (Some c) /\ mat4_is_equal c (rot (quat_mul (third lm) (third lm))) (case_tol : F) = Ok (Some true)) /\
    (exists c r, mat_run (rot (third lm)) (map (fun p : quat F => rot p) (repeat (third lm) (10 * 100))) = Ok (Some c) /\ turn_run (map Trail (repeat (third lm) (10 * 100))) (third lm) = Ok r /\ mat4_is_equal c (rot r) (case_tol : F) = Ok (Some true)) /\
    (exists r, mat4_inverse (rot (third lm)) = Ok (Some r) /\ mat4_is_equal r (rot (third lm)) (case_tol : F) = Ok (Some true)) /\
    mat3x1_is_equal (quat_rotate_vector (quat_conjugate (third lm)) (quat_rotate_vector (third lm) (PPrismF.z3 F 3 4 12))) (PPrismF.z3 F 3 4 12) (case_tol : F) = Some true.
  Proof.
    destruct case_tol_ok as [Ft Vt]. assert (Vt' : bpow radix2 (-30) = / 1073741824) by (cbn; lra). rewrite Vt' in Vt. destruct case_small as (U & T & _). pose proof (case_quat lm) as N. split; [| split; [| split]].
    - apply (@C136_product 53 1024 f64_prec_gt_0 f64_prec_lt_emax lm (third lm) (third lm) case_tol eq_refl N N Ft). refine (eq_ind_r (fun v => _ <= v) _ Vt). lra.
    - set (l := repeat (third lm) (10 * 100)). assert (L : INR (S (length l)) = 1001) by (unfold l; rewrite repeat_length, S_INR, mult_INR; replace (INR 100) with 100 by (rewrite INR_IZR_INZ; reflexivity); replace (INR 10) with 10 by (rewrite INR_IZR_INZ; reflexivity); ring).
      apply (@C136_course 53 1024 f64_prec_gt_0 f64_prec_lt_emax lm (third lm) l case_tol eq_refl N); [unfold l; apply Forall_forall; intros x Hx; apply repeat_spec in Hx; subst x; exact N | exact Ft | refine (eq_ind_r (fun v => v * _ <= _) _ L); lra | refine (eq_ind_r (fun v => 542 * v * _ <= _) _ L); refine (eq_ind_r (fun v => _ <= v) _ Vt); lra].
    - destruct (@C136_inverse 53 1024 f64_prec_gt_0 f64_prec_lt_emax lm (third lm) case_tol eq_refl N Ft) as (r & t & H1 & _ & H2 & _). exists r. split; [exact H1 |]. apply H2. refine (eq_ind_r (fun v => _ <= v) _ Vt). lra.
    - destruct (case_at lm 3 4 12 13 eq_refl eq_refl eq_refl ltac:(lra) ltac:(lra)) as (Rp & _ & Np). apply (@C136_return 53 1024 f64_prec_gt_0 f64_prec_lt_emax lm (third lm) _ case_tol eq_refl N Rp Ft). refine (eq_ind_r (fun v => _ <= v) _ Vt). refine (eq_ind_r (fun v => _ * v + _ <= _) _ Np). lra.
  Qed.
End Cases.
