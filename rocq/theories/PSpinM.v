(** PSpinM.v — running products of rotation matrices against quaternions in IEEE arithmetic (C128). *)
From Coq Require Import Reals List ZArith NArith Bool Lra Lia Psatz.
From Flocq Require Import Core BinarySingleNaN.
Import ListNotations.
From Verif Require Import Base Num Vec Mat Quat Float FloatFacts FloatRound SpecMat SpecReal SpecRound SpecGeom SpecBound SpecQuat SpecBuild SpecFq SpecRun SpecRunV SpecRotM SpecSpin ExactFacts PMat PMat2 PMat3 PGeo1 PRound PRound2 PRound3 PQuat PQuat2 PIeee2 PIeee3 PIeee4 PIeee5 PIeee6 PPow PRun PRunM PRunV PRotM PRotMF.
Local Open Scope R_scope.

(** ---- over the reals: rows as vectors of four numbers ---- *)
Definition row (f : rmat) (i : N) : H4 := H (V (f i 0%N) (f i 1%N) (f i 2%N)) (f i 3%N).
Lemma rowlen_row f i : rowlen f i = hlen (row f i).
Proof. reflexivity. Qed.
Lemma row_minus f g i : row (rminus f g) i = hsub (row f i) (row g i).
Proof. unfold row, rminus, hsub, vsub. reflexivity. Qed.
Lemma rowdist f g i : rowlen (rminus f g) i = hdist (row f i) (row g i).
Proof. rewrite rowlen_row, row_minus. reflexivity. Qed.
Lemma row_l1 f i : rsum4 (fun j => Rabs (f i j)) <= 2 * rowlen f i.
Proof.
  rewrite rowlen_row. pose proof (hlen_sq (row f i)) as S. pose proof (hlen_pos (row f i)) as L0. set (l := hlen (row f i)) in *. unfold hdot, vdot in S. cbn in S. unfold rsum4.
  set (a := f i 0%N) in *. set (b := f i 1%N) in *. set (c := f i 2%N) in *. set (d := f i 3%N) in *.
  assert (Q : forall t, Rabs t * Rabs t = t * t) by (intro t; rewrite <- Rabs_mult; apply Rabs_pos_eq; nra). pose proof (Q a). pose proof (Q b). pose proof (Q c). pose proof (Q d).
  pose proof (Rabs_pos a). pose proof (Rabs_pos b). pose proof (Rabs_pos c). pose proof (Rabs_pos d). set (x := Rabs a) in *. set (y := Rabs b) in *. set (z := Rabs c) in *. set (w := Rabs d) in *.
  apply Rsqr_incr_0_var; [| lra]. unfold Rsqr. pose proof (Rle_0_sqr (x - y)). pose proof (Rle_0_sqr (x - z)). pose proof (Rle_0_sqr (x - w)). pose proof (Rle_0_sqr (y - z)). pose proof (Rle_0_sqr (y - w)). pose proof (Rle_0_sqr (z - w)). unfold Rsqr in *. nra.
Qed.
Lemma row_le_l1 f i : rowlen f i <= rsum4 (fun j => Rabs (f i j)).
Proof.
  rewrite rowlen_row. pose proof (hlen_sq (row f i)) as S. pose proof (hlen_pos (row f i)) as L0. set (l := hlen (row f i)) in *. unfold hdot, vdot in S. cbn in S. unfold rsum4.
  set (a := f i 0%N) in *. set (b := f i 1%N) in *. set (c := f i 2%N) in *. set (d := f i 3%N) in *.
  assert (Q : forall t, Rabs t * Rabs t = t * t) by (intro t; rewrite <- Rabs_mult; apply Rabs_pos_eq; nra). pose proof (Q a). pose proof (Q b). pose proof (Q c). pose proof (Q d).
  pose proof (Rabs_pos a). pose proof (Rabs_pos b). pose proof (Rabs_pos c). pose proof (Rabs_pos d). set (x := Rabs a) in *. set (y := Rabs b) in *. set (z := Rabs c) in *. set (w := Rabs d) in *.
  apply Rsqr_incr_0_var; [| lra]. unfold Rsqr. assert (0 <= x * y) by nra. assert (0 <= x * z) by nra. assert (0 <= x * w) by nra. assert (0 <= y * z) by nra. assert (0 <= y * w) by nra. assert (0 <= z * w) by nra. nra.
Qed.
Lemma row_entry f i j : (j < 4)%N -> Rabs (f i j) <= rowlen f i.
Proof. intro Hj. rewrite rowlen_row. destruct (hlen_comp (row f i)) as (A & B & C & D). cases4 j Hj; assumption. Qed.
Lemma row_box f i e : 0 <= e -> (forall j, (j < 4)%N -> Rabs (f i j) <= e) -> rowlen f i <= 2 * e.
Proof. intros E0 K. rewrite rowlen_row. apply hlen_box; [exact E0 | apply K; reflexivity ..]. Qed.
(** a rotation keeps the length of a row *)
Lemma row_rot f q i : hunit q -> rowlen (rmul4 f (hmat q)) i = rowlen f i.
Proof.
  intro U. rewrite !rowlen_row. assert (E : row (rmul4 f (hmat q)) i = H (hrot (hconj q) (SpecQuat.hv (row f i))) (SpecQuat.hs (row f i))).
  { unfold row, rmul4, rsum4, hmat. cbn [SpecQuat.hv SpecQuat.hs]. destruct q as [[a b c] d]. generalize (f i 0%N) (f i 1%N) (f i 2%N) (f i 3%N). intros x y z w. nbool. apply (f_equal2 H); [apply V3_eq; unfold hrot, hmul, hconj, vdot; cbn; ring | cbn; ring]. }
  rewrite E. apply Rsqr_inj; try apply hlen_pos. unfold Rsqr. rewrite !hlen_split. cbn [SpecQuat.hv SpecQuat.hs]. rewrite (hrot_norm _ _ (hunit_conj q U)). reflexivity.
Qed.
Lemma hmat_transposed q : hunit q -> forall i j, (i < 4)%N -> (j < 4)%N -> hmat (hconj q) i j = hmat q j i.
Proof. intros U i j Hi Hj. rewrite (hmat_rot _ (hunit_conj q U) i j Hi Hj), (hmat_rot _ U j i Hj Hi), (rotmat_conj q i j Hi Hj). reflexivity. Qed.
Lemma hmat_one i j : (i < 4)%N -> (j < 4)%N -> hmat hone i j = riden i j.
Proof. intros Hi Hj. unfold hmat, riden. cases4 i Hi; cases4 j Hj; nbool; try reflexivity; unfold hrot, hmul, hconj, hone, vdot; cbn; ring. Qed.
Lemma hmat_orth q i j : hunit q -> (i < 4)%N -> (j < 4)%N -> hdot (row (hmat q) i) (row (hmat q) j) = riden i j.
Proof.
  intros U Hi Hj. rewrite <- (hmat_one i j Hi Hj). assert (E : hmul q (hconj q) = hone) by (unfold hunit, hdot, vdot in U; destruct q as [[a b c] d]; unfold hmul, hconj, hone, vdot in *; cbn in *; f_equal; [apply V3_eq; cbn; ring | rewrite <- U; ring]).
  rewrite <- E, <- (hmat_mul q (hconj q) i j Hi Hj). unfold rmul4, rsum4. rewrite !(hmat_transposed q U _ j) by (reflexivity || assumption). reflexivity.
Qed.
Lemma hdot_abs p q : Rabs (hdot p q) <= hlen p * hlen q.
Proof. apply Rabs_le. split; [| apply hdot_le]. pose proof (hdot_le (hneg p) q) as A. rewrite hlen_neg in A. replace (hdot (hneg p) q) with (- hdot p q) in A by (destruct p as [[? ? ?] ?], q as [[? ? ?] ?]; unfold hneg, hdot, vdot; cbn; ring). lra. Qed.
(** rows close to those of a rotation are almost orthonormal *)
Lemma almost_orth f q d : hunit q -> 0 <= d -> rows_within d f (hmat q) -> forall i j, (i < 4)%N -> (j < 4)%N -> Rabs (rsum4 (fun k => f i k * f j k) - riden i j) <= 2 * d + d * d.
Proof.
  intros U D0 K i j Hi Hj. pose proof (K i Hi) as Ki. pose proof (K j Hj) as Kj. rewrite rowdist in Ki, Kj. change (rsum4 (fun k => f i k * f j k)) with (hdot (row f i) (row f j)). rewrite <- (hmat_orth q i j U Hi Hj).
  assert (L : forall k, (k < 4)%N -> hlen (row (hmat q) k) = 1) by (intros k Hk; unfold hlen; rewrite (hmat_orth q k k U Hk Hk); unfold riden; rewrite N.eqb_refl; apply sqrt_1).
  set (a := row f i) in *. set (b := row f j) in *. pose proof (L i Hi) as Li. pose proof (L j Hj) as Lj. set (x := row (hmat q) i) in *. set (y := row (hmat q) j) in *.
  replace (hdot a b - hdot x y) with (hdot (hsub a x) y + (hdot x (hsub b y) + hdot (hsub a x) (hsub b y))) by (destruct a as [[? ? ?] ?], b as [[? ? ?] ?], x as [[? ? ?] ?], y as [[? ? ?] ?]; unfold hsub, hdot, vdot, vsub; cbn; ring).
  unfold hdist in *. pose proof (hdot_abs (hsub a x) y) as A. pose proof (hdot_abs x (hsub b y)) as B. pose proof (hdot_abs (hsub a x) (hsub b y)) as C. rewrite Lj in A. rewrite Li in B. pose proof (hlen_pos (hsub a x)). pose proof (hlen_pos (hsub b y)).
  assert (hlen (hsub a x) * hlen (hsub b y) <= d * d) by (apply Rmult_le_compat; assumption).
  eapply Rle_trans; [apply Rabs_triang |]. pose proof (Rabs_triang (hdot x (hsub b y)) (hdot (hsub a x) (hsub b y))). lra.
Qed.
Lemma course_unit l : forall U, hunit U -> Forall (fun p => 0 < hlen p) l -> hunit (fold_left hmul (map hdir l) U).
Proof.
  induction l as [| p l IH]; intros U HU Fl; [exact HU |]. inversion Fl as [| ? ? Pp Fl']; subst. cbn [map fold_left]. apply IH; [| exact Fl'].
  unfold hunit in *. rewrite <- hlen_sq, hlen_mul, (hdir_len p Pp). pose proof (hlen_sq U). nra.
Qed.
Lemma course_track l : forall U, fold_left htrack (map Trail l) U = fold_left hmul (map hdir l) U.
Proof. induction l as [| p l IH]; intro U; [reflexivity |]. cbn [map fold_left htrack]. apply IH. Qed.
Lemma hmat_close p q i j : (i < 4)%N -> (j < 4)%N -> hlen p = 1 -> hlen q = 1 -> Rabs (hmat p i j - hmat q i j) <= 2 * hdist p q.
Proof.
  intros Hi Hj Lp Lq. assert (D0 : 0 <= hdist p q) by (unfold hdist; apply hlen_pos). assert (Ci : (i < 3)%N \/ i = 3%N) by lia. assert (Cj : (j < 3)%N \/ j = 3%N) by lia. assert (Z : Rabs 0 <= 2 * hdist p q) by (rewrite Rabs_R0; lra). unfold hmat. destruct Ci as [Ci | ->], Cj as [Cj | ->].
  - rewrite (proj2 (N.ltb_lt i 3) Ci), (proj2 (N.ltb_lt j 3) Cj). cbn [andb]. eapply Rle_trans; [apply comp_dist, Ci |]. eapply Rle_trans; [apply hrot_near |]. rewrite axis_norm, Lp, Lq. lra.
  - replace (_ - _) with 0; [exact Z |]. cases3 i Ci; nbool; ring.
  - replace (_ - _) with 0; [exact Z |]. cases3 j Cj; nbool; ring.
  - replace (_ - _) with 0; [exact Z |]. nbool. ring.
Qed.

Section SpinM.
  Context (prec emax : Z) {Hp : Prec_gt_0 prec} {Hm : Prec_lt_emax prec emax} (lm : libm (binary_float prec emax)).
  Notation bf := (binary_float prec emax).
  Notation F := (@Ieee prec emax Hp Hm lm).
  Notation u := (uro prec).
  Notation et := (eta prec emax).
  Notation val := (@B2R prec emax).
  Notation real f := ((fun i j => val (f i j : bf)) : rmat).
  Notation rotm q := (log4 (quat_to_rotation_matrix q true) : lmat F).
  Notation hq q := (qval (q : quat bf)).
  Notation nearq := (fun q : quat F => near (q : quat bf)).
  Lemma rot_near (q : quat F) : (9 < prec)%Z -> near (q : quat bf) -> mfin4 (rotm q : lmat bf) /\ (forall i j, (i < 4)%N -> (j < 4)%N -> Rabs (val (rotm q i j) - hmat (hdir (hq q)) i j) <= 52 * u) /\ rows4 (real (rotm q)) 2 /\ hunit (hdir (hq q)).
  Proof.
    intros P [Fq Nq]. pose proof (u_small prec P) as U. pose proof (u_pos prec) as U0. pose proof (rot_entry prec emax lm q 9 P Fq ltac:(lra) Nq) as E. apply Rabs_le_inv in Nq. assert (Lq : 0 < hlen (hq q)) by lra. pose proof (hdir_unit _ Lq) as Hu.
    assert (E' : forall i j, (i < 4)%N -> (j < 4)%N -> Rabs (val (rotm q i j) - hmat (hdir (hq q)) i j) <= 52 * u) by (intros i j Hi Hj; destruct (E i j Hi Hj) as [_ K]; lra).
    split; [intros i j Hi Hj; apply E; assumption |]. split; [exact E' |]. split; [| exact Hu].
    intros i Hi. apply Rle_trans with (rsum4 (fun j => Rabs (hmat (hdir (hq q)) i j) + 52 * u)).
    - apply rsum4_le. intros j Hj. replace (val (rotm q i j)) with (hmat (hdir (hq q)) i j + (val (rotm q i j) - hmat (hdir (hq q)) i j)) by ring. eapply Rle_trans; [apply Rabs_triang |]. apply Rplus_le_compat_l, E'; assumption.
    - rewrite rsum4_plus. pose proof (hmat_rows _ Hu i Hi). unfold rsum4 in *. lra.
  Qed.
  (** one more factor *)
  Lemma spin_step (a : mat4 F) (f : lmat F) (X : H4) (q : quat F) D : (9 < prec)%Z -> near (q : quat bf) -> m4_rm a = true -> repr4 a f -> mfin4 (f : lmat bf) -> hunit X -> 1 <= D -> D <= bpow radix2 (emax - 7) ->
    rows_within (D - 1) (real f) (hmat X) -> exists c h, mat4_mul a (quat_to_rotation_matrix q true) = Ok (Some c) /\ m4_rm c = true /\ repr4 c h /\ mfin4 (h : lmat bf) /\
    rows_within (D * (1 + 227 * u) - 1) (real h) (hmat (hmul X (hdir (hq q)))).
  Proof.
    intros P Nq Ea Ra Fa UX D1 DB K. destruct (rot_near q P Nq) as (Fr & Er & Rr & Ur). pose proof (u_small prec P) as U. pose proof (u_pos prec) as U0. pose proof (et_small prec emax P) as T. pose proof (et_pos prec emax) as T0. assert (HP : (0 < prec)%Z) by exact Hp. assert (HE : (prec < emax)%Z) by exact Hm.
    assert (LX : forall i, (i < 4)%N -> rowlen (hmat X) i = 1) by (intros i Hi; rewrite rowlen_row; unfold hlen; rewrite (hmat_orth X i i UX Hi Hi); unfold riden; rewrite N.eqb_refl; apply sqrt_1).
    assert (Lf : forall i, (i < 4)%N -> rowlen (real f) i <= D).
    { intros i Hi. pose proof (K i Hi) as Ki. rewrite rowdist in Ki. pose proof (hlen_near (row (real f) i) (row (hmat X) i)) as A. specialize (LX i Hi). rewrite rowlen_row in *. lra. }
    assert (Sf : rows4 (real f) (2 * D)) by (intros i Hi; eapply Rle_trans; [apply (row_l1 (real f) i) |]; specialize (Lf i Hi); lra).
    destruct (mul_rows prec emax lm a (quat_to_rotation_matrix q true) f (rotm q) 1 (2 * D) 2 P ltac:(lia) ltac:(lia) Ea Ra (repr4_log _) Fa Fr ltac:(lra) ltac:(lra)) as (c & h & C1 & C2 & C3 & C4 & C5); [change (bpow radix2 1) with 2; lra | | exact Sf | exact Rr |].
    { replace (emax - 5 - 1)%Z with (1 + (emax - 7))%Z by lia. rewrite bpow_plus. change (bpow radix2 1) with 2. lra. }
    exists c, h. split; [exact C1 |]. split; [congruence |]. split; [exact C3 |]. split; [exact C4 |]. intros i Hi.
    set (rm := hmat (hdir (hq q))) in *. set (r := real (rotm q)) in *.
    assert (T1 : rowlen (rminus (real h) (rmul4 (real f) r)) i <= 9 / 2 * u * (2 * D * 2) + 18 * et) by (eapply Rle_trans; [apply row_le_l1 | exact (C5 i Hi)]).
    assert (T2 : rowlen (rminus (rmul4 (real f) r) (rmul4 (real f) rm)) i <= 2 * (104 * u * D)).
    { apply row_box; [nra |]. intros j Hj. unfold rminus. replace (rmul4 (real f) r i j - rmul4 (real f) rm i j) with (rsum4 (fun k => real f i k * (r k j - rm k j))) by (unfold rmul4, rsum4; ring).
      eapply Rle_trans; [apply rsum4_abs |]. apply Rle_trans with (rsum4 (fun k => 52 * u * Rabs (real f i k))); [apply rsum4_le; intros k Hk; rewrite Rabs_mult, Rmult_comm; apply Rmult_le_compat_r; [apply Rabs_pos | apply Er; assumption] |].
      rewrite rsum4_scale. specialize (Sf i Hi). nra. }
    assert (T3 : rowlen (rminus (rmul4 (real f) rm) (hmat (hmul X (hdir (hq q))))) i <= D - 1).
    { eapply Rle_trans; [| apply (K i Hi)]. right. rewrite <- (row_rot (rminus (real f) (hmat X)) (hdir (hq q)) i Ur). fold rm. rewrite !rowlen_row. f_equal. unfold row, rminus.
      rewrite <- !(hmat_mul X (hdir (hq q)) i) by (reflexivity || assumption). fold rm. unfold rmul4, rsum4. f_equal; [f_equal |]; ring. }
    rewrite rowdist in *. pose proof (hdist_triangle (row (real h) i) (row (rmul4 (real f) r) i) (row (hmat (hmul X (hdir (hq q)))) i)) as Q1. pose proof (hdist_triangle (row (rmul4 (real f) r) i) (row (rmul4 (real f) rm) i) (row (hmat (hmul X (hdir (hq q)))) i)) as Q2.
    assert (u * 1 <= u * D) by (apply Rmult_le_compat_l; lra). lra.
  Qed.
  Notation rots l := (map (fun p : quat F => quat_to_rotation_matrix p true) l).
  Notation hqs l := (map (fun p : quat F => hq p) l).
  Lemma spin_run (l : list (quat F)) : forall (a : mat4 F) (f : lmat F) (X : H4) D, (9 < prec)%Z -> Forall nearq l -> m4_rm a = true -> repr4 a f -> mfin4 (f : lmat bf) -> hunit X -> 1 <= D -> D * (1 + 227 * u) ^ length l <= bpow radix2 (emax - 7) ->
    rows_within (D - 1) (real f) (hmat X) -> exists c h, mat_run a (rots l) = Ok (Some c) /\ m4_rm c = true /\ repr4 c h /\ mfin4 (h : lmat bf) /\
    rows_within (D * (1 + 227 * u) ^ length l - 1) (real h) (hmat (fold_left hmul (map hdir (hqs l)) X)).
  Proof.
    induction l as [| q l IH]; intros a f X D P Nl Ea Ra Fa UX D1 DB K.
    - cbn [length pow] in *. rewrite Rmult_1_r in *. exists a, f. cbn [map mat_run fold_left]. repeat (split; [first [reflexivity | assumption] |]). exact K.
    - inversion Nl as [| ? ? Nq Nl']; subst. cbn [length pow] in *. pose proof (u_pos prec) as U0. rewrite <- Rmult_assoc in DB |- *.
      assert (E1 : 1 <= (1 + 227 * u) ^ length l) by (apply pow_R1_Rle; lra). assert (D2 : D <= D * (1 + 227 * u)) by nra.
      destruct (spin_step a f X q D P Nq Ea Ra Fa UX D1) as (c & h & C1 & C2 & C3 & C4 & C5); [| exact K |].
      { eapply Rle_trans; [| exact DB]. apply Rle_trans with (D * (1 + 227 * u) * 1); [lra | apply Rmult_le_compat_l; lra]. }
      destruct (rot_near q P Nq) as (_ & _ & _ & Ur). assert (UX' : hunit (hmul X (hdir (hq q)))) by (unfold hunit in *; rewrite <- hlen_sq, hlen_mul; pose proof (hlen_sq X); pose proof (hlen_sq (hdir (hq q))); nra).
      destruct (IH c h (hmul X (hdir (hq q))) (D * (1 + 227 * u)) P Nl' C2 C3 C4 UX' ltac:(lra) DB C5) as (c' & h' & E). exists c', h'. cbn [map mat_run fold_left]. rewrite C1. cbn [bind]. exact E.
  Qed.
  (** the matrix and the quaternion after the same sequence of turns *)
  Theorem spin_both (q : quat F) (l : list (quat F)) : (9 < prec)%Z -> near (q : quat bf) -> Forall nearq l -> let n := length l in let E := (1 + 227 * u) ^ S n - 1 in E <= bpow radix2 (emax - 8) ->
    exists c h r, mat_run (quat_to_rotation_matrix q true) (rots l) = Ok (Some c) /\ m4_rm c = true /\ repr4 c h /\ mfin4 (h : lmat bf) /\
    rows_within E (real h) (hmat (course (hq q) (hqs l))) /\
    (forall i j, (i < 4)%N -> (j < 4)%N -> Rabs (rsum4 (fun k => val (h i k : bf) * val (h j k : bf)) - riden i j) <= 2 * E + E * E) /\
    turn_run (map Trail l) q = Ok r /\ near (r : quat bf) /\
    (forall i j, (i < 4)%N -> (j < 4)%N -> Rabs (val (h i j : bf) - val (rotm r i j)) <= E + (74 * INR n + 88) * u).
  Proof.
    intros P Nq Nl n E EB. destruct (rot_near q P Nq) as (Fr & Er & _ & Ur). pose proof (u_small prec P) as U. pose proof (u_pos prec) as U0. assert (HP : (0 < prec)%Z) by exact Hp. assert (HE : (prec < emax)%Z) by exact Hm.
    assert (K : rows_within (1 + 227 * u - 1) (real (rotm q)) (hmat (hdir (hq q)))) by (intros i Hi; eapply Rle_trans; [apply (row_box (rminus (real (rotm q)) (hmat (hdir (hq q)))) i (52 * u)); [lra |] | lra]; intros j Hj; apply Er; assumption).
    assert (EE : (1 + 227 * u) * (1 + 227 * u) ^ length l - 1 = E) by reflexivity.
    assert (DB : (1 + 227 * u) * (1 + 227 * u) ^ length l <= bpow radix2 (emax - 7)).
    { replace (emax - 7)%Z with (1 + (emax - 8))%Z by lia. rewrite bpow_plus. change (bpow radix2 1) with 2. assert (1 <= bpow radix2 (emax - 8)) by (change 1 with (bpow radix2 0); apply bpow_le; lia). lra. }
    assert (E0 : 0 <= E) by (assert (1 <= (1 + 227 * u) ^ S n) by (apply pow_R1_Rle; lra); unfold E; lra).
    destruct (spin_run l (quat_to_rotation_matrix q true) (rotm q) (hdir (hq q)) (1 + 227 * u) P Nl eq_refl (repr4_log _) Fr Ur ltac:(lra) DB K) as (c & h & C1 & C2 & C3 & C4 & C5). rewrite EE in C5. fold (course (hq q) (hqs l)) in C5.
    assert (UC : hunit (course (hq q) (hqs l))). { apply course_unit; [exact Ur |]. clear - Nl P U U0. induction Nl as [| p l [_ Np] _ IH]; constructor; [apply Rabs_le_inv in Np; lra | exact IH]. }
    assert (Tl : Forall (turn_all (fun p : quat F => factor (p : quat bf))) (map Trail l)). { clear - Nl U U0. induction Nl as [| p l [Fp Np] _ IH]; constructor; [split; [exact Fp | apply Rabs_le_inv in Np; lra] | exact IH]. }
    assert (Dq : hdist (hq q) (hdir (hq q)) <= 9 * u) by (destruct Nq as [_ Nq]; rewrite hdir_near; [exact Nq | apply Rabs_le_inv in Nq; lra]).
    destruct (run_ok prec emax lm (map Trail l) q (hdir (hq q)) (9 * u) P Nq Tl Dq) as (r & R1 & R2 & R3). rewrite map_length in R3. fold n in R3.
    replace (fold_left htrack _ (hdir (hq q))) with (course (hq q) (hqs l)) in R3 by (unfold course; rewrite <- course_track, !map_map; reflexivity).
    exists c, h, r. do 5 (split; [assumption |]). split; [apply (almost_orth (real h) _ E UC E0 C5) |]. split; [exact R1 |]. split; [exact R2 |]. intros i j Hi Hj.
    pose proof (C5 i Hi) as K1. pose proof (row_entry (rminus (real h) (hmat (course (hq q) (hqs l)))) i j Hj) as K1'. unfold rminus in K1' at 1. destruct (rot_near r P R2) as (_ & Er' & _ & Ur'). pose proof (Er' i j Hi Hj) as K2.
    assert (Lu : forall x, hunit x -> hlen x = 1) by (intros x Hx; unfold hlen; rewrite Hx; apply sqrt_1).
    pose proof (hmat_close (hdir (hq r)) (course (hq q) (hqs l)) i j Hi Hj (Lu _ Ur') (Lu _ UC)) as K3.
    assert (Dr : hdist (hdir (hq r)) (hq r) <= 9 * u) by (destruct R2 as [_ Nr]; rewrite hdist_sym, hdir_near; [exact Nr | apply Rabs_le_inv in Nr; lra]).
    pose proof (hdist_triangle (hdir (hq r)) (hq r) (course (hq q) (hqs l))) as K4.
    replace (val (h i j : bf) - val (rotm r i j)) with ((val (h i j : bf) - hmat (course (hq q) (hqs l)) i j) - (val (rotm r i j) - hmat (hdir (hq r)) i j) - (hmat (hdir (hq r)) i j - hmat (course (hq q) (hqs l)) i j)) by ring.
    apply Rabs_le_inv in K2. apply Rabs_le_inv in K3. assert (K5 : Rabs (val (h i j : bf) - hmat (course (hq q) (hqs l)) i j) <= E) by (eapply Rle_trans; [exact K1' | exact K1]). apply Rabs_le_inv in K5. apply Rabs_le. split; nra.
  Qed.
End SpinM.
