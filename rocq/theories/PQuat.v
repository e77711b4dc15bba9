(** PQuat.v — quaternion algebra, rotations, matrices from quaternions (C17-C24, C31, C32). *)
From Coq Require Import Reals List ZArith NArith Bool Lra Lia Psatz Nsatz.
From Flocq Require Import Core BinarySingleNaN.
Import ListNotations.
From Verif Require Import Base Num Vec Mat Quat Float Exact SpecMat SpecReal SpecGeom SpecQuat ExactFacts FloatFacts Order PMat PMat2 PMat3 PMat4.
Local Open Scope R_scope.

(** ---- facts about real quaternions ---- *)
Lemma H4_eq p q : hv p = hv q -> hs p = hs q -> p = q.
Proof. destruct p, q; simpl; intros; subst; reflexivity. Qed.
Ltac heq := repeat match goal with h : H4 |- _ => destruct h as [[? ? ?] ?] | v : V3 |- _ => destruct v as [? ? ?] end;
  unfold hmul, hconj, hadd, hsub, hscale, hneg, hone, hzero, hdot, hunit, hi, hj, hk, vadd, vsub, vscale, vcross, vdot, vzero in *; simpl in *.
Ltac hring := heq; first [ring | apply H4_eq; simpl; [apply V3_eq; simpl; ring | ring] | apply V3_eq; simpl; ring].

Lemma hmul_assoc p q r : hmul (hmul p q) r = hmul p (hmul q r). Proof. hring. Qed.
Lemma hmul_1_l q : hmul hone q = q. Proof. hring. Qed.
Lemma hmul_1_r q : hmul q hone = q. Proof. hring. Qed.
Lemma hdot_pos q : 0 <= hdot q q. Proof. heq. nra. Qed.
Lemma hdot_zero q : hdot q q = 0 -> q = hzero.
Proof.
  destruct q as [[x y z] w]. unfold hdot, vdot. simpl. intro Hh.
  assert (x = 0) by nra. assert (y = 0) by nra. assert (z = 0) by nra. assert (w = 0) by nra. subst. reflexivity.
Qed.
Lemma hdot_nz q : q <> hzero -> 0 < hdot q q.
Proof. intro Hq. destruct (hdot_pos q) as [Hp | Hp]; [exact Hp |]. exfalso. apply Hq, hdot_zero. lra. Qed.
Lemma hlen_sq q : hlen q * hlen q = hdot q q.
Proof. apply sqrt_sqrt, hdot_pos. Qed.
Lemma hlen_pos q : 0 <= hlen q. Proof. apply sqrt_pos. Qed.
Lemma hlen_nz q : q <> hzero -> 0 < hlen q.
Proof. intro Hq. apply sqrt_lt_R0, hdot_nz, Hq. Qed.

Lemma hrot_formula q p : hrot q p =
  vadd (vadd (vscale (hs q * hs q - vdot (hv q) (hv q)) p) (vscale (2 * hs q) (vcross (hv q) p)))
       (vscale (2 * vdot (hv q) p) (hv q)).
Proof. unfold hrot. hring. Qed.
Lemma hrot_pure q p : hs (hmul (hmul q (H p 0)) (hconj q)) = 0.
Proof. hring. Qed.
Lemma hrot_add q a b u v : hrot q (vadd (vscale a u) (vscale b v)) = vadd (vscale a (hrot q u)) (vscale b (hrot q v)).
Proof. rewrite !hrot_formula. hring. Qed.
Lemma hrot_dot_gen q u v : vdot (hrot q u) (hrot q v) = hdot q q * hdot q q * vdot u v.
Proof. rewrite !hrot_formula. hring. Qed.
Lemma hrot_cross_gen q u v : vcross (hrot q u) (hrot q v) = vscale (hdot q q) (hrot q (vcross u v)).
Proof. rewrite !hrot_formula. hring. Qed.
Lemma hconj_mul p q : hconj (hmul p q) = hmul (hconj q) (hconj p). Proof. hring. Qed.
Lemma hrot_embed q p : H (hrot q p) 0 = hmul (hmul q (H p 0)) (hconj q).
Proof. apply H4_eq; [reflexivity |]. symmetry. apply hrot_pure. Qed.
Lemma hrot_comp p q v : hrot (hmul p q) v = hrot p (hrot q v).
Proof. unfold hrot at 1 2. rewrite hrot_embed, hconj_mul, !hmul_assoc. reflexivity. Qed.
Lemma hmul_conj_l q : hmul (hconj q) q = H vzero (hdot q q). Proof. hring. Qed.
Lemma hrot_conj_gen q v : hrot (hconj q) (hrot q v) = vscale (hdot q q * hdot q q) v.
Proof. rewrite <- hrot_comp, hmul_conj_l. generalize (hdot q q). intro d. unfold hrot. hring. Qed.
Lemma hrot_dot q u v : hunit q -> vdot (hrot q u) (hrot q v) = vdot u v.
Proof. intro Hu. rewrite hrot_dot_gen, Hu. ring. Qed.
Lemma hrot_cross q u v : hunit q -> vcross (hrot q u) (hrot q v) = hrot q (vcross u v).
Proof. intro Hu. rewrite hrot_cross_gen, Hu. hring. Qed.
Lemma hrot_norm q u : hunit q -> norm (hrot q u) = norm u.
Proof. intro Hu. unfold norm. rewrite hrot_dot by exact Hu. reflexivity. Qed.
Lemma hrot_inv q v : hunit q -> hrot (hconj q) (hrot q v) = v.
Proof. intro Hu. rewrite hrot_conj_gen, Hu. hring. Qed.

(** [sin (t/2) k + cos (t/2)] *)
Definition haxis (k : V3) (t : R) : H4 := H (vscale (sin (t / 2)) k) (cos (t / 2)).
Lemma half_cos t : cos t = cos (t / 2) * cos (t / 2) - sin (t / 2) * sin (t / 2).
Proof. replace t with (t / 2 + t / 2) at 1 by field. rewrite cos_plus. ring. Qed.
Lemma half_sin t : sin t = 2 * (sin (t / 2) * cos (t / 2)).
Proof. replace t with (t / 2 + t / 2) at 1 by field. rewrite sin_plus. ring. Qed.
Lemma sc1 x : sin x * sin x + cos x * cos x = 1.
Proof. pose proof (sin2_cos2 x) as Hx. unfold Rsqr in Hx. lra. Qed.
Lemma haxis_unit k t : vdot k k = 1 -> hunit (haxis k t).
Proof.
  intro Hk. unfold hunit, haxis, hdot. cbn [hv hs].
  replace (vdot (vscale (sin (t / 2)) k) (vscale (sin (t / 2)) k)) with (sin (t / 2) * sin (t / 2) * vdot k k) by hring.
  rewrite Hk, Rmult_1_r. apply sc1.
Qed.
Lemma haxis_rot k t v : vdot k k = 1 -> hrot (haxis k t) v = rodrigues k t v.
Proof.
  intro Hk. rewrite hrot_formula. unfold rodrigues, haxis. cbn [hv hs].
  replace (vdot (vscale (sin (t / 2)) k) (vscale (sin (t / 2)) k)) with (sin (t / 2) * sin (t / 2) * vdot k k) by hring.
  rewrite Hk, (half_cos t), (half_sin t).
  replace (1 - (cos (t / 2) * cos (t / 2) - sin (t / 2) * sin (t / 2))) with (2 * (sin (t / 2) * sin (t / 2)))
    by (pose proof (sc1 (t / 2)); lra).
  generalize (sin (t / 2)), (cos (t / 2)). intros s c. clear Hk. hring.
Qed.

Section PQuat.
  Context (eps : R) (zs : XR -> bool).
  Notation E := (Exact eps zs).

  (** a real quaternion as a quaternion of the library *)
  Definition eq4 (h : H4) : quat E := Q (Fin (vx (hv h)) : E) (Fin (vy (hv h))) (Fin (vz (hv h))) (Fin (hs h)).
  Lemma eq4_inj p q : eq4 p = eq4 q -> p = q.
  Proof. destruct p as [[? ? ?] ?], q as [[? ? ?] ?]; unfold eq4; simpl; intro Hh; inversion Hh; reflexivity. Qed.

  Lemma q_ext a b c d a' b' c' d' : a = a' -> b = b' -> c = c' -> d = d' ->
    Q (Fin a : E) (Fin b) (Fin c) (Fin d) = Q (Fin a' : E) (Fin b') (Fin c') (Fin d').
  Proof. intros; subst; reflexivity. Qed.
  Ltac qring := repeat match goal with h : H4 |- _ => destruct h as [[? ? ?] ?] end;
    unfold eq4, quat_mul, quat_scale, quat_conjugate, quat_negate, hmul, hconj, hadd, hsub, hscale, hneg, vadd, vsub, vscale,
      vcross, vdot; simpl; apply q_ext; ring.

  Lemma q_mul p q : quat_mul (eq4 p) (eq4 q) = eq4 (hmul p q). Proof. qring. Qed.
  Lemma q_add p q : quat_add (eq4 p) (eq4 q) = eq4 (hadd p q). Proof. reflexivity. Qed.
  Lemma q_minus p q : quat_minus (eq4 p) (eq4 q) = eq4 (hsub p q). Proof. reflexivity. Qed.
  Lemma q_scale p k : quat_scale (eq4 p) (Fin k : E) = eq4 (hscale k p). Proof. qring. Qed.
  Lemma q_conj p : quat_conjugate (eq4 p) = eq4 (hconj p). Proof. qring. Qed.
  Lemma q_neg p : quat_negate (eq4 p) = eq4 (hneg p). Proof. qring. Qed.
  Lemma q_init : quat_init = eq4 hone. Proof. reflexivity. Qed.
  Lemma q_len2 p : quat_length_squared (eq4 p) = (Fin (hdot p p) : E). Proof. reflexivity. Qed.
  Lemma q_len p : quat_length (eq4 p) = (Fin (hlen p) : E).
  Proof.
    unfold quat_length. change (nadd E _ _) with (Fin (hdot p p) : E).
    apply nsqrt_fin, hdot_pos.
  Qed.
  Lemma q_rot q p : quat_rotate_vector (eq4 q) (ev eps zs p) = ev eps zs (hrot q p).
  Proof.
    unfold quat_rotate_vector.
    change (quat_of_vec (ev eps zs p)) with (eq4 (H p 0)).
    rewrite q_conj, !q_mul. reflexivity.
  Qed.

  (** C18 *)
  Lemma q_inverse q : q <> hzero -> exists g,
    quat_inverse (eq4 q) = Ok (eq4 g) /\ hmul q g = hone /\ hmul g q = hone.
  Proof.
    intro Hq. pose proof (hdot_nz q Hq) as Hn. exists (hscale (/ hdot q q) (hconj q)). split.
    - unfold quat_inverse. rewrite q_conj, q_len2.
      change (n0 : E) with (Fin 0 : E). rewrite nne_fin.
      replace (hdot (hconj q) (hconj q)) with (hdot q q) by hring.
      destruct (Req_EM_T (hdot q q) 0); [lra |]. cbn [assert bind].
      change (n1 : E) with (Fin 1 : E). rewrite ndiv_fin by lra. rewrite q_scale. do 3 f_equal. unfold Rdiv. ring.
    - assert (E1 : forall k, hmul q (hscale k (hconj q)) = H vzero (k * hdot q q)) by (intro k; hring).
      assert (E2 : forall k, hmul (hscale k (hconj q)) q = H vzero (k * hdot q q)) by (intro k; hring).
      rewrite E1, E2. unfold hone. split; f_equal; field; lra.
  Qed.
  Lemma q_inverse_zero : quat_inverse (eq4 hzero) = Panic PAssert.
  Proof.
    unfold quat_inverse. rewrite q_conj, q_len2. change (n0 : E) with (Fin 0 : E). rewrite nne_fin.
    destruct (Req_EM_T _ 0) as [H0 | H0]; [reflexivity |]. exfalso. apply H0. hring.
  Qed.

  (** C19 *)
  Lemma q_normalize q : q <> hzero -> exists c, 0 < c /\
    quat_normalize (eq4 q) = Ok (eq4 (hscale c q)) /\ hunit (hscale c q).
  Proof.
    intro Hq. pose proof (hlen_nz q Hq) as Hl. exists (/ hlen q). split; [apply Rinv_0_lt_compat, Hl |]. split.
    - unfold quat_normalize. rewrite q_len. change (n0 : E) with (Fin 0 : E). rewrite ngt_fin, nlt_fin.
      destruct (Rlt_dec 0 (hlen q)); [| contradiction]. cbn [orb]. unfold eq4. cbn [qx qy qz qw].
      rewrite !ndiv_fin by lra. unfold hscale, vscale, Rdiv. simpl. rewrite !(Rmult_comm (/ hlen q)). reflexivity.
    - unfold hunit. assert (E1 : forall k, hdot (hscale k q) (hscale k q) = k * k * hdot q q) by (intro k; hring).
      rewrite E1, <- hlen_sq. field. lra.
  Qed.

  (** C20 *)
  Lemma unit_axis a : a <> vzero -> vdot (vscale (/ norm a) a) (vscale (/ norm a) a) = 1.
  Proof.
    intro Ha. pose proof (norm_nz a Ha) as Hn.
    assert (E1 : forall k, vdot (vscale k a) (vscale k a) = k * k * vdot a a) by (intro k; hring).
    rewrite E1, <- norm_sq. field. lra.
  Qed.
  Lemma q_axis a t : a <> vzero ->
    quat_init_from_axis_angle_radian (ev eps zs a) (Fin t : E) = Ok (eq4 (haxis (vscale (/ norm a) a) t)).
  Proof.
    intro Ha. unfold quat_init_from_axis_angle_radian. rewrite ev_normalize by exact Ha. cbn [bind unwrap].
    rewrite ev_index0, ev_index1, ev_index2. cbn [bind].
    change (n2 : E) with (Fin 2 : E). rewrite ndiv_fin by lra.
    unfold eq4, haxis. cbn [hv hs]. f_equal. simpl. f_equal; f_equal; ring.
  Qed.
  Lemma q_degree a d : quat_init_from_axis_angle_degree (ev eps zs a) (Fin d : E)
    = quat_init_from_axis_angle_radian (ev eps zs a) (Fin (d * PI / 180) : E).
  Proof.
    unfold quat_init_from_axis_angle_degree. f_equal.
    change (nlit E 180 1) with (Fin 180 : E). rewrite ndiv_fin by lra.
    change (npi E) with (Fin PI : E). simpl. f_equal. field.
  Qed.

  (** C22 *)
  (** the rotation matrix of a real quaternion, entry by entry *)
  Definition rotmat (q : H4) : rmat := fun i j =>
    let x := vx (hv q) in let y := vy (hv q) in let z := vz (hv q) in let w := hs q in
    match i, j with
    | 0%N, 0%N => 1 - 2 * (y * y + z * z) | 0%N, 1%N => 2 * (x * y - z * w) | 0%N, 2%N => 2 * (x * z + y * w)
    | 1%N, 0%N => 2 * (x * y + z * w) | 1%N, 1%N => 1 - 2 * (x * x + z * z) | 1%N, 2%N => 2 * (y * z - x * w)
    | 2%N, 0%N => 2 * (x * z - y * w) | 2%N, 1%N => 2 * (z * y + x * w) | 2%N, 2%N => 1 - 2 * (x * x + y * y)
    | 3%N, 3%N => 1 | _, _ => 0
    end.
  Lemma rot_repr q : repr4 (quat_to_rotation_matrix (eq4 q) true) (fin (rotmat q) : lmat E).
  Proof.
    apply repr4_iff. intros i j Hi Hj. destruct q as [[x y z] w]. cases4 i Hi; cases4 j Hj; reflexivity.
  Qed.
  Lemma rot_rm q rm : m4_rm (quat_to_rotation_matrix (eq4 q) rm) = rm.
  Proof. destruct rm; reflexivity. Qed.
  (** the homogeneous point (p, w) *)
  Definition ev4 (p : V3) (w : R) : mat4x1 E := M4x1 (A4 (Fin (vx p) : E) (Fin (vy p)) (Fin (vz p)) (Fin w)).
  Lemma mulv4_fin (m : mat4 E) f p w : repr4 m (fin f : lmat E) ->
    mat4_mul_mat4x1 m (ev4 p w) = Ok (Some (M4x1 (A4
      (Fin (f 0%N 0%N * vx p + f 0%N 1%N * vy p + f 0%N 2%N * vz p + f 0%N 3%N * w) : E)
      (Fin (f 1%N 0%N * vx p + f 1%N 1%N * vy p + f 1%N 2%N * vz p + f 1%N 3%N * w))
      (Fin (f 2%N 0%N * vx p + f 2%N 1%N * vy p + f 2%N 2%N * vz p + f 2%N 3%N * w))
      (Fin (f 3%N 0%N * vx p + f 3%N 1%N * vy p + f 3%N 2%N * vz p + f 3%N 3%N * w))))).
  Proof. intro Hm. rewrite (fin4_form eps zs m f Hm). destruct (m4_rm m); reflexivity. Qed.
  Lemma ev4_ext a b c d p w : a = vx p -> b = vy p -> c = vz p -> d = w ->
    M4x1 (A4 (Fin a : E) (Fin b) (Fin c) (Fin d)) = ev4 p w.
  Proof. intros; subst; reflexivity. Qed.
  Lemma rot_apply q p : hunit q ->
    mat4_mul_mat4x1 (quat_to_rotation_matrix (eq4 q) true) (ev4 p 1) = Ok (Some (ev4 (hrot q p) 1)).
  Proof.
    intro Hu. rewrite (mulv4_fin _ _ p 1 (rot_repr q)). do 2 f_equal. rewrite hrot_formula.
    unfold hunit, hdot in Hu. destruct q as [[x y z] w], p as [a b c].
    unfold vdot in Hu. simpl in Hu.
    assert (Hw : w * w = 1 - x * x - y * y - z * z) by lra.
    apply ev4_ext; unfold rotmat, vadd, vscale, vcross, vdot; simpl; rewrite ?Hw; ring.
  Qed.
  Definition basis (j : N) : V3 := match j with 0%N => V 1 0 0 | 1%N => V 0 1 0 | _ => V 0 0 1 end.
  Definition comp (i : N) (v : V3) : R := match i with 0%N => vx v | 1%N => vy v | _ => vz v end.
  Lemma rot_columns q i j : hunit q -> (i < 3)%N -> (j < 3)%N -> rotmat q i j = comp i (hrot q (basis j)).
  Proof.
    intros Hu Hi Hj. rewrite hrot_formula. destruct q as [[x y z] w]. unfold hunit, hdot, vdot in Hu. simpl in Hu.
    assert (Hw : w * w = 1 - x * x - y * y - z * z) by lra.
    cases3 i Hi; cases3 j Hj; unfold rotmat, vadd, vscale, vcross, vdot; simpl; rewrite ?Hw; ring.
  Qed.
  Lemma rot_trans q i j : (i < 3)%N -> (j < 3)%N -> rotmat (hconj q) i j = rotmat q j i.
  Proof. intros Hi Hj. destruct q as [[x y z] w]. cases3 i Hi; cases3 j Hj; unfold rotmat, hconj, vscale; simpl; ring. Qed.
  Lemma hunit_conj q : hunit q -> hunit (hconj q).
  Proof. unfold hunit. intro Hu. rewrite <- Hu. hring. Qed.
  Lemma rot_orth_l q : hunit q -> lmat_eq 3 (rmul3 (ltrans (rotmat q)) (rotmat q)) riden.
  Proof.
    intros Hu i j Hi Hj. transitivity (vdot (hrot q (basis i)) (hrot q (basis j))).
    - unfold rmul3, rsum3, ltrans. rewrite !rot_columns by (assumption || reflexivity). reflexivity.
    - rewrite hrot_dot by exact Hu. cases3 i Hi; cases3 j Hj; unfold vdot, riden; simpl; ring.
  Qed.
  Lemma rot_orth_r q : hunit q -> lmat_eq 3 (rmul3 (rotmat q) (ltrans (rotmat q))) riden.
  Proof.
    intros Hu i j Hi Hj. rewrite <- (rot_orth_l (hconj q) (hunit_conj q Hu) i j Hi Hj).
    unfold rmul3, rsum3, ltrans. rewrite !rot_trans by (assumption || reflexivity). reflexivity.
  Qed.
  Lemma rdet3_entries (f : rmat) : rdet3 f =
    f 0%N 0%N * (f 1%N 1%N * f 2%N 2%N - f 1%N 2%N * f 2%N 1%N)
    - f 0%N 1%N * (f 1%N 0%N * f 2%N 2%N - f 1%N 2%N * f 2%N 0%N)
    + f 0%N 2%N * (f 1%N 0%N * f 2%N 1%N - f 1%N 1%N * f 2%N 0%N).
  Proof. reflexivity. Qed.
  Lemma rot_det q : hunit q -> rdet3 (rotmat q) = 1.
  Proof.
    intro Hu. transitivity (vdot (vcross (hrot q (basis 0)) (hrot q (basis 1))) (hrot q (basis 2))).
    - rewrite rdet3_entries, !rot_columns by (assumption || reflexivity). unfold comp, vdot, vcross.
      generalize (hrot q (basis 0)) (hrot q (basis 1)) (hrot q (basis 2)). intros [] [] []. simpl. ring.
    - rewrite hrot_cross, hrot_dot by exact Hu. unfold vdot, vcross, basis. simpl. ring.
  Qed.
End PQuat.
