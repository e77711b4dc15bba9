(** PQuat3.v — quaternion lemmas in the form the property theorems use. *)
From Coq Require Import Reals List ZArith NArith Bool Lra Lia Psatz.
From Flocq Require Import Core BinarySingleNaN.
Import ListNotations.
From Verif Require Import Base Num Vec Mat Quat Float Exact SpecMat SpecReal SpecGeom SpecQuat ExactFacts FloatFacts Order
  PMat PMat2 PMat3 PMat4 PQuat PQuat2.
Local Open Scope R_scope.

Lemma quarter_turn_layout lm : let F := F64 lm in exists q : quat F,
  (let! a := mat4_index true (quat_to_rotation_matrix q true) 0 1 in
   let! b := mat4_index true (quat_to_rotation_matrix q false) 0 1 in Ok (neqb a b)) = Ok false /\
  neqb (quat_length_squared q) n1 = true.
Proof.
  cbv zeta. exists (Q (nlit (F64 lm) 1 2) (nlit (F64 lm) 1 2) (nlit (F64 lm) 1 2) (nlit (F64 lm) 1 2)).
  split; vm_compute; reflexivity.
Qed.
Lemma translation_f64 lm (rm : bool) : let F := F64 lm in exists t p, exists m : mat4x1 F,
  mat4_mul_mat4x1 (quat_to_translation_matrix (quat_init_from_translation (M3x1 t)) rm)
    (match p with A3 a b c => M4x1 (A4 a b c n1) end) = Ok (Some m) /\
  match t, p, v4x1 m with A3 t0 _ _, A3 p0 _ _, A4 m0 _ _ _ => neqb m0 (nadd F p0 t0) = false end.
Proof.
  cbv zeta. exists (A3 (nlit (F64 lm) 2 1) (nlit (F64 lm) 2 1) (nlit (F64 lm) 2 1)), (A3 n0 n0 n0).
  destruct rm; eexists; (split; [reflexivity |]); vm_compute; reflexivity.
Qed.

Section PQuat3.
  Context (eps : R) (zs : XR -> bool).
  Notation E := (Exact eps zs).
  Notation eq4 := (eq4 eps zs).
  Notation ev := (ev eps zs).
  Notation ev4 := (ev4 eps zs).

  Lemma hamilton_rules :
    let i := eq4 hi in let j := eq4 hj in let k := eq4 hk in let m1 := eq4 (H vzero (-1)) in
    quat_mul i i = m1 /\ quat_mul j j = m1 /\ quat_mul k k = m1 /\ quat_mul (quat_mul i j) k = m1 /\
    quat_mul i j = k /\ quat_mul j k = i /\ quat_mul k i = j.
  Proof.
    cbv zeta. rewrite !q_mul. repeat split; f_equal; hring.
  Qed.
  Lemma algebra (a b c : H4) (s : R) :
    quat_mul (quat_mul (eq4 a) (eq4 b)) (eq4 c) = quat_mul (eq4 a) (quat_mul (eq4 b) (eq4 c)) /\
    quat_mul (quat_add (eq4 a) (eq4 b)) (eq4 c) = quat_add (quat_mul (eq4 a) (eq4 c)) (quat_mul (eq4 b) (eq4 c)) /\
    quat_mul (eq4 a) (quat_add (eq4 b) (eq4 c)) = quat_add (quat_mul (eq4 a) (eq4 b)) (quat_mul (eq4 a) (eq4 c)) /\
    quat_mul (quat_minus (eq4 a) (eq4 b)) (eq4 c) = quat_minus (quat_mul (eq4 a) (eq4 c)) (quat_mul (eq4 b) (eq4 c)) /\
    quat_mul (quat_scale (eq4 a) (Fin s : E)) (eq4 b) = quat_scale (quat_mul (eq4 a) (eq4 b)) (Fin s : E) /\
    quat_mul (eq4 a) (quat_scale (eq4 b) (Fin s : E)) = quat_scale (quat_mul (eq4 a) (eq4 b)) (Fin s : E) /\
    quat_mul quat_init (eq4 a) = eq4 a /\ quat_mul (eq4 a) quat_init = eq4 a /\
    quat_conjugate (quat_mul (eq4 a) (eq4 b)) = quat_mul (quat_conjugate (eq4 b)) (quat_conjugate (eq4 a)) /\
    quat_negate (eq4 a) = quat_scale (eq4 a) (Fin (-1) : E) /\
    quat_length_squared (quat_mul (eq4 a) (eq4 b)) = nmul E (quat_length_squared (eq4 a)) (quat_length_squared (eq4 b)) /\
    quat_mul (eq4 a) (quat_conjugate (eq4 a)) = eq4 (H vzero (hdot a a)) /\
    quat_length_squared (eq4 a) = (Fin (hdot a a) : E) /\ quat_length (eq4 a) = (Fin (hlen a) : E).
  Proof.
    rewrite !q_init.
    repeat (rewrite ?q_mul, ?q_add, ?q_minus, ?q_scale, ?q_conj, ?q_neg, ?q_len2, ?q_len).
    repeat match goal with |- _ /\ _ => split end; try reflexivity; try (f_equal; clear; hring).
    apply (f_equal Fin). hring.
  Qed.
  Lemma inverse_two_sided q : q <> hzero -> exists g,
    quat_inverse (eq4 q) = Ok (eq4 g) /\ quat_mul (eq4 q) (eq4 g) = quat_init /\ quat_mul (eq4 g) (eq4 q) = quat_init.
  Proof.
    intro Hq. destruct (q_inverse eps zs q Hq) as [g [H1 [H2 H3]]]. exists g. rewrite !q_mul, H2, H3. auto.
  Qed.
  Lemma axis_angle_rotates a t : a <> vzero -> exists q,
    quat_init_from_axis_angle_radian (ev a) (Fin t : E) = Ok (eq4 q) /\ hunit q /\
    forall p, quat_rotate_vector (eq4 q) (ev p) = ev (rodrigues (vscale (/ norm a) a) t p).
  Proof.
    intro Ha. exists (haxis (vscale (/ norm a) a) t). pose proof (unit_axis a Ha) as Hk.
    split; [apply q_axis, Ha |]. split; [apply haxis_unit, Hk |]. intro p. rewrite q_rot, haxis_rot by exact Hk. reflexivity.
  Qed.
  Lemma axis_angle_zero t : quat_init_from_axis_angle_radian (ev vzero) (Fin t : E) =
    Ok (Q (NaN : E) NaN NaN (Fin (cos (t / 2)))).
  Proof.
    unfold quat_init_from_axis_angle_radian. rewrite ev_normalize_zero. cbn [bind unwrap mat3x1_index idx nth_error].
    change (n2 : E) with (Fin 2 : E). rewrite ndiv_fin by lra. reflexivity.
  Qed.
  Lemma rotation_laws q : hunit q -> exists rho : V3 -> V3,
    (forall p, quat_rotate_vector (eq4 q) (ev p) = ev (rho p)) /\
    (forall p, norm (rho p) = norm p) /\ (forall u v, vdot (rho u) (rho v) = vdot u v) /\
    (forall u v, vcross (rho u) (rho v) = rho (vcross u v)) /\
    (forall a b u v, rho (vadd (vscale a u) (vscale b v)) = vadd (vscale a (rho u)) (vscale b (rho v))).
  Proof.
    intro Hu. exists (hrot q). split; [apply q_rot |]. split; [intro p; apply hrot_norm, Hu |].
    split; [intros u v; apply hrot_dot, Hu |]. split; [intros u v; apply hrot_cross, Hu |]. intros. apply hrot_add.
  Qed.
  Lemma rotation_compose p q v : quat_rotate_vector (quat_mul (eq4 p) (eq4 q)) (ev v)
    = quat_rotate_vector (eq4 p) (quat_rotate_vector (eq4 q) (ev v)).
  Proof. rewrite q_mul, !q_rot, hrot_comp. reflexivity. Qed.
  Lemma rotation_undo q v : hunit q ->
    quat_rotate_vector (quat_conjugate (eq4 q)) (quat_rotate_vector (eq4 q) (ev v)) = ev v.
  Proof. intro Hu. rewrite q_conj, !q_rot, hrot_inv by exact Hu. reflexivity. Qed.
  Lemma rotation_matrix_agrees q p : hunit q -> exists r, quat_rotate_vector (eq4 q) (ev p) = ev r /\
    mat4_mul_mat4x1 (quat_to_rotation_matrix (eq4 q) true) (ev4 p 1) = Ok (Some (ev4 r 1)).
  Proof. intro Hu. exists (hrot q p). split; [apply q_rot | apply rot_apply, Hu]. Qed.
  Lemma rotation_matrix_orthogonal q : hunit q -> exists f : rmat,
    repr4 (quat_to_rotation_matrix (eq4 q) true) (fin f : lmat E) /\
    lmat_eq 3 (rmul3 f (ltrans f)) riden /\ lmat_eq 3 (rmul3 (ltrans f) f) riden /\ rdet3 f = 1 /\
    (forall i, (i < 3)%N -> f i 3%N = 0 /\ f 3%N i = 0) /\ f 3%N 3%N = 1.
  Proof.
    intro Hu. exists (rotmat q). split; [apply rot_repr |]. split; [apply rot_orth_r, Hu |].
    split; [apply rot_orth_l, Hu |]. split; [apply rot_det, Hu |]. split; [| reflexivity].
    intros i Hi. cases3 i Hi; split; reflexivity.
  Qed.
  (** the column layout is the inverse rotation *)
  Lemma rotation_layout_inverse q p : hunit q ->
    mat4_mul_mat4x1 (quat_to_rotation_matrix (eq4 q) false) (ev4 p 1) = Ok (Some (ev4 (hrot (hconj q) p) 1)).
  Proof.
    intro Hu. pose proof (rotation_layout _ _ (rot_repr eps zs q)) as Hr.
    assert (Hr' : repr4 (quat_to_rotation_matrix (eq4 q) false) (fin (rotmat (hconj q)) : lmat E)).
    { eapply repr4_ext; [exact Hr |]. intros i j Hi Hj. unfold ltrans, fin. f_equal.
      destruct q as [[x y z] w]. cases4 i Hi; cases4 j Hj; unfold rotmat, hconj, vscale; simpl; ring. }
    rewrite (mulv4_fin _ _ _ _ _ _ Hr').
    pose proof (rot_apply eps zs (hconj q) p (hunit_conj q Hu)) as Ha.
    rewrite (mulv4_fin _ _ _ _ _ _ (rot_repr eps zs (hconj q))) in Ha. exact Ha.
  Qed.
  Lemma rotation_layout_differs : ~ (forall (q : H4) f, repr4 (quat_to_rotation_matrix (eq4 q) true) (fin f : lmat E) ->
    repr4 (quat_to_rotation_matrix (eq4 q) false) (fin f : lmat E)).
  Proof.
    intro C. specialize (C (H (V (1 / 2) (1 / 2) (1 / 2)) (1 / 2)) _ (rot_repr _ _ _)).
    pose proof (rotation_layout _ _ (rot_repr eps zs (H (V (1 / 2) (1 / 2) (1 / 2)) (1 / 2)))) as D.
    pose proof (repr4_unique _ _ _ C D 0%N 1%N eq_refl eq_refl) as X. unfold ltrans, fin, rotmat in X. simpl in X. injection X. lra.
  Qed.
  Lemma translation_row_iff t p :
    mat4_mul_mat4x1 (quat_to_translation_matrix (quat_init_from_translation (ev t)) true) (ev4 p 1)
      = Ok (Some (ev4 (vadd p t) 1)) <-> p = vscale (- (1 / 2)) t.
  Proof.
    rewrite trans_row. destruct p as [a b c], t as [x y z]. split; intro Hh.
    - injection Hh as H1 H2 H3. unfold vscale. simpl. apply V3_eq; simpl; lra.
    - unfold vscale in Hh. simpl in Hh. injection Hh as H1 H2 H3. subst. do 2 f_equal. symmetry. apply ev4_ext; simpl; field.
  Qed.
  Lemma translation_col_iff t p :
    mat4_mul_mat4x1 (quat_to_translation_matrix (quat_init_from_translation (ev t)) false) (ev4 p 1)
      = Ok (Some (ev4 (vadd p t) 1)) <-> t = vzero /\ p = vzero.
  Proof.
    rewrite trans_col. destruct p as [a b c], t as [x y z]. split; intro Hh.
    - injection Hh as H1 H2 H3 H4. unfold vdot in H4. simpl in H4.
      assert (a = - x) by lra. assert (b = - y) by lra. assert (c = - z) by lra. subst.
      assert (x = 0) by nra. assert (y = 0) by nra. assert (z = 0) by nra. subst. unfold vzero. split; apply V3_eq; simpl; lra.
    - destruct Hh as [H1 H2]. unfold vzero in *. injection H1 as -> -> ->. injection H2 as -> -> ->. do 2 f_equal.
      symmetry. apply ev4_ext; unfold vdot; simpl; field.
  Qed.
  Lemma roundtrip a t : a <> vzero -> 0 <= t < 2 * PI ->
    (let! q := quat_init_from_axis_angle_radian (ev a) (Fin t : E) in quat_to_axis_angle q) =
      if Rlt_dec (sin (t / 2)) (1 / 1000000) then Ok (ev (V 1 0 0), (Fin 0 : E))
      else Ok (ev (vscale (/ norm a) a), (Fin t : E)).
  Proof. intros Ha Ht. rewrite q_axis by exact Ha. cbn [bind]. apply axis_angle_roundtrip; assumption. Qed.
  Lemma ln_refuted : ~ (forall q : H4, hv q <> vzero ->
    quat_ln (eq4 q) = Ok (eq4 (H (vscale (acos (hs q / hlen q) / norm (hv q)) (hv q)) (ln (hlen q))))).
  Proof.
    intro C. destruct (ln_wrong eps zs hi) as [r [Hr Hw]]; [intro Hx; apply (f_equal vx) in Hx; simpl in Hx; lra |].
    rewrite C in Hr by (intro Hx; apply (f_equal vx) in Hx; simpl in Hx; lra). injection Hr as <-. apply Hw. reflexivity.
  Qed.
  Lemma lerp_between a b t : exists r, quat_interpolate_linear (eq4 a) (eq4 b) (Fin t : E) = eq4 r /\
    r = hadd (hscale (1 - clamp01 t) a) (hscale (clamp01 t) b) /\
    Rmin (vx (hv a)) (vx (hv b)) <= vx (hv r) <= Rmax (vx (hv a)) (vx (hv b)) /\
    Rmin (vy (hv a)) (vy (hv b)) <= vy (hv r) <= Rmax (vy (hv a)) (vy (hv b)) /\
    Rmin (vz (hv a)) (vz (hv b)) <= vz (hv r) <= Rmax (vz (hv a)) (vz (hv b)) /\
    Rmin (hs a) (hs b) <= hs r <= Rmax (hs a) (hs b).
  Proof.
    eexists. split; [apply lerp_eval |]. split; [reflexivity |].
    pose proof (clamp01_bounds t) as Hc. generalize dependent (clamp01 t). intros c Hc.
    assert (B : forall u v, Rmin u v <= (1 - c) * u + c * v <= Rmax u v).
    { intros u v. unfold Rmin, Rmax. destruct (Rle_dec u v); split; nra. }
    destruct a as [[] ?], b as [[] ?]. unfold hadd, hscale, vadd, vscale. simpl. auto.
  Qed.
  Lemma lerp_limits a b t :
    (t <= 0 -> quat_interpolate_linear (eq4 a) (eq4 b) (Fin t : E) = eq4 a) /\
    (1 <= t -> quat_interpolate_linear (eq4 a) (eq4 b) (Fin t : E) = eq4 b) /\
    (0 <= t <= 1 -> quat_interpolate_linear (eq4 a) (eq4 b) (Fin t : E) = eq4 (hadd (hscale (1 - t) a) (hscale t b))).
  Proof.
    rewrite lerp_eval. split; [| split]; intro Ht; f_equal.
    - rewrite clamp01_low by exact Ht. hring.
    - rewrite clamp01_high by exact Ht. hring.
    - rewrite clamp01_id by exact Ht. reflexivity.
  Qed.
  Lemma slerp_obtuse_ends a b t : -9999 / 10000 <= hdot a b < 0 ->
    (t <= 0 -> quat_interpolate_slerp (eq4 a) (eq4 b) (Fin t : E) = eq4 a) /\
    (1 <= t -> quat_interpolate_slerp (eq4 a) (eq4 b) (Fin t : E) = eq4 (hneg b)).
  Proof.
    intro Hc. rewrite slerp_eval by (rewrite Rabs_left; lra).
    destruct (Rlt_dec (hdot a b) 0); [| lra]. set (c := hdot a b) in *. assert (P : 0 < 1 - c * c) by nra.
    pose proof (sqrt_lt_R0 _ P) as S.
    pose proof (sin_acos c ltac:(lra)) as SA. unfold Rsqr in SA.
    split; intro Ht; f_equal; unfold slerp_k0, slerp_k1.
    - rewrite clamp01_low by exact Ht. rewrite Rminus_0_r, Rmult_1_l, Rmult_0_l, sin_0, SA.
      replace (sqrt (1 - c * c) / sqrt (1 - c * c)) with 1 by (field; lra). unfold Rdiv. clearbody c. clear. hring.
    - rewrite clamp01_high by exact Ht. rewrite Rminus_eq_0, Rmult_1_l, Rmult_0_l, sin_0, SA.
      replace (sqrt (1 - c * c) / sqrt (1 - c * c)) with 1 by (field; lra). unfold Rdiv. clearbody c. clear. hring.
  Qed.
  Lemma obtuse_pair : hunit hone /\ hunit (H (V (4 / 5) 0 0) (- (3 / 5))) /\
    -9999 / 10000 <= hdot hone (H (V (4 / 5) 0 0) (- (3 / 5))) < 0.
  Proof. unfold hunit, hdot, vdot, hone, vzero. simpl. repeat split; lra. Qed.
  Lemma slerp_obtuse_refuted : ~ (forall a b t, hunit a -> hunit b -> -9999 / 10000 <= hdot a b < 0 -> exists r,
    quat_interpolate_slerp (eq4 a) (eq4 b) (Fin t : E) = eq4 r /\ hunit r).
  Proof.
    intro C. destruct obtuse_pair as [Ha [Hb Hc]]. destruct (C _ _ (1 / 2) Ha Hb Hc) as [r [Hr Hu]].
    destruct (slerp_obtuse_wrong eps zs _ _ (1 / 2) Ha Hb Hc) as [r' [Hr' Hn]]; [lra |].
    rewrite Hr in Hr'. apply eq4_inj in Hr'. subst r'. unfold hunit in Hu. lra.
  Qed.
  Lemma reflect_sum n p : vdot n n = 1 -> exists a b,
    quat_parallel_component_of_plane (eq4 (H n 0)) (ev p) = ev a /\
    quat_orthogonal_component_of_plane (eq4 (H n 0)) (ev p) = ev b /\ vadd a b = p /\ vdot n a = 0 /\ vcross n b = vzero.
  Proof.
    intro Hn. destruct (reflect_eval eps zs n p Hn) as [_ [H1 H2]]. do 2 eexists. split; [exact H1 |]. split; [exact H2 |].
    split; [clear; hring |]. split; [| clear; hring].
    replace (vdot n (vsub p (vscale (vdot n p) n))) with (vdot n p * (1 - vdot n n)) by (clear; hring). rewrite Hn. ring.
  Qed.
  Lemma auto_w_beyond x y z : 1 < x * x + y * y + z * z ->
    quat_init_from_vals_auto_w (Fin x : E) (Fin y) (Fin z) = eq4 (H (V x y z) (1 - x * x - y * y - z * z)).
  Proof. intro Hx. rewrite auto_w_eval. destruct (Rlt_dec _ 0); [reflexivity | lra]. Qed.
End PQuat3.
