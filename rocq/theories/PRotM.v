(** PRotM.v — rotation matrices of products, conjugates and inverses, exact arithmetic (C125). *)
From Coq Require Import Reals List ZArith NArith Bool Lra Lia Psatz.
Import ListNotations.
From Verif Require Import Base Num Vec Mat Quat Exact SpecMat SpecReal SpecGeom SpecBound SpecQuat SpecFq SpecRotM ExactFacts PMat PMat2 PMat3 PInv PQuat PQuat3.
Local Open Scope R_scope.

Ltac nbool := repeat match goal with |- context [N.ltb ?a ?b] => let c := eval vm_compute in (N.ltb a b) in change (N.ltb a b) with c | |- context [N.eqb ?a ?b] => let c := eval vm_compute in (N.eqb a b) in change (N.eqb a b) with c end; cbn [andb].
Lemma hmat_rot q : hunit q -> lmat_eq 4 (hmat q) (rotmat q).
Proof. intros Hu i j Hi Hj. unfold hmat. cases4 i Hi; cases4 j Hj; nbool; try reflexivity; symmetry; apply rot_columns; (exact Hu || reflexivity). Qed.
Lemma hmat_comp p v i : (i < 3)%N -> SpecBound.comp i (hrot p v) = SpecBound.comp i (hrot p (axis 0)) * vx v + SpecBound.comp i (hrot p (axis 1)) * vy v + SpecBound.comp i (hrot p (axis 2)) * vz v.
Proof.
  intro Hi. assert (E : v = vadd (vscale 1 (vadd (vscale (vx v) (axis 0)) (vscale (vy v) (axis 1)))) (vscale (vz v) (axis 2))) by (destruct v; apply V3_eq; cbn; ring).
  rewrite E at 1. rewrite !hrot_add. cases3 i Hi; cbn; ring.
Qed.
Lemma hmat_mul p q : lmat_eq 4 (rmul4 (hmat p) (hmat q)) (hmat (hmul p q)).
Proof.
  intros i j Hi Hj. unfold rmul4, rsum4, hmat. assert (K : forall i j, (i < 3)%N -> SpecBound.comp i (hrot p (axis 0)) * SpecBound.comp 0 (hrot q (axis j)) + SpecBound.comp i (hrot p (axis 1)) * SpecBound.comp 1 (hrot q (axis j)) + SpecBound.comp i (hrot p (axis 2)) * SpecBound.comp 2 (hrot q (axis j)) = SpecBound.comp i (hrot (hmul p q) (axis j))).
  { intros i0 j0 Hi0. rewrite hrot_comp, (hmat_comp p (hrot q (axis j0)) i0 Hi0). reflexivity. }
  cases4 i Hi; cases4 j Hj; nbool; rewrite <- ?K by reflexivity; ring.
Qed.
Lemma hmat_unit_mul p q : hunit p -> hunit q -> hunit (hmul p q).
Proof. unfold hunit. intros Hp Hq. replace (hdot (hmul p q) (hmul p q)) with (hdot p p * hdot q q) by (destruct p as [[? ? ?] ?], q as [[? ? ?] ?]; unfold hdot, vdot; cbn; unfold vdot; cbn; ring). rewrite Hp, Hq. ring. Qed.
Lemma rotmat_mul p q : hunit p -> hunit q -> lmat_eq 4 (rmul4 (rotmat p) (rotmat q)) (rotmat (hmul p q)).
Proof.
  intros Hp Hq i j Hi Hj. rewrite <- (hmat_rot (hmul p q) (hmat_unit_mul p q Hp Hq) i j Hi Hj), <- (hmat_mul p q i j Hi Hj). unfold rmul4, rsum4. rewrite !(hmat_rot p Hp), !(hmat_rot q Hq) by (assumption || reflexivity). reflexivity.
Qed.
Lemma rotmat_conj q : lmat_eq 4 (rotmat (hconj q)) (ltrans (rotmat q)).
Proof. intros i j Hi Hj. destruct q as [[x y z] w]. unfold ltrans. cases4 i Hi; cases4 j Hj; unfold rotmat, hconj, vscale; cbn; ring. Qed.
Lemma rotmat_orth q : hunit q -> lmat_eq 4 (rmul4 (ltrans (rotmat q)) (rotmat q)) riden.
Proof.
  intros Hu i j Hi Hj. transitivity (rmul4 (rotmat (hconj q)) (rotmat q) i j); [unfold rmul4, rsum4; rewrite !(rotmat_conj q) by (assumption || reflexivity); reflexivity |].
  rewrite (rotmat_mul (hconj q) q (hunit_conj q Hu) Hu i j Hi Hj). assert (E : hmul (hconj q) q = hone). { unfold hunit in Hu. destruct q as [[x y z] w]. unfold hdot, vdot in Hu. cbn in Hu. unfold hmul, hconj, hone. cbn. f_equal; [apply V3_eq; cbn; ring |]. unfold vdot. cbn. lra. }
  rewrite E. cases4 i Hi; cases4 j Hj; cbn; lra.
Qed.
Lemma squares4 a b c d : a * a + b * b + c * c + d * d = 0 -> a = 0 /\ b = 0 /\ c = 0 /\ d = 0.
Proof.
  intro S. pose proof (Rle_0_sqr a). pose proof (Rle_0_sqr b). pose proof (Rle_0_sqr c). pose proof (Rle_0_sqr d). unfold Rsqr in *.
  assert (Z : forall t, t * t = 0 -> t = 0) by (intros t T; apply Rmult_integral in T; tauto). repeat split; apply Z; lra.
Qed.
(** two unit quaternions have the same matrix only if they are equal or opposite *)
Lemma rotmat_faithful p q : hunit p -> hunit q -> lmat_eq 3 (rotmat p) (rotmat q) -> p = q \/ p = hneg q.
Proof.
  intros Hp Hq E. pose proof (E 0%N 0%N eq_refl eq_refl) as E00. pose proof (E 1%N 1%N eq_refl eq_refl) as E11. pose proof (E 2%N 2%N eq_refl eq_refl) as E22.
  pose proof (E 0%N 1%N eq_refl eq_refl) as E01. pose proof (E 1%N 0%N eq_refl eq_refl) as E10. pose proof (E 0%N 2%N eq_refl eq_refl) as E02. pose proof (E 2%N 0%N eq_refl eq_refl) as E20. pose proof (E 1%N 2%N eq_refl eq_refl) as E12. pose proof (E 2%N 1%N eq_refl eq_refl) as E21.
  destruct p as [[a b c] d], q as [[x y z] w]. unfold hunit, hdot, vdot in Hp, Hq. cbn in *.
  assert (aa : a * a = x * x) by lra. assert (bb : b * b = y * y) by lra. assert (cc : c * c = z * z) by lra. assert (dd : d * d = w * w) by lra.
  assert (ab : a * b = x * y) by lra. assert (ac : a * c = x * z) by lra. assert (bc : b * c = y * z) by lra. assert (ad : a * d = x * w) by lra. assert (bd : b * d = y * w) by lra. assert (cd : c * d = z * w) by lra.
  set (k := a * x + b * y + c * z + d * w). assert (K : k * k = 1).
  { assert (K1 : k * k = (a * a) * (x * x) + (b * b) * (y * y) + (c * c) * (z * z) + (d * d) * (w * w) + 2 * ((a * b) * (x * y) + (a * c) * (x * z) + (b * c) * (y * z) + (a * d) * (x * w) + (b * d) * (y * w) + (c * d) * (z * w))) by (unfold k; ring).
    rewrite K1, aa, bb, cc, dd, ab, ac, bc, ad, bd, cd. replace 1 with ((x * x + y * y + z * z + w * w) * (x * x + y * y + z * z + w * w)) by (rewrite Hq; ring). ring. }
  assert (k = 1 \/ k = -1) as [K1 | K1] by (assert (KK : (k - 1) * (k + 1) = 0) by lra; apply Rmult_integral in KK; destruct KK; [left | right]; lra).
  - left. assert (S : (a - x) * (a - x) + (b - y) * (b - y) + (c - z) * (c - z) + (d - w) * (d - w) = 0) by (replace ((a - x) * (a - x) + (b - y) * (b - y) + (c - z) * (c - z) + (d - w) * (d - w)) with ((a * a + b * b + c * c + d * d) + (x * x + y * y + z * z + w * w) - 2 * k) by (unfold k; ring); lra).
    apply squares4 in S. destruct S as (S1 & S2 & S3 & S4). f_equal; [f_equal |]; lra.
  - right. assert (S : (a + x) * (a + x) + (b + y) * (b + y) + (c + z) * (c + z) + (d + w) * (d + w) = 0) by (replace ((a + x) * (a + x) + (b + y) * (b + y) + (c + z) * (c + z) + (d + w) * (d + w)) with ((a * a + b * b + c * c + d * d) + (x * x + y * y + z * z + w * w) + 2 * k) by (unfold k; ring); lra).
    apply squares4 in S. destruct S as (S1 & S2 & S3 & S4). unfold hneg, hscale, vscale. cbn. f_equal; [f_equal |]; lra.
Qed.

Section Lib.
  Context (eps : R) (zs : XR -> bool).
  Notation E := (Exact eps zs).
  Notation eq4 := (eq4 eps zs).
  Lemma col_repr q : repr4 (quat_to_rotation_matrix (eq4 q) false) (fin (rotmat (hconj q)) : lmat E).
  Proof. apply repr4_iff. intros i j Hi Hj. destruct q as [[x y z] w]. unfold fin, rotmat. cases4 i Hi; cases4 j Hj; try reflexivity; apply (f_equal Fin); cbn; ring. Qed.
  Lemma fin_repr (m : mat4 E) f g : repr4 m (fin f : lmat E) -> lmat_eq 4 f g -> repr4 m (fin g : lmat E).
  Proof. intros R Q. apply repr4_iff. apply repr4_iff in R. intros i j Hi Hj. rewrite (R i j Hi Hj). unfold fin. rewrite (Q i j Hi Hj). reflexivity. Qed.
  Theorem rot_mat_mul p q : hunit p -> hunit q ->
    mat4_mul (quat_to_rotation_matrix (eq4 p) true) (quat_to_rotation_matrix (eq4 q) true) = Ok (Some (quat_to_rotation_matrix (quat_mul (eq4 p) (eq4 q)) true)) /\
    mat4_mul (quat_to_rotation_matrix (eq4 p) false) (quat_to_rotation_matrix (eq4 q) false) = Ok (Some (quat_to_rotation_matrix (quat_mul (eq4 q) (eq4 p)) false)).
  Proof.
    intros Hp Hq. split.
    - destruct (mul4_fin eps zs (quat_to_rotation_matrix (eq4 p) true) (quat_to_rotation_matrix (eq4 q) true) _ _ eq_refl (rot_repr eps zs p) (rot_repr eps zs q)) as (c & C1 & C2 & C3). rewrite C1. do 2 f_equal. rewrite q_mul. eapply repr4_inj; [exact C2 | exact C3 |]. eapply fin_repr; [apply rot_repr |]. intros i j Hi Hj. symmetry. apply rotmat_mul; assumption.
    - destruct (mul4_fin eps zs (quat_to_rotation_matrix (eq4 p) false) (quat_to_rotation_matrix (eq4 q) false) _ _ eq_refl (col_repr p) (col_repr q)) as (c & C1 & C2 & C3). rewrite C1. do 2 f_equal. rewrite q_mul. eapply repr4_inj; [exact C2 | exact C3 |]. eapply fin_repr; [apply col_repr |]. intros i j Hi Hj. symmetry.
      rewrite (rotmat_mul _ _ (hunit_conj p Hp) (hunit_conj q Hq) i j Hi Hj). f_equal. destruct p as [[? ? ?] ?], q as [[? ? ?] ?]. unfold hmul, hconj. cbn. f_equal; [apply V3_eq; cbn; ring | unfold vdot; cbn; ring].
  Qed.
  Theorem rot_mat_conj q : mat4_transpose (quat_to_rotation_matrix (eq4 q) true) = Ok (quat_to_rotation_matrix (quat_conjugate (eq4 q)) true).
  Proof.
    destruct (transpose4_repr _ _ (rot_repr eps zs q)) as (t & T1 & T2 & T3). rewrite T1. f_equal. rewrite q_conj. eapply repr4_inj; [exact T2 | exact T3 |]. apply (fin_repr _ _ _ (rot_repr eps zs (hconj q))). apply rotmat_conj.
  Qed.
  Theorem rot_mat_inverse q : 0 < eps <= 1 -> hunit q -> mat4_inverse (quat_to_rotation_matrix (eq4 q) true) = Ok (Some (quat_to_rotation_matrix (eq4 q) true)).
  Proof.
    intros [E0 E1] Hu. destruct (inv4_meaning eps zs _ _ E0 (rot_repr eps zs q)) as (D & M & [o O]). rewrite O. f_equal. destruct (M o O) as [-> | (r & g & -> & R1 & R2 & R3 & R4)].
    - exfalso. apply D in O. assert (K : rdet4 (rotmat q) = rdet3 (rotmat q)) by (destruct q as [[x y z] w]; cbv -[Rplus Rmult Rminus Ropp IZR]; ring). rewrite K, (rot_det q Hu), Rabs_R1 in O. lra.
    - f_equal. eapply repr4_inj; [exact R1 | exact R2 |]. apply (fin_repr _ _ _ (rot_repr eps zs q)). intros i j Hi Hj.
      assert (K : forall a b, (a < 4)%N -> (b < 4)%N -> rmul4 (rmul4 (ltrans (rotmat q)) (rotmat q)) (fun i j => g j i) a b = rmul4 (ltrans (rotmat q)) (rmul4 (rotmat q) (fun i j => g j i)) a b) by (intros; unfold rmul4, rsum4; ring).
      specialize (K j i Hj Hi). unfold rmul4 at 1 3 in K. unfold rsum4 at 1 2 in K. rewrite !(rotmat_orth q Hu), !R3 in K by (assumption || reflexivity). revert K. unfold ltrans, riden. cases4 i Hi; cases4 j Hj; cbn; lra.
  Qed.
  Theorem rot_mat_same p q : hunit p -> hunit q -> (quat_to_rotation_matrix (eq4 p) true = quat_to_rotation_matrix (eq4 q) true <-> p = q \/ p = hneg q).
  Proof.
    intros Hp Hq. split.
    - intro EQ. apply rotmat_faithful; [exact Hp | exact Hq |]. pose proof (rot_repr eps zs p) as Rp. pose proof (rot_repr eps zs q) as Rq. rewrite EQ in Rp. apply repr4_iff in Rp. apply repr4_iff in Rq. intros i j Hi Hj.
      assert (K : (fin (rotmat p) i j : E) = fin (rotmat q) i j) by (rewrite <- (Rp i j), <- (Rq i j) by lia; reflexivity). injection K as K. exact K.
    - intros [-> | ->]; [reflexivity |]. eapply repr4_inj; [reflexivity | apply rot_repr |]. apply (fin_repr _ _ _ (rot_repr eps zs q)). intros i j Hi Hj. destruct q as [[? ? ?] ?]. cases4 i Hi; cases4 j Hj; cbn; ring.
  Qed.
End Lib.
