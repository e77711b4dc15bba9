(** PMat5.v — the matrix and vector lemmas in the form used by PropertiesMat.v, and f64 witnesses. *)
From Coq Require Import Reals List ZArith NArith Bool Lra Lia ZifyBool ZifyN ZifyNat.
From Flocq Require Import Core BinarySingleNaN.
Import ListNotations.
From Verif Require Import Base Num Vec Mat Float Exact SpecMat SpecReal SpecGeom ExactFacts FloatFacts Order
  PMat PMat2 PMat3 PInv PEqual PVec PMat4.
Local Open Scope R_scope.

Section Generic.
  Context {Nm : Num}.
  Lemma init3_index (arr : arr9 Nm) rm chk i j : (i < 3)%N -> (j < 3)%N ->
    mat3_index chk (mat3_init arr rm) i j = idx (list9 arr) (N.to_nat (3 * i + j)).
  Proof.
    intros Hi Hj. rewrite (init3_repr arr rm chk i j Hi Hj). destruct arr. cases3 i Hi; cases3 j Hj; reflexivity.
  Qed.
  Lemma init4_index (arr : arr16 Nm) rm chk i j : (i < 4)%N -> (j < 4)%N ->
    mat4_index chk (mat4_init arr rm) i j = idx (list16 arr) (N.to_nat (4 * i + j)).
  Proof.
    intros Hi Hj. rewrite (init4_repr arr rm chk i j Hi Hj). destruct arr. cases4 i Hi; cases4 j Hj; reflexivity.
  Qed.
  Lemma index3_oob chk (m : mat3 Nm) :
    exists i j i' j', ((3 <= i) \/ (3 <= j))%N /\ (i' < 3)%N /\ (j' < 3)%N /\ (i, j) <> (i', j') /\
     mat3_index chk m i j = mat3_index chk m i' j' /\ exists x, mat3_index chk m i j = Ok x.
  Proof.
    destruct (index3_alias chk m) as [H [x Hx]].
    exists (if m3_rm m then 0 else 3)%N, (if m3_rm m then 3 else 0)%N, (if m3_rm m then 1 else 0)%N, (if m3_rm m then 0 else 1)%N.
    split; [destruct (m3_rm m); lia |]. split; [destruct (m3_rm m); lia |]. split; [destruct (m3_rm m); lia |].
    split; [destruct (m3_rm m); discriminate |]. split; [exact H |]. exists x. rewrite H. exact Hx.
  Qed.
  Lemma index4_oob chk (m : mat4 Nm) :
    exists i j i' j', ((4 <= i) \/ (4 <= j))%N /\ (i' < 4)%N /\ (j' < 4)%N /\ (i, j) <> (i', j') /\
     mat4_index chk m i j = mat4_index chk m i' j' /\ exists x, mat4_index chk m i j = Ok x.
  Proof.
    destruct (index4_alias chk m) as [H [x Hx]].
    exists (if m4_rm m then 0 else 4)%N, (if m4_rm m then 4 else 0)%N, (if m4_rm m then 1 else 0)%N, (if m4_rm m then 0 else 1)%N.
    split; [destruct (m4_rm m); lia |]. split; [destruct (m4_rm m); lia |]. split; [destruct (m4_rm m); lia |].
    split; [destruct (m4_rm m); discriminate |]. split; [exact H |]. exists x. rewrite H. exact Hx.
  Qed.
  Lemma index_rule (m : mat3 Nm) (m' : mat4 Nm) (chk : bool) (i j : N) :
    let o3 := (if m3_rm m then 3 * i + j else i + 3 * j)%N in
    let o4 := (if m4_rm m' then 4 * i + j else i + 4 * j)%N in
    let k3 := if chk then o3 else (o3 mod 2 ^ 64)%N in
    let k4 := if chk then o4 else (o4 mod 2 ^ 64)%N in
    ((k3 < 9)%N -> mat3_index chk m i j = idx (list9 (m3_val m)) (N.to_nat k3)) /\
    ((9 <= k3)%N -> exists k, mat3_index chk m i j = Panic k) /\
    ((k4 < 16)%N -> mat4_index chk m' i j = idx (list16 (m4_val m')) (N.to_nat k4)) /\
    ((16 <= k4)%N -> exists k, mat4_index chk m' i j = Panic k).
  Proof.
    intros o3 o4 k3 k4.
    assert (E3 : k3 = used_offset chk 3 (m3_rm m) i j).
    { unfold k3, o3, used_offset, offset. rewrite (N.mul_comm i 3), (N.mul_comm j 3). reflexivity. }
    assert (E4 : k4 = used_offset chk 4 (m4_rm m') i j).
    { unfold k4, o4, used_offset, offset. rewrite (N.mul_comm i 4), (N.mul_comm j 4). reflexivity. }
    destruct (index3_exact chk m i j) as [A B]. destruct (index4_exact chk m' i j) as [C D].
    rewrite <- E3 in A, B. rewrite <- E4 in C, D. clearbody k3 k4. clear o3 o4 E3 E4.
    split; [| split; [exact B | split; [| exact D]]].
    - intro H. rewrite (A H), nth_rows9 by exact H. reflexivity.
    - intro H. rewrite (C H), nth_rows16 by exact H. reflexivity.
  Qed.
  Lemma transpose_all (m : mat3 Nm) (m' : mat4 Nm) (f g : lmat Nm) : repr3 m f -> repr4 m' g ->
    (exists t, mat3_transpose m = Ok t /\ m3_rm t = m3_rm m /\ repr3 t (fun i j => f j i) /\ mat3_transpose t = Ok m) /\
    (exists t, mat4_transpose m' = Ok t /\ m4_rm t = m4_rm m' /\ repr4 t (fun i j => g j i) /\ mat4_transpose t = Ok m').
  Proof.
    intros A B. split.
    - destruct (transpose3_repr m f A) as [t [E1 [E2 E3]]]. exists t. repeat split; try assumption.
      pose proof (transpose3_inv m) as H. rewrite E1 in H. exact H.
    - destruct (transpose4_repr m' g B) as [t [E1 [E2 E3]]]. exists t. repeat split; try assumption.
      pose proof (transpose4_inv m') as H. rewrite E1 in H. exact H.
  Qed.
  Lemma transpose_vectors (a : mat2x1 Nm) (b : mat3x1 Nm) (c : mat4x1 Nm) (d : mat1x2 Nm) (e : mat1x3 Nm) (f : mat1x4 Nm) :
    (v1x2 (mat2x1_transpose a) = v2x1 a /\ mat1x2_transpose (mat2x1_transpose a) = a) /\
    (v1x3 (mat3x1_transpose b) = v3x1 b /\ mat1x3_transpose (mat3x1_transpose b) = b) /\
    (v1x4 (mat4x1_transpose c) = v4x1 c /\ mat1x4_transpose (mat4x1_transpose c) = c) /\
    (v2x1 (mat1x2_transpose d) = v1x2 d /\ mat2x1_transpose (mat1x2_transpose d) = d) /\
    (v3x1 (mat1x3_transpose e) = v1x3 e /\ mat3x1_transpose (mat1x3_transpose e) = e) /\
    (v4x1 (mat1x4_transpose f) = v1x4 f /\ mat4x1_transpose (mat1x4_transpose f) = f).
  Proof. destruct a as [[]], b as [[]], c as [[]], d as [[]], e as [[]], f as [[]]. repeat split. Qed.

  Lemma elem3_all (a b : mat3 Nm) (f g : lmat Nm) (s : Nm) : m3_rm a = m3_rm b -> repr3 a f -> repr3 b g ->
    (exists c, mat3_plus a b = Some c /\ m3_rm c = m3_rm a /\ repr3 c (fun i j => nadd Nm (f i j) (g i j))) /\
    (exists c, mat3_minus a b = Some c /\ m3_rm c = m3_rm a /\ repr3 c (fun i j => nsub Nm (f i j) (g i j))) /\
    (exists c, mat3_mul_elem a b = Some c /\ m3_rm c = m3_rm a /\ repr3 c (fun i j => nmul Nm (f i j) (g i j))) /\
    (exists c, mat3_div a b = Some c /\ m3_rm c = m3_rm a /\ repr3 c (fun i j => ndiv Nm (f i j) (g i j))) /\
    (exists c, mat3_scale a s = Ok (Some c) /\ m3_rm c = m3_rm a /\ repr3 c (fun i j => nmul Nm (f i j) s)).
  Proof.
    intros Hrm Ha Hb. assert (He : Bool.eqb (m3_rm a) (m3_rm b) = true) by (rewrite Hrm; apply eqb_reflx).
    split; [| split; [| split; [| split]]].
    - pose proof (plus3_elem a b f g Ha Hb) as H. rewrite He in H. exact H.
    - pose proof (minus3_elem a b f g Ha Hb) as H. rewrite He in H. exact H.
    - pose proof (mul_elem3_elem a b f g Ha Hb) as H. rewrite He in H. exact H.
    - pose proof (div3_elem a b f g Ha Hb) as H. rewrite He in H. exact H.
    - exact (scale3_elem a s f Ha).
  Qed.
  Lemma elem4_all (a b : mat4 Nm) (f g : lmat Nm) (s : Nm) : m4_rm a = m4_rm b -> repr4 a f -> repr4 b g ->
    (exists c, mat4_plus a b = Some c /\ m4_rm c = m4_rm a /\ repr4 c (fun i j => nadd Nm (f i j) (g i j))) /\
    (exists c, mat4_minus a b = Some c /\ m4_rm c = m4_rm a /\ repr4 c (fun i j => nsub Nm (f i j) (g i j))) /\
    (exists c, mat4_mul_elem a b = Some c /\ m4_rm c = m4_rm a /\ repr4 c (fun i j => nmul Nm (f i j) (g i j))) /\
    (exists c, mat4_div a b = Some c /\ m4_rm c = m4_rm a /\ repr4 c (fun i j => ndiv Nm (f i j) (g i j))) /\
    (exists c, mat4_scale a s = Ok (Some c) /\ m4_rm c = m4_rm a /\ repr4 c (fun i j => nmul Nm (f i j) s)).
  Proof.
    intros Hrm Ha Hb. assert (He : Bool.eqb (m4_rm a) (m4_rm b) = true) by (rewrite Hrm; apply eqb_reflx).
    split; [| split; [| split; [| split]]].
    - pose proof (plus4_elem a b f g Ha Hb) as H. rewrite He in H. exact H.
    - pose proof (minus4_elem a b f g Ha Hb) as H. rewrite He in H. exact H.
    - pose proof (mul_elem4_elem a b f g Ha Hb) as H. rewrite He in H. exact H.
    - pose proof (div4_elem a b f g Ha Hb) as H. rewrite He in H. exact H.
    - exact (scale4_elem a s f Ha).
  Qed.
  (** mixed layouts: every element-wise operation reads the second operand transposed *)
  Lemma elem_mixed3 (a b : mat3 Nm) (f g : lmat Nm) : m3_rm a <> m3_rm b -> repr3 a f -> repr3 b g ->
    (exists c, mat3_plus a b = Some c /\ m3_rm c = m3_rm a /\ repr3 c (fun i j => nadd Nm (f i j) (g j i))) /\
    (exists c, mat3_minus a b = Some c /\ m3_rm c = m3_rm a /\ repr3 c (fun i j => nsub Nm (f i j) (g j i))) /\
    (exists c, mat3_mul_elem a b = Some c /\ m3_rm c = m3_rm a /\ repr3 c (fun i j => nmul Nm (f i j) (g j i))) /\
    (exists c, mat3_div a b = Some c /\ m3_rm c = m3_rm a /\ repr3 c (fun i j => ndiv Nm (f i j) (g j i))).
  Proof.
    intros Hrm Ha Hb. apply eqb_false_iff in Hrm. split; [| split; [| split]].
    - pose proof (plus3_elem a b f g Ha Hb) as H. rewrite Hrm in H. exact H.
    - pose proof (minus3_elem a b f g Ha Hb) as H. rewrite Hrm in H. exact H.
    - pose proof (mul_elem3_elem a b f g Ha Hb) as H. rewrite Hrm in H. exact H.
    - pose proof (div3_elem a b f g Ha Hb) as H. rewrite Hrm in H. exact H.
  Qed.
  Lemma elem_mixed4 (a b : mat4 Nm) (f g : lmat Nm) : m4_rm a <> m4_rm b -> repr4 a f -> repr4 b g ->
    (exists c, mat4_plus a b = Some c /\ m4_rm c = m4_rm a /\ repr4 c (fun i j => nadd Nm (f i j) (g j i))) /\
    (exists c, mat4_minus a b = Some c /\ m4_rm c = m4_rm a /\ repr4 c (fun i j => nsub Nm (f i j) (g j i))) /\
    (exists c, mat4_mul_elem a b = Some c /\ m4_rm c = m4_rm a /\ repr4 c (fun i j => nmul Nm (f i j) (g j i))) /\
    (exists c, mat4_div a b = Some c /\ m4_rm c = m4_rm a /\ repr4 c (fun i j => ndiv Nm (f i j) (g j i))).
  Proof.
    intros Hrm Ha Hb. apply eqb_false_iff in Hrm. split; [| split; [| split]].
    - pose proof (plus4_elem a b f g Ha Hb) as H. rewrite Hrm in H. exact H.
    - pose proof (minus4_elem a b f g Ha Hb) as H. rewrite Hrm in H. exact H.
    - pose proof (mul_elem4_elem a b f g Ha Hb) as H. rewrite Hrm in H. exact H.
    - pose proof (div4_elem a b f g Ha Hb) as H. rewrite Hrm in H. exact H.
  Qed.
End Generic.

(** ---- f64 witnesses ---- *)
Section Witness.
  Context (lm : libm f64).
  Notation F := (F64 lm).
  Definition zz (z : Z) : F := @f_int 53 1024 f64_prec_gt_0 f64_prec_lt_emax z.

  Lemma inv4_f64_wrong : exists m : mat4 F, m4_rm m = true /\
    (let! o := mat4_inverse m in let! r := unwrap o in let! o := mat4_mul m r in let! p := unwrap o in
     let! i := mat4_iden in mat4_is_equal p i (nlit F 1 2)) = Ok (Some false).
  Proof.
    exists (mat4_init (A16 (zz 1) (zz 1) (zz 0) (zz 0) (zz 0) (zz 1) (zz 0) (zz 0)
                           (zz 0) (zz 0) (zz 1) (zz 0) (zz 0) (zz 0) (zz 0) (zz 1)) true).
    split; [reflexivity | vm_compute; reflexivity].
  Qed.
  Lemma inv3_f64_wrong : exists m : mat3 F, m3_rm m = true /\
    (let! o := mat3_inverse m in let! r := unwrap o in let! o := mat3_mul m r in let! p := unwrap o in
     let! i := mat3_iden in mat3_is_equal p i (nlit F 1 2)) = Ok (Some false).
  Proof.
    exists (mat3_init (A9 (zz 1) (zz 0) (zz 0) (zz 0) (zz 1) (zz 0) (zz 0) (zz 0) (zz 1)) true).
    split; [reflexivity | vm_compute; reflexivity].
  Qed.
  Lemma plus_mixed_f64 : exists (a b c : mat3 F), mat3_plus a b = Some c /\
    (let! x := mat3_index true a 0 1 in let! y := mat3_index true b 0 1 in let! z := mat3_index true c 0 1 in
     Ok (neqb z (nadd F x y))) = Ok false.
  Proof.
    pose (v := A9 (zz 1) (zz 2) (zz 3) (zz 4) (zz 5) (zz 6) (zz 7) (zz 8) (zz 9)).
    exists (mat3_init v true), (mat3_init v false). eexists. split; [reflexivity | vm_compute; reflexivity].
  Qed.
  (** u = 1 + 2^-52, v = 1, e = 2^-53 *)
  Lemma is_equal_asym : exists (u v : mat3x1 F) (e : F),
    mat3x1_is_equal u v e = Some false /\ mat3x1_is_equal v u e = Some true.
  Proof.
    pose (u1 := nadd F (zz 1) (neps F)).
    exists (M3x1 (A3 u1 u1 u1)), (M3x1 (A3 (zz 1) (zz 1) (zz 1))), (ndiv F (neps F) (zz 2)).
    split; vm_compute; reflexivity.
  Qed.
End Witness.

Section ExactVec.
  Context (eps : R) (zs : XR -> bool).
  Notation E := (Exact eps zs).

  Lemma inv4_shear_case : 0 < eps <= 1 -> exists m : mat4 E,
    repr4 m (fin shear : lmat E) /\ exists r, mat4_inverse m = Ok (Some r).
  Proof.
    intro He. pose (m := mat4_init (shear_arr eps zs) true).
    assert (Hm : repr4 m (fin shear : lmat E)).
    { apply repr4_iff. intros i j Hi Hj. cases4 i Hi; cases4 j Hj; reflexivity. }
    exists m. split; [exact Hm |].
    destruct (proj2 (inv4_fin eps zs m shear Hm)) as [r [H _]].
    - rewrite shear_det, Rabs_R1. lra.
    - rewrite shear_det. lra.
    - exists r. exact H.
  Qed.

  Lemma vec_magnitude_laws k (u : vcar E k) l (s : R) : isv eps zs u l ->
    exists m, vec_magnitude u = Some (Fin m : E) /\ 0 <= m /\ m * m = ldot l l /\
      (m = 0 <-> Forall (fun x => x = 0) l) /\
      exists w, vec_scale u (Fin s : E) = Some w /\ vec_magnitude w = Some (Fin (Rabs s * m) : E).
  Proof.
    intro Hu. exists (lnorm l). split; [apply vec_magnitude_exact; exact Hu |].
    split; [apply lnorm_pos |]. split; [apply lnorm_sq |]. split; [apply lnorm_zero |].
    destruct (vec_scale_exact eps zs k u l s Hu) as [w [E1 E2]]. exists w. split; [exact E1 |].
    rewrite (vec_magnitude_exact eps zs k w _ E2), lnorm_map. reflexivity.
  Qed.
  Lemma vec_normalize_laws k (u : vcar E k) l : isv eps zs u l -> ~ Forall (fun x => x = 0) l ->
    exists w c, vec_normalize u = Ok (Some w) /\ 0 < c /\ isv eps zs w (map (Rmult c) l) /\
      vec_magnitude w = Some (Fin 1 : E).
  Proof.
    intros Hu Hn. assert (H0 : lnorm l <> 0) by (intro H; apply Hn, lnorm_zero, H).
    destruct (proj1 (vec_normalize_exact eps zs k u l Hu) H0) as [w [E1 E2]].
    exists w, (/ lnorm l). split; [exact E1 |]. split.
    - apply Rinv_0_lt_compat. pose proof (lnorm_pos l). lra.
    - split; [exact E2 |]. rewrite (vec_magnitude_exact eps zs k w _ E2), lnorm_unit by exact H0. reflexivity.
  Qed.
  Lemma cross_laws (u v : V3) : exists w,
    mat3x1_cross (ev eps zs u) (ev eps zs v) = Some (ev eps zs w) /\
    mat1x3_cross (M1x3 (v3x1 (ev eps zs u))) (M1x3 (v3x1 (ev eps zs v))) = Some (M1x3 (v3x1 (ev eps zs w))) /\
    w = V (vy u * vz v - vz u * vy v) (vz u * vx v - vx u * vz v) (vx u * vy v - vy u * vx v) /\
    vdot u w = 0 /\ vdot v w = 0 /\
    mat3x1_cross (ev eps zs v) (ev eps zs u) = Some (ev eps zs (vscale (-1) w)) /\
    vdot w w = vdot u u * vdot v v - vdot u v * vdot u v.
  Proof.
    exists (vcross u v). split; [apply ev_cross |]. split; [apply cross_1x3 |]. split; [reflexivity |].
    destruct (vcross_orth u v) as [H1 H2]. split; [exact H1 |]. split; [exact H2 |]. split.
    - rewrite ev_cross. do 2 f_equal. apply vcross_anti.
    - rewrite <- norm_sq. apply vcross_lagrange.
  Qed.
  Lemma cross_bilinear (a b : R) (u v w : V3) : exists p q r s,
    mat3x1_cross (ev eps zs u) (ev eps zs w) = Some (ev eps zs p) /\
    mat3x1_cross (ev eps zs v) (ev eps zs w) = Some (ev eps zs q) /\
    mat3x1_cross (ev eps zs (vadd (vscale a u) (vscale b v))) (ev eps zs w) = Some (ev eps zs (vadd (vscale a p) (vscale b q))) /\
    mat3x1_cross (ev eps zs w) (ev eps zs u) = Some (ev eps zs r) /\
    mat3x1_cross (ev eps zs w) (ev eps zs v) = Some (ev eps zs s) /\
    mat3x1_cross (ev eps zs w) (ev eps zs (vadd (vscale a u) (vscale b v))) = Some (ev eps zs (vadd (vscale a r) (vscale b s))).
  Proof.
    destruct (vcross_bilin a b u v w) as [H1 H2].
    exists (vcross u w), (vcross v w), (vcross w u), (vcross w v).
    rewrite !ev_cross, H1, H2. repeat split.
  Qed.
  Lemma vec_inequalities k (u v : vcar E k) l r : isv eps zs u l -> isv eps zs v r ->
    exists d m n w s, vec_dot u v = Some (Fin d : E) /\ vec_magnitude u = Some (Fin m : E) /\
      vec_magnitude v = Some (Fin n : E) /\ vec_plus u v = Some w /\ vec_magnitude w = Some (Fin s : E) /\
      Rabs d <= m * n /\ s <= m + n.
  Proof.
    intros Hu Hv. destruct (vec_plus_exact eps zs k u v l r Hu Hv) as [w [E1 E2]].
    exists (ldot l r), (lnorm l), (lnorm r), w, (lnorm (lzip Rplus l r)).
    rewrite (vec_dot_exact eps zs k u v l r Hu Hv), (vec_magnitude_exact eps zs k u l Hu),
      (vec_magnitude_exact eps zs k v r Hv), (vec_magnitude_exact eps zs k w _ E2).
    repeat split; try assumption; [apply lcauchy | apply ltriangle].
    pose proof (vcomps_len k u) as L1. pose proof (vcomps_len k v) as L2. unfold isv in Hu, Hv.
    rewrite Hu, map_length in L1. rewrite Hv, map_length in L2. congruence.
  Qed.
End ExactVec.

Lemma vec_commutative prec emax {Hp : Prec_gt_0 prec} {Hm : Prec_lt_emax prec emax} lm k
  (u v : vcar (@Ieee prec emax Hp Hm lm) k) :
  vec_dot u v = vec_dot v u /\ vec_plus u v = vec_plus v u /\ vec_mul_elem u v = vec_mul_elem v u.
Proof.
  split; [| split].
  - apply vec_dot_comm. apply nmul_comm_F.
  - apply vec_plus_comm. apply nadd_comm_F.
  - apply vec_mul_elem_comm. apply nmul_comm_F.
Qed.
