(** PropertiesMisc.v — C72 (vector elements), C73 (element-wise vector operations), C74 (the remaining methods of Mat3 and
    Mat4), C75 (default values and the unimplemented parts of the bounds) and nothing else. *)
From Coq Require Import Reals List ZArith NArith Bool Lra Lia.
From Flocq Require Import Core BinarySingleNaN.
Import ListNotations.
From Verif Require Import Base Num Vec Mat Quat Bound Shape Intersect Float Exact SpecMat SpecReal SpecGeom SpecQuat SpecBound SpecMisc
  Order ExactFacts PMat PVec PQuat PMisc.
Local Open Scope R_scope.

(** ---- C72 ---- *)
(** all six vector types, every scalar arithmetic *)
Theorem C72_read {Nm : Num} k (v : vcar Nm k) i :
  ((i < vlen k)%nat -> exists x, vec_index v i = Ok x /\ nth_error (vcomps v) i = Some x) /\
  ((vlen k <= i)%nat -> vec_index v i = Panic PIndex).
Proof. exact (conj (vec_index_some k v i) (vec_index_out k v i)). Qed.
Print Assumptions C72_read.
Theorem C72_write {Nm : Num} k (v : vcar Nm k) i x :
  ((i < vlen k)%nat -> exists w, vec_set v i x = Ok w /\ vcomps w = upd (vcomps v) i x) /\
  ((vlen k <= i)%nat -> vec_set v i x = Panic PIndex).
Proof. exact (conj (vec_set_in k v i x) (vec_set_out k v i x)). Qed.
Print Assumptions C72_write.
Theorem C72_read_after_write {Nm : Num} k (v w : vcar Nm k) i j x : vec_set v i x = Ok w ->
  vec_index w j = if (j =? i)%nat then Ok x else vec_index v j.
Proof. exact (vec_read_write k v w i j x). Qed.
Print Assumptions C72_read_after_write.
Example C72_case lm : let F := F64 lm in exists w, vec_set (k := K3x1) (M3x1 (A3 n0 n1 n2) : mat3x1 F) 2 n0 = Ok w /\
  vec_index (k := K3x1) w 2 = Ok n0 /\ vec_index (k := K3x1) w 1 = Ok n1 /\ vec_index (k := K3x1) w 3 = Panic PIndex.
Proof. eexists. repeat split; reflexivity. Qed.

(** ---- C73 ---- *)
Theorem C73_elementwise {Nm : Num} k (u v : vcar Nm k) (s : Nm) :
  (exists w, vec_plus u v = Some w /\ vcomps w = lzip (nadd Nm) (vcomps u) (vcomps v)) /\
  (exists w, vec_minus u v = Some w /\ vcomps w = lzip (nsub Nm) (vcomps u) (vcomps v)) /\
  (exists w, vec_mul_elem u v = Some w /\ vcomps w = lzip (nmul Nm) (vcomps u) (vcomps v)) /\
  (exists w, vec_div u v = Some w /\ vcomps w = lzip (ndiv Nm) (vcomps u) (vcomps v)) /\
  (exists w, vec_scale u s = Some w /\ vcomps w = map (fun x => nmul Nm x s) (vcomps u)).
Proof. exact (conj (vec_plus_comps k u v) (conj (vec_minus_comps k u v) (conj (vec_mul_elem_comps k u v) (conj (vec_div_comps k u v) (vec_scale_comps k u s))))). Qed.
Print Assumptions C73_elementwise.
Theorem C73_default_size {Nm : Num} k (v : vcar Nm k) :
  vcomps (vec_default : vcar Nm k) = repeat n0 (vlen k) /\ vec_size v = Some (vlen k).
Proof. exact (vec_default_size k v). Qed.
Print Assumptions C73_default_size.
Example C73_case eps zs : let E := Exact eps zs in
  vec_minus (k := K1x2) (M1x2 (A2 (Fin 5) (Fin 7)) : mat1x2 E) (M1x2 (A2 (Fin 2) (Fin 3))) = Some (M1x2 (A2 (Fin (5 - 2) : E) (Fin (7 - 3)))).
Proof. reflexivity. Qed.

(** ---- C74 ---- *)
(** normalize divides every entry, in either layout, by the bottom right entry *)
Theorem C74_normalize {Nm : Num} (m : mat3 Nm) (m' : mat4 Nm) (f g : lmat Nm) : repr3 m f -> repr4 m' g ->
  (exists r, mat3_normalize m = Ok (Some r) /\ m3_rm r = m3_rm m /\ repr3 r (fun i j => ndiv Nm (f i j) (f 2%N 2%N))) /\
  (exists r, mat4_normalize m' = Ok (Some r) /\ m4_rm r = m4_rm m' /\ repr4 r (fun i j => ndiv Nm (g i j) (g 3%N 3%N))).
Proof. exact (fun H H' => conj (mat3_norm_repr m f H) (mat4_norm_repr m' g H')). Qed.
Print Assumptions C74_normalize.
Theorem C74_exact (eps : R) (zs : XR -> bool) (m : mat3 (Exact eps zs)) (m' : mat4 (Exact eps zs)) (f g : rmat) :
  let E := Exact eps zs in repr3 m (fin f : lmat E) -> repr4 m' (fin g : lmat E) ->
  (f 2%N 2%N <> 0 -> exists r, mat3_normalize m = Ok (Some r) /\ m3_rm r = m3_rm m /\ repr3 r (fin (fun i j => f i j / f 2%N 2%N) : lmat E)) /\
  (g 3%N 3%N <> 0 -> exists r, mat4_normalize m' = Ok (Some r) /\ m4_rm r = m4_rm m' /\ repr4 r (fin (fun i j => g i j / g 3%N 3%N) : lmat E)) /\
  (f 2%N 2%N = 0 -> exists r, mat3_normalize m = Ok (Some r) /\ mat3_index true r 2 2 = Ok (NaN : E)) /\
  (g 3%N 3%N = 0 -> exists r, mat4_normalize m' = Ok (Some r) /\ mat4_index true r 3 3 = Ok (NaN : E)).
Proof.
  exact (fun H H' => conj (mat3_norm_exact eps zs m f H) (conj (mat4_norm_exact eps zs m' g H') (mat_norm_zero eps zs m m' f g H H'))).
Qed.
Print Assumptions C74_exact.
(** in f32/f64 the bottom right entry becomes exactly 1 *)
Theorem C74_last_ieee prec emax {Hp : Prec_gt_0 prec} {Hm : Prec_lt_emax prec emax} lm
  (m : mat3 (@Ieee prec emax Hp Hm lm)) (m' : mat4 (@Ieee prec emax Hp Hm lm)) (f g : lmat (@Ieee prec emax Hp Hm lm)) :
  let F := @Ieee prec emax Hp Hm lm in repr3 m f -> repr4 m' g ->
  (is_finite (f 2%N 2%N : F) = true -> neqb (f 2%N 2%N) n0 = false ->
     exists r x, mat3_normalize m = Ok (Some r) /\ mat3_index true r 2 2 = Ok x /\ neqb x n1 = true) /\
  (is_finite (g 3%N 3%N : F) = true -> neqb (g 3%N 3%N) n0 = false ->
     exists r x, mat4_normalize m' = Ok (Some r) /\ mat4_index true r 3 3 = Ok x /\ neqb x n1 = true).
Proof. exact (mat_norm_ieee prec emax lm m m' f g). Qed.
Print Assumptions C74_last_ieee.
Theorem C74_rest {Nm : Num} (a b : mat3 Nm) (c d : mat4 Nm) :
  (mat3_size a = Some 9%nat /\ mat4_size c = Some 16%nat /\ mat3_dot a b = None /\ mat4_dot c d = None /\
   mat3_magnitude a = Panic PUnimplemented /\ mat4_magnitude c = Panic PUnimplemented) /\
  (repr3 (mat3_default : mat3 Nm) (fun _ _ => n0) /\ repr4 (mat4_default : mat4 Nm) (fun _ _ => n0) /\
   m3_rm (mat3_default : mat3 Nm) = true /\ m4_rm (mat4_default : mat4 Nm) = true).
Proof. exact (conj (mat_rest a b c d) mat_defaults). Qed.
Print Assumptions C74_rest.
Example C74_case eps zs : let E := Exact eps zs in exists r,
  mat3_normalize (mat3_init (A9 (Fin 2 : E) (Fin 4) (Fin 6) (Fin 1) (Fin 3) (Fin 5) (Fin 8) (Fin 6) (Fin 2)) false) = Ok (Some r) /\
  mat3_index true r 0 2 = Ok (Fin (6 / 2) : E).
Proof.
  intro E. eexists. split; [reflexivity |]. cbn. destruct (Req_EM_T 2 0) as [H | H]; [exfalso; lra | reflexivity].
Qed.

(** ---- C75 ---- *)
(** the default quaternion is the identity *)
Theorem C75_quat_ieee prec emax {Hp : Prec_gt_0 prec} {Hm : Prec_lt_emax prec emax} lm (q : quat (@Ieee prec emax Hp Hm lm)) x y z :
  let F := @Ieee prec emax Hp Hm lm in
  let same (p q : quat F) := neqb (qx p) (qx q) = true /\ neqb (qy p) (qy q) = true /\ neqb (qz p) (qz q) = true /\ neqb (qw p) (qw q) = true in
  (is_finite (qx q : F) = true -> is_finite (qy q : F) = true -> is_finite (qz q : F) = true -> is_finite (qw q : F) = true ->
   same (quat_mul quat_default q) q /\ same (quat_mul q quat_default) q) /\
  (is_finite (x : F) = true -> is_finite (y : F) = true -> is_finite (z : F) = true ->
   exists x' y' z', quat_rotate_vector quat_default (M3x1 (A3 x y z)) = M3x1 (A3 x' y' z') /\
      neqb x' x = true /\ neqb y' y = true /\ neqb z' z = true).
Proof. exact (conj (default_unit prec emax lm q) (default_rotate prec emax lm x y z)). Qed.
Print Assumptions C75_quat_ieee.
Theorem C75_quat {Nm : Num} (p q : quat Nm) :
  (quat_default : quat Nm) = quat_init /\ dq_rot (dualquat_init p q) = p /\ dq_tra (dualquat_init p q) = q.
Proof. exact (conj eq_refl (conj eq_refl eq_refl)). Qed.
Print Assumptions C75_quat.
(** the default box is unbounded: it meets every box, even one with NaN bounds, and encloses every box without NaN bounds *)
Theorem C75_box prec emax {Hp : Prec_gt_0 prec} {Hm : Prec_lt_emax prec emax} lm (b : aabb (@Ieee prec emax Hp Hm lm)) :
  aabb_intersect aabb_default (BBox b) = Ok true /\ aabb_intersect b (BBox aabb_default) = Ok true /\ (nonan b -> encloses aabb_default b).
Proof.
  exact (conj (proj1 (default_meets (ieee_ordered prec emax lm) b)) (conj (proj2 (default_meets (ieee_ordered prec emax lm) b))
    (default_encloses (ieee_ordered prec emax lm) b))).
Qed.
Print Assumptions C75_box.
Theorem C75_box_exact (eps : R) (zs : XR -> bool) (b : aabb (Exact eps zs)) :
  (aabb_intersect aabb_default (BBox b) = Ok true /\ aabb_intersect b (BBox aabb_default) = Ok true /\ (nonan b -> encloses aabb_default b)) /\
  exists c, aabb_get_centroid (aabb_default : aabb (Exact eps zs)) = Ok c /\ forall i, (i < 3)%N -> comps3 c i = NaN.
Proof.
  exact (conj (conj (proj1 (default_meets (exact_ordered eps zs) b)) (conj (proj2 (default_meets (exact_ordered eps zs) b))
    (default_encloses (exact_ordered eps zs) b))) (default_centroid eps zs)).
Qed.
Print Assumptions C75_box_exact.
(** BoundSphere and get_shortest_separation are not implemented *)
Theorem C75_unimplemented {Nm : Num} (o : ibound Nm) (b : aabb Nm) :
  ibound_intersect BSphere o = Panic PUnimplemented /\ ibound_intersect (BBox b) BSphere = Panic PUnimplemented /\
  ibound_get_bound_data (BSphere : ibound Nm) = Panic PUnimplemented /\ ibound_get_centroid (BSphere : ibound Nm) = Panic PUnimplemented /\
  ibound_get_centroid (BBox b) = aabb_get_centroid b /\ forall s t : ibound Nm, ibound_get_shortest_separation s t = Panic PUnimplemented.
Proof. exact (bsphere_panics o b). Qed.
Print Assumptions C75_unimplemented.
(** the default prism (all vertices at the origin) reports every point as inside *)
Theorem C75_prism (eps : R) (zs : XR -> bool) (p : V3) (b : aabb (Exact eps zs)) (e : Exact eps zs) :
  shape_get_intersect (SPrism triprism_default) (SPoint (MkPoint (ev eps zs p) b e)) = Ok (true, Some (ev eps zs p)).
Proof. exact (default_prism_point eps zs p b e). Qed.
Print Assumptions C75_prism.
(** its tolerance is zero: only equal numbers are within it *)
Theorem C75_prism_vicinity (eps : R) (zs : XR -> bool) (a b : R) :
  shape_within_vicinity (SPrism triprism_default) (Fin a : Exact eps zs) (Fin b) = true <-> a = b.
Proof. exact (default_prism_within eps zs a b). Qed.
Print Assumptions C75_prism_vicinity.
Theorem C75_prism_vicinity_ieee prec emax {Hp : Prec_gt_0 prec} {Hm : Prec_lt_emax prec emax} lm (a b : @Ieee prec emax Hp Hm lm) :
  is_finite (a : binary_float prec emax) = true -> is_finite (b : binary_float prec emax) = true ->
  (shape_within_vicinity (SPrism triprism_default) a b = true <-> B2R (a : binary_float prec emax) = B2R (b : binary_float prec emax)).
Proof. exact (default_prism_within_ieee prec emax lm a b). Qed.
Print Assumptions C75_prism_vicinity_ieee.
Example C75_case lm : let F := F64 lm in is_finite (n2 : F) = true /\ nonan (AABB (A3 n0 n0 n0) (A3 n1 n2 n2) : aabb F).
Proof. split; [vm_compute; reflexivity |]. intros i Hi. cases3 i Hi; split; vm_compute; reflexivity. Qed.
