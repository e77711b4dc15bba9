(** PropertiesInter.v — intersection queries in any arithmetic: C39-C41 and C64. *)
From Coq Require Import Reals List ZArith NArith Bool Lra.
From Flocq Require Import Core BinarySingleNaN.
Import ListNotations.
From Verif Require Import Base Num Vec Mat Bound Shape Intersect Float Exact SpecMat SpecGeom SpecBound SpecInter FloatFacts Order PInter.
Local Open Scope R_scope.

(** example shapes in IEEE binary64, built by the constructors *)
Definition shape_of {A B : Type} (f : A -> B) (x : res A) (d : B) : B := match x with Ok a => f a | Panic _ => d end.
Definition exs_point lm : shape (F64 lm) := SPoint (MkPoint (M3x1 (A3 n1 n1 n0)) (AABB (A3 n1 n1 n0) (A3 n1 n1 n0)) n1).
Definition exs_ray lm : shape (F64 lm) := shape_of SRay (ray_init [n0; n0; n0] [n1; n1; n0]) (exs_point lm).
Definition exs_box lm : shape (F64 lm) := shape_of SBox (recbox_init [n0; n0; n0] n2) (exs_point lm).

(** ---- C39: the receiver does not matter ---- *)
Theorem C39_symmetric prec emax {Hp : Prec_gt_0 prec} {Hm : Prec_lt_emax prec emax} lm (a b : shape (@Ieee prec emax Hp Hm lm)) :
  shape_get_type a <> shape_get_type b -> shape_get_intersect a b = shape_get_intersect b a.
Proof. exact (intersect_symmetric (ieee_ordered prec emax lm) a b). Qed.
Print Assumptions C39_symmetric.
Theorem C39_symmetric_exact (eps : R) (zs : XR -> bool) (a b : shape (Exact eps zs)) :
  shape_get_type a <> shape_get_type b -> shape_get_intersect a b = shape_get_intersect b a.
Proof. exact (intersect_symmetric (exact_ordered eps zs) a b). Qed.
Print Assumptions C39_symmetric_exact.
Example C39_case lm : shape_get_type (exs_point lm) <> shape_get_type (exs_ray lm) /\
  (exists p, shape_get_intersect (exs_point lm) (exs_box lm) = Ok (true, Some p)).
Proof. split; [discriminate |]. eexists. reflexivity. Qed.

(** ---- C40: location exactly with a hit ---- *)
Theorem C40_answer prec emax {Hp : Prec_gt_0 prec} {Hm : Prec_lt_emax prec emax} lm (a b : shape (@Ieee prec emax Hp Hm lm)) h :
  shape_get_intersect a b = Ok h -> answer h.
Proof. exact (intersect_answer (ieee_ordered prec emax lm) a b h). Qed.
Print Assumptions C40_answer.
Theorem C40_answer_exact (eps : R) (zs : XR -> bool) (a b : shape (Exact eps zs)) h :
  shape_get_intersect a b = Ok h -> answer h.
Proof. exact (intersect_answer (exact_ordered eps zs) a b h). Qed.
Print Assumptions C40_answer_exact.
Example C40_case lm : exists p, shape_get_intersect (exs_point lm) (exs_box lm) = Ok (true, Some p).
Proof. eexists. reflexivity. Qed.

(** ---- C41: panics ---- *)
Theorem C41_panics prec emax {Hp : Prec_gt_0 prec} {Hm : Prec_lt_emax prec emax} lm (a b : shape (@Ieee prec emax Hp Hm lm)) :
  (exists k, shape_get_intersect a b = Panic k) <->
  ibound_intersect (shape_get_bound a) (shape_get_bound b) = Ok true /\ supported (shape_get_type a) (shape_get_type b) = false.
Proof. exact (intersect_panics (ieee_ordered prec emax lm) a b). Qed.
Print Assumptions C41_panics.
Theorem C41_panics_exact (eps : R) (zs : XR -> bool) (a b : shape (Exact eps zs)) :
  (exists k, shape_get_intersect a b = Panic k) <->
  ibound_intersect (shape_get_bound a) (shape_get_bound b) = Ok true /\ supported (shape_get_type a) (shape_get_type b) = false.
Proof. exact (intersect_panics (exact_ordered eps zs) a b). Qed.
Print Assumptions C41_panics_exact.
(** the panic is always unimplemented!(), and disjoint bounds are a miss for every pair of kinds *)
Theorem C41_kind prec emax {Hp : Prec_gt_0 prec} {Hm : Prec_lt_emax prec emax} lm (a b : shape (@Ieee prec emax Hp Hm lm)) k :
  shape_get_intersect a b = Panic k -> k = PUnimplemented.
Proof. exact (intersect_panic_kind (ieee_ordered prec emax lm) a b k). Qed.
Print Assumptions C41_kind.
Theorem C41_disjoint prec emax {Hp : Prec_gt_0 prec} {Hm : Prec_lt_emax prec emax} lm (a b : shape (@Ieee prec emax Hp Hm lm)) :
  ibound_intersect (shape_get_bound a) (shape_get_bound b) = Ok false -> shape_get_intersect a b = Ok (false, None).
Proof. exact (intersect_disjoint (ieee_ordered prec emax lm) a b). Qed.
Print Assumptions C41_disjoint.
Example C41_case lm : shape_get_intersect (exs_ray lm) (exs_box lm) = Panic PUnimplemented /\
  ibound_intersect (shape_get_bound (exs_ray lm)) (shape_get_bound (exs_box lm)) = Ok true /\
  ibound_intersect (shape_get_bound (exs_point lm))
    (shape_get_bound (SPoint (MkPoint (M3x1 (A3 n2 n1 n0)) (AABB (A3 n2 n1 n0) (A3 n2 n1 n0)) (n1 : F64 lm)))) = Ok false.
Proof. repeat split; vm_compute; reflexivity. Qed.

(** ---- C64: vicinity ---- *)
Theorem C64_set (Nm : Num) (s : shape Nm) (e : Nm) : let s' := shape_set_vicinity s e in
  shape_vicinity s' = nabs Nm e /\ shape_get_type s' = shape_get_type s /\ shape_get_bound s' = shape_get_bound s /\
  shape_get_shape_data s' = shape_get_shape_data s /\ (forall v, shape_get_support s' v = shape_get_support s v) /\
  (forall e2, shape_set_vicinity s' e2 = shape_set_vicinity s e2) /\ (shape_vicinity s = nabs Nm e -> s' = s).
Proof. exact (vicinity_set s e). Qed.
Print Assumptions C64_set.
Theorem C64_sign prec emax {Hp : Prec_gt_0 prec} {Hm : Prec_lt_emax prec emax} lm (s : shape (@Ieee prec emax Hp Hm lm)) e :
  shape_set_vicinity s (nneg _ e) = shape_set_vicinity s e.
Proof. exact (vicinity_sign prec emax lm s e). Qed.
Print Assumptions C64_sign.
Theorem C64_within (eps : R) (zs : XR -> bool) (s : shape (Exact eps zs)) (v a b : R) : shape_vicinity s = Fin v ->
  (shape_within_vicinity s (Fin a : Exact eps zs) (Fin b) = true <-> Rabs (a - b) <= v).
Proof. exact (within_shape eps zs s v a b). Qed.
Print Assumptions C64_within.
Theorem C64_nan prec emax {Hp : Prec_gt_0 prec} {Hm : Prec_lt_emax prec emax} lm (s : shape (@Ieee prec emax Hp Hm lm)) a b :
  nisnan (shape_vicinity s) = true \/ nisnan a = true \/ nisnan b = true -> shape_within_vicinity s a b = false.
Proof. exact (within_nan prec emax lm (shape_vicinity s) a b). Qed.
Print Assumptions C64_nan.
Example C64_case lm eps zs : shape_within_vicinity (exs_point lm) n1 n2 = true /\ shape_within_vicinity (exs_point lm) n0 n2 = false /\
  shape_vicinity (SPoint (MkPoint mat3x1_default aabb_default (Fin 1 : Exact eps zs))) = Fin 1 /\
  nisnan (nsub (F64 lm) (ninf _) (ninf _)) = true.
Proof. repeat split; vm_compute; reflexivity. Qed.
