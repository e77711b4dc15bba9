(** PropertiesBound.v — bounding boxes: the theorems for C33-C38, with instances of their hypotheses. *)
From Coq Require Import Reals List ZArith NArith Bool Lra Permutation.
From Flocq Require Import Core BinarySingleNaN.
Import ListNotations.
From Verif Require Import Base Num Vec Mat Bound Shape Float Exact SpecMat SpecGeom SpecBound SpecShape ExactFacts FloatFacts Order PMat PBound PShape.
Local Open Scope R_scope.

(** an example box in any arithmetic: [0,1]x[1,2]x[-infinity,0] *)
Definition exb (Nm : Num) : aabb Nm := AABB (A3 n0 n1 (nninf Nm)) (A3 n1 n2 n0).

(** ---- C33: overlap is symmetric and total ---- *)
Theorem C33_symmetric prec emax {Hp : Prec_gt_0 prec} {Hm : Prec_lt_emax prec emax} lm (a b : aabb (@Ieee prec emax Hp Hm lm)) :
  aabb_intersect a (BBox b) = aabb_intersect b (BBox a) /\ exists r, aabb_intersect a (BBox b) = Ok r.
Proof. exact (intersect_sym (ieee_ordered prec emax lm) a b). Qed.
Print Assumptions C33_symmetric.
Theorem C33_symmetric_exact (eps : R) (zs : XR -> bool) (a b : aabb (Exact eps zs)) :
  aabb_intersect a (BBox b) = aabb_intersect b (BBox a) /\ exists r, aabb_intersect a (BBox b) = Ok r.
Proof. exact (intersect_sym (exact_ordered eps zs) a b). Qed.
Print Assumptions C33_symmetric_exact.
Example C33_case lm : aabb_intersect (exb (F64 lm)) (BBox (AABB (A3 n1 n1 n1) (A3 n1 n1 n1))) = Ok false /\
  aabb_intersect (exb (F64 lm)) (BBox (exb (F64 lm))) = Ok true.
Proof. split; vm_compute; reflexivity. Qed.

(** ---- C34: overlap means a common point ---- *)
Theorem C34_common_point prec emax {Hp : Prec_gt_0 prec} {Hm : Prec_lt_emax prec emax} lm (a b : aabb (@Ieee prec emax Hp Hm lm)) :
  proper a -> proper b -> (aabb_intersect a (BBox b) = Ok true <-> exists p, inb a p /\ inb b p).
Proof. exact (intersect_meets (ieee_ordered prec emax lm) a b). Qed.
Print Assumptions C34_common_point.
Theorem C34_common_point_exact (eps : R) (zs : XR -> bool) (a b : aabb (Exact eps zs)) :
  proper a -> proper b -> (aabb_intersect a (BBox b) = Ok true <-> exists p, inb a p /\ inb b p).
Proof. exact (intersect_meets (exact_ordered eps zs) a b). Qed.
Print Assumptions C34_common_point_exact.
Example C34_case lm : proper (exb (F64 lm)) /\ inb (exb (F64 lm)) (A3 n1 n2 (nlit (F64 lm) (-5) 1)).
Proof.
  split; intros i Hi; destruct (lt3_cases i Hi) as [-> | [-> | ->]]; try split; vm_compute; reflexivity.
Qed.

(** ---- C35: union ---- *)
Theorem C35_union prec emax {Hp : Prec_gt_0 prec} {Hm : Prec_lt_emax prec emax} lm (s : aabb (@Ieee prec emax Hp Hm lm)) l :
  Forall nonan l -> exists u, aabb_get_union s (map BBox l) = Ok u /\ nonan u /\ (forall b, In b l -> encloses u b) /\
    (forall c, nonan c -> (forall b, In b l -> encloses c b) -> encloses c u).
Proof. exact (union_spec (ieee_ordered prec emax lm) s l). Qed.
Print Assumptions C35_union.
Theorem C35_union_exact (eps : R) (zs : XR -> bool) (s : aabb (Exact eps zs)) l :
  Forall nonan l -> exists u, aabb_get_union s (map BBox l) = Ok u /\ nonan u /\ (forall b, In b l -> encloses u b) /\
    (forall c, nonan c -> (forall b, In b l -> encloses c b) -> encloses c u).
Proof. exact (union_spec (exact_ordered eps zs) s l). Qed.
Print Assumptions C35_union_exact.
Theorem C35_order prec emax {Hp : Prec_gt_0 prec} {Hm : Prec_lt_emax prec emax} lm (s s' : aabb (@Ieee prec emax Hp Hm lm)) l l' :
  Forall nonan l -> Permutation l l' -> exists u u',
    aabb_get_union s (map BBox l) = Ok u /\ aabb_get_union s' (map BBox l') = Ok u' /\ same_box u u'.
Proof. exact (union_perm (ieee_ordered prec emax lm) s s' l l'). Qed.
Print Assumptions C35_order.
Theorem C35_receiver (Nm : Num) (s s' : aabb Nm) (l : list (ibound Nm)) : aabb_get_union s l = aabb_get_union s' l.
Proof. exact (union_receiver s s' l). Qed.
Print Assumptions C35_receiver.
Theorem C35_nothing (Nm : Num) (s : aabb Nm) : aabb_get_union s [] =
  Ok (AABB (A3 (ninf Nm) (ninf Nm) (ninf Nm)) (A3 (nninf Nm) (nninf Nm) (nninf Nm))).
Proof. exact (union_eval s []). Qed.
Print Assumptions C35_nothing.
(** a bounding sphere among the operands panics *)
Theorem C35_sphere_panics (Nm : Num) (s : aabb Nm) l1 l2 : aabb_get_union s (map BBox l1 ++ BSphere :: l2) = Panic PUnimplemented.
Proof. exact (union_sphere s l1 l2). Qed.
Print Assumptions C35_sphere_panics.
Example C35_case lm : Forall nonan [exb (F64 lm); AABB (A3 n2 n1 n0) (A3 n2 n2 n2)] /\
  Permutation [exb (F64 lm); AABB (A3 n2 n1 n0) (A3 n2 n2 n2)] [AABB (A3 n2 n1 n0) (A3 n2 n2 n2); exb (F64 lm)].
Proof.
  split; [| apply perm_swap].
  repeat constructor; destruct (lt3_cases i H) as [-> | [-> | ->]]; vm_compute; reflexivity.
Qed.

(** ---- C36: every shape lies inside its bounding box ---- *)
Theorem C36_point (eps : R) (zs : XR -> bool) p e s x : is_point eps zs p e s -> s_point p x ->
  exists b, shape_get_bound s = BBox b /\ holds eps zs b x.
Proof. exact (bound_point eps zs p e s x). Qed.
Print Assumptions C36_point.
Theorem C36_ray (eps : R) (zs : XR -> bool) o d e s x : d <> vzero -> is_ray eps zs o d e s -> s_ray o d x ->
  exists b, shape_get_bound s = BBox b /\ holds eps zs b x.
Proof. exact (bound_ray eps zs o d e s x). Qed.
Print Assumptions C36_ray.
Theorem C36_sphere (eps : R) (zs : XR -> bool) c r e s x : is_sphere eps zs c r e s -> s_ball c r x ->
  exists b, shape_get_bound s = BBox b /\ holds eps zs b x.
Proof. exact (bound_sphere eps zs c r e s x). Qed.
Print Assumptions C36_sphere.
Theorem C36_plane (eps : R) (zs : XR -> bool) o n e s x : n <> vzero -> is_plane eps zs o n e s -> s_plane o n x ->
  exists b, shape_get_bound s = BBox b /\ holds eps zs b x.
Proof. exact (bound_plane eps zs o n e s x). Qed.
Print Assumptions C36_plane.
Theorem C36_line (eps : R) (zs : XR -> bool) a b e s x : is_line eps zs a b e s -> s_segment a b x ->
  exists b, shape_get_bound s = BBox b /\ holds eps zs b x.
Proof. exact (bound_line eps zs a b e s x). Qed.
Print Assumptions C36_line.
Theorem C36_box (eps : R) (zs : XR -> bool) c h e s x : is_box eps zs c h e s -> s_cube c h x ->
  exists b, shape_get_bound s = BBox b /\ holds eps zs b x.
Proof. exact (bound_box eps zs c h e s x). Qed.
Print Assumptions C36_box.
Theorem C36_prism (eps : R) (zs : XR -> bool) a b c h e s x : tri_ok a b c -> is_prism eps zs a b c h e s -> s_prism a b c h x ->
  exists b, shape_get_bound s = BBox b /\ holds eps zs b x.
Proof. exact (bound_prism eps zs a b c h e s x). Qed.
Print Assumptions C36_prism.
(** every parameter of the theorems above does build a shape *)
Theorem C36_exists (eps : R) (zs : XR -> bool) (p q u : V3) (r e : R) :
  (exists s, is_point eps zs p e s) /\ (exists s, is_sphere eps zs p r e s) /\ (exists s, is_box eps zs p r e s) /\
  (exists s, is_line eps zs p q e s) /\ (q <> vzero -> exists s, is_ray eps zs p q e s) /\
  (q <> vzero -> exists s, is_plane eps zs p q e s) /\ (tri_ok p q u -> exists s, is_prism eps zs p q u r e s).
Proof. exact (shapes_exist eps zs p q u r e). Qed.
Print Assumptions C36_exists.
Example C36_case : V 1 0 (-2) <> vzero /\ s_ray (V 1 1 1) (V 1 0 (-2)) (V 2 1 (-1)) /\
  tri_ok (V 0 0 0) (V 1 0 0) (V 1 1 0) /\ s_prism (V 0 0 0) (V 1 0 0) (V 1 1 0) 2 (V 0 0 0).
Proof.
  split; [intro H; injection H; lra |]. split.
  { exists 1. split; [lra |]. apply V3_eq; simpl; lra. }
  split; [unfold tri_ok; intro H; injection H; lra |].
  exists (V 0 0 0), 0. split; [| split; [lra | apply V3_eq; simpl; ring]].
  exists 0, 0. repeat split; try lra. apply V3_eq; simpl; ring.
Qed.

(** ---- C37: longest axis: false of the code, which always answers Z ---- *)
Definition extent {Nm : Num} (b : aabb Nm) (x : axis) : Nm :=
  nsub Nm (up b (match x with AxX => 0 | AxY => 1 | AxZ => 2 end)%N) (lo b (match x with AxX => 0 | AxY => 1 | AxZ => 2 end)%N).
Theorem C37_refuted (eps : R) (zs : XR -> bool) : ~ (forall b : aabb (Exact eps zs), proper b -> exists x,
  aabb_get_longest_axis b = Ok (x, extent b x) /\ forall y, nle (extent b y) (extent b x) = true).
Proof. exact (longest_refuted eps zs). Qed.
Print Assumptions C37_refuted.
(** What holds (full statement: the axis returned has maximal extent): the answer is Z with the extent along Z. *)
Theorem C37_partial (Nm : Num) (b : aabb Nm) : aabb_get_longest_axis b = Ok (AxZ, extent b AxZ).
Proof. exact (longest_z b). Qed.
Print Assumptions C37_partial.
Example C37_case lm : proper (exb (F64 lm)) /\ aabb_get_longest_axis (exb (F64 lm)) = Ok (AxZ, ninf (F64 lm)).
Proof.
  split; [intros i Hi; destruct (lt3_cases i Hi) as [-> | [-> | ->]]; vm_compute; reflexivity |].
  rewrite C37_partial. reflexivity.
Qed.

(** ---- C38: centroid ---- *)
Theorem C38_exact (eps : R) (zs : XR -> bool) (b : aabb (Exact eps zs)) (l u : N -> R) :
  (forall i, (i < 3)%N -> lo b i = Fin (l i) /\ up b i = Fin (u i) /\ l i <= u i) ->
  exists c, aabb_get_centroid b = Ok c /\ inb b c /\ forall i, (i < 3)%N -> comps3 c i = Fin ((l i + u i) / 2).
Proof. exact (centroid_exact eps zs b l u). Qed.
Print Assumptions C38_exact.
(** IEEE, full statement: for every finite proper box.  Needed in addition: no sum lower+upper overflows. *)
Theorem C38_ieee_partial prec emax {Hp : Prec_gt_0 prec} {Hm : Prec_lt_emax prec emax} lm (b : aabb (@Ieee prec emax Hp Hm lm)) :
  proper b ->
  (forall i, (i < 3)%N -> is_finite (lo b i) = true /\ is_finite (up b i) = true /\ is_finite (nadd _ (lo b i) (up b i)) = true) ->
  exists c, aabb_get_centroid b = Ok c /\ inb b c /\
    forall i, (i < 3)%N -> is_finite (comps3 c i) = true /\
      B2R (comps3 c i) = round radix2 (SpecFloat.fexp prec emax) ZnearestE
        (round radix2 (SpecFloat.fexp prec emax) ZnearestE (B2R (lo b i) + B2R (up b i)) / 2).
Proof. exact (centroid_ieee prec emax lm b). Qed.
Print Assumptions C38_ieee_partial.
Theorem C38_refuted (lm : libm f64) : ~ (forall b : aabb (F64 lm), proper b ->
  (forall i, (i < 3)%N -> is_finite (lo b i) = true /\ is_finite (up b i) = true) ->
  exists c, aabb_get_centroid b = Ok c /\ inb b c).
Proof. exact (centroid_refuted lm). Qed.
Print Assumptions C38_refuted.
Definition exc lm : aabb (F64 lm) := AABB (A3 n0 n1 (nlit _ (-7) 3)) (A3 n1 n1 n2).
Example C38_case lm : proper (exc lm) /\
  (forall i, (i < 3)%N -> is_finite (lo (exc lm) i) = true /\ is_finite (up (exc lm) i) = true /\
     is_finite (nadd (F64 lm) (lo (exc lm) i) (up (exc lm) i)) = true).
Proof.
  split; intros i Hi; destruct (lt3_cases i Hi) as [-> | [-> | ->]]; repeat split; vm_compute; reflexivity.
Qed.
