(** PropertiesTree.v — C123: trees of bounding boxes. *)
From Coq Require Import Reals List ZArith NArith Bool Permutation.
From Flocq Require Import Core BinarySingleNaN.
Import ListNotations.
From Verif Require Import Base Num Vec Mat Bound Shape Intersect Float Exact SpecBound Order PMat PInter SpecTree PTree PropertiesInter.

(** A search that leaves out everything below a box apart from the box of q answers as asking every shape does: the same hits in the
    same order, or the same panic.  Any tree, any shapes, any q (its box may have NaN). *)
Theorem C123_search prec emax {Hp : Prec_gt_0 prec} {Hm : Prec_lt_emax prec emax} lm (q : shape (@Ieee prec emax Hp Hm lm)) t :
  Forall clean (leaves t) -> search q t = scan q (leaves t).
Proof. exact (search_scan (ieee_ordered prec emax lm) q t). Qed.
Print Assumptions C123_search.
Theorem C123_search_exact (eps : R) (zs : XR -> bool) (q : shape (Exact eps zs)) t : Forall clean (leaves t) -> search q t = scan q (leaves t).
Proof. exact (search_scan (exact_ordered eps zs) q t). Qed.
Print Assumptions C123_search_exact.
(** so a hit is reported exactly if it is a hit of a leaf *)
Theorem C123_hits prec emax {Hp : Prec_gt_0 prec} {Hm : Prec_lt_emax prec emax} lm (q : shape (@Ieee prec emax Hp Hm lm)) t r :
  Forall clean (leaves t) -> search q t = Ok r -> forall s x, In (s, x) r <-> In s (leaves t) /\ shape_get_intersect s q = Ok (true, x).
Proof. exact (search_hits (ieee_ordered prec emax lm) q t r). Qed.
Print Assumptions C123_hits.
(** all pairs of two trees *)
Theorem C123_pairs prec emax {Hp : Prec_gt_0 prec} {Hm : Prec_lt_emax prec emax} lm (t1 t2 : tree (shape (@Ieee prec emax Hp Hm lm))) :
  Forall clean (leaves t1) -> Forall clean (leaves t2) -> clash t1 t2 = cross (leaves t1) (leaves t2).
Proof. exact (clash_cross (ieee_ordered prec emax lm) t1 t2). Qed.
Print Assumptions C123_pairs.
Theorem C123_pairs_exact (eps : R) (zs : XR -> bool) (t1 t2 : tree (shape (Exact eps zs))) :
  Forall clean (leaves t1) -> Forall clean (leaves t2) -> clash t1 t2 = cross (leaves t1) (leaves t2).
Proof. exact (clash_cross (exact_ordered eps zs) t1 t2). Qed.
Print Assumptions C123_pairs_exact.
(** how the shapes are grouped, and in what order, does not matter *)
Theorem C123_regroup prec emax {Hp : Prec_gt_0 prec} {Hm : Prec_lt_emax prec emax} lm (q : shape (@Ieee prec emax Hp Hm lm)) t t' r :
  Permutation (leaves t) (leaves t') -> Forall clean (leaves t) -> search q t = Ok r -> exists r', search q t' = Ok r' /\ Permutation r r'.
Proof. exact (search_regroup (ieee_ordered prec emax lm) q t t' r). Qed.
Print Assumptions C123_regroup.
(** A NaN bound is dropped by the union, so a shape that answers a hit on its own is lost in a tree. *)
Definition hazy lm : shape (F64 lm) := shape_of SSphere (sphere_init [n0; n0; n0] (ndiv (F64 lm) n0 n0)) (exs_point lm).
Theorem C123_nan_refuted lm : ~ (forall (q : shape (F64 lm)) t, search q t = scan q (leaves t)).
Proof.
  intro E. assert (E1 : search (exs_point lm) (Node [Leaf (hazy lm)]) = Ok []) by (vm_compute; reflexivity). assert (E2 : match scan (exs_point lm) [hazy lm] with Ok (_ :: _) => True | _ => False end) by (vm_compute; exact I).
  rewrite E in E1. cbn [leaves map concat app] in E1. rewrite E1 in E2. exact E2.
Qed.
Print Assumptions C123_nan_refuted.

(** two points and a box in a tree of depth two: one point is found by the box, the rest is left out *)
Definition far_point lm : shape (F64 lm) := SPoint (MkPoint (M3x1 (A3 (nlit (F64 lm) 9 1) n1 n0)) (AABB (A3 (nlit (F64 lm) 9 1) n1 n0) (A3 (nlit (F64 lm) 9 1) n1 n0)) n1).
Definition wood lm : tree (shape (F64 lm)) := Node [Node [Leaf (far_point lm); Leaf (exs_point lm)]; Leaf (far_point lm)].
Example C123_case lm : Forall clean (leaves (wood lm)) /\ match search (exs_box lm) (wood lm) with Ok l => length l = 1%nat | Panic _ => False end.
Proof.
  split; [| vm_compute; reflexivity].
  repeat constructor; match goal with K : (?i < 3)%N |- _ => destruct (lt3_cases i K) as [-> | [-> | ->]]; vm_compute; reflexivity end.
Qed.
