(** RepoTests.v — the unit tests of the repository (lib/test), run on the model in f64.
    These are tests of the model, not properties of the library: each states that an assertion of the Rust test suite holds
    of the corresponding model functions.  The libm functions stay an arbitrary oracle [lm], except for test_quat.rs, which
    evaluates sin, cos and acos at one point each; there they return the correctly rounded values at these points.
    The GJK loop gets 60 iterations; the touching spheres of test_intersect_gjk.rs:68-73 need more than 20, because only
    rounding ends the loop there (C67_refuted: in exact arithmetic it never ends).
    Expected values and tolerances are those of the test named in the comment. *)
From Coq Require Import ZArith NArith Bool List.
From Flocq Require Import Core BinarySingleNaN.
Import ListNotations.
From Verif Require Import Base Num Vec Mat Quat Bound Shape Intersect Gjk Float.

Section Helpers.
  Context {N : Num}.
  Definition mk {A} (c : A -> shape N) (r : res A) : res (shape N) := let! a := r in Ok (c a).
  Definition query (a b : res (shape N)) : res (@hit N) := let! a := a in let! b := b in shape_get_intersect a b.
  Definition says (b : bool) (o : option bool) : bool := match o with Some c => Bool.eqb b c | None => false end.
  Definition rsays (b : bool) (r : res (option bool)) : bool := match r with Ok o => says b o | Panic _ => false end.
  Definition req (r : res (option bool)) : option bool := match r with Ok o => o | Panic _ => None end.
  Definition hits (r : res (@hit N)) (loc : mat3x1 N) (err : N) : bool :=
    match r with Ok (true, Some l) => says true (mat3x1_is_equal l loc err) | _ => false end.
  Definition finds (r : res (@hit N)) : bool := match r with Ok (true, Some _) => true | _ => false end.
  Definition misses (r : res (@hit N)) : bool := match r with Ok (false, None) => true | _ => false end.
  Definition gjk_says (c : bool) (a b : res (shape N)) : bool :=
    match a, b with
    | Ok a, Ok b => match query_intersect 60 a b with Done (Ok o) => says c o | _ => false end
    | _, _ => false
    end.
  Definition bound_says (c : bool) (a b : aabb N) : bool :=
    match aabb_intersect a (BBox b) with Ok d => Bool.eqb c d | Panic _ => false end.
  Fixpoint same_list (xs ys : list N) : bool :=
    match xs, ys with [], [] => true | x :: xs, y :: ys => (neqb x y && same_list xs ys)%bool | _, _ => false end.
  Definition same_box (r : res (aabb N)) (xs : list N) : bool :=
    match r with Ok b => same_list (list3 (b_lower b) ++ list3 (b_upper b)) xs | Panic _ => false end.
  Definition ook {A} (o : option A) (f : A -> option bool) : bool := match o with Some a => says true (f a) | None => false end.
  Definition rok {A} (r : res A) (f : A -> option bool) : bool := match r with Ok a => says true (f a) | Panic _ => false end.
  Definition rook {A} (r : res (option A)) (f : A -> option bool) : bool := match r with Ok o => ook o f | Panic _ => false end.
End Helpers.

Section Tests.
  Context (lm : libm f64).
  Notation F := (F64 lm).
  Local Open Scope num_scope.

  (* lib/test/test_intersect_box_point.rs:10-19 *)
  Example t_box_point_1 : @eq bool (hits (query (mk SPoint (point_init [nlit F (-99) 10; nlit F 99 10; nlit F 99 10])) (mk SBox (recbox_init [nlit F 0 1; nlit F 0 1; nlit F 0 1] (nlit F 10 1)))) (M3x1 (A3 (nlit F (-99) 10) (nlit F 99 10) (nlit F 99 10))) (nlit F 1 10000)) true.
  Proof. vm_compute. reflexivity. Qed.

  (* lib/test/test_intersect_box_point.rs:21-28 *)
  Example t_box_point_2 : @eq bool (misses (query (mk SPoint (point_init [nlit F (-99) 10; nlit F 99 10; nlit F (-101) 10])) (mk SBox (recbox_init [nlit F 0 1; nlit F 0 1; nlit F 0 1] (nlit F 10 1))))) true.
  Proof. vm_compute. reflexivity. Qed.

  (* lib/test/test_intersect_gjk.rs:50-55 *)
  Example t_gjk_1 : @eq bool (gjk_says true (mk SSphere (sphere_init [nlit F 0 1; nlit F 0 1; nlit F 0 1] (nlit F 5 1))) (mk SSphere (sphere_init [nlit F 7 1; nlit F 0 1; nlit F 0 1] (nlit F 21 10)))) true.
  Proof. vm_compute. reflexivity. Qed.

  (* lib/test/test_intersect_gjk.rs:56-61 *)
  Example t_gjk_2 : @eq bool (gjk_says true (mk SSphere (sphere_init [nlit F 0 1; nlit F 5 1; nlit F 0 1] (nlit F 5 1))) (mk SSphere (sphere_init [nlit F 0 1; nlit F 0 1; nlit F 0 1] (nlit F 2 1)))) true.
  Proof. vm_compute. reflexivity. Qed.

  (* lib/test/test_intersect_gjk.rs:62-67 *)
  Example t_gjk_3 : @eq bool (gjk_says true (mk SSphere (sphere_init [nlit F 0 1; nlit F 5 1; nlit F 0 1] (nlit F 10 1))) (mk SSphere (sphere_init [nlit F 1 1; nlit F 1 1; nlit F 0 1] (nlit F 2 1)))) true.
  Proof. vm_compute. reflexivity. Qed.

  (* lib/test/test_intersect_gjk.rs:68-73 *)
  Example t_gjk_4 : @eq bool (gjk_says true (mk SSphere (sphere_init [nlit F 0 1; nlit F (-5) 1; nlit F 0 1] (nlit F 5 1))) (mk SSphere (sphere_init [nlit F 0 1; nlit F 5 1; nlit F 0 1] (nlit F 5 1)))) true.
  Proof. vm_compute. reflexivity. Qed.

  (* lib/test/test_intersect_gjk.rs:85-90 *)
  Example t_gjk_5 : @eq bool (gjk_says false (mk SSphere (sphere_init [nlit F 0 1; nlit F 0 1; nlit F 0 1] (nlit F 5 1))) (mk SSphere (sphere_init [nlit F 7 1; nlit F 0 1; nlit F 0 1] (nlit F 199 100)))) true.
  Proof. vm_compute. reflexivity. Qed.

  (* lib/test/test_intersect_gjk.rs:91-96 *)
  Example t_gjk_6 : @eq bool (gjk_says false (mk SSphere (sphere_init [nlit F 0 1; nlit F 5 1; nlit F 0 1] (nlit F 5 1))) (mk SSphere (sphere_init [nlit F 0 1; nlit F 0 1; nlit F 10 1] (nlit F 2 1)))) true.
  Proof. vm_compute. reflexivity. Qed.

  (* lib/test/test_intersect_plane_point.rs:12-28 *)
  Example t_plane_point_1 : @eq bool (hits (query (mk SPoint (point_init [nlit F 2 1; nlit F 1 1; nlit F 2 1])) (mk SPlane (plane_init [nlit F 1 1; nlit F 1 1; nlit F 1 1] [nlit F 0 1; nlit F 1 1; nlit F 0 1]))) (M3x1 (A3 (nlit F 2 1) (nlit F 1 1) (nlit F 2 1))) (nlit F 1 10000)) true.
  Proof. vm_compute. reflexivity. Qed.

  (* lib/test/test_intersect_plane_point.rs:30-46 *)
  Example t_plane_point_2 : @eq bool (hits (query (mk SPlane (plane_init [nlit F 1 1; nlit F 1 1; nlit F 1 1] [nlit F 0 1; nlit F 1 1; nlit F 0 1])) (mk SPoint (point_init [nlit F 2 1; nlit F 1 1; nlit F 2 1]))) (M3x1 (A3 (nlit F 2 1) (nlit F 1 1) (nlit F 2 1))) (nlit F 1 10000)) true.
  Proof. vm_compute. reflexivity. Qed.

  (* lib/test/test_intersect_plane_point.rs:49-56 *)
  Example t_plane_point_3 : @eq bool (misses (query (mk SPoint (point_init [nlit F 2 1; nlit F 105 100; nlit F 2 1])) (mk SPlane (plane_init [nlit F 1 1; nlit F 1 1; nlit F 1 1] [nlit F 0 1; nlit F 1 1; nlit F 0 1])))) true.
  Proof. vm_compute. reflexivity. Qed.

  (* lib/test/test_intersect_plane_point.rs:59-66 *)
  Example t_plane_point_4 : @eq bool (misses (query (mk SPoint (point_init [nlit F 2 1; nlit F 99 100; nlit F 2 1])) (mk SPlane (plane_init [nlit F 1 1; nlit F 1 1; nlit F 1 1] [nlit F 0 1; nlit F 1 1; nlit F 0 1])))) true.
  Proof. vm_compute. reflexivity. Qed.

  (* lib/test/test_intersect_point_point.rs:9-18 *)
  Example t_point_point_1 : @eq bool (hits (query (mk SPoint (point_init [nlit F 25 1; nlit F 5 1; nlit F 5 1])) (mk SPoint (point_init [nlit F 25 1; nlit F 5 1; nlit F 5 1]))) (M3x1 (A3 (nlit F 25 1) (nlit F 5 1) (nlit F 5 1))) (nlit F 1 10000)) true.
  Proof. vm_compute. reflexivity. Qed.

  (* lib/test/test_intersect_point_point.rs:20-27 *)
  Example t_point_point_2 : @eq bool (misses (query (mk SPoint (point_init [nlit F 25 1; nlit F 5 1; nlit F 5 1])) (mk SPoint (point_init [nlit F 251 10; nlit F 5 1; nlit F 5 1])))) true.
  Proof. vm_compute. reflexivity. Qed.

  (* lib/test/test_intersect_ray_plane.rs:12-28 *)
  Example t_ray_plane_1 : @eq bool (hits (query (mk SRay (ray_init [nlit F 5 1; nlit F 5 1; nlit F 5 1] [nlit F (-1) 1; nlit F (-1) 1; nlit F (-1) 1])) (mk SPlane (plane_init [nlit F 1 1; nlit F 1 1; nlit F 1 1] [nlit F 0 1; nlit F 1 1; nlit F 0 1]))) (M3x1 (A3 (nlit F 1 1) (nlit F 1 1) (nlit F 1 1))) (nlit F 1 10000)) true.
  Proof. vm_compute. reflexivity. Qed.

  (* lib/test/test_intersect_ray_plane.rs:31-38 *)
  Example t_ray_plane_2 : @eq bool (misses (query (mk SRay (ray_init [nlit F 0 1; nlit F 0 1; nlit F 0 1] [nlit F 1 1; nlit F 1 1; nlit F 1 1])) (mk SPlane (plane_init [nlit F 1 1; nlit F 1 1; nlit F 1 1] [nlit F 0 1; nlit F 1 1; nlit F 0 1])))) true.
  Proof. vm_compute. reflexivity. Qed.

  (* lib/test/test_intersect_ray_plane.rs:41-48 *)
  Example t_ray_plane_3 : @eq bool (misses (query (mk SRay (ray_init [nlit F 5 1; nlit F 5 1; nlit F 5 1] [nlit F 1 1; nlit F 0 1; nlit F 1 1])) (mk SPlane (plane_init [nlit F 1 1; nlit F 1 1; nlit F 1 1] [nlit F 0 1; nlit F 1 1; nlit F 0 1])))) true.
  Proof. vm_compute. reflexivity. Qed.

  (* lib/test/test_intersect_ray_plane.rs:51-60 *)
  Example t_ray_plane_4 : @eq bool (hits (query (mk SRay (ray_init [nlit F 1 1; nlit F 1 1; nlit F 1 1] [nlit F 1 1; nlit F 0 1; nlit F 1 1])) (mk SPlane (plane_init [nlit F 1 1; nlit F 1 1; nlit F 1 1] [nlit F 0 1; nlit F 1 1; nlit F 0 1]))) (M3x1 (A3 (nlit F 1 1) (nlit F 1 1) (nlit F 1 1))) (nlit F 1 10000)) true.
  Proof. vm_compute. reflexivity. Qed.

  (* lib/test/test_intersect_ray_point.rs:10-19 *)
  Example t_ray_point_1 : @eq bool (hits (query (mk SRay (ray_init [nlit F 20 1; nlit F 0 1; nlit F 0 1] [nlit F 1 1; nlit F 1 1; nlit F 1 1])) (mk SPoint (point_init [nlit F 25 1; nlit F 5 1; nlit F 5 1]))) (M3x1 (A3 (nlit F 25 1) (nlit F 5 1) (nlit F 5 1))) (nlit F 1 10000)) true.
  Proof. vm_compute. reflexivity. Qed.

  (* lib/test/test_intersect_ray_point.rs:21-28 *)
  Example t_ray_point_2 : @eq bool (misses (query (mk SRay (ray_init [nlit F 20 1; nlit F 0 1; nlit F 0 1] [nlit F 1 1; nlit F 1 1; nlit F 1 1])) (mk SPoint (point_init [nlit F 15 1; nlit F (-5) 1; nlit F (-5) 1])))) true.
  Proof. vm_compute. reflexivity. Qed.

  (* lib/test/test_intersect_ray_point.rs:30-37 *)
  Example t_ray_point_3 : @eq bool (misses (query (mk SRay (ray_init [nlit F 20 1; nlit F 0 1; nlit F 0 1] [nlit F 1 1; nlit F 1 1; nlit F 1 1])) (mk SPoint (point_init [nlit F 25 1; nlit F 5 1; nlit F 51 10])))) true.
  Proof. vm_compute. reflexivity. Qed.

  (* lib/test/test_intersect_ray_point.rs:41-50 *)
  Example t_ray_point_4 : @eq bool (hits (query (mk SPoint (point_init [nlit F 25 1; nlit F 5 1; nlit F 5 1])) (mk SRay (ray_init [nlit F 20 1; nlit F 0 1; nlit F 0 1] [nlit F 1 1; nlit F 1 1; nlit F 1 1]))) (M3x1 (A3 (nlit F 25 1) (nlit F 5 1) (nlit F 5 1))) (nlit F 1 10000)) true.
  Proof. vm_compute. reflexivity. Qed.

  (* lib/test/test_intersect_ray_point.rs:52-59 *)
  Example t_ray_point_5 : @eq bool (misses (query (mk SPoint (point_init [nlit F 15 1; nlit F (-5) 1; nlit F (-5) 1])) (mk SRay (ray_init [nlit F 20 1; nlit F 0 1; nlit F 0 1] [nlit F 1 1; nlit F 1 1; nlit F 1 1])))) true.
  Proof. vm_compute. reflexivity. Qed.

  (* lib/test/test_intersect_ray_point.rs:61-68 *)
  Example t_ray_point_6 : @eq bool (misses (query (mk SPoint (point_init [nlit F 25 1; nlit F 5 1; nlit F 51 10])) (mk SRay (ray_init [nlit F 20 1; nlit F 0 1; nlit F 0 1] [nlit F 1 1; nlit F 1 1; nlit F 1 1])))) true.
  Proof. vm_compute. reflexivity. Qed.

  (* lib/test/test_intersect_ray_ray.rs:10-18 *)
  Example t_ray_ray_1 : @eq bool (misses (query (mk SRay (ray_init [nlit F 20 1; nlit F 0 1; nlit F 0 1] [nlit F 1 1; nlit F 1 1; nlit F 1 1])) (mk SRay (ray_init [nlit F 25 1; nlit F 0 1; nlit F 0 1] [nlit F 1 1; nlit F 1 1; nlit F 1 1])))) true.
  Proof. vm_compute. reflexivity. Qed.

  (* lib/test/test_intersect_ray_ray.rs:21-31 *)
  Example t_ray_ray_2 : @eq bool (hits (query (mk SRay (ray_init [nlit F 20 1; nlit F 0 1; nlit F 0 1] [nlit F 1 1; nlit F 1 1; nlit F 1 1])) (mk SRay (ray_init [nlit F 22 1; nlit F 2 1; nlit F 2 1] [nlit F 1 1; nlit F 1 1; nlit F 1 1]))) (M3x1 (A3 (nlit F 22 1) (nlit F 2 1) (nlit F 2 1))) (nlit F 1 10000)) true.
  Proof. vm_compute. reflexivity. Qed.

  (* lib/test/test_intersect_ray_ray.rs:34-44 *)
  Example t_ray_ray_3 : @eq bool (hits (query (mk SRay (ray_init [nlit F 25 1; nlit F 5 1; nlit F 5 1] [nlit F 1 1; nlit F 1 1; nlit F 1 1])) (mk SRay (ray_init [nlit F 22 1; nlit F 2 1; nlit F 2 1] [nlit F 1 1; nlit F 1 1; nlit F 1 1]))) (M3x1 (A3 (nlit F 25 1) (nlit F 5 1) (nlit F 5 1))) (nlit F 1 10000)) true.
  Proof. vm_compute. reflexivity. Qed.

  (* lib/test/test_intersect_ray_ray.rs:47-64 *)
  Example t_ray_ray_4 : @eq bool (hits (query (mk SRay (ray_init [nlit F 5 1; nlit F 5 1; nlit F 0 1] [nlit F (-1) 1; nlit F 0 1; nlit F 0 1])) (mk SRay (ray_init [nlit F 0 1; nlit F 0 1; nlit F 0 1] [nlit F 0 1; nlit F 1 1; nlit F 0 1]))) (M3x1 (A3 (nlit F 0 1) (nlit F 5 1) (nlit F 0 1))) (nlit F 1 10000)) true.
  Proof. vm_compute. reflexivity. Qed.

  (* lib/test/test_intersect_ray_ray.rs:67-75 *)
  Example t_ray_ray_5 : @eq bool (misses (query (mk SRay (ray_init [nlit F 5 1; nlit F 5 1; nlit F 2 1] [nlit F (-1) 1; nlit F (-1) 1; nlit F 0 1])) (mk SRay (ray_init [nlit F 5 1; nlit F 5 1; nlit F 0 1] [nlit F 1 1; nlit F 1 1; nlit F 0 1])))) true.
  Proof. vm_compute. reflexivity. Qed.

  (* lib/test/test_intersect_ray_sphere.rs:12-28 *)
  Example t_ray_sphere_1 : @eq bool (hits (query (mk SRay (ray_init [nlit F 5 1; nlit F 0 1; nlit F 0 1] [nlit F 1 1; nlit F 0 1; nlit F 0 1])) (mk SSphere (sphere_init [nlit F 20 1; nlit F 0 1; nlit F 0 1] (nlit F 5 1)))) (M3x1 (A3 (nlit F 15 1) (nlit F 0 1) (nlit F 0 1))) (nlit F 1 10000)) true.
  Proof. vm_compute. reflexivity. Qed.

  (* lib/test/test_intersect_ray_sphere.rs:31-38 *)
  Example t_ray_sphere_2 : @eq bool (misses (query (mk SRay (ray_init [nlit F 5 1; nlit F 0 1; nlit F 0 1] [nlit F (-1) 1; nlit F 0 1; nlit F 0 1])) (mk SSphere (sphere_init [nlit F 20 1; nlit F 0 1; nlit F 0 1] (nlit F 5 1))))) true.
  Proof. vm_compute. reflexivity. Qed.

  (* lib/test/test_intersect_ray_sphere.rs:41-57 *)
  Example t_ray_sphere_3 : @eq bool (hits (query (mk SRay (ray_init [nlit F 30 1; nlit F 10 1; nlit F 10 1] [nlit F (-1) 1; nlit F 0 1; nlit F 0 1])) (mk SSphere (sphere_init [nlit F 20 1; nlit F 10 1; nlit F 10 1] (nlit F 5 1)))) (M3x1 (A3 (nlit F 25 1) (nlit F 10 1) (nlit F 10 1))) (nlit F 1 10000)) true.
  Proof. vm_compute. reflexivity. Qed.

  (* lib/test/test_intersect_ray_sphere.rs:60-78 *)
  Example t_ray_sphere_4 : @eq bool (hits (query (mk SRay (ray_init [nlit F 30 1; nlit F 10 1; nlit F 10 1] [nlit F (-1) 1; nlit F (-1) 1; nlit F (-1) 1])) (mk SSphere (sphere_init [nlit F 20 1; nlit F 0 1; nlit F 0 1] (nlit F 5 1)))) (M3x1 (A3 (nlit F 20 1 + nsqrt F (nlit F 25 1 / nlit F 3 1)) (nlit F 0 1 + nsqrt F (nlit F 25 1 / nlit F 3 1)) (nlit F 0 1 + nsqrt F (nlit F 25 1 / nlit F 3 1)))) (nlit F 1 10000)) true.
  Proof. vm_compute. reflexivity. Qed.

  (* lib/test/test_intersect_ray_sphere.rs:81-88 *)
  Example t_ray_sphere_5 : @eq bool (misses (query (mk SRay (ray_init [nlit F 30 1; nlit F 10 1; nlit F 10 1] [nlit F (-1) 1; nlit F 0 1; nlit F (-1) 1])) (mk SSphere (sphere_init [nlit F 20 1; nlit F 0 1; nlit F 0 1] (nlit F 5 1))))) true.
  Proof. vm_compute. reflexivity. Qed.

  (* lib/test/test_intersect_sphere_plane.rs:12-28 *)
  Example t_sphere_plane_1 : @eq bool (hits (query (mk SSphere (sphere_init [nlit F 10 1; nlit F 0 1; nlit F 0 1] (nlit F 5 1))) (mk SPlane (plane_init [nlit F 5 1; nlit F 0 1; nlit F 0 1] [nlit F 1 1; nlit F 0 1; nlit F 0 1]))) (M3x1 (A3 (nlit F 5 1) (nlit F 0 1) (nlit F 0 1))) (nlit F 1 10000)) true.
  Proof. vm_compute. reflexivity. Qed.

  (* lib/test/test_intersect_sphere_plane.rs:31-47 *)
  Example t_sphere_plane_2 : @eq bool (hits (query (mk SSphere (sphere_init [nlit F 8 1; nlit F 4 1; nlit F 6 1] (nlit F 5 1))) (mk SPlane (plane_init [nlit F 5 1; nlit F 0 1; nlit F 0 1] [nlit F 1 1; nlit F 0 1; nlit F 0 1]))) (M3x1 (A3 (nlit F 5 1) (nlit F 4 1) (nlit F 6 1))) (nlit F 1 10000)) true.
  Proof. vm_compute. reflexivity. Qed.

  (* lib/test/test_intersect_sphere_plane.rs:50-66 *)
  Example t_sphere_plane_3 : @eq bool (hits (query (mk SSphere (sphere_init [nlit F 10 1; nlit F 4 1; nlit F 6 1] (nlit F 5 1))) (mk SPlane (plane_init [nlit F 10 1; nlit F 4 1; nlit F 6 1] [nlit F 1 1; nlit F 1 1; nlit F 1 1]))) (M3x1 (A3 (nlit F 10 1) (nlit F 4 1) (nlit F 6 1))) (nlit F 1 10000)) true.
  Proof. vm_compute. reflexivity. Qed.

  (* lib/test/test_intersect_sphere_plane.rs:69-76 *)
  Example t_sphere_plane_4 : @eq bool (misses (query (mk SSphere (sphere_init [nlit F 101 10; nlit F 4 1; nlit F 6 1] (nlit F 5 1))) (mk SPlane (plane_init [nlit F 5 1; nlit F 0 1; nlit F 0 1] [nlit F 1 1; nlit F 0 1; nlit F 0 1])))) true.
  Proof. vm_compute. reflexivity. Qed.

  (* lib/test/test_intersect_sphere_point.rs:12-28 *)
  Example t_sphere_point_1 : @eq bool (hits (query (mk SSphere (sphere_init [nlit F 10 1; nlit F 0 1; nlit F 0 1] (nlit F 5 1))) (mk SPoint (point_init [nlit F 8 1; nlit F 2 1; nlit F 3 1]))) (M3x1 (A3 (nlit F 8 1) (nlit F 2 1) (nlit F 3 1))) (nlit F 1 10000)) true.
  Proof. vm_compute. reflexivity. Qed.

  (* lib/test/test_intersect_sphere_point.rs:30-46 *)
  Example t_sphere_point_2 : @eq bool (hits (query (mk SSphere (sphere_init [nlit F 10 1; nlit F 0 1; nlit F 0 1] (nlit F 5 1))) (mk SPoint (point_init [nlit F 10 1; nlit F 5 1; nlit F 0 1]))) (M3x1 (A3 (nlit F 10 1) (nlit F 5 1) (nlit F 0 1))) (nlit F 1 10000)) true.
  Proof. vm_compute. reflexivity. Qed.

  (* lib/test/test_intersect_sphere_point.rs:48-55 *)
  Example t_sphere_point_3 : @eq bool (misses (query (mk SSphere (sphere_init [nlit F 10 1; nlit F 0 1; nlit F 0 1] (nlit F 5 1))) (mk SPoint (point_init [nlit F 0 1; nlit F 51 10; nlit F 0 1])))) true.
  Proof. vm_compute. reflexivity. Qed.

  (* lib/test/test_intersect_sphere_sphere.rs:11-27 *)
  Example t_sphere_sphere_1 : @eq bool (hits (query (mk SSphere (sphere_init [nlit F 10 1; nlit F 0 1; nlit F 0 1] (nlit F 5 1))) (mk SSphere (sphere_init [nlit F 20 1; nlit F 0 1; nlit F 0 1] (nlit F 5 1)))) (M3x1 (A3 (nlit F 15 1) (nlit F 0 1) (nlit F 0 1))) (nlit F 1 10000)) true.
  Proof. vm_compute. reflexivity. Qed.

  (* lib/test/test_intersect_sphere_sphere.rs:29-46 *)
  Example t_sphere_sphere_2 : @eq bool (hits (query (mk SSphere (sphere_init [nlit F 10 1; nlit F 0 1; nlit F 0 1] (nlit F 5 1))) (mk SSphere (sphere_init [nlit F 13 1; nlit F 4 1; nlit F 0 1] (nlit F 5 1)))) (M3x1 (A3 (nlit F 115 10) (nlit F 2 1) (nlit F 0 1))) (nlit F 1 10000)) true.
  Proof. vm_compute. reflexivity. Qed.

  (* lib/test/test_intersect_sphere_sphere.rs:49-56 *)
  Example t_sphere_sphere_3 : @eq bool (misses (query (mk SSphere (sphere_init [nlit F 10 1; nlit F 0 1; nlit F 0 1] (nlit F 5 1))) (mk SSphere (sphere_init [nlit F 20 1; nlit F 1 10; nlit F 0 1] (nlit F 5 1))))) true.
  Proof. vm_compute. reflexivity. Qed.

  (* lib/test/test_intersect_triprism_line.rs:9-18 *)
  Example t_triprism_line_1 : @eq bool (finds (query (mk SPrism (triprism_init [nlit F 0 1; nlit F 0 1; nlit F 0 1; nlit F 1 1; nlit F 0 1; nlit F 0 1; nlit F 1 1; nlit F 1 1; nlit F 0 1] (nlit F 1 1))) (mk SLine (line_init [nlit F 25 100; nlit F 25 100; nlit F 0 1] [nlit F 1 1; nlit F 1 1; nlit F 0 1])))) true.
  Proof. vm_compute. reflexivity. Qed.

  (* lib/test/test_intersect_triprism_line.rs:20-29 *)
  Example t_triprism_line_2 : @eq bool (finds (query (mk SPrism (triprism_init [nlit F 0 1; nlit F 0 1; nlit F 0 1; nlit F 1 1; nlit F 0 1; nlit F 0 1; nlit F 1 1; nlit F 1 1; nlit F 0 1] (nlit F 1 1))) (mk SLine (line_init [nlit F 5 10; nlit F (-50) 1; nlit F 0 1] [nlit F 5 10; nlit F 50 1; nlit F 0 1])))) true.
  Proof. vm_compute. reflexivity. Qed.

  (* lib/test/test_intersect_triprism_line.rs:31-40 *)
  Example t_triprism_line_3 : @eq bool (finds (query (mk SPrism (triprism_init [nlit F 0 1; nlit F 0 1; nlit F 0 1; nlit F 1 1; nlit F 0 1; nlit F 0 1; nlit F 1 1; nlit F 1 1; nlit F 0 1] (nlit F 1 1))) (mk SLine (line_init [nlit F 25 100; nlit F 25 100; nlit F 5 10] [nlit F 26 100; nlit F 26 100; nlit F 5 10])))) true.
  Proof. vm_compute. reflexivity. Qed.

  (* lib/test/test_intersect_triprism_line.rs:43-52 *)
  Example t_triprism_line_4 : @eq bool (finds (query (mk SLine (line_init [nlit F 25 100; nlit F 25 100; nlit F 0 1] [nlit F 1 1; nlit F 1 1; nlit F 0 1])) (mk SPrism (triprism_init [nlit F 0 1; nlit F 0 1; nlit F 0 1; nlit F 1 1; nlit F 0 1; nlit F 0 1; nlit F 1 1; nlit F 1 1; nlit F 0 1] (nlit F 1 1))))) true.
  Proof. vm_compute. reflexivity. Qed.

  (* lib/test/test_intersect_triprism_line.rs:54-63 *)
  Example t_triprism_line_5 : @eq bool (finds (query (mk SLine (line_init [nlit F 5 10; nlit F (-50) 1; nlit F 0 1] [nlit F 5 10; nlit F 50 1; nlit F 0 1])) (mk SPrism (triprism_init [nlit F 0 1; nlit F 0 1; nlit F 0 1; nlit F 1 1; nlit F 0 1; nlit F 0 1; nlit F 1 1; nlit F 1 1; nlit F 0 1] (nlit F 1 1))))) true.
  Proof. vm_compute. reflexivity. Qed.

  (* lib/test/test_intersect_triprism_line.rs:65-74 *)
  Example t_triprism_line_6 : @eq bool (finds (query (mk SLine (line_init [nlit F 25 100; nlit F 25 100; nlit F 5 10] [nlit F 26 100; nlit F 26 100; nlit F 5 10])) (mk SPrism (triprism_init [nlit F 0 1; nlit F 0 1; nlit F 0 1; nlit F 1 1; nlit F 0 1; nlit F 0 1; nlit F 1 1; nlit F 1 1; nlit F 0 1] (nlit F 1 1))))) true.
  Proof. vm_compute. reflexivity. Qed.

  (* lib/test/test_intersect_triprism_line.rs:77-88 *)
  Example t_triprism_line_7 : @eq bool (negb (finds (query (mk SPrism (triprism_init [nlit F 0 1; nlit F 0 1; nlit F 0 1; nlit F 1 1; nlit F 0 1; nlit F 0 1; nlit F 1 1; nlit F 1 1; nlit F 0 1] (nlit F 1 1))) (mk SLine (line_init [nlit F 25 100; nlit F 25 100; nlit F 15 10] [nlit F 1 1; nlit F 1 1; nlit F 15 10]))))) true.
  Proof. vm_compute. reflexivity. Qed.

  (* lib/test/test_intersect_triprism_line.rs:91-102 *)
  Example t_triprism_line_8 : @eq bool (negb (finds (query (mk SPrism (triprism_init [nlit F 0 1; nlit F 0 1; nlit F 0 1; nlit F 1 1; nlit F 0 1; nlit F 0 1; nlit F 1 1; nlit F 1 1; nlit F 0 1] (nlit F 1 1))) (mk SLine (line_init [nlit F 0 1; nlit F (-5) 1; nlit F 5 10] [nlit F 50 1; nlit F 45 1; nlit F 5 10]))))) true.
  Proof. vm_compute. reflexivity. Qed.

  (* lib/test/test_intersect_triprism_point.rs:10-21 *)
  Example t_triprism_point_1 : @eq bool (hits (query (mk SPrism (triprism_init [nlit F 0 1; nlit F 0 1; nlit F 0 1; nlit F 1 1; nlit F 0 1; nlit F 0 1; nlit F 1 1; nlit F 1 1; nlit F 0 1] (nlit F 1 1))) (mk SPoint (point_init [nlit F 25 100; nlit F 25 100; nlit F 0 1]))) (M3x1 (A3 (nlit F 25 100) (nlit F 25 100) (nlit F 0 1))) (nlit F 1 10000)) true.
  Proof. vm_compute. reflexivity. Qed.

  (* lib/test/test_intersect_triprism_point.rs:23-34 *)
  Example t_triprism_point_2 : @eq bool (hits (query (mk SPrism (triprism_init [nlit F 0 1; nlit F 0 1; nlit F 0 1; nlit F 1 1; nlit F 0 1; nlit F 0 1; nlit F 1 1; nlit F 1 1; nlit F 0 1] (nlit F 1 1))) (mk SPoint (point_init [nlit F 25 100; nlit F 25 100; nlit F 5 10]))) (M3x1 (A3 (nlit F 25 100) (nlit F 25 100) (nlit F 5 10))) (nlit F 1 10000)) true.
  Proof. vm_compute. reflexivity. Qed.

  (* lib/test/test_intersect_triprism_point.rs:36-47 *)
  Example t_triprism_point_3 : @eq bool (hits (query (mk SPrism (triprism_init [nlit F 0 1; nlit F 0 1; nlit F 0 1; nlit F 1 1; nlit F 0 1; nlit F 0 1; nlit F 1 1; nlit F 1 1; nlit F 0 1] (nlit F 1 1))) (mk SPoint (point_init [nlit F 25 100; nlit F 25 100; nlit F 1 1]))) (M3x1 (A3 (nlit F 25 100) (nlit F 25 100) (nlit F 1 1))) (nlit F 1 10000)) true.
  Proof. vm_compute. reflexivity. Qed.

  (* lib/test/test_intersect_triprism_point.rs:50-61 *)
  Example t_triprism_point_4 : @eq bool (hits (query (mk SPoint (point_init [nlit F 25 100; nlit F 25 100; nlit F 0 1])) (mk SPrism (triprism_init [nlit F 0 1; nlit F 0 1; nlit F 0 1; nlit F 1 1; nlit F 0 1; nlit F 0 1; nlit F 1 1; nlit F 1 1; nlit F 0 1] (nlit F 1 1)))) (M3x1 (A3 (nlit F 25 100) (nlit F 25 100) (nlit F 0 1))) (nlit F 1 10000)) true.
  Proof. vm_compute. reflexivity. Qed.

  (* lib/test/test_intersect_triprism_point.rs:63-74 *)
  Example t_triprism_point_5 : @eq bool (hits (query (mk SPoint (point_init [nlit F 25 100; nlit F 25 100; nlit F 5 10])) (mk SPrism (triprism_init [nlit F 0 1; nlit F 0 1; nlit F 0 1; nlit F 1 1; nlit F 0 1; nlit F 0 1; nlit F 1 1; nlit F 1 1; nlit F 0 1] (nlit F 1 1)))) (M3x1 (A3 (nlit F 25 100) (nlit F 25 100) (nlit F 5 10))) (nlit F 1 10000)) true.
  Proof. vm_compute. reflexivity. Qed.

  (* lib/test/test_intersect_triprism_point.rs:76-87 *)
  Example t_triprism_point_6 : @eq bool (hits (query (mk SPoint (point_init [nlit F 25 100; nlit F 25 100; nlit F 1 1])) (mk SPrism (triprism_init [nlit F 0 1; nlit F 0 1; nlit F 0 1; nlit F 1 1; nlit F 0 1; nlit F 0 1; nlit F 1 1; nlit F 1 1; nlit F 0 1] (nlit F 1 1)))) (M3x1 (A3 (nlit F 25 100) (nlit F 25 100) (nlit F 1 1))) (nlit F 1 10000)) true.
  Proof. vm_compute. reflexivity. Qed.

  (* lib/test/test_intersect_triprism_point.rs:90-99 *)
  Example t_triprism_point_7 : @eq bool (misses (query (mk SPrism (triprism_init [nlit F 0 1; nlit F 0 1; nlit F 0 1; nlit F 1 1; nlit F 0 1; nlit F 0 1; nlit F 1 1; nlit F 1 1; nlit F 0 1] (nlit F 1 1))) (mk SPoint (point_init [nlit F 25 100; nlit F 25 100; nlit F 1001 1000])))) true.
  Proof. vm_compute. reflexivity. Qed.

  (* lib/test/test_intersect_triprism_point.rs:101-110 *)
  Example t_triprism_point_8 : @eq bool (misses (query (mk SPrism (triprism_init [nlit F 0 1; nlit F 0 1; nlit F 0 1; nlit F 1 1; nlit F 0 1; nlit F 0 1; nlit F 1 1; nlit F 1 1; nlit F 0 1] (nlit F 1 1))) (mk SPoint (point_init [nlit F 5 10; nlit F 55 100; nlit F 5 10])))) true.
  Proof. vm_compute. reflexivity. Qed.

  (* lib/test/test_bound.rs:6-18 *)
  Example t_bound_1 : @eq bool (bound_says true (AABB (A3 (nlit F 0 1) (nlit F 0 1) (nlit F 0 1)) (A3 (nlit F 10 1) (nlit F 20 1) (nlit F 30 1))) (AABB (A3 (nlit F 0 1) (nlit F 0 1) (nlit F 0 1)) (A3 (nlit F 10 1) (nlit F 20 1) (nlit F 30 1)))) true.
  Proof. vm_compute. reflexivity. Qed.

  (* lib/test/test_bound.rs:19-31 *)
  Example t_bound_2 : @eq bool (bound_says true (AABB (A3 (nlit F 0 1) (nlit F 0 1) (nlit F 0 1)) (A3 (nlit F 10 1) (nlit F 20 1) (nlit F 30 1))) (AABB (A3 (nlit F 10 1) (nlit F 20 1) (nlit F 30 1)) (A3 (nlit F 20 1) (nlit F 30 1) (nlit F 40 1)))) true.
  Proof. vm_compute. reflexivity. Qed.

  (* lib/test/test_bound.rs:33-45 *)
  Example t_bound_3 : @eq bool (bound_says true (AABB (A3 (nlit F 10 1) (nlit F 20 1) (nlit F 30 1)) (A3 (nlit F 20 1) (nlit F 30 1) (nlit F 40 1))) (AABB (A3 (nlit F 0 1) (nlit F 0 1) (nlit F 0 1)) (A3 (nlit F 10 1) (nlit F 20 1) (nlit F 30 1)))) true.
  Proof. vm_compute. reflexivity. Qed.

  (* lib/test/test_bound.rs:47-59 *)
  Example t_bound_4 : @eq bool (bound_says false (AABB (A3 (nlit F 0 1) (nlit F 0 1) (nlit F 0 1)) (A3 (nlit F 10 1) (nlit F 20 1) (nlit F 30 1))) (AABB (A3 (nlit F 11 1) (nlit F 21 1) (nlit F 31 1)) (A3 (nlit F 20 1) (nlit F 30 1) (nlit F 40 1)))) true.
  Proof. vm_compute. reflexivity. Qed.

  (* lib/test/test_bound.rs:61-73 *)
  Example t_bound_5 : @eq bool (bound_says false (AABB (A3 (nlit F 0 1) (nlit F 0 1) (nlit F 0 1)) (A3 (nlit F 10 1) (nlit F 20 1) (nlit F 30 1))) (AABB (A3 (nlit F 9 1) (nlit F 19 1) (nlit F 31 1)) (A3 (nlit F 20 1) (nlit F 30 1) (nlit F 40 1)))) true.
  Proof. vm_compute. reflexivity. Qed.

  (* lib/test/test_bound.rs:75-87 *)
  Example t_bound_6 : @eq bool (bound_says false (AABB (A3 (nlit F 9 1) (nlit F 19 1) (nlit F 31 1)) (A3 (nlit F 20 1) (nlit F 30 1) (nlit F 40 1))) (AABB (A3 (nlit F 0 1) (nlit F 0 1) (nlit F 0 1)) (A3 (nlit F 10 1) (nlit F 20 1) (nlit F 30 1)))) true.
  Proof. vm_compute. reflexivity. Qed.

  (* lib/test/test_bound.rs:88-110 *)
  Example t_bound_7 : @eq bool (same_box (aabb_get_union aabb_default [BBox (AABB (A3 (nlit F 0 1) (nlit F (-9) 1) (nlit F (-18) 1)) (A3 (nlit F 10 1) (nlit F 20 1) (nlit F 40 1))); BBox (AABB (A3 (nlit F 9 1) (nlit F (-20) 1) (nlit F 31 1)) (A3 (nlit F 20 1) (nlit F 30 1) (nlit F 10 1)))]) [nlit F 0 1; nlit F (-20) 1; nlit F (-18) 1; nlit F 20 1; nlit F 30 1; nlit F 40 1]) true.
  Proof. vm_compute. reflexivity. Qed.

  (* lib/test/test_mat1x3.rs:14 *)
  Example t_mat1x3_size : @eq bool (match mat1x3_size (M1x3 (A3 (nlit F 10 1) (nlit F 10 1) (nlit F 10 1))) with Some k => Nat.eqb k 3 | None => false end) true.
  Proof. vm_compute. reflexivity. Qed.

  (* lib/test/test_mat1x3.rs:19-22 *)
  Example t_mat1x3_mul_elem : @eq bool (ook (mat1x3_mul_elem (M1x3 (A3 (nlit F 10 1) (nlit F 10 1) (nlit F 10 1))) (M1x3 (A3 (nlit F 2 1) (nlit F 2 1) (nlit F 2 1)))) (fun w => mat1x3_is_equal w (M1x3 (A3 (nlit F 20 1) (nlit F 20 1) (nlit F 20 1))) (nlit F 1 10000))) true.
  Proof. vm_compute. reflexivity. Qed.

  (* lib/test/test_mat1x3.rs:25-28 *)
  Example t_mat1x3_div : @eq bool (ook (mat1x3_div (M1x3 (A3 (nlit F 10 1) (nlit F 10 1) (nlit F 10 1))) (M1x3 (A3 (nlit F 2 1) (nlit F 2 1) (nlit F 2 1)))) (fun w => mat1x3_is_equal w (M1x3 (A3 (nlit F 5 1) (nlit F 5 1) (nlit F 5 1))) (nlit F 1 10000))) true.
  Proof. vm_compute. reflexivity. Qed.

  (* lib/test/test_mat1x3.rs:31-34 *)
  Example t_mat1x3_plus : @eq bool (ook (mat1x3_plus (M1x3 (A3 (nlit F 10 1) (nlit F 10 1) (nlit F 10 1))) (M1x3 (A3 (nlit F 2 1) (nlit F 2 1) (nlit F 2 1)))) (fun w => mat1x3_is_equal w (M1x3 (A3 (nlit F 12 1) (nlit F 12 1) (nlit F 12 1))) (nlit F 1 10000))) true.
  Proof. vm_compute. reflexivity. Qed.

  (* lib/test/test_mat1x3.rs:37-40 *)
  Example t_mat1x3_minus : @eq bool (ook (mat1x3_minus (M1x3 (A3 (nlit F 10 1) (nlit F 10 1) (nlit F 10 1))) (M1x3 (A3 (nlit F 2 1) (nlit F 2 1) (nlit F 2 1)))) (fun w => mat1x3_is_equal w (M1x3 (A3 (nlit F 8 1) (nlit F 8 1) (nlit F 8 1))) (nlit F 1 10000))) true.
  Proof. vm_compute. reflexivity. Qed.

  (* lib/test/test_mat1x3.rs:43 *)
  Example t_mat1x3_magnitude : @eq bool (match mat1x3_magnitude (M1x3 (A3 (nlit F 2 1) (nlit F 2 1) (nlit F 2 1))) with Some m => neqb m (nsqrt F ((nlit F 2 1 * nlit F 2 1) * nlit F 3 1)) | None => false end) true.
  Proof. vm_compute. reflexivity. Qed.

  (* lib/test/test_mat1x3.rs:45-55 *)
  Example t_mat1x3_normalize : @eq bool (rook (mat1x3_normalize (M1x3 (A3 (nlit F 2 1) (nlit F 2 1) (nlit F 2 1)))) (fun w => mat1x3_is_equal w (M1x3 (A3 (nlit F 2 1 / nsqrt F ((nlit F 2 1 * nlit F 2 1) * nlit F 3 1)) (nlit F 2 1 / nsqrt F ((nlit F 2 1 * nlit F 2 1) * nlit F 3 1)) (nlit F 2 1 / nsqrt F ((nlit F 2 1 * nlit F 2 1) * nlit F 3 1)))) (nlit F 1 10000))) true.
  Proof. vm_compute. reflexivity. Qed.

  (* lib/test/test_mat1x3.rs:55-60 *)
  Example t_mat1x3_scale : @eq bool (ook (mat1x3_scale (M1x3 (A3 (nlit F 2 1) (nlit F 2 1) (nlit F 2 1))) (nlit F 4 1)) (fun w => mat1x3_is_equal w (M1x3 (A3 (nlit F 8 1) (nlit F 8 1) (nlit F 8 1))) (nlit F 1 10000))) true.
  Proof. vm_compute. reflexivity. Qed.

  (* lib/test/test_mat1x3.rs:60-67 *)
  Example t_mat1x3_near : @eq bool (says true (mat1x3_is_equal (M1x3 (A3 (nlit F 5 1) (nlit F 53 10) (nlit F 77 10))) (M1x3 (A3 (nlit F 51 10) (nlit F 54 10) (nlit F 78 10))) (nlit F 1001 10000))) true.
  Proof. vm_compute. reflexivity. Qed.

  (* lib/test/test_mat1x3.rs:60-70 *)
  Example t_mat1x3_far : @eq bool (says false (mat1x3_is_equal (M1x3 (A3 (nlit F 5 1) (nlit F 53 10) (nlit F 77 10))) (M1x3 (A3 (nlit F 51 10) (nlit F 54 10) (nlit F 78 10))) (nlit F 999 10000))) true.
  Proof. vm_compute. reflexivity. Qed.

  (* lib/test/test_mat1x3.rs:76 *)
  Example t_mat1x3_mul : @eq bool (rook (mat1x3_mul_mat3x3 (M1x3 (A3 (nlit F 1 1) (nlit F 2 1) (nlit F (-4) 1))) (mat3_init (A9 (nlit F 0 1) (nlit F 1 1) (nlit F 2 1) (nlit F 3 1) (nlit F 4 1) (nlit F 5 1) (nlit F 6 1) (nlit F 7 1) (nlit F 8 1)) true)) (fun w => mat1x3_is_equal w (M1x3 (A3 (nlit F (-18) 1) (nlit F (-19) 1) (nlit F (-20) 1))) (nlit F 1 100000))) true.
  Proof. vm_compute. reflexivity. Qed.

  (* lib/test/test_mat3x1.rs:13 *)
  Example t_mat3x1_size : @eq bool (match mat3x1_size (M3x1 (A3 (nlit F 10 1) (nlit F 10 1) (nlit F 10 1))) with Some k => Nat.eqb k 3 | None => false end) true.
  Proof. vm_compute. reflexivity. Qed.

  (* lib/test/test_mat3x1.rs:18-21 *)
  Example t_mat3x1_mul_elem : @eq bool (ook (mat3x1_mul_elem (M3x1 (A3 (nlit F 10 1) (nlit F 10 1) (nlit F 10 1))) (M3x1 (A3 (nlit F 2 1) (nlit F 2 1) (nlit F 2 1)))) (fun w => mat3x1_is_equal w (M3x1 (A3 (nlit F 20 1) (nlit F 20 1) (nlit F 20 1))) (nlit F 1 10000))) true.
  Proof. vm_compute. reflexivity. Qed.

  (* lib/test/test_mat3x1.rs:24-27 *)
  Example t_mat3x1_div : @eq bool (ook (mat3x1_div (M3x1 (A3 (nlit F 10 1) (nlit F 10 1) (nlit F 10 1))) (M3x1 (A3 (nlit F 2 1) (nlit F 2 1) (nlit F 2 1)))) (fun w => mat3x1_is_equal w (M3x1 (A3 (nlit F 5 1) (nlit F 5 1) (nlit F 5 1))) (nlit F 1 10000))) true.
  Proof. vm_compute. reflexivity. Qed.

  (* lib/test/test_mat3x1.rs:30-33 *)
  Example t_mat3x1_plus : @eq bool (ook (mat3x1_plus (M3x1 (A3 (nlit F 10 1) (nlit F 10 1) (nlit F 10 1))) (M3x1 (A3 (nlit F 2 1) (nlit F 2 1) (nlit F 2 1)))) (fun w => mat3x1_is_equal w (M3x1 (A3 (nlit F 12 1) (nlit F 12 1) (nlit F 12 1))) (nlit F 1 10000))) true.
  Proof. vm_compute. reflexivity. Qed.

  (* lib/test/test_mat3x1.rs:36-39 *)
  Example t_mat3x1_minus : @eq bool (ook (mat3x1_minus (M3x1 (A3 (nlit F 10 1) (nlit F 10 1) (nlit F 10 1))) (M3x1 (A3 (nlit F 2 1) (nlit F 2 1) (nlit F 2 1)))) (fun w => mat3x1_is_equal w (M3x1 (A3 (nlit F 8 1) (nlit F 8 1) (nlit F 8 1))) (nlit F 1 10000))) true.
  Proof. vm_compute. reflexivity. Qed.

  (* lib/test/test_mat3x1.rs:42 *)
  Example t_mat3x1_magnitude : @eq bool (match mat3x1_magnitude (M3x1 (A3 (nlit F 2 1) (nlit F 2 1) (nlit F 2 1))) with Some m => neqb m (nsqrt F ((nlit F 2 1 * nlit F 2 1) * nlit F 3 1)) | None => false end) true.
  Proof. vm_compute. reflexivity. Qed.

  (* lib/test/test_mat3x1.rs:44-54 *)
  Example t_mat3x1_normalize : @eq bool (rook (mat3x1_normalize (M3x1 (A3 (nlit F 2 1) (nlit F 2 1) (nlit F 2 1)))) (fun w => mat3x1_is_equal w (M3x1 (A3 (nlit F 2 1 / nsqrt F ((nlit F 2 1 * nlit F 2 1) * nlit F 3 1)) (nlit F 2 1 / nsqrt F ((nlit F 2 1 * nlit F 2 1) * nlit F 3 1)) (nlit F 2 1 / nsqrt F ((nlit F 2 1 * nlit F 2 1) * nlit F 3 1)))) (nlit F 1 10000))) true.
  Proof. vm_compute. reflexivity. Qed.

  (* lib/test/test_mat3x1.rs:54-59 *)
  Example t_mat3x1_scale : @eq bool (ook (mat3x1_scale (M3x1 (A3 (nlit F 2 1) (nlit F 2 1) (nlit F 2 1))) (nlit F 4 1)) (fun w => mat3x1_is_equal w (M3x1 (A3 (nlit F 8 1) (nlit F 8 1) (nlit F 8 1))) (nlit F 1 10000))) true.
  Proof. vm_compute. reflexivity. Qed.

  (* lib/test/test_mat3x1.rs:59-66 *)
  Example t_mat3x1_near : @eq bool (says true (mat3x1_is_equal (M3x1 (A3 (nlit F 5 1) (nlit F 53 10) (nlit F 77 10))) (M3x1 (A3 (nlit F 51 10) (nlit F 54 10) (nlit F 78 10))) (nlit F 1001 10000))) true.
  Proof. vm_compute. reflexivity. Qed.

  (* lib/test/test_mat3x1.rs:59-69 *)
  Example t_mat3x1_far : @eq bool (says false (mat3x1_is_equal (M3x1 (A3 (nlit F 5 1) (nlit F 53 10) (nlit F 77 10))) (M3x1 (A3 (nlit F 51 10) (nlit F 54 10) (nlit F 78 10))) (nlit F 999 10000))) true.
  Proof. vm_compute. reflexivity. Qed.

  (* lib/test/test_mat1x4.rs:15 *)
  Example t_mat1x4_size : @eq bool (match mat1x4_size (M1x4 (A4 (nlit F 10 1) (nlit F 10 1) (nlit F 10 1) (nlit F 10 1))) with Some k => Nat.eqb k 4 | None => false end) true.
  Proof. vm_compute. reflexivity. Qed.

  (* lib/test/test_mat1x4.rs:20-23 *)
  Example t_mat1x4_mul_elem : @eq bool (ook (mat1x4_mul_elem (M1x4 (A4 (nlit F 10 1) (nlit F 10 1) (nlit F 10 1) (nlit F 10 1))) (M1x4 (A4 (nlit F 2 1) (nlit F 2 1) (nlit F 2 1) (nlit F 2 1)))) (fun w => mat1x4_is_equal w (M1x4 (A4 (nlit F 20 1) (nlit F 20 1) (nlit F 20 1) (nlit F 20 1))) (nlit F 1 10000))) true.
  Proof. vm_compute. reflexivity. Qed.

  (* lib/test/test_mat1x4.rs:26-29 *)
  Example t_mat1x4_div : @eq bool (ook (mat1x4_div (M1x4 (A4 (nlit F 10 1) (nlit F 10 1) (nlit F 10 1) (nlit F 10 1))) (M1x4 (A4 (nlit F 2 1) (nlit F 2 1) (nlit F 2 1) (nlit F 2 1)))) (fun w => mat1x4_is_equal w (M1x4 (A4 (nlit F 5 1) (nlit F 5 1) (nlit F 5 1) (nlit F 5 1))) (nlit F 1 10000))) true.
  Proof. vm_compute. reflexivity. Qed.

  (* lib/test/test_mat1x4.rs:32-35 *)
  Example t_mat1x4_plus : @eq bool (ook (mat1x4_plus (M1x4 (A4 (nlit F 10 1) (nlit F 10 1) (nlit F 10 1) (nlit F 10 1))) (M1x4 (A4 (nlit F 2 1) (nlit F 2 1) (nlit F 2 1) (nlit F 2 1)))) (fun w => mat1x4_is_equal w (M1x4 (A4 (nlit F 12 1) (nlit F 12 1) (nlit F 12 1) (nlit F 12 1))) (nlit F 1 10000))) true.
  Proof. vm_compute. reflexivity. Qed.

  (* lib/test/test_mat1x4.rs:38-41 *)
  Example t_mat1x4_minus : @eq bool (ook (mat1x4_minus (M1x4 (A4 (nlit F 10 1) (nlit F 10 1) (nlit F 10 1) (nlit F 10 1))) (M1x4 (A4 (nlit F 2 1) (nlit F 2 1) (nlit F 2 1) (nlit F 2 1)))) (fun w => mat1x4_is_equal w (M1x4 (A4 (nlit F 8 1) (nlit F 8 1) (nlit F 8 1) (nlit F 8 1))) (nlit F 1 10000))) true.
  Proof. vm_compute. reflexivity. Qed.

  (* lib/test/test_mat1x4.rs:44 *)
  Example t_mat1x4_magnitude : @eq bool (match mat1x4_magnitude (M1x4 (A4 (nlit F 2 1) (nlit F 2 1) (nlit F 2 1) (nlit F 2 1))) with Some m => neqb m (nsqrt F ((nlit F 2 1 * nlit F 2 1) * nlit F 4 1)) | None => false end) true.
  Proof. vm_compute. reflexivity. Qed.

  (* lib/test/test_mat1x4.rs:46-56 *)
  Example t_mat1x4_normalize : @eq bool (rook (mat1x4_normalize (M1x4 (A4 (nlit F 2 1) (nlit F 2 1) (nlit F 2 1) (nlit F 2 1)))) (fun w => mat1x4_is_equal w (M1x4 (A4 (nlit F 2 1 / nsqrt F ((nlit F 2 1 * nlit F 2 1) * nlit F 4 1)) (nlit F 2 1 / nsqrt F ((nlit F 2 1 * nlit F 2 1) * nlit F 4 1)) (nlit F 2 1 / nsqrt F ((nlit F 2 1 * nlit F 2 1) * nlit F 4 1)) (nlit F 2 1 / nsqrt F ((nlit F 2 1 * nlit F 2 1) * nlit F 4 1)))) (nlit F 1 10000))) true.
  Proof. vm_compute. reflexivity. Qed.

  (* lib/test/test_mat1x4.rs:56-61 *)
  Example t_mat1x4_scale : @eq bool (ook (mat1x4_scale (M1x4 (A4 (nlit F 2 1) (nlit F 2 1) (nlit F 2 1) (nlit F 2 1))) (nlit F 4 1)) (fun w => mat1x4_is_equal w (M1x4 (A4 (nlit F 8 1) (nlit F 8 1) (nlit F 8 1) (nlit F 8 1))) (nlit F 1 10000))) true.
  Proof. vm_compute. reflexivity. Qed.

  (* lib/test/test_mat1x4.rs:61-68 *)
  Example t_mat1x4_near : @eq bool (says true (mat1x4_is_equal (M1x4 (A4 (nlit F 5 1) (nlit F 53 10) (nlit F 77 10) (nlit F 20 1))) (M1x4 (A4 (nlit F 51 10) (nlit F 54 10) (nlit F 78 10) (nlit F 199 10))) (nlit F 1001 10000))) true.
  Proof. vm_compute. reflexivity. Qed.

  (* lib/test/test_mat1x4.rs:61-71 *)
  Example t_mat1x4_far : @eq bool (says false (mat1x4_is_equal (M1x4 (A4 (nlit F 5 1) (nlit F 53 10) (nlit F 77 10) (nlit F 20 1))) (M1x4 (A4 (nlit F 51 10) (nlit F 54 10) (nlit F 78 10) (nlit F 199 10))) (nlit F 999 10000))) true.
  Proof. vm_compute. reflexivity. Qed.

  (* lib/test/test_mat1x4.rs:77 *)
  Example t_mat1x4_mul : @eq bool (rook (mat1x4_mul_mat4x4 (M1x4 (A4 (nlit F 1 1) (nlit F 2 1) (nlit F (-4) 1) (nlit F 5 1))) (mat4_init (A16 (nlit F 0 1) (nlit F 1 1) (nlit F 2 1) (nlit F 3 1) (nlit F 4 1) (nlit F 5 1) (nlit F 6 1) (nlit F 7 1) (nlit F 8 1) (nlit F 9 1) (nlit F 10 1) (nlit F 11 1) (nlit F 12 1) (nlit F 13 1) (nlit F 14 1) (nlit F 15 1)) true)) (fun w => mat1x4_is_equal w (M1x4 (A4 (nlit F 36 1) (nlit F 40 1) (nlit F 44 1) (nlit F 48 1))) (nlit F 1 100000))) true.
  Proof. vm_compute. reflexivity. Qed.

  (* lib/test/test_mat4x1.rs:13 *)
  Example t_mat4x1_size : @eq bool (match mat4x1_size (M4x1 (A4 (nlit F 10 1) (nlit F 10 1) (nlit F 10 1) (nlit F 10 1))) with Some k => Nat.eqb k 4 | None => false end) true.
  Proof. vm_compute. reflexivity. Qed.

  (* lib/test/test_mat4x1.rs:18-21 *)
  Example t_mat4x1_mul_elem : @eq bool (ook (mat4x1_mul_elem (M4x1 (A4 (nlit F 10 1) (nlit F 10 1) (nlit F 10 1) (nlit F 10 1))) (M4x1 (A4 (nlit F 2 1) (nlit F 2 1) (nlit F 2 1) (nlit F 2 1)))) (fun w => mat4x1_is_equal w (M4x1 (A4 (nlit F 20 1) (nlit F 20 1) (nlit F 20 1) (nlit F 20 1))) (nlit F 1 10000))) true.
  Proof. vm_compute. reflexivity. Qed.

  (* lib/test/test_mat4x1.rs:24-27 *)
  Example t_mat4x1_div : @eq bool (ook (mat4x1_div (M4x1 (A4 (nlit F 10 1) (nlit F 10 1) (nlit F 10 1) (nlit F 10 1))) (M4x1 (A4 (nlit F 2 1) (nlit F 2 1) (nlit F 2 1) (nlit F 2 1)))) (fun w => mat4x1_is_equal w (M4x1 (A4 (nlit F 5 1) (nlit F 5 1) (nlit F 5 1) (nlit F 5 1))) (nlit F 1 10000))) true.
  Proof. vm_compute. reflexivity. Qed.

  (* lib/test/test_mat4x1.rs:30-33 *)
  Example t_mat4x1_plus : @eq bool (ook (mat4x1_plus (M4x1 (A4 (nlit F 10 1) (nlit F 10 1) (nlit F 10 1) (nlit F 10 1))) (M4x1 (A4 (nlit F 2 1) (nlit F 2 1) (nlit F 2 1) (nlit F 2 1)))) (fun w => mat4x1_is_equal w (M4x1 (A4 (nlit F 12 1) (nlit F 12 1) (nlit F 12 1) (nlit F 12 1))) (nlit F 1 10000))) true.
  Proof. vm_compute. reflexivity. Qed.

  (* lib/test/test_mat4x1.rs:36-39 *)
  Example t_mat4x1_minus : @eq bool (ook (mat4x1_minus (M4x1 (A4 (nlit F 10 1) (nlit F 10 1) (nlit F 10 1) (nlit F 10 1))) (M4x1 (A4 (nlit F 2 1) (nlit F 2 1) (nlit F 2 1) (nlit F 2 1)))) (fun w => mat4x1_is_equal w (M4x1 (A4 (nlit F 8 1) (nlit F 8 1) (nlit F 8 1) (nlit F 8 1))) (nlit F 1 10000))) true.
  Proof. vm_compute. reflexivity. Qed.

  (* lib/test/test_mat4x1.rs:42 *)
  Example t_mat4x1_magnitude : @eq bool (match mat4x1_magnitude (M4x1 (A4 (nlit F 2 1) (nlit F 2 1) (nlit F 2 1) (nlit F 2 1))) with Some m => neqb m (nsqrt F ((nlit F 2 1 * nlit F 2 1) * nlit F 4 1)) | None => false end) true.
  Proof. vm_compute. reflexivity. Qed.

  (* lib/test/test_mat4x1.rs:44-54 *)
  Example t_mat4x1_normalize : @eq bool (rook (mat4x1_normalize (M4x1 (A4 (nlit F 2 1) (nlit F 2 1) (nlit F 2 1) (nlit F 2 1)))) (fun w => mat4x1_is_equal w (M4x1 (A4 (nlit F 2 1 / nsqrt F ((nlit F 2 1 * nlit F 2 1) * nlit F 4 1)) (nlit F 2 1 / nsqrt F ((nlit F 2 1 * nlit F 2 1) * nlit F 4 1)) (nlit F 2 1 / nsqrt F ((nlit F 2 1 * nlit F 2 1) * nlit F 4 1)) (nlit F 2 1 / nsqrt F ((nlit F 2 1 * nlit F 2 1) * nlit F 4 1)))) (nlit F 1 10000))) true.
  Proof. vm_compute. reflexivity. Qed.

  (* lib/test/test_mat4x1.rs:54-59 *)
  Example t_mat4x1_scale : @eq bool (ook (mat4x1_scale (M4x1 (A4 (nlit F 2 1) (nlit F 2 1) (nlit F 2 1) (nlit F 2 1))) (nlit F 4 1)) (fun w => mat4x1_is_equal w (M4x1 (A4 (nlit F 8 1) (nlit F 8 1) (nlit F 8 1) (nlit F 8 1))) (nlit F 1 10000))) true.
  Proof. vm_compute. reflexivity. Qed.

  (* lib/test/test_mat4x1.rs:59-66 *)
  Example t_mat4x1_near : @eq bool (says true (mat4x1_is_equal (M4x1 (A4 (nlit F 5 1) (nlit F 53 10) (nlit F 77 10) (nlit F 20 1))) (M4x1 (A4 (nlit F 51 10) (nlit F 54 10) (nlit F 78 10) (nlit F 199 10))) (nlit F 1001 10000))) true.
  Proof. vm_compute. reflexivity. Qed.

  (* lib/test/test_mat4x1.rs:59-69 *)
  Example t_mat4x1_far : @eq bool (says false (mat4x1_is_equal (M4x1 (A4 (nlit F 5 1) (nlit F 53 10) (nlit F 77 10) (nlit F 20 1))) (M4x1 (A4 (nlit F 51 10) (nlit F 54 10) (nlit F 78 10) (nlit F 199 10))) (nlit F 999 10000))) true.
  Proof. vm_compute. reflexivity. Qed.

  (* lib/test/test_mat3.rs:13-19 *)
  Example t_mat3_1 : @eq bool (match mat3_size (M3 (A9 (nlit F 10 1) (nlit F 10 1) (nlit F 10 1) (nlit F 10 1) (nlit F 10 1) (nlit F 10 1) (nlit F 10 1) (nlit F 10 1) (nlit F 10 1)) true) with Some k => Nat.eqb k 9 | None => false end) true.
  Proof. vm_compute. reflexivity. Qed.

  (* lib/test/test_mat3.rs:20-39 *)
  Example t_mat3_2 : @eq bool (ook (mat3_plus (M3 (A9 (nlit F 10 1) (nlit F 10 1) (nlit F 10 1) (nlit F 10 1) (nlit F 10 1) (nlit F 10 1) (nlit F 10 1) (nlit F 10 1) (nlit F 10 1)) true) (M3 (A9 (nlit F 10 1) (nlit F 10 1) (nlit F 10 1) (nlit F 10 1) (nlit F 10 1) (nlit F 10 1) (nlit F 10 1) (nlit F 10 1) (nlit F 10 1)) true)) (fun w => req (mat3_is_equal w (M3 (A9 (nlit F 20 1) (nlit F 20 1) (nlit F 20 1) (nlit F 20 1) (nlit F 20 1) (nlit F 20 1) (nlit F 20 1) (nlit F 20 1) (nlit F 20 1)) true) (nlit F 1 10000)))) true.
  Proof. vm_compute. reflexivity. Qed.

  (* lib/test/test_mat3.rs:40-50 *)
  Example t_mat3_3 : @eq bool (rsays false (mat3_is_equal (M3 (A9 (nlit F 10 1) (nlit F 10 1) (nlit F 10 1) (nlit F 10 1) (nlit F 10 1) (nlit F 10 1) (nlit F 10 1) (nlit F 10 1) (nlit F 10 1)) true) (M3 (A9 (nlit F 10 1) (nlit F 10 1) (nlit F 10 1) (nlit F 10 1) (nlit F 10 1) (nlit F 10 1) (nlit F 10 1) (nlit F 10 1) (nlit F 10 1)) false) (nlit F 1 10000))) true.
  Proof. vm_compute. reflexivity. Qed.

  (* lib/test/test_mat3.rs:51-70 *)
  Example t_mat3_4 : @eq bool (ook (mat3_minus (M3 (A9 (nlit F 10 1) (nlit F 10 1) (nlit F 10 1) (nlit F 10 1) (nlit F 10 1) (nlit F 10 1) (nlit F 10 1) (nlit F 10 1) (nlit F 10 1)) true) (M3 (A9 (nlit F 7 1) (nlit F 7 1) (nlit F 7 1) (nlit F 7 1) (nlit F 7 1) (nlit F 7 1) (nlit F 7 1) (nlit F 7 1) (nlit F 7 1)) true)) (fun w => req (mat3_is_equal w (M3 (A9 (nlit F 3 1) (nlit F 3 1) (nlit F 3 1) (nlit F 3 1) (nlit F 3 1) (nlit F 3 1) (nlit F 3 1) (nlit F 3 1) (nlit F 3 1)) true) (nlit F 1 10000)))) true.
  Proof. vm_compute. reflexivity. Qed.

  (* lib/test/test_mat3.rs:71-90 *)
  Example t_mat3_5 : @eq bool (ook (mat3_div (M3 (A9 (nlit F 20 1) (nlit F 20 1) (nlit F 20 1) (nlit F 20 1) (nlit F 20 1) (nlit F 20 1) (nlit F 20 1) (nlit F 20 1) (nlit F 20 1)) true) (M3 (A9 (nlit F 2 1) (nlit F 2 1) (nlit F 2 1) (nlit F 2 1) (nlit F 2 1) (nlit F 2 1) (nlit F 2 1) (nlit F 2 1) (nlit F 2 1)) true)) (fun w => req (mat3_is_equal w (M3 (A9 (nlit F 10 1) (nlit F 10 1) (nlit F 10 1) (nlit F 10 1) (nlit F 10 1) (nlit F 10 1) (nlit F 10 1) (nlit F 10 1) (nlit F 10 1)) true) (nlit F 1 10000)))) true.
  Proof. vm_compute. reflexivity. Qed.

  (* lib/test/test_mat3.rs:91-106 *)
  Example t_mat3_6 : @eq bool (rook (mat3_normalize (M3 (A9 (nlit F 10 1) (nlit F 10 1) (nlit F 10 1) (nlit F 10 1) (nlit F 10 1) (nlit F 10 1) (nlit F 10 1) (nlit F 10 1) (nlit F 10 1)) true)) (fun w => req (mat3_is_equal w (M3 (A9 (nlit F 1 1) (nlit F 1 1) (nlit F 1 1) (nlit F 1 1) (nlit F 1 1) (nlit F 1 1) (nlit F 1 1) (nlit F 1 1) (nlit F 1 1)) true) (nlit F 1 10000)))) true.
  Proof. vm_compute. reflexivity. Qed.

  (* lib/test/test_mat3.rs:107-122 *)
  Example t_mat3_7 : @eq bool (rook (mat3_scale (M3 (A9 (nlit F 10 1) (nlit F 10 1) (nlit F 10 1) (nlit F 10 1) (nlit F 10 1) (nlit F 10 1) (nlit F 10 1) (nlit F 10 1) (nlit F 10 1)) true) (nlit F 3 1)) (fun w => req (mat3_is_equal w (M3 (A9 (nlit F 30 1) (nlit F 30 1) (nlit F 30 1) (nlit F 30 1) (nlit F 30 1) (nlit F 30 1) (nlit F 30 1) (nlit F 30 1) (nlit F 30 1)) true) (nlit F 1 10000)))) true.
  Proof. vm_compute. reflexivity. Qed.

  (* lib/test/test_mat3.rs:123-134 *)
  Example t_mat3_8 : @eq bool (rsays true (mat3_is_equal (M3 (A9 (nlit F 10 1) (nlit F 10 1) (nlit F 10 1) (nlit F 10 1) (nlit F 10 1) (nlit F 10 1) (nlit F 10 1) (nlit F 10 1) (nlit F 10 1)) true) (M3 (A9 (nlit F 10 1) (nlit F 10 1) (nlit F 10 1) (nlit F 10 1) (nlit F 10 1) (nlit F 10 1) (nlit F 10 1) (nlit F 10 1) (nlit F 10 1)) true) (nlit F 1 10000))) true.
  Proof. vm_compute. reflexivity. Qed.

  (* lib/test/test_mat3.rs:135-146 *)
  Example t_mat3_9 : @eq bool (rsays false (mat3_is_equal (M3 (A9 (nlit F 10 1) (nlit F 10 1) (nlit F 10 1) (nlit F 10 1) (nlit F 10 1) (nlit F 10 1) (nlit F 10 1) (nlit F 10 1) (nlit F 10 1)) true) (M3 (A9 (nlit F 1001 100) (nlit F 1001 100) (nlit F 1001 100) (nlit F 1001 100) (nlit F 1001 100) (nlit F 1001 100) (nlit F 1001 100) (nlit F 1001 100) (nlit F 1001 100)) true) (nlit F 1 10000))) true.
  Proof. vm_compute. reflexivity. Qed.

  (* lib/test/test_mat3.rs:147-171 *)
  Example t_mat3_10 : @eq bool (rook (mat3_mul (M3 (A9 (nlit F 0 1) (nlit F 1 1) (nlit F 2 1) (nlit F 3 1) (nlit F 4 1) (nlit F 5 1) (nlit F 6 1) (nlit F 7 1) (nlit F 8 1)) true) (M3 (A9 (nlit F 10 1) (nlit F 11 1) (nlit F 12 1) (nlit F 13 1) (nlit F 14 1) (nlit F 15 1) (nlit F 16 1) (nlit F 17 1) (nlit F 18 1)) true)) (fun w => req (mat3_is_equal w (M3 (A9 (nlit F 45 1) (nlit F 48 1) (nlit F 51 1) (nlit F 162 1) (nlit F 174 1) (nlit F 186 1) (nlit F 279 1) (nlit F 300 1) (nlit F 321 1)) true) (nlit F 1 10000)))) true.
  Proof. vm_compute. reflexivity. Qed.

  (* lib/test/test_mat3.rs:172-192 *)
  Example t_mat3_11 : @eq bool (rook (mat3_mul_mat3x1 (mat3_init (A9 (nlit F 0 1) (nlit F 1 1) (nlit F 2 1) (nlit F 3 1) (nlit F 4 1) (nlit F 5 1) (nlit F 6 1) (nlit F 7 1) (nlit F 8 1)) true) (M3x1 (A3 (nlit F 1 1) (nlit F 2 1) (nlit F 3 1)))) (fun w => (mat3x1_is_equal w (M3x1 (A3 (nlit F 8 1) (nlit F 26 1) (nlit F 44 1))) (nlit F 1 10000)))) true.
  Proof. vm_compute. reflexivity. Qed.

  (* lib/test/test_mat3.rs:193-213 *)
  Example t_mat3_12 : @eq bool (rook (mat3_mul_mat3x1 (mat3_init (A9 (nlit F 0 1) (nlit F 1 1) (nlit F 2 1) (nlit F 3 1) (nlit F 4 1) (nlit F 5 1) (nlit F 6 1) (nlit F 7 1) (nlit F 8 1)) false) (M3x1 (A3 (nlit F 1 1) (nlit F 2 1) (nlit F 3 1)))) (fun w => (mat3x1_is_equal w (M3x1 (A3 (nlit F 8 1) (nlit F 26 1) (nlit F 44 1))) (nlit F 1 10000)))) true.
  Proof. vm_compute. reflexivity. Qed.

  (* lib/test/test_mat3.rs:214-232 *)
  Example t_mat3_13 : @eq bool (rok (mat3_transpose (mat3_init (A9 (nlit F 0 1) (nlit F 1 1) (nlit F 2 1) (nlit F 3 1) (nlit F 4 1) (nlit F 5 1) (nlit F 6 1) (nlit F 7 1) (nlit F 8 1)) true)) (fun w => req (mat3_is_equal w (M3 (A9 (nlit F 0 1) (nlit F 3 1) (nlit F 6 1) (nlit F 1 1) (nlit F 4 1) (nlit F 7 1) (nlit F 2 1) (nlit F 5 1) (nlit F 8 1)) true) (nlit F 1 10000)))) true.
  Proof. vm_compute. reflexivity. Qed.

  (* lib/test/test_mat3.rs:233-245 *)
  Example t_mat3_14 : @eq bool (rok (mat3_iden) (fun w => req (mat3_is_equal w (M3 (A9 (nlit F 1 1) (nlit F 0 1) (nlit F 0 1) (nlit F 0 1) (nlit F 1 1) (nlit F 0 1) (nlit F 0 1) (nlit F 0 1) (nlit F 1 1)) true) (nlit F 1 10000)))) true.
  Proof. vm_compute. reflexivity. Qed.

  (* lib/test/test_mat4.rs:14-20 *)
  Example t_mat4_1 : @eq bool (match mat4_size (M4 (A16 (nlit F 10 1) (nlit F 10 1) (nlit F 10 1) (nlit F 10 1) (nlit F 10 1) (nlit F 10 1) (nlit F 10 1) (nlit F 10 1) (nlit F 10 1) (nlit F 10 1) (nlit F 10 1) (nlit F 10 1) (nlit F 10 1) (nlit F 10 1) (nlit F 10 1) (nlit F 10 1)) true) with Some k => Nat.eqb k 16 | None => false end) true.
  Proof. vm_compute. reflexivity. Qed.

  (* lib/test/test_mat4.rs:21-40 *)
  Example t_mat4_2 : @eq bool (ook (mat4_plus (M4 (A16 (nlit F 10 1) (nlit F 10 1) (nlit F 10 1) (nlit F 10 1) (nlit F 10 1) (nlit F 10 1) (nlit F 10 1) (nlit F 10 1) (nlit F 10 1) (nlit F 10 1) (nlit F 10 1) (nlit F 10 1) (nlit F 10 1) (nlit F 10 1) (nlit F 10 1) (nlit F 10 1)) true) (M4 (A16 (nlit F 10 1) (nlit F 10 1) (nlit F 10 1) (nlit F 10 1) (nlit F 10 1) (nlit F 10 1) (nlit F 10 1) (nlit F 10 1) (nlit F 10 1) (nlit F 10 1) (nlit F 10 1) (nlit F 10 1) (nlit F 10 1) (nlit F 10 1) (nlit F 10 1) (nlit F 10 1)) true)) (fun w => req (mat4_is_equal w (M4 (A16 (nlit F 20 1) (nlit F 20 1) (nlit F 20 1) (nlit F 20 1) (nlit F 20 1) (nlit F 20 1) (nlit F 20 1) (nlit F 20 1) (nlit F 20 1) (nlit F 20 1) (nlit F 20 1) (nlit F 20 1) (nlit F 20 1) (nlit F 20 1) (nlit F 20 1) (nlit F 20 1)) true) (nlit F 1 10000)))) true.
  Proof. vm_compute. reflexivity. Qed.

  (* lib/test/test_mat4.rs:41-51 *)
  Example t_mat4_3 : @eq bool (rsays false (mat4_is_equal (M4 (A16 (nlit F 10 1) (nlit F 10 1) (nlit F 10 1) (nlit F 10 1) (nlit F 10 1) (nlit F 10 1) (nlit F 10 1) (nlit F 10 1) (nlit F 10 1) (nlit F 10 1) (nlit F 10 1) (nlit F 10 1) (nlit F 10 1) (nlit F 10 1) (nlit F 10 1) (nlit F 10 1)) true) (M4 (A16 (nlit F 10 1) (nlit F 10 1) (nlit F 10 1) (nlit F 10 1) (nlit F 10 1) (nlit F 10 1) (nlit F 10 1) (nlit F 10 1) (nlit F 10 1) (nlit F 10 1) (nlit F 10 1) (nlit F 10 1) (nlit F 10 1) (nlit F 10 1) (nlit F 10 1) (nlit F 10 1)) false) (nlit F 1 10000))) true.
  Proof. vm_compute. reflexivity. Qed.

  (* lib/test/test_mat4.rs:52-71 *)
  Example t_mat4_4 : @eq bool (ook (mat4_minus (M4 (A16 (nlit F 10 1) (nlit F 10 1) (nlit F 10 1) (nlit F 10 1) (nlit F 10 1) (nlit F 10 1) (nlit F 10 1) (nlit F 10 1) (nlit F 10 1) (nlit F 10 1) (nlit F 10 1) (nlit F 10 1) (nlit F 10 1) (nlit F 10 1) (nlit F 10 1) (nlit F 10 1)) true) (M4 (A16 (nlit F 7 1) (nlit F 7 1) (nlit F 7 1) (nlit F 7 1) (nlit F 7 1) (nlit F 7 1) (nlit F 7 1) (nlit F 7 1) (nlit F 7 1) (nlit F 7 1) (nlit F 7 1) (nlit F 7 1) (nlit F 7 1) (nlit F 7 1) (nlit F 7 1) (nlit F 7 1)) true)) (fun w => req (mat4_is_equal w (M4 (A16 (nlit F 3 1) (nlit F 3 1) (nlit F 3 1) (nlit F 3 1) (nlit F 3 1) (nlit F 3 1) (nlit F 3 1) (nlit F 3 1) (nlit F 3 1) (nlit F 3 1) (nlit F 3 1) (nlit F 3 1) (nlit F 3 1) (nlit F 3 1) (nlit F 3 1) (nlit F 3 1)) true) (nlit F 1 10000)))) true.
  Proof. vm_compute. reflexivity. Qed.

  (* lib/test/test_mat4.rs:72-91 *)
  Example t_mat4_5 : @eq bool (ook (mat4_div (M4 (A16 (nlit F 20 1) (nlit F 20 1) (nlit F 20 1) (nlit F 20 1) (nlit F 20 1) (nlit F 20 1) (nlit F 20 1) (nlit F 20 1) (nlit F 20 1) (nlit F 20 1) (nlit F 20 1) (nlit F 20 1) (nlit F 20 1) (nlit F 20 1) (nlit F 20 1) (nlit F 20 1)) true) (M4 (A16 (nlit F 2 1) (nlit F 2 1) (nlit F 2 1) (nlit F 2 1) (nlit F 2 1) (nlit F 2 1) (nlit F 2 1) (nlit F 2 1) (nlit F 2 1) (nlit F 2 1) (nlit F 2 1) (nlit F 2 1) (nlit F 2 1) (nlit F 2 1) (nlit F 2 1) (nlit F 2 1)) true)) (fun w => req (mat4_is_equal w (M4 (A16 (nlit F 10 1) (nlit F 10 1) (nlit F 10 1) (nlit F 10 1) (nlit F 10 1) (nlit F 10 1) (nlit F 10 1) (nlit F 10 1) (nlit F 10 1) (nlit F 10 1) (nlit F 10 1) (nlit F 10 1) (nlit F 10 1) (nlit F 10 1) (nlit F 10 1) (nlit F 10 1)) true) (nlit F 1 10000)))) true.
  Proof. vm_compute. reflexivity. Qed.

  (* lib/test/test_mat4.rs:92-107 *)
  Example t_mat4_6 : @eq bool (rook (mat4_normalize (M4 (A16 (nlit F 10 1) (nlit F 10 1) (nlit F 10 1) (nlit F 10 1) (nlit F 10 1) (nlit F 10 1) (nlit F 10 1) (nlit F 10 1) (nlit F 10 1) (nlit F 10 1) (nlit F 10 1) (nlit F 10 1) (nlit F 10 1) (nlit F 10 1) (nlit F 10 1) (nlit F 10 1)) true)) (fun w => req (mat4_is_equal w (M4 (A16 (nlit F 1 1) (nlit F 1 1) (nlit F 1 1) (nlit F 1 1) (nlit F 1 1) (nlit F 1 1) (nlit F 1 1) (nlit F 1 1) (nlit F 1 1) (nlit F 1 1) (nlit F 1 1) (nlit F 1 1) (nlit F 1 1) (nlit F 1 1) (nlit F 1 1) (nlit F 1 1)) true) (nlit F 1 10000)))) true.
  Proof. vm_compute. reflexivity. Qed.

  (* lib/test/test_mat4.rs:108-123 *)
  Example t_mat4_7 : @eq bool (rook (mat4_scale (M4 (A16 (nlit F 10 1) (nlit F 10 1) (nlit F 10 1) (nlit F 10 1) (nlit F 10 1) (nlit F 10 1) (nlit F 10 1) (nlit F 10 1) (nlit F 10 1) (nlit F 10 1) (nlit F 10 1) (nlit F 10 1) (nlit F 10 1) (nlit F 10 1) (nlit F 10 1) (nlit F 10 1)) true) (nlit F 3 1)) (fun w => req (mat4_is_equal w (M4 (A16 (nlit F 30 1) (nlit F 30 1) (nlit F 30 1) (nlit F 30 1) (nlit F 30 1) (nlit F 30 1) (nlit F 30 1) (nlit F 30 1) (nlit F 30 1) (nlit F 30 1) (nlit F 30 1) (nlit F 30 1) (nlit F 30 1) (nlit F 30 1) (nlit F 30 1) (nlit F 30 1)) true) (nlit F 1 10000)))) true.
  Proof. vm_compute. reflexivity. Qed.

  (* lib/test/test_mat4.rs:124-135 *)
  Example t_mat4_8 : @eq bool (rsays true (mat4_is_equal (M4 (A16 (nlit F 10 1) (nlit F 10 1) (nlit F 10 1) (nlit F 10 1) (nlit F 10 1) (nlit F 10 1) (nlit F 10 1) (nlit F 10 1) (nlit F 10 1) (nlit F 10 1) (nlit F 10 1) (nlit F 10 1) (nlit F 10 1) (nlit F 10 1) (nlit F 10 1) (nlit F 10 1)) true) (M4 (A16 (nlit F 10 1) (nlit F 10 1) (nlit F 10 1) (nlit F 10 1) (nlit F 10 1) (nlit F 10 1) (nlit F 10 1) (nlit F 10 1) (nlit F 10 1) (nlit F 10 1) (nlit F 10 1) (nlit F 10 1) (nlit F 10 1) (nlit F 10 1) (nlit F 10 1) (nlit F 10 1)) true) (nlit F 1 10000))) true.
  Proof. vm_compute. reflexivity. Qed.

  (* lib/test/test_mat4.rs:136-147 *)
  Example t_mat4_9 : @eq bool (rsays false (mat4_is_equal (M4 (A16 (nlit F 10 1) (nlit F 10 1) (nlit F 10 1) (nlit F 10 1) (nlit F 10 1) (nlit F 10 1) (nlit F 10 1) (nlit F 10 1) (nlit F 10 1) (nlit F 10 1) (nlit F 10 1) (nlit F 10 1) (nlit F 10 1) (nlit F 10 1) (nlit F 10 1) (nlit F 10 1)) true) (M4 (A16 (nlit F 1001 100) (nlit F 1001 100) (nlit F 1001 100) (nlit F 1001 100) (nlit F 1001 100) (nlit F 1001 100) (nlit F 1001 100) (nlit F 1001 100) (nlit F 1001 100) (nlit F 1001 100) (nlit F 1001 100) (nlit F 1001 100) (nlit F 1001 100) (nlit F 1001 100) (nlit F 1001 100) (nlit F 1001 100)) true) (nlit F 1 10000))) true.
  Proof. vm_compute. reflexivity. Qed.

  (* lib/test/test_mat4.rs:148-173 *)
  Example t_mat4_10 : @eq bool (rook (mat4_mul (M4 (A16 (nlit F 1 1) (nlit F 2 1) (nlit F 3 1) (nlit F 4 1) (nlit F 5 1) (nlit F 6 1) (nlit F 7 1) (nlit F 8 1) (nlit F 9 1) (nlit F 10 1) (nlit F 11 1) (nlit F 12 1) (nlit F 13 1) (nlit F 14 1) (nlit F 15 1) (nlit F 16 1)) true) (M4 (A16 (nlit F 10 1) (nlit F 11 1) (nlit F 12 1) (nlit F 13 1) (nlit F 14 1) (nlit F 15 1) (nlit F 16 1) (nlit F 17 1) (nlit F 18 1) (nlit F 19 1) (nlit F 20 1) (nlit F 21 1) (nlit F 22 1) (nlit F 23 1) (nlit F 24 1) (nlit F 25 1)) true)) (fun w => req (mat4_is_equal w (M4 (A16 (nlit F 180 1) (nlit F 190 1) (nlit F 200 1) (nlit F 210 1) (nlit F 436 1) (nlit F 462 1) (nlit F 488 1) (nlit F 514 1) (nlit F 692 1) (nlit F 734 1) (nlit F 776 1) (nlit F 818 1) (nlit F 948 1) (nlit F 1006 1) (nlit F 1064 1) (nlit F 1122 1)) true) (nlit F 1 1000)))) true.
  Proof. vm_compute. reflexivity. Qed.

  (* lib/test/test_mat4.rs:174-195 *)
  Example t_mat4_11 : @eq bool (rook (mat4_mul_mat4x1 (M4 (A16 (nlit F 0 1) (nlit F 1 1) (nlit F 2 1) (nlit F 3 1) (nlit F 4 1) (nlit F 5 1) (nlit F 6 1) (nlit F 7 1) (nlit F 8 1) (nlit F 9 1) (nlit F 10 1) (nlit F 11 1) (nlit F 12 1) (nlit F 13 1) (nlit F 14 1) (nlit F 15 1)) true) (M4x1 (A4 (nlit F 1 1) (nlit F 2 1) (nlit F 3 1) (nlit F 4 1)))) (fun w => (mat4x1_is_equal w (M4x1 (A4 (nlit F 20 1) (nlit F 60 1) (nlit F 100 1) (nlit F 140 1))) (nlit F 1 10000)))) true.
  Proof. vm_compute. reflexivity. Qed.

  (* lib/test/test_mat4.rs:196-216 *)
  Example t_mat4_12 : @eq bool (rook (mat4_mul_mat4x1 (mat4_init (A16 (nlit F 0 1) (nlit F 1 1) (nlit F 2 1) (nlit F 3 1) (nlit F 4 1) (nlit F 5 1) (nlit F 6 1) (nlit F 7 1) (nlit F 8 1) (nlit F 9 1) (nlit F 10 1) (nlit F 11 1) (nlit F 12 1) (nlit F 13 1) (nlit F 14 1) (nlit F 15 1)) true) (M4x1 (A4 (nlit F 1 1) (nlit F 2 1) (nlit F 3 1) (nlit F 4 1)))) (fun w => (mat4x1_is_equal w (M4x1 (A4 (nlit F 20 1) (nlit F 60 1) (nlit F 100 1) (nlit F 140 1))) (nlit F 1 10000)))) true.
  Proof. vm_compute. reflexivity. Qed.

  (* lib/test/test_mat4.rs:217-242 *)
  Example t_mat4_13 : @eq bool (rook (mat4_mul_mat4x1 (M4 (A16 (nlit F 0 1) (nlit F 4 1) (nlit F 8 1) (nlit F 12 1) (nlit F 1 1) (nlit F 5 1) (nlit F 9 1) (nlit F 13 1) (nlit F 2 1) (nlit F 6 1) (nlit F 10 1) (nlit F 14 1) (nlit F 3 1) (nlit F 7 1) (nlit F 11 1) (nlit F 15 1)) false) (M4x1 (A4 (nlit F 1 1) (nlit F 2 1) (nlit F 3 1) (nlit F 4 1)))) (fun w => (mat4x1_is_equal w (M4x1 (A4 (nlit F 20 1) (nlit F 60 1) (nlit F 100 1) (nlit F 140 1))) (nlit F 1 10000)))) true.
  Proof. vm_compute. reflexivity. Qed.

  (* lib/test/test_mat4.rs:243-263 *)
  Example t_mat4_14 : @eq bool (rook (mat4_mul_mat4x1 (mat4_init (A16 (nlit F 0 1) (nlit F 1 1) (nlit F 2 1) (nlit F 3 1) (nlit F 4 1) (nlit F 5 1) (nlit F 6 1) (nlit F 7 1) (nlit F 8 1) (nlit F 9 1) (nlit F 10 1) (nlit F 11 1) (nlit F 12 1) (nlit F 13 1) (nlit F 14 1) (nlit F 15 1)) false) (M4x1 (A4 (nlit F 1 1) (nlit F 2 1) (nlit F 3 1) (nlit F 4 1)))) (fun w => (mat4x1_is_equal w (M4x1 (A4 (nlit F 20 1) (nlit F 60 1) (nlit F 100 1) (nlit F 140 1))) (nlit F 1 10000)))) true.
  Proof. vm_compute. reflexivity. Qed.

  (* lib/test/test_mat4.rs:264-285 *)
  Example t_mat4_15 : @eq bool (rok (mat4_transpose (mat4_init (A16 (nlit F 0 1) (nlit F 1 1) (nlit F 2 1) (nlit F 3 1) (nlit F 4 1) (nlit F 5 1) (nlit F 6 1) (nlit F 7 1) (nlit F 8 1) (nlit F 9 1) (nlit F 10 1) (nlit F 11 1) (nlit F 12 1) (nlit F 13 1) (nlit F 14 1) (nlit F 15 1)) true)) (fun w => req (mat4_is_equal w (M4 (A16 (nlit F 0 1) (nlit F 4 1) (nlit F 8 1) (nlit F 12 1) (nlit F 1 1) (nlit F 5 1) (nlit F 9 1) (nlit F 13 1) (nlit F 2 1) (nlit F 6 1) (nlit F 10 1) (nlit F 14 1) (nlit F 3 1) (nlit F 7 1) (nlit F 11 1) (nlit F 15 1)) true) (nlit F 1 10000)))) true.
  Proof. vm_compute. reflexivity. Qed.

  (* lib/test/test_mat4.rs:286-307 *)
  Example t_mat4_16 : @eq bool (rok (mat4_transpose_self (mat4_init (A16 (nlit F 0 1) (nlit F 1 1) (nlit F 2 1) (nlit F 3 1) (nlit F 4 1) (nlit F 5 1) (nlit F 6 1) (nlit F 7 1) (nlit F 8 1) (nlit F 9 1) (nlit F 10 1) (nlit F 11 1) (nlit F 12 1) (nlit F 13 1) (nlit F 14 1) (nlit F 15 1)) true)) (fun w => req (mat4_is_equal w (M4 (A16 (nlit F 0 1) (nlit F 4 1) (nlit F 8 1) (nlit F 12 1) (nlit F 1 1) (nlit F 5 1) (nlit F 9 1) (nlit F 13 1) (nlit F 2 1) (nlit F 6 1) (nlit F 10 1) (nlit F 14 1) (nlit F 3 1) (nlit F 7 1) (nlit F 11 1) (nlit F 15 1)) true) (nlit F 1 10000)))) true.
  Proof. vm_compute. reflexivity. Qed.

  (* lib/test/test_mat4.rs:308-338 *)
  Example t_mat4_17a : @eq bool (rsays true (mat4_is_equal (mat4_init (A16 (nlit F 0 1) (nlit F 1 1) (nlit F 2 1) (nlit F 3 1) (nlit F 4 1) (nlit F 5 1) (nlit F 6 1) (nlit F 7 1) (nlit F 8 1) (nlit F 9 1) (nlit F 10 1) (nlit F 11 1) (nlit F 12 1) (nlit F 13 1) (nlit F 14 1) (nlit F 15 1)) false) (M4 (A16 (nlit F 0 1) (nlit F 4 1) (nlit F 8 1) (nlit F 12 1) (nlit F 1 1) (nlit F 5 1) (nlit F 9 1) (nlit F 13 1) (nlit F 2 1) (nlit F 6 1) (nlit F 10 1) (nlit F 14 1) (nlit F 3 1) (nlit F 7 1) (nlit F 11 1) (nlit F 15 1)) false) (nlit F 1 10000))) true.
  Proof. vm_compute. reflexivity. Qed.

  (* lib/test/test_mat4.rs:308-338 *)
  Example t_mat4_17 : @eq bool (rok (mat4_transpose_self (mat4_init (A16 (nlit F 0 1) (nlit F 1 1) (nlit F 2 1) (nlit F 3 1) (nlit F 4 1) (nlit F 5 1) (nlit F 6 1) (nlit F 7 1) (nlit F 8 1) (nlit F 9 1) (nlit F 10 1) (nlit F 11 1) (nlit F 12 1) (nlit F 13 1) (nlit F 14 1) (nlit F 15 1)) false)) (fun w => req (mat4_is_equal w (M4 (A16 (nlit F 0 1) (nlit F 1 1) (nlit F 2 1) (nlit F 3 1) (nlit F 4 1) (nlit F 5 1) (nlit F 6 1) (nlit F 7 1) (nlit F 8 1) (nlit F 9 1) (nlit F 10 1) (nlit F 11 1) (nlit F 12 1) (nlit F 13 1) (nlit F 14 1) (nlit F 15 1)) false) (nlit F 1 10000)))) true.
  Proof. vm_compute. reflexivity. Qed.

  (* lib/test/test_mat4.rs:339-357 *)
  Example t_mat4_18 : @eq bool (says true (req (mat3_is_equal (mat4_submat_mat3 (mat4_init (A16 (nlit F 0 1) (nlit F 1 1) (nlit F 2 1) (nlit F 3 1) (nlit F 4 1) (nlit F 5 1) (nlit F 6 1) (nlit F 7 1) (nlit F 8 1) (nlit F 9 1) (nlit F 10 1) (nlit F 11 1) (nlit F 12 1) (nlit F 13 1) (nlit F 14 1) (nlit F 15 1)) true)) (M3 (A9 (nlit F 0 1) (nlit F 1 1) (nlit F 2 1) (nlit F 4 1) (nlit F 5 1) (nlit F 6 1) (nlit F 8 1) (nlit F 9 1) (nlit F 10 1)) true) (nlit F 1 100000)))) true.
  Proof. vm_compute. reflexivity. Qed.

  (* lib/test/test_mat4.rs:358-373 *)
  Example t_mat4_19 : @eq bool (rok (mat4_iden) (fun w => req (mat4_is_equal w (M4 (A16 (nlit F 1 1) (nlit F 0 1) (nlit F 0 1) (nlit F 0 1) (nlit F 0 1) (nlit F 1 1) (nlit F 0 1) (nlit F 0 1) (nlit F 0 1) (nlit F 0 1) (nlit F 1 1) (nlit F 0 1) (nlit F 0 1) (nlit F 0 1) (nlit F 0 1) (nlit F 1 1)) true) (nlit F 1 10000)))) true.
  Proof. vm_compute. reflexivity. Qed.

  (* lib/test/test_intersect_gjk.rs:9-46, all 1000 directions *)
  Definition support_ok (i j k : nat) : bool :=
    let f n := nlit F 2 10 * nlit F (Z.of_nat n) 1 in
    let x := f i in let y := f j in let z := f k in
    match mk SSphere (sphere_init [nlit F (-5) 1; nlit F 25 10; nlit F 15 1] (nlit F 55 10)) with
    | Ok a =>
        match shape_get_support a (M3x1 (A3 x y z)) with
        | Ok (Some o) =>
            let l := nsqrt F (x * x + y * y + z * z) in
            says true (mat3x1_is_equal o (M3x1 (A3 (nlit F (-5) 1 + x / l * nlit F 55 10) (nlit F 25 10 + y / l * nlit F 55 10)
              (nlit F 15 1 + z / l * nlit F 55 10))) (nlit F 1 10000))
        | Ok None => match i, j, k with O, O, O => true | _, _, _ => false end
        | Panic _ => false
        end
    | Panic _ => false
    end.
  Example t_gjk_support :
    forallb (fun i => forallb (fun j => forallb (fun k => support_ok i j k) (seq 0 10)) (seq 0 10)) (seq 0 10) = true.
  Proof. vm_cast_no_check (eq_refl true). Qed.
End Tests.

(** test_quat.rs is in f32; sin and cos are evaluated at pi/4, acos at cos(pi/4) *)
Definition lm_quarter : libm f32 :=
  let F := @Ieee 24 128 f32_prec_gt_0 f32_prec_lt_emax (MkLibm _ (fun x => x) (fun x => x) (fun x => x) (fun x => x) (fun x _ => x) (fun x _ => x)) in
  let r := nlit F 11863283 16777216 in
  MkLibm _ (fun _ => r) (fun _ => r) (fun _ => ndiv F (npi F) (nlit F 4 1)) (fun x => x) (fun x _ => x) (fun x _ => x).
Section QuatTests.
  Notation F := (F32 lm_quarter).
  Local Open Scope num_scope.
  Definition quat_back (axis : mat3x1 F) : bool :=
    match mat3x1_normalize axis, quat_init_from_axis_angle_degree axis (nlit F 90 1) with
    | Ok (Some n), Ok q =>
        match quat_to_axis_angle q with
        | Ok (axis, angle) =>
            (says true (mat3x1_is_equal axis n (nlit F 1 10000)) && neqb (angle / npi F * nlit F 180 1) (nlit F 90 1))%bool
        | Panic _ => false
        end
    | _, _ => false
    end.
  (* lib/test/test_quat.rs:17-29 *)
  Example t_quat_1 : quat_back (M3x1 (A3 (nlit F 1 1) (nlit F 2 1) (nlit F 3 1))) = true.
  Proof. vm_compute. reflexivity. Qed.
  (* lib/test/test_quat.rs:37-46 *)
  Example t_quat_2 : quat_back (M3x1 (A3 (nlit F 1 1) (nlit F 0 1) (nlit F 0 1))) = true.
  Proof. vm_compute. reflexivity. Qed.
  (* lib/test/test_quat.rs:48-79 *)
  Definition quat_rot : bool :=
    let p := M3x1 (A3 (nlit F 1 1) (nlit F 5 1) (nlit F (-3) 1)) in
    let i n := nlit F n 1 in
    match quat_init_from_axis_angle_degree (M3x1 (A3 (i 1%Z) (i 0%Z) (i 0%Z))) (i 90%Z) with
    | Ok q =>
        let rot := quat_to_rotation_matrix q true in
        (rsays true (mat4_is_equal rot (M4 (A16 (i 1%Z) (i 0%Z) (i 0%Z) (i 0%Z) (i 0%Z) (i 0%Z) (i (-1)%Z) (i 0%Z)
           (i 0%Z) (i 1%Z) (i 0%Z) (i 0%Z) (i 0%Z) (i 0%Z) (i 0%Z) (i 1%Z)) true) (nlit F 1 10000)) &&
         rook (mat4_mul_mat4x1 rot (M4x1 (A4 (i 1%Z) (i 5%Z) (i (-3)%Z) (i 1%Z)))) (fun ans =>
           match ans with M4x1 (A4 x y z _) => mat3x1_is_equal (quat_rotate_vector q p) (M3x1 (A3 x y z)) (nlit F 1 100000) end))%bool
    | Panic _ => false
    end.
  Example t_quat_3 : quat_rot = true.
  Proof. vm_compute. reflexivity. Qed.
End QuatTests.
