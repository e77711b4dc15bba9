(** Bound.v — model of lib/bound.rs, lib/bound_sphere.rs and lib/i_bound.rs.  Trait objects [&dyn IBound] are a closed
    sum over the two implementors.  No proofs here. *)
From Coq Require Import List ZArith Bool.
Import ListNotations.
From Verif Require Import Base Num Vec Mat.

(** i_shape.rs:6-20 *)
Inductive shape_type := TPoint | TRay | TSphere | TPlane | TTrig | TBox | TRect | TTriPrism | TLine | TFrustum | TComplex.

(** bound.rs:8-12 *)
Record aabb (T : Type) := AABB { b_lower : arr3 T; b_upper : arr3 T }.
Arguments AABB {T} b_lower b_upper.
Arguments b_lower {T} _.
Arguments b_upper {T} _.

(** bound.rs:14-19 *)
Inductive axis := AxX | AxY | AxZ.

(** [&dyn IBound]: the implementors are AxisAlignedBBox (bound.rs) and BoundSphere (bound_sphere.rs:8-11, no fields). *)
Inductive ibound (T : Type) := BBox (b : aabb T) | BSphere.
Arguments BBox {T} b.
Arguments BSphere {T}.

(** i_bound.rs:1-4 *)
Inductive bound_type := BTAxisAlignBox | BTSphere.

(** [&v[i..j]] *)
Definition slice {T} (l : list T) (i j : nat) : res (list T) :=
  if ((i <=? j) && (j <=? length l))%nat%bool then Ok (firstn (j - i) (skipn i l)) else Panic PIndex.

Section Bound.
  Context {N : Num}.
  Local Open Scope num_scope.

  (** bound.rs:22-84 *)
  Definition aabb_init (t : shape_type) (vals : list N) : res (aabb N) :=
    match t with
    | TRay =>
        let! _u := assert (Nat.eqb (length vals) 6) in
        let! bounds := for_range 3 (fun i bounds =>
          let! d := idx vals (3 + i)%nat in
          let! v := idx vals i in
          let b := if ngt d n0 then (v, ninf N) else if nlt d n0 then (nninf N, v) else (v, v) in
          set3 bounds i b) (A3 (n0, n0) (n0, n0) (n0, n0)) in
        match bounds with A3 b0 b1 b2 =>
          Ok (AABB (A3 (fst b0) (fst b1) (fst b2)) (A3 (snd b0) (snd b1) (snd b2))) end
    | TPoint =>
        let! _u := assert (Nat.eqb (length vals) 3) in
        let! v0 := idx vals 0 in let! v1 := idx vals 1 in let! v2 := idx vals 2 in
        Ok (AABB (A3 v0 v1 v2) (A3 v0 v1 v2))
    | TSphere | TBox =>
        let! _u := assert (Nat.eqb (length vals) 4) in
        let! v0 := idx vals 0 in let! v1 := idx vals 1 in let! v2 := idx vals 2 in let! v3 := idx vals 3 in
        Ok (AABB (A3 (v0 - v3) (v1 - v3) (v2 - v3)) (A3 (v0 + v3) (v1 + v3) (v2 + v3)))
    | TPlane =>
        let! _u := assert (Nat.eqb (length vals) 6) in
        Ok (AABB (A3 (nninf N) (nninf N) (nninf N)) (A3 (ninf N) (ninf N) (ninf N)))
    | TRect =>
        let! _u := assert (Nat.eqb (length vals) 6) in
        let! v0 := idx vals 0 in let! v1 := idx vals 1 in let! v2 := idx vals 2 in
        let! v3 := idx vals 3 in let! v4 := idx vals 4 in let! v5 := idx vals 5 in
        Ok (AABB (A3 v0 v1 v2) (A3 v3 v4 v5))
    | TFrustum => Panic PUnimplemented
    | _ => Panic PUnimplemented
    end.

  (** bound.rs:184-191 *)
  Definition aabb_default : aabb N :=
    AABB (A3 (nninf N) (nninf N) (nninf N)) (A3 (ninf N) (ninf N) (ninf N)).

  (** bound.rs:85-103 *)
  Definition aabb_get_longest_axis (self : aabb N) : res (axis * N) :=
    let! u0 := get3 (b_upper self) 0 in let! l0 := get3 (b_lower self) 0 in
    let! u1 := get3 (b_upper self) 1 in let! l1 := get3 (b_lower self) 1 in
    let! u2 := get3 (b_upper self) 2 in let! l2 := get3 (b_lower self) 2 in
    let dx := (AxX, u0 - l0) in
    let dy := (AxY, u1 - l1) in
    let dz := (AxZ, u2 - l2) in
    let! longest := max_by (fun x y : axis * N =>
      Ok (if nlt (snd x) (snd y) then Lt else if nlt (snd x) (snd y) then Gt else Eq)) [dx; dy; dz] in
    unwrap longest.

  (** bound.rs:136-145 *)
  Definition aabb_get_bound_data (self : aabb N) : res (list N) :=
    let! arr := for_range 3 (fun i arr => let! v := get3 (b_lower self) i in set_list arr i v) (repeat n0 32) in
    for_range 3 (fun i arr => let! v := get3 (b_upper self) i in set_list arr (i + 3)%nat v) arr.

  (** bound.rs:107-109, bound_sphere.rs:20-22 *)
  Definition ibound_get_type (b : ibound N) : bound_type :=
    match b with BBox _ => BTAxisAlignBox | BSphere => BTSphere end.
  (** bound.rs:136-145, bound_sphere.rs:29-31 *)
  Definition ibound_get_bound_data (b : ibound N) : res (list N) :=
    match b with BBox a => aabb_get_bound_data a | BSphere => Panic PUnimplemented end.

  (** bound.rs:110-132 *)
  Definition aabb_intersect (self : aabb N) (other : ibound N) : res bool :=
    match ibound_get_type other with
    | BTAxisAlignBox =>
        let! a_bounds := aabb_get_bound_data self in
        let! b_bounds := ibound_get_bound_data other in
        let! a_lower := slice a_bounds 0 3 in
        let! a_upper := slice a_bounds 3 6 in
        let! b_lower := slice b_bounds 0 3 in
        let! b_upper := slice b_bounds 3 6 in
        let! r := for_ret (seq 0 3) (fun i =>
          let! al := idx a_lower i in let! bu := idx b_upper i in
          let! au := idx a_upper i in let! bl := idx b_lower i in
          if (ngt al bu || nlt au bl)%bool then Ok (Ret false) else Ok Next) in
        Ok (match r with Some x => x | None => true end)
    | BTSphere => Panic PUnimplemented
    end.
  (** bound.rs:110-132 and bound_sphere.rs:23-25 *)
  Definition ibound_intersect (self other : ibound N) : res bool :=
    match self with BBox a => aabb_intersect a other | BSphere => Panic PUnimplemented end.

  (** bound.rs:133-135, bound_sphere.rs:26-28 *)
  Definition ibound_get_shortest_separation (self other : ibound N) : res N := Panic PUnimplemented.

  (** bound.rs:146-164  mutates [self]: the new value is returned *)
  Definition aabb_get_union (self : aabb N) (bounds : list (ibound N)) : res (aabb N) :=
    let self := AABB (A3 (ninf N) (ninf N) (ninf N)) (A3 (nninf N) (nninf N) (nninf N)) in
    for_each bounds (fun i self =>
      match ibound_get_type i with
      | BTAxisAlignBox =>
          let! b := ibound_get_bound_data i in
          let! b_lo := slice b 0 3 in
          let! b_up := slice b 3 6 in
          for_range 3 (fun j self =>
            let! sl := get3 (b_lower self) j in let! bl := idx b_lo j in
            let! lo := set3 (b_lower self) j (nmin sl bl) in
            let! su := get3 (b_upper self) j in let! bu := idx b_up j in
            let! up := set3 (b_upper self) j (nmax su bu) in
            Ok (AABB lo up)) self
      | BTSphere => Panic PUnimplemented
      end) self.

  (** bound.rs:165-181 *)
  Definition aabb_get_centroid (self : aabb N) : res (arr3 N) :=
    let! b := aabb_get_bound_data self in
    let! b_lo := slice b 0 3 in
    let! b_up := slice b 3 6 in
    let! l0 := idx b_lo 0 in let! u0 := idx b_up 0 in
    let! l1 := idx b_lo 1 in let! u1 := idx b_up 1 in
    let! l2 := idx b_lo 2 in let! u2 := idx b_up 2 in
    Ok (A3 ((l0 + u0) / n2) ((l1 + u1) / n2) ((l2 + u2) / n2)).
  (** bound.rs:165-181, bound_sphere.rs:35-37 *)
  Definition ibound_get_centroid (self : ibound N) : res (arr3 N) :=
    match self with BBox a => aabb_get_centroid a | BSphere => Panic PUnimplemented end.
End Bound.
