(** Gjk.v — model of lib/intersect_gjk.rs.  The unbounded [loop] of query_intersect is a step function iterated with
    fuel; running out of fuel is a separate outcome, so statements can quantify over every number of iterations.
    No proofs here. *)
From Coq Require Import List ZArith Bool.
Import ListNotations.
From Verif Require Import Base Num Vec Mat Bound Shape.

Section Gjk.
  Context {N : Num}.
  Local Open Scope num_scope.

  Definition minus1 : N := nlit N (-1) 1.

  (** intersect_gjk.rs:6-18 *)
  Definition gjk_support (a b : shape N) (v : mat3x1 N) : res (option (mat3x1 N)) :=
    let! s0 := shape_get_support a v in
    match s0 with
    | None => Ok None
    | Some p0 =>
        let! v_oppose := unwrap (mat3x1_scale v minus1) in
        let! s1 := shape_get_support b v_oppose in
        match s1 with
        | None => Ok None
        | Some p1 => let! p10 := unwrap (mat3x1_minus p0 p1) in Ok (Some p10)
        end
    end.

  (** intersect_gjk.rs:20-23 *)
  Definition pass_minkowski_origin (last_vert support : mat3x1 N) : res bool :=
    let! d := unwrap (mat3x1_dot last_vert support) in Ok (ngt d n0).

  (** [v.last().unwrap()] *)
  Definition last_vert (simplex : list (mat3x1 N)) : res (mat3x1 N) :=
    match rev simplex with [] => Panic PUnwrap | a :: _ => Ok a end.

  (** intersect_gjk.rs:25-63; the mutated simplex and direction are returned with the result *)
  Definition contains_minkowski_origin (simplex : list (mat3x1 N)) (support : mat3x1 N)
    : res (bool * list (mat3x1 N) * mat3x1 N) :=
    let! a := last_vert simplex in
    let! ao := unwrap (mat3x1_scale a minus1) in
    if Nat.eqb (length simplex) 3 then
      let! b := idx simplex 1 in
      let! c := idx simplex 0 in
      let! ab := unwrap (mat3x1_minus b a) in
      let! ac := unwrap (mat3x1_minus c a) in
      let! x := unwrap (mat3x1_cross ac ab) in let! ab_normal := unwrap (mat3x1_cross x ab) in
      let! y := unwrap (mat3x1_cross ab ac) in let! ac_normal := unwrap (mat3x1_cross y ac) in
      let! dab := unwrap (mat3x1_dot ab_normal ao) in
      let! dac := unwrap (mat3x1_dot ac_normal ao) in
      if ngt dab n0 then
        let! s1 := idx simplex 1 in let! s2 := idx simplex 2 in
        Ok (false, [s1; s2], ab_normal)
      else if ngt dac n0 then
        let! s0 := idx simplex 0 in let! s2 := idx simplex 2 in
        Ok (false, [s0; s2], ac_normal)
      else Ok (true, simplex, support)
    else
      let! b := idx simplex 0 in
      let! ab := unwrap (mat3x1_minus b a) in
      let! x := unwrap (mat3x1_cross ab ao) in let! ab_normal := unwrap (mat3x1_cross x ao) in
      let! m := unwrap (mat3x1_magnitude ab_normal) in
      if neqb m n0 then Ok (true, simplex, support)
      else Ok (false, simplex, ab_normal).

  (** one iteration of the [loop] of intersect_gjk.rs:86-102: [inl r] returns [r], [inr] goes round again *)
  Definition gjk_iter (a b : shape N) (simplex : list (mat3x1 N)) (d : mat3x1 N)
    : res (option bool + list (mat3x1 N) * mat3x1 N) :=
    let! o := gjk_support a b d in
    let! sup := unwrap o in
    let simplex := simplex ++ [sup] in
    let! _u := assert (Nat.leb (length simplex) 3) in
    let! last := last_vert simplex in
    let! p := pass_minkowski_origin last d in
    if negb p then Ok (inl (Some false))
    else
      let! r := contains_minkowski_origin simplex d in
      match r with (c, simplex', d') =>
        if c then Ok (inl (Some true)) else Ok (inr (simplex', d')) end.

  Inductive outcome (A : Type) := Done (r : res A) | OutOfFuel.
  Arguments Done {A} r.
  Arguments OutOfFuel {A}.

  Fixpoint gjk_loop (fuel : nat) (a b : shape N) (simplex : list (mat3x1 N)) (d : mat3x1 N) : outcome (option bool) :=
    match fuel with
    | O => OutOfFuel
    | S f =>
        match gjk_iter a b simplex d with
        | Panic k => Done (Panic k)
        | Ok (inl r) => Done (Ok r)
        | Ok (inr (s', d')) => gjk_loop f a b s' d'
        end
    end.

  (** intersect_gjk.rs:65-85: up to the loop *)
  Definition gjk_start (a b : shape N) : res (list (mat3x1 N) * mat3x1 N) :=
    let! _u := match shape_get_type a, shape_get_type b with
               | TSphere, TSphere => Ok tt
               | _, _ => Panic PExplicit
               end in
    let d := M3x1 (A3 minus1 n0 n0) in
    let! o := gjk_support a b d in
    let! sup := unwrap o in
    let simplex := [sup] in
    let! d := unwrap (mat3x1_scale d minus1) in
    Ok (simplex, d).

  (** intersect_gjk.rs:65-103 *)
  Definition query_intersect (fuel : nat) (a b : shape N) : outcome (option bool) :=
    match gjk_start a b with
    | Panic k => Done (Panic k)
    | Ok (simplex, d) => gjk_loop fuel a b simplex d
    end.
End Gjk.
Arguments Done {A} r.
Arguments OutOfFuel {A}.
