(** Num.v — the scalar type [$v_type] of the library's macros, as a record of operations.
    The model is generic in this record; Exact.v and Float.v instantiate it. *)
From Coq Require Import ZArith Bool.
From Verif Require Import Base.

Record Num := mkNum {
  nT :> Type;
  nadd : nT -> nT -> nT;              (* a + b *)
  nsub : nT -> nT -> nT;              (* a - b *)
  nmul : nT -> nT -> nT;              (* a * b *)
  ndiv : nT -> nT -> nT;              (* a / b *)
  nneg : nT -> nT;                    (* -a *)
  nabs : nT -> nT;                    (* f64::abs *)
  nsqrt : nT -> nT;                   (* f64::sqrt *)
  ncmp : nT -> nT -> option comparison; (* f64::partial_cmp *)
  nlit : Z -> positive -> nT;         (* the literal p/q, rounded to the type *)
  ninf : nT;                          (* f64::INFINITY *)
  nninf : nT;                         (* f64::NEG_INFINITY *)
  neps : nT;                          (* f64::EPSILON / f32::EPSILON *)
  npi : nT;                           (* std::f64::consts::PI as $v_type *)
  nsin : nT -> nT;                    (* libm functions *)
  ncos : nT -> nT;
  nacos : nT -> nT;
  nln : nT -> nT;
  natan2 : nT -> nT -> nT;            (* y.atan2(x) *)
  npowf : nT -> nT -> nT
}.

Section Derived.
  Context {N : Num}.

  (** Comparison operators of f32/f64: every comparison with NaN is false, except [!=]. *)
  Definition nlt (a b : N) : bool := match ncmp N a b with Some Lt => true | _ => false end.
  Definition ngt (a b : N) : bool := match ncmp N a b with Some Gt => true | _ => false end.
  Definition nle (a b : N) : bool := match ncmp N a b with Some Lt | Some Eq => true | _ => false end.
  Definition nge (a b : N) : bool := match ncmp N a b with Some Gt | Some Eq => true | _ => false end.
  Definition neqb (a b : N) : bool := match ncmp N a b with Some Eq => true | _ => false end.
  Definition nne (a b : N) : bool := negb (neqb a b).

  (** [f64::is_nan]: [self != self]. *)
  Definition nisnan (a : N) : bool := nne a a.

  (** [f64::min], [f64::max]: if one argument is NaN the other is returned.  Simplification: for [+0.0] and [-0.0]
      Rust leaves open which of the two is returned; the model returns the first. *)
  Definition nmin (a b : N) : N :=
    if nisnan a then b else if nisnan b then a else if nlt b a then b else a.
  Definition nmax (a b : N) : N :=
    if nisnan a then b else if nisnan b then a else if ngt b a then b else a.

  (** [x.powi(2)].  Simplification: Rust leaves the precision of [powi] open; it is [x * x] for exponent 2. *)
  Definition npowi2 (a : N) : N := nmul N a a.

  Definition n0 : N := nlit N 0 1.
  Definition n1 : N := nlit N 1 1.
  Definition n2 : N := nlit N 2 1.

  (** The comparator [|a, b| a.partial_cmp(b).unwrap_or(Equal)] (line.rs:29, triprism.rs:86). *)
  Definition cmp_or_equal (a b : N) : res comparison :=
    Ok (match ncmp N a b with Some c => c | None => Eq end).
End Derived.

Declare Scope num_scope.
Delimit Scope num_scope with num.
Notation "a + b" := (nadd _ a b) : num_scope.
Notation "a - b" := (nsub _ a b) : num_scope.
Notation "a * b" := (nmul _ a b) : num_scope.
Notation "a / b" := (ndiv _ a b) : num_scope.
Notation "- a" := (nneg _ a) : num_scope.
