(** Base.v — the small amount of Rust machinery shared by the whole model: panics as values, fixed-size
    arrays, slices/Vecs, counted loops, and the iterator adaptors the library uses.
    No proofs here, only definitions. *)
From Coq Require Import List ZArith NArith Bool.
Import ListNotations.

(** How a Rust function can fail.  [PAssert]: [assert!]; [PIndex]: out-of-bounds indexing; [PUnwrap]:
    [unwrap]/[expect] on [None]; [PUnimplemented]: [unimplemented!()]; [PExplicit]: [panic!]; [POverflow]:
    integer overflow in a build with overflow checks. *)
Inductive panic_kind := PAssert | PIndex | PUnwrap | PUnimplemented | PExplicit | POverflow.

Inductive res (A : Type) : Type :=
| Ok (a : A)
| Panic (k : panic_kind).
Arguments Ok {A} a.
Arguments Panic {A} k.

Definition bind {A B : Type} (r : res A) (f : A -> res B) : res B :=
  match r with Ok a => f a | Panic k => Panic k end.

Notation "'let!' x ':=' e 'in' k" := (bind e (fun x => k))
  (at level 200, x name, e at level 100, k at level 200, right associativity).

(** [Option::unwrap] / [Option::expect]. *)
Definition unwrap {A : Type} (o : option A) : res A :=
  match o with Some a => Ok a | None => Panic PUnwrap end.

(** [assert!(b)]. *)
Definition assert (b : bool) : res unit := if b then Ok tt else Panic PAssert.

(** Rust arrays [[T; 2]], [[T; 3]], [[T; 4]], [[T; 9]], [[T; 16]]: one constructor per array type, indexed reads
    ([getN]) and writes ([setN]) with Rust's bounds check. *)
Inductive arr2 (T : Type) := A2 (a0 a1 : T).
Inductive arr3 (T : Type) := A3 (a0 a1 a2 : T).
Inductive arr4 (T : Type) := A4 (a0 a1 a2 a3 : T).
Inductive arr9 (T : Type) := A9 (a0 a1 a2 a3 a4 a5 a6 a7 a8 : T).
Inductive arr16 (T : Type) := A16 (a0 a1 a2 a3 a4 a5 a6 a7 a8 a9 a10 a11 a12 a13 a14 a15 : T).
Arguments A2 {T} a0 a1.
Arguments A3 {T} a0 a1 a2.
Arguments A4 {T} a0 a1 a2 a3.
Arguments A9 {T} a0 a1 a2 a3 a4 a5 a6 a7 a8.
Arguments A16 {T} a0 a1 a2 a3 a4 a5 a6 a7 a8 a9 a10 a11 a12 a13 a14 a15.

Definition list2 {T} (a : arr2 T) : list T := match a with A2 a0 a1 => [a0; a1] end.
Definition list3 {T} (a : arr3 T) : list T := match a with A3 a0 a1 a2 => [a0; a1; a2] end.
Definition list4 {T} (a : arr4 T) : list T := match a with A4 a0 a1 a2 a3 => [a0; a1; a2; a3] end.
Definition list9 {T} (a : arr9 T) : list T :=
  match a with A9 a0 a1 a2 a3 a4 a5 a6 a7 a8 => [a0; a1; a2; a3; a4; a5; a6; a7; a8] end.
Definition list16 {T} (a : arr16 T) : list T :=
  match a with A16 a0 a1 a2 a3 a4 a5 a6 a7 a8 a9 a10 a11 a12 a13 a14 a15 =>
    [a0; a1; a2; a3; a4; a5; a6; a7; a8; a9; a10; a11; a12; a13; a14; a15] end.

(** Indexing a slice or a Vec: [v[i]] panics when out of bounds. *)
Definition idx {T} (l : list T) (i : nat) : res T :=
  match nth_error l i with Some x => Ok x | None => Panic PIndex end.

Definition get2 {T} (a : arr2 T) (i : nat) : res T := idx (list2 a) i.
Definition get3 {T} (a : arr3 T) (i : nat) : res T := idx (list3 a) i.
Definition get4 {T} (a : arr4 T) (i : nat) : res T := idx (list4 a) i.
Definition get9 {T} (a : arr9 T) (i : nat) : res T := idx (list9 a) i.
Definition get16 {T} (a : arr16 T) (i : nat) : res T := idx (list16 a) i.

Definition set2 {T} (a : arr2 T) (i : nat) (v : T) : res (arr2 T) :=
  match a with A2 a0 a1 =>
    match i with 0 => Ok (A2 v a1) | 1 => Ok (A2 a0 v) | _ => Panic PIndex end end.
Definition set3 {T} (a : arr3 T) (i : nat) (v : T) : res (arr3 T) :=
  match a with A3 a0 a1 a2 =>
    match i with
    | 0 => Ok (A3 v a1 a2) | 1 => Ok (A3 a0 v a2) | 2 => Ok (A3 a0 a1 v) | _ => Panic PIndex end end.
Definition set4 {T} (a : arr4 T) (i : nat) (v : T) : res (arr4 T) :=
  match a with A4 a0 a1 a2 a3 =>
    match i with
    | 0 => Ok (A4 v a1 a2 a3) | 1 => Ok (A4 a0 v a2 a3) | 2 => Ok (A4 a0 a1 v a3)
    | 3 => Ok (A4 a0 a1 a2 v) | _ => Panic PIndex end end.
Definition set9 {T} (a : arr9 T) (i : nat) (v : T) : res (arr9 T) :=
  match a with A9 a0 a1 a2 a3 a4 a5 a6 a7 a8 =>
    match i with
    | 0 => Ok (A9 v a1 a2 a3 a4 a5 a6 a7 a8)
    | 1 => Ok (A9 a0 v a2 a3 a4 a5 a6 a7 a8)
    | 2 => Ok (A9 a0 a1 v a3 a4 a5 a6 a7 a8)
    | 3 => Ok (A9 a0 a1 a2 v a4 a5 a6 a7 a8)
    | 4 => Ok (A9 a0 a1 a2 a3 v a5 a6 a7 a8)
    | 5 => Ok (A9 a0 a1 a2 a3 a4 v a6 a7 a8)
    | 6 => Ok (A9 a0 a1 a2 a3 a4 a5 v a7 a8)
    | 7 => Ok (A9 a0 a1 a2 a3 a4 a5 a6 v a8)
    | 8 => Ok (A9 a0 a1 a2 a3 a4 a5 a6 a7 v)
    | _ => Panic PIndex end end.
Definition set16 {T} (a : arr16 T) (i : nat) (v : T) : res (arr16 T) :=
  match a with A16 a0 a1 a2 a3 a4 a5 a6 a7 a8 a9 a10 a11 a12 a13 a14 a15 =>
    match i with
    | 0 => Ok (A16 v a1 a2 a3 a4 a5 a6 a7 a8 a9 a10 a11 a12 a13 a14 a15)
    | 1 => Ok (A16 a0 v a2 a3 a4 a5 a6 a7 a8 a9 a10 a11 a12 a13 a14 a15)
    | 2 => Ok (A16 a0 a1 v a3 a4 a5 a6 a7 a8 a9 a10 a11 a12 a13 a14 a15)
    | 3 => Ok (A16 a0 a1 a2 v a4 a5 a6 a7 a8 a9 a10 a11 a12 a13 a14 a15)
    | 4 => Ok (A16 a0 a1 a2 a3 v a5 a6 a7 a8 a9 a10 a11 a12 a13 a14 a15)
    | 5 => Ok (A16 a0 a1 a2 a3 a4 v a6 a7 a8 a9 a10 a11 a12 a13 a14 a15)
    | 6 => Ok (A16 a0 a1 a2 a3 a4 a5 v a7 a8 a9 a10 a11 a12 a13 a14 a15)
    | 7 => Ok (A16 a0 a1 a2 a3 a4 a5 a6 v a8 a9 a10 a11 a12 a13 a14 a15)
    | 8 => Ok (A16 a0 a1 a2 a3 a4 a5 a6 a7 v a9 a10 a11 a12 a13 a14 a15)
    | 9 => Ok (A16 a0 a1 a2 a3 a4 a5 a6 a7 a8 v a10 a11 a12 a13 a14 a15)
    | 10 => Ok (A16 a0 a1 a2 a3 a4 a5 a6 a7 a8 a9 v a11 a12 a13 a14 a15)
    | 11 => Ok (A16 a0 a1 a2 a3 a4 a5 a6 a7 a8 a9 a10 v a12 a13 a14 a15)
    | 12 => Ok (A16 a0 a1 a2 a3 a4 a5 a6 a7 a8 a9 a10 a11 v a13 a14 a15)
    | 13 => Ok (A16 a0 a1 a2 a3 a4 a5 a6 a7 a8 a9 a10 a11 a12 v a14 a15)
    | 14 => Ok (A16 a0 a1 a2 a3 a4 a5 a6 a7 a8 a9 a10 a11 a12 a13 v a15)
    | 15 => Ok (A16 a0 a1 a2 a3 a4 a5 a6 a7 a8 a9 a10 a11 a12 a13 a14 v)
    | _ => Panic PIndex end end.

(** Writing to a Vec / larger array: [v[i] = x] panics when out of bounds. *)
Fixpoint set_list {T} (l : list T) (i : nat) (v : T) : res (list T) :=
  match l, i with
  | [], _ => Panic PIndex
  | _ :: l', O => Ok (v :: l')
  | x :: l', S i' => let! r := set_list l' i' v in Ok (x :: r)
  end.

(** [for x in list { body }] with a mutable state and possible panic. *)
Fixpoint for_each {A S : Type} (l : list A) (body : A -> S -> res S) (s : S) : res S :=
  match l with
  | [] => Ok s
  | x :: l' => let! s' := body x s in for_each l' body s'
  end.

(** [for i in 0..n { body }]. *)
Definition for_range {S : Type} (n : nat) (body : nat -> S -> res S) (s : S) : res S :=
  for_each (seq 0 n) body s.

(** A loop body that may [return]/[break] with a result or fall through to the next iteration. *)
Inductive ctl (R : Type) := Next | Ret (r : R).
Arguments Next {R}.
Arguments Ret {R} r.

(** [for x in list { ... return r ... }]: [Some r] if some iteration returned, [None] if the loop ended. *)
Fixpoint for_ret {A R : Type} (l : list A) (body : A -> res (ctl R)) : res (option R) :=
  match l with
  | [] => Ok None
  | x :: l' =>
      let! c := body x in
      match c with Ret r => Ok (Some r) | Next => for_ret l' body end
  end.

(** [Iterator::all] with a closure that may panic; stops at the first [false]. *)
Fixpoint iter_all {A : Type} (l : list A) (f : A -> res bool) : res bool :=
  match l with
  | [] => Ok true
  | x :: l' => let! b := f x in if b then iter_all l' f else Ok false
  end.

(** [Iterator::map] with a closure that may panic. *)
Fixpoint iter_map {A B : Type} (l : list A) (f : A -> res B) : res (list B) :=
  match l with
  | [] => Ok []
  | x :: l' => let! y := f x in let! r := iter_map l' f in Ok (y :: r)
  end.

(** [Iterator::enumerate]. *)
Definition enumerate {A : Type} (l : list A) : list (nat * A) := combine (seq 0 (length l)) l.

(** [Iterator::max_by] (core::iter): [reduce] with [match compare(&x,&y) { Greater => x, _ => y }], so the last of
    several maximal elements is returned. *)
Fixpoint max_by_from {A : Type} (cmp : A -> A -> res comparison) (x : A) (l : list A) : res A :=
  match l with
  | [] => Ok x
  | y :: l' =>
      let! c := cmp x y in
      max_by_from cmp (match c with Gt => x | _ => y end) l'
  end.
Definition max_by {A : Type} (cmp : A -> A -> res comparison) (l : list A) : res (option A) :=
  match l with
  | [] => Ok None
  | x :: l' => let! r := max_by_from cmp x l' in Ok (Some r)
  end.

(** [Iterator::min_by]: [match compare(&x,&y) { Greater => y, _ => x }], so the first of several minimal elements
    is returned. *)
Fixpoint min_by_from {A : Type} (cmp : A -> A -> res comparison) (x : A) (l : list A) : res A :=
  match l with
  | [] => Ok x
  | y :: l' =>
      let! c := cmp x y in
      min_by_from cmp (match c with Gt => y | _ => x end) l'
  end.
Definition min_by {A : Type} (cmp : A -> A -> res comparison) (l : list A) : res (option A) :=
  match l with
  | [] => Ok None
  | x :: l' => let! r := min_by_from cmp x l' in Ok (Some r)
  end.

(** usize arithmetic on a 64-bit target.  [chk = true]: build with overflow checks (debug), an overflow panics;
    [chk = false]: release build, the result wraps modulo 2^64. *)
Definition usize_wrap (chk : bool) (x : N) : res N :=
  if (x <? 2 ^ 64)%N then Ok x
  else if chk then Panic POverflow else Ok (x mod 2 ^ 64)%N.
Definition usize_mul (chk : bool) (a b : N) : res N := usize_wrap chk (a * b)%N.
Definition usize_add (chk : bool) (a b : N) : res N := usize_wrap chk (a + b)%N.

(** Indexing an array of length [len] with a usize. *)
Definition idxN {T} (l : list T) (i : N) : res T :=
  if (i <? N.of_nat (length l))%N then idx l (N.to_nat i) else Panic PIndex.
