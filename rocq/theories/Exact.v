(** Exact.v — the exact instance of the scalar arithmetic: extended real numbers with the special-value rules of
    IEEE 754, but without rounding, overflow or underflow, and with a single zero.
    Two parameters: [eps], the value of EPSILON, and [zs], which decides the sign of the infinity that a division of a
    non-zero number by zero yields (IEEE: the sign of that zero, which this instance does not track).
    Theorems hold for every [eps] and [zs] unless they say otherwise. *)
From Coq Require Import Reals ZArith Bool.
From Verif Require Import Base Num.
Local Open Scope R_scope.

Inductive XR := Fin (r : R) | PInf | NInf | NaN.

Definition xneg (a : XR) : XR :=
  match a with Fin a => Fin (- a) | PInf => NInf | NInf => PInf | NaN => NaN end.
Definition xabs (a : XR) : XR :=
  match a with Fin a => Fin (Rabs a) | PInf => PInf | NInf => PInf | NaN => NaN end.
Definition xadd (a b : XR) : XR :=
  match a, b with
  | Fin a, Fin b => Fin (a + b)
  | NaN, _ | _, NaN => NaN
  | PInf, NInf | NInf, PInf => NaN
  | PInf, _ | _, PInf => PInf
  | NInf, _ | _, NInf => NInf
  end.
Definition xsub (a b : XR) : XR :=
  match a, b with
  | Fin a, Fin b => Fin (a - b)
  | _, _ => xadd a (xneg b)
  end.
(** an infinity with the sign of [r]; NaN for zero *)
Definition inf_sign (r : R) : XR :=
  if Rlt_dec 0 r then PInf else if Rlt_dec r 0 then NInf else NaN.
Definition xmul (a b : XR) : XR :=
  match a, b with
  | Fin a, Fin b => Fin (a * b)
  | NaN, _ | _, NaN => NaN
  | PInf, PInf | NInf, NInf => PInf
  | PInf, NInf | NInf, PInf => NInf
  | PInf, Fin r | Fin r, PInf => inf_sign r
  | NInf, Fin r | Fin r, NInf => inf_sign (- r)
  end.
Definition xdiv (zs : XR -> bool) (a b : XR) : XR :=
  match a, b with
  | Fin a, Fin b =>
      if Req_EM_T b 0 then (if Req_EM_T a 0 then NaN else if zs (Fin a) then PInf else NInf)
      else Fin (a / b)
  | NaN, _ | _, NaN => NaN
  | Fin _, _ => Fin 0
  | PInf, Fin r =>
      if Req_EM_T r 0 then (if zs PInf then PInf else NInf) else inf_sign r
  | NInf, Fin r =>
      if Req_EM_T r 0 then (if zs NInf then PInf else NInf) else inf_sign (- r)
  | _, _ => NaN
  end.
Definition xsqrt (a : XR) : XR :=
  match a with
  | Fin a => if Rlt_dec a 0 then NaN else Fin (sqrt a)
  | PInf => PInf
  | NInf => NaN
  | NaN => NaN
  end.
Definition xcmp (a b : XR) : option comparison :=
  match a, b with
  | NaN, _ | _, NaN => None
  | Fin a, Fin b => Some (if Rlt_dec a b then Lt else if Rlt_dec b a then Gt else Eq)
  | PInf, PInf | NInf, NInf => Some Eq
  | PInf, _ | _, NInf => Some Gt
  | NInf, _ | _, PInf => Some Lt
  end.
Definition xfun (f : R -> R) (a : XR) : XR := match a with Fin a => Fin (f a) | _ => NaN end.
Definition xacos (a : XR) : XR :=
  match a with Fin a => if Rle_dec (Rabs a) 1 then Fin (acos a) else NaN | _ => NaN end.
Definition xln (a : XR) : XR :=
  match a with
  | Fin a => if Rlt_dec 0 a then Fin (ln a) else if Rlt_dec a 0 then NaN else NInf
  | PInf => PInf
  | _ => NaN
  end.
(** the real two-argument arctangent, value in (-pi, pi] *)
Definition atan2R (y x : R) : R :=
  if Rlt_dec 0 x then atan (y / x)
  else if Rlt_dec x 0 then (if Rlt_dec y 0 then atan (y / x) - PI else atan (y / x) + PI)
  else if Rlt_dec 0 y then PI / 2 else if Rlt_dec y 0 then - (PI / 2) else 0.
(** Simplification: NaN for infinite arguments (the library calls atan2 only in slerp, on finite values). *)
Definition xatan2 (y x : XR) : XR :=
  match y, x with Fin y, Fin x => Fin (atan2R y x) | _, _ => NaN end.
(** Simplification: NaN for a negative or infinite base (the library raises only a length to a power). *)
Definition xpowf (x t : XR) : XR :=
  match x, t with
  | Fin x, Fin t =>
      if Rlt_dec 0 x then Fin (Rpower x t)
      else if Rlt_dec x 0 then NaN
      else if Rlt_dec 0 t then Fin 0 else if Rlt_dec t 0 then PInf else Fin 1
  | _, _ => NaN
  end.

Definition Exact (eps : R) (zs : XR -> bool) : Num := {|
  nT := XR;
  nadd := xadd; nsub := xsub; nmul := xmul; ndiv := xdiv zs; nneg := xneg; nabs := xabs; nsqrt := xsqrt;
  ncmp := xcmp;
  nlit := fun p q => match q with xH => Fin (IZR p) | _ => Fin (IZR p / IZR (Zpos q)) end;
  ninf := PInf; nninf := NInf; neps := Fin eps; npi := Fin PI;
  nsin := xfun sin; ncos := xfun cos; nacos := xacos; nln := xln; natan2 := xatan2; npowf := xpowf
|}.
