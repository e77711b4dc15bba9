(** Float.v — the IEEE 754 instance of the scalar arithmetic: Flocq's BinarySingleNaN with round to nearest even, any
    precision and exponent range; [F32] and [F64] are binary32 and binary64.
    The functions Rust takes from the platform's libm are an arbitrary record [libm] (an oracle). *)
From Coq Require Import ZArith Bool.
From Flocq Require Import Core BinarySingleNaN.
From Verif Require Import Base Num.

Record libm (F : Type) := MkLibm {
  lm_sin : F -> F; lm_cos : F -> F; lm_acos : F -> F; lm_ln : F -> F;
  lm_atan2 : F -> F -> F; lm_powf : F -> F -> F }.
Arguments lm_sin {F}. Arguments lm_cos {F}. Arguments lm_acos {F}. Arguments lm_ln {F}.
Arguments lm_atan2 {F}. Arguments lm_powf {F}.

Section Float.
  Context (prec emax : Z) {Hp : Prec_gt_0 prec} {Hm : Prec_lt_emax prec emax}.

  (** the integer [p], rounded *)
  Definition f_int (p : Z) : binary_float prec emax := binary_normalize prec emax Hp Hm mode_NE p 0 false.

  (** the literal p/q.  Both integers are exact in the type for every literal of the library except 1e-11 in f32; there
      the result is still the correctly rounded one (FloatFacts.v, lit_correct and lit_1em11_f32). *)
  Definition f_lit (p : Z) (q : positive) : binary_float prec emax := Bdiv mode_NE (f_int p) (f_int (Zpos q)).

  (** [std::f64::consts::PI as $v_type]: 3.14159265358979311599796346854 = 884279719003555 / 2^48 *)
  Definition f_pi : binary_float prec emax := binary_normalize prec emax Hp Hm mode_NE 884279719003555 (-48) false.

  (** [$v_type::EPSILON] = 2^(1-prec) *)
  Definition f_eps : binary_float prec emax := binary_normalize prec emax Hp Hm mode_NE 1 (1 - prec) false.

  Definition Ieee (lm : libm (binary_float prec emax)) : Num := {|
    nT := binary_float prec emax;
    nadd := Bplus mode_NE;
    nsub := Bminus mode_NE;
    nmul := Bmult mode_NE;
    ndiv := Bdiv mode_NE;
    nneg := Bopp;
    nabs := Babs;
    nsqrt := Bsqrt mode_NE;
    ncmp := Bcompare;
    nlit := f_lit;
    ninf := B754_infinity false;
    nninf := B754_infinity true;
    neps := f_eps;
    npi := f_pi;
    nsin := lm_sin lm; ncos := lm_cos lm; nacos := lm_acos lm; nln := lm_ln lm;
    natan2 := lm_atan2 lm; npowf := lm_powf lm
  |}.
End Float.

(** Rust's f32 and f64 *)
Definition f32_prec_gt_0 : Prec_gt_0 24 := eq_refl.
Definition f32_prec_lt_emax : Prec_lt_emax 24 128 := eq_refl.
Definition f64_prec_gt_0 : Prec_gt_0 53 := eq_refl.
Definition f64_prec_lt_emax : Prec_lt_emax 53 1024 := eq_refl.
Definition f32 : Set := binary_float 24 128.
Definition f64 : Set := binary_float 53 1024.
Definition F32 (lm : libm f32) : Num := @Ieee 24 128 f32_prec_gt_0 f32_prec_lt_emax lm.
Definition F64 (lm : libm f64) : Num := @Ieee 53 1024 f64_prec_gt_0 f64_prec_lt_emax lm.
