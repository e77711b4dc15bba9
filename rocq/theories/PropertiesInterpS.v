(** PropertiesInterpS.v — signs and conjugates of interpolations, powers and logarithms, for all floats (C142). *)
From Coq Require Import Reals List ZArith Bool Lra Lia.
From Flocq Require Import Core BinarySingleNaN.
Import ListNotations.
From Verif Require Import Base Num Vec Mat Quat Float FloatFacts SpecMirror SpecLaws PVec PInterpS.

Section InterpS.
Context (prec emax : Z) {Hp : Prec_gt_0 prec} {Hm : Prec_lt_emax prec emax} (lm : libm (binary_float prec emax)).
Notation bf := (binary_float prec emax).
Notation F := (@Ieee prec emax Hp Hm lm).
(** All floats, NaN and infinities included, whatever the platform's sine and arc tangent do.  Negating both ends negates the
    interpolation, up to the sign of a zero; conjugating both ends conjugates it. *)
Theorem C142_interpolations (a b : quat F) (t : F) :
  opp_q (quat_interpolate_linear (quat_negate a) (quat_negate b) t : quat bf) (quat_interpolate_linear a b t) /\
  opp_q (quat_interpolate_slerp (quat_negate a) (quat_negate b) t : quat bf) (quat_interpolate_slerp a b t) /\
  same_q (quat_interpolate_linear (quat_conjugate a) (quat_conjugate b) t : quat bf) (quat_conjugate (quat_interpolate_linear a b t)) /\
  same_q (quat_interpolate_slerp (quat_conjugate a) (quat_conjugate b) t : quat bf) (quat_conjugate (quat_interpolate_slerp a b t)).
Proof. split; [apply lerp_neg |]. split; [apply slerp_neg |]. split; [apply lerp_conj | apply slerp_conj]. Qed.
(** Powers and logarithms of the conjugate are the conjugates, bit for bit; where one panics so does the other. *)
Theorem C142_conjugate (q : quat F) (t : F) :
  quat_pow (quat_conjugate q) t = (let! r := quat_pow q t in Ok (quat_conjugate r)) /\
  quat_ln (quat_conjugate q) = (let! r := quat_ln q in Ok (quat_conjugate r)).
Proof. split; [apply pow_conj | apply log_conj]. Qed.
(** Nearly parallel quaternions (computed cosine above 0.9999 in absolute value): the sign of the second end does not matter,
    bit for bit. *)
Theorem C142_short_way (a b : quat F) (t : F) : (24 <= prec)%Z ->
  let c := nadd F (nadd F (nadd F (nmul F (qw a) (qw b)) (nmul F (qx a) (qx b))) (nmul F (qy a) (qy b))) (nmul F (qz a) (qz b)) in
  ngt (nabs F c) (nlit F 9999 10000) = true -> quat_interpolate_slerp a (quat_negate b) t = quat_interpolate_slerp a b t.
Proof. intros P c. exact (slerp_sign prec emax lm a b t P). Qed.
End InterpS.
Print Assumptions C142_interpolations.
Print Assumptions C142_conjugate.
Print Assumptions C142_short_way.
(** the hypothesis holds in f64 for (0,0,0,1) and (1/128,0,0,1) *)
Example C142_case (lm : libm f64) (t : F64 lm) : let a := Q n0 n0 n0 n1 : quat (F64 lm) in let b := Q (nlit (F64 lm) 1 128) n0 n0 n1 : quat (F64 lm) in
  quat_interpolate_slerp a (quat_negate b) t = quat_interpolate_slerp a b t.
Proof.
  intros a b. assert (P : (24 <= 53)%Z) by lia.
  refine (@C142_short_way 53 1024 f64_prec_gt_0 f64_prec_lt_emax lm a b t P _). unfold a, b. cbn [qx qy qz qw]. vm_compute. reflexivity.
Qed.
(** and the signs are not vacuous: in f64 the midpoint of (1,0,0,0) and (0,1,0,0) is (1/2,1/2,0,0), of the negatives (-1/2,-1/2,0,0) *)
Example C142_case_signs (lm : libm f64) : let h := nlit (F64 lm) 1 2 in let a := Q n1 n0 n0 n0 : quat (F64 lm) in let b := Q n0 n1 n0 n0 : quat (F64 lm) in
  B2SF (qx (quat_interpolate_linear a b h) : f64) = B2SF (h : f64) /\ B2SF (qx (quat_interpolate_linear (quat_negate a) (quat_negate b) h) : f64) = B2SF (nneg (F64 lm) h : f64).
Proof. intros h a b. split; vm_compute; reflexivity. Qed.
(** Outside that range it does matter: halfway from (0,0,0,1) to (1,0,0,0) and to (-1,0,0,0) are different quaternions for a
    libm with sine 1 everywhere. *)
Example C142_sign_matters : exists (lm : libm f64) (a b : quat (F64 lm)) (t : F64 lm), quat_interpolate_slerp a (quat_negate b) t <> quat_interpolate_slerp a b t.
Proof.
  set (one := @f_lit 53 1024 f64_prec_gt_0 f64_prec_lt_emax 1 1). set (L := MkLibm f64 (fun _ => one) (fun _ => one) (fun _ => one) (fun _ => one) (fun _ _ => one) (fun _ _ => one)).
  exists L, (Q n0 n0 n0 n1), (Q n1 n0 n0 n0), (nlit (F64 L) 1 2). intro H. apply (f_equal (fun q : quat f64 => Bsign (qx q))) in H. vm_compute in H. discriminate H.
Qed.
