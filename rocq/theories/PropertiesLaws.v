(** PropertiesLaws.v — C117: laws of vectors and quaternions that survive rounding, and some that do not. *)
From Coq Require Import Reals List ZArith Bool Lra Lia.
From Flocq Require Import Core BinarySingleNaN.
Import ListNotations.
From Verif Require Import Base Num Vec Mat Quat Float FloatFacts SpecMirror SpecLaws PVec PLaws.

Section Laws.
Context (prec emax : Z) {Hp : Prec_gt_0 prec} {Hm : Prec_lt_emax prec emax} (lm : libm (binary_float prec emax)).
Notation bf := (binary_float prec emax).
Notation F := (@Ieee prec emax Hp Hm lm).
(** All floats, NaN and infinities included, and all six vector types.  Dot product and sum do not depend on the order of the
    arguments, bit for bit; differences and cross products change sign when their arguments are exchanged. *)
Theorem C117_order k (u v : vcar F k) :
  vec_dot u v = vec_dot v u /\ vec_plus u v = vec_plus v u /\
  (exists d d', vec_minus u v = Some d /\ vec_minus v u = Some d' /\ opp_v (d' : vcar bf k) d) /\
  (vlen k = 3%nat -> (exists d d', vec_cross u v = Some d /\ vec_cross v u = Some d' /\ opp_v (d' : vcar bf k) d) /\
    exists w, vec_cross u u = Some w /\ Forall (fun x : bf => is_nan x = true \/ (is_finite x = true /\ B2R x = 0%R)) (vcomps (w : vcar bf k))).
Proof.
  split; [apply dot_comm |]. split; [apply plus_comm |]. split; [apply minus_swap |]. intro H. split; [apply cross_swap | apply cross_self]; exact H.
Qed.
(** the sign of an argument is the sign of the result; lengths do not see it *)
Theorem C117_sign k (u u' v : vcar F k) : negated (u' : vcar bf k) u ->
  (exists d d', vec_dot u v = Some d /\ vec_dot u' v = Some d' /\ alike (d' : bf) (Bopp d)) /\
  vec_magnitude u' = vec_magnitude u /\
  (exists w w', vec_normalize u = Ok (Some w) /\ vec_normalize u' = Ok (Some w') /\ negated (w' : vcar bf k) w) /\
  (vlen k = 3%nat -> exists d d', vec_cross u v = Some d /\ vec_cross u' v = Some d' /\ opp_v (d' : vcar bf k) d).
Proof.
  intro H. split; [apply dot_neg; exact H |]. split; [apply mag_neg; exact H |]. split; [apply norm_neg; exact H |]. intro L. apply cross_neg; assumption.
Qed.
Theorem C117_quaternions (p q : quat F) :
  opp_q (quat_mul (quat_negate p) q : quat bf) (quat_mul p q) /\ opp_q (quat_mul p (quat_negate q) : quat bf) (quat_mul p q) /\
  quat_mul (quat_negate p) (quat_negate q) = quat_mul p q /\ qw (quat_mul p q) = qw (quat_mul q p) /\
  quat_negate (quat_negate q) = q /\ quat_conjugate (quat_conjugate q) = q /\
  (quat_length (quat_negate q) = quat_length q /\ quat_length (quat_conjugate q) = quat_length q) /\
  (quat_normalize (quat_negate q) = (let! r := quat_normalize q in Ok (quat_negate r)) /\
   quat_normalize (quat_conjugate q) = (let! r := quat_normalize q in Ok (quat_conjugate r))) /\
  (quat_inverse (quat_negate q) = (let! r := quat_inverse q in Ok (quat_negate r)) /\
   quat_inverse (quat_conjugate q) = (let! r := quat_inverse q in Ok (quat_conjugate r))).
Proof.
  split; [apply qmul_negl |]. split; [apply qmul_negr |]. split; [apply qmul_negs |]. split; [apply qmul_scalar |].
  destruct (qinvol prec emax lm q) as (A & B & _). split; [exact A |]. split; [exact B |].
  destruct (qlen_neg prec emax lm q) as (_ & C & _ & D). split; [split; assumption |]. split; [apply qnorm_neg | apply qinv_neg].
Qed.
(** q and -q are the same rotation, bit for bit as matrices; the conjugate has the transposed matrix, bit for bit *)
Theorem C117_rotations (q : quat F) (v v' : mat3x1 F) (rm : bool) :
  quat_to_rotation_matrix (quat_negate q) rm = quat_to_rotation_matrix q rm /\
  mat4_transpose (quat_to_rotation_matrix q rm) = Ok (quat_to_rotation_matrix (quat_conjugate q) rm) /\
  same_v (k := K3x1) (quat_rotate_vector (quat_negate q) v : mat3x1 bf) (quat_rotate_vector q v) /\
  same_v (k := K3x1) (quat_reflection_in_plane (quat_negate q) v : mat3x1 bf) (quat_reflection_in_plane q v) /\
  (negated (k := K3x1) (v' : mat3x1 bf) v -> opp_v (k := K3x1) (quat_rotate_vector q v' : mat3x1 bf) (quat_rotate_vector q v)).
Proof. split; [apply matrix_neg |]. split; [apply matrix_conj |]. split; [apply rotate_neg |]. split; [apply reflect_neg |]. apply rotate_opp. Qed.
End Laws.
Print Assumptions C117_order.
Print Assumptions C117_sign.
Print Assumptions C117_quaternions.
Print Assumptions C117_rotations.

(** ---- binary64: laws of real quaternions and vectors that do not survive ---- *)
Section Cases.
  Variable lm : libm f64.
  Notation F := (F64 lm).
  Definition zq (x y z w : Z) : quat F := Q (nlit F x 1) (nlit F y 1) (nlit F z 1) (nlit F w 1).
  Definition zv (x y z : Z) : mat3x1 F := M3x1 (A3 (nlit F x 1) (nlit F y 1) (nlit F z 1)).
  (** the conjugate of a product is not the product of the conjugates: the terms are added in another order *)
  Theorem C117_refuted_conjugate_f64 : exists p q : quat F,
    neqb (qx (quat_conjugate (quat_mul p q))) (qx (quat_mul (quat_conjugate q) (quat_conjugate p))) = false /\
    nlt (qx (quat_conjugate (quat_mul p q))) (qx (quat_mul (quat_conjugate q) (quat_conjugate p))) || ngt (qx (quat_conjugate (quat_mul p q))) (qx (quat_mul (quat_conjugate q) (quat_conjugate p))) = true.
  Proof. exists (zq 0 1 1 1), (zq (2 ^ 53) 1 1 0). split; vm_compute; reflexivity. Qed.
  (** q times its conjugate is not real: the second component is 1 *)
  Theorem C117_refuted_norm_f64 : exists q : quat F, neqb (qy (quat_mul q (quat_conjugate q))) n1 = true.
  Proof. exists (zq 3 1 1 (2 ^ 54)). vm_compute. reflexivity. Qed.
  (** sums of vectors and products of quaternions are not associative *)
  Theorem C117_refuted_assoc_f64 : exists a b c : mat3x1 F, exists ab bc r l, mat3x1_plus a b = Some ab /\ mat3x1_plus b c = Some bc /\
    mat3x1_plus ab c = Some l /\ mat3x1_plus a bc = Some r /\ match l, r with M3x1 (A3 x _ _), M3x1 (A3 x' _ _) => nlt x x' = true end.
  Proof. exists (zv (2 ^ 53) 0 0), (zv 1 0 0), (zv 1 0 0). do 4 eexists. do 4 (split; [reflexivity |]). vm_compute. reflexivity. Qed.
  Theorem C117_refuted_qassoc_f64 : exists p q r : quat F, neqb (qw (quat_mul (quat_mul p q) r)) (qw (quat_mul p (quat_mul q r))) = false.
  Proof. exists (zq 1 0 0 (2 ^ 53)), (zq (-1) 0 0 1), (zq (-1) 0 0 1). vm_compute. reflexivity. Qed.
  (** the hypothesis of C117_sign can be met *)
  Example C117_case : let l := nlit F 1 1 in let m := nlit F (-2) 1 in let n := nlit F 3 1 in
    negated (k := K3x1) (M3x1 (A3 (nneg F l) (nneg F m) (nneg F n)) : mat3x1 f64) (zv 1 (-2) 3).
  Proof. reflexivity. Qed.
  Example C117_rotate_case : match quat_rotate_vector (zq (-1) (-2) 3 4) (zv 5 6 7), quat_rotate_vector (zq 1 2 (-3) (-4)) (zv 5 6 7) with
    M3x1 (A3 x y z), M3x1 (A3 x' y' z') => (neqb x x' && neqb y y' && neqb z z' && nne x n0)%bool end = true.
  Proof. vm_compute. reflexivity. Qed.
End Cases.
Print Assumptions C117_refuted_conjugate_f64.
Print Assumptions C117_refuted_norm_f64.
Print Assumptions C117_refuted_assoc_f64.
Print Assumptions C117_refuted_qassoc_f64.
