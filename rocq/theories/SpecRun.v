(** SpecRun.v — sequences of operations on an orientation, each followed by a normalisation where it changes the length. *)
From Coq Require Import List Reals ZArith NArith.
Import ListNotations.
From Flocq Require Import BinarySingleNaN.
From Verif Require Import Base Num Vec Mat Quat SpecMat SpecReal SpecGeom SpecQuat SpecRound SpecFq.
Local Open Scope R_scope.

(** turn about a fixed frame, turn about the own frame, conjugate, change the sign, normalise, invert *)
Inductive turn (A : Type) := Lead (p : A) | Trail (p : A) | Back | Flip | Again | Undo.
Arguments Lead {A} p.
Arguments Trail {A} p.
Arguments Back {A}.
Arguments Flip {A}.
Arguments Again {A}.
Arguments Undo {A}.
(** the quaternion of length one along q *)
Definition hdir (q : H4) : H4 := hscale (/ hlen q) q.
(** what the operations do to a quaternion of length one, over the reals *)
Definition htrack (q : H4) (o : turn H4) : H4 :=
  match o with
  | Lead p => hmul (hdir p) q
  | Trail p => hmul q (hdir p)
  | Back | Undo => hconj q
  | Flip => hneg q
  | Again => q
  end.
Definition turn_map {A B} (f : A -> B) (o : turn A) : turn B :=
  match o with Lead p => Lead (f p) | Trail p => Trail (f p) | Back => Back | Flip => Flip | Again => Again | Undo => Undo end.
Definition turn_all {A} (P : A -> Prop) (o : turn A) : Prop := match o with Lead p | Trail p => P p | _ => True end.

(** ---- running products of matrices ---- *)
(** every row has absolute sum at most m *)
Definition rows4 (f : rmat) (m : R) : Prop := forall i, (i < 4)%N -> rsum4 (fun j => Rabs (f i j)) <= m.
Definition rminus (f g : rmat) : rmat := fun i j => f i j - g i j.

(** ---- the same with the library ---- *)
Section Lib.
  Context {N : Num}.
  Definition turn_step (q : quat N) (o : turn (quat N)) : res (quat N) :=
    match o with
    | Lead p => quat_normalize (quat_mul p q)
    | Trail p => quat_normalize (quat_mul q p)
    | Back => Ok (quat_conjugate q)
    | Flip => Ok (quat_negate q)
    | Again => quat_normalize q
    | Undo => bind (quat_inverse q) quat_normalize
    end.
  Fixpoint turn_run (l : list (turn (quat N))) (q : quat N) : res (quat N) := match l with [] => Ok q | o :: l' => bind (turn_step q o) (turn_run l') end.
  (** a vector turned by one quaternion after the other *)
  Fixpoint spin (l : list (quat N)) (v : mat3x1 N) : mat3x1 N := match l with [] => v | q :: l' => spin l' (quat_rotate_vector q v) end.
  (** the product of matrices, accumulated from the left *)
  Fixpoint mat_run (a : mat4 N) (l : list (mat4 N)) : res (option (mat4 N)) :=
    match l with
    | [] => Ok (Some a)
    | b :: l' => bind (mat4_mul a b) (fun o => match o with Some c => mat_run c l' | None => Ok None end)
    end.
End Lib.
(** length 1 up to 9 roundoffs; a factor that need not be normalised; all entries finite *)
Definition near {prec emax} (q : quat (binary_float prec emax)) : Prop := qfin q /\ Rabs (hlen (qval q) - 1) <= 9 * uro prec.
Definition factor {prec emax} (p : quat (binary_float prec emax)) : Prop := qfin p /\ 3 / 4 <= hlen (qval p) <= 5 / 4.
Definition mfin4 {prec emax} (f : lmat (binary_float prec emax)) : Prop := forall i j, (i < 4)%N -> (j < 4)%N -> is_finite (f i j) = true.
