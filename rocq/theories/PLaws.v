(** PLaws.v — laws of vectors and quaternions that hold bit for bit in IEEE arithmetic (C117). *)
From Coq Require Import Reals List ZArith NArith Bool Lra Lia.
From Flocq Require Import Core BinarySingleNaN.
Import ListNotations.
From Verif Require Import Base Num Vec Mat Quat Shape Float FloatFacts SpecMat SpecBuild SpecMirror SpecLaws PVec PBuild PMirror PMirror1.

Section Laws.
  Context (prec emax : Z) {Hp : Prec_gt_0 prec} {Hm : Prec_lt_emax prec emax} (lm : libm (binary_float prec emax)).
  Notation bf := (binary_float prec emax).
  Notation F := (@Ieee prec emax Hp Hm lm).
  Notation E := (E prec emax).

  Lemma E_alike (x' x : F) : E false x' x -> alike (x' : bf) x.
  Proof. intro H. apply (zr_alike prec emax). exact H. Qed.
  Lemma E_alike_opp (x' x : F) : E true x' x -> alike (x' : bf) (Bopp x).
  Proof. intro H. apply (zr_alike prec emax). exact H. Qed.
  Lemma E_neg (x : F) : E true (nneg F x) x.
  Proof. reflexivity. Qed.
  Lemma E_swap (x y : F) : E true (nsub F x y) (nsub F y x).
  Proof.
    rewrite !(nsub_F prec emax lm). rewrite (nadd_comm_F prec emax lm y). apply (E_plus prec emax lm).
    - unfold PMirror.E. cbn [sgn nneg Ieee]. rewrite (opp_opp prec emax). reflexivity.
    - reflexivity.
  Qed.
  Lemma mul_comm (x y : F) : nmul F x y = nmul F y x.
  Proof. apply (nmul_comm_F prec emax lm). Qed.
  Lemma sq_neg (x : F) : nmul F (nneg F x) (nneg F x) = nmul F x x.
  Proof. cbn [nmul nneg Ieee]. rewrite (mult_oppl prec emax), (mult_oppr prec emax), (opp_opp prec emax). reflexivity. Qed.
  Lemma mul_negs (x y : F) : nmul F (nneg F x) (nneg F y) = nmul F x y.
  Proof. cbn [nmul nneg Ieee]. rewrite (mult_oppl prec emax), (mult_oppr prec emax), (opp_opp prec emax). reflexivity. Qed.
  Lemma mul_negl (x y : F) : nmul F (nneg F x) y = nneg F (nmul F x y).
  Proof. apply (mult_oppl prec emax). Qed.
  Lemma mul_negr (x y : F) : nmul F x (nneg F y) = nneg F (nmul F x y).
  Proof. apply (mult_oppr prec emax). Qed.
  Lemma div_negl (x y : F) : ndiv F (nneg F x) y = nneg F (ndiv F x y).
  Proof. apply (proj1 (div_opps prec emax x y)). Qed.
  Lemma neg_neg (x : F) : nneg F (nneg F x) = x.
  Proof. apply (opp_opp prec emax). Qed.
  Lemma sub_neg (x y : F) : nsub F x (nneg F y) = nadd F x y.
  Proof. rewrite (nsub_F prec emax lm), neg_neg. reflexivity. Qed.
  Lemma powi2_neg (x : F) : npowi2 (nneg F x) = npowi2 x.
  Proof. apply (sq_E prec emax lm true). reflexivity. Qed.

  Ltac e_ := repeat first [ apply (E_plus prec emax lm) | apply (E_minus prec emax lm) ].
  Ltac vcases u := destruct u as [[]].

  Lemma dot_comm k (u v : vcar F k) : vec_dot u v = vec_dot v u.
  Proof. destruct k; vcases u; vcases v; cbn [vec_dot mat2x1_dot mat1x2_dot mat3x1_dot mat1x3_dot mat4x1_dot mat1x4_dot]; f_equal; repeat (f_equal; try apply mul_comm). Qed.
  Lemma plus_comm k (u v : vcar F k) : vec_plus u v = vec_plus v u.
  Proof.
    destruct k; vcases u; vcases v; cbn [vec_plus mat2x1_plus mat1x2_plus mat3x1_plus mat1x3_plus mat4x1_plus mat1x4_plus]; do 3 f_equal; apply (nadd_comm_F prec emax lm).
  Qed.
  Ltac all2 := unfold opp_v, same_v; cbn [vcomps list2 list3 list4 v2x1 v1x2 v3x1 v1x3 v4x1 v1x4]; repeat (apply Forall2_cons || apply Forall2_nil).
  Lemma minus_swap k (u v : vcar F k) : exists d d', vec_minus u v = Some d /\ vec_minus v u = Some d' /\ opp_v (d' : vcar bf k) d.
  Proof.
    destruct k; vcases u; vcases v; cbn [vec_minus mat2x1_minus mat1x2_minus mat3x1_minus mat1x3_minus mat4x1_minus mat1x4_minus];
      do 2 eexists; (split; [reflexivity | split; [reflexivity |]]); all2; apply E_alike_opp, E_swap.
  Qed.
  Lemma cross_swap3 (u v : mat3x1 F) : exists d d', mat3x1_cross u v = Some d /\ mat3x1_cross v u = Some d' /\ opp_v (k := K3x1) (d' : mat3x1 bf) d.
  Proof.
    vcases u; vcases v; cbn [mat3x1_cross]; do 2 eexists; (split; [reflexivity | split; [reflexivity |]]); all2; apply E_alike_opp;
      match goal with |- E true (nsub _ (nmul _ ?a ?b) (nmul _ ?c ?d)) (nsub _ (nmul _ _ _) (nmul _ _ _)) => rewrite (mul_comm a b), (mul_comm c d) end; apply E_swap.
  Qed.
  Lemma cross_swap3' (u v : mat1x3 F) : exists d d', mat1x3_cross u v = Some d /\ mat1x3_cross v u = Some d' /\ opp_v (k := K1x3) (d' : mat1x3 bf) d.
  Proof.
    vcases u; vcases v; cbn [mat1x3_cross]; do 2 eexists; (split; [reflexivity | split; [reflexivity |]]); all2; apply E_alike_opp;
      match goal with |- E true (nsub _ (nmul _ ?a ?b) (nmul _ ?c ?d)) (nsub _ (nmul _ _ _) (nmul _ _ _)) => rewrite (mul_comm a b), (mul_comm c d) end; apply E_swap.
  Qed.
  Lemma cross_swap k (u v : vcar F k) : vlen k = 3%nat -> exists d d', vec_cross u v = Some d /\ vec_cross v u = Some d' /\ opp_v (d' : vcar bf k) d.
  Proof. intro H. destruct k; try discriminate H; [apply cross_swap3 | apply cross_swap3']. Qed.
  (** u' = -u *)
  Ltac neg_of u' H := destruct u' as [[]]; cbn [negated vcomps map list2 list3 list4 v2x1 v1x2 v3x1 v1x3 v4x1 v1x4] in H; unfold negated in H; cbn [vcomps map list2 list3 list4 v2x1 v1x2 v3x1 v1x3 v4x1 v1x4] in H; injection H; intros; subst; clear H.
  Lemma dot_neg k (u u' v : vcar F k) : negated (u' : vcar bf k) u -> exists d d', vec_dot u v = Some d /\ vec_dot u' v = Some d' /\ alike (d' : bf) (Bopp d).
  Proof.
    intro H. destruct k; vcases u; vcases v; neg_of u' H; cbn [vec_dot mat2x1_dot mat1x2_dot mat3x1_dot mat1x3_dot mat4x1_dot mat1x4_dot];
      do 2 eexists; (split; [reflexivity | split; [reflexivity |]]); apply E_alike_opp; e_; change (@Bopp prec emax) with (nneg F); rewrite mul_negl; reflexivity.
  Qed.
  Lemma mag_neg k (u u' : vcar F k) : negated (u' : vcar bf k) u -> vec_magnitude u' = vec_magnitude u.
  Proof.
    intro H. destruct k; vcases u; neg_of u' H; cbn [vec_magnitude mat2x1_magnitude mat1x2_magnitude mat3x1_magnitude mat1x3_magnitude mat4x1_magnitude mat1x4_magnitude];
      change (@Bopp prec emax) with (nneg F); rewrite ?powi2_neg, ?sq_neg; reflexivity.
  Qed.
  Lemma cross_neg k (u u' v : vcar F k) : vlen k = 3%nat -> negated (u' : vcar bf k) u -> exists d d', vec_cross u v = Some d /\ vec_cross u' v = Some d' /\ opp_v (d' : vcar bf k) d.
  Proof.
    intros L H. destruct k; try discriminate L; vcases u; vcases v; neg_of u' H; cbn [vec_cross mat3x1_cross mat1x3_cross];
      do 2 eexists; (split; [reflexivity | split; [reflexivity |]]); all2; apply E_alike_opp; e_; change (@Bopp prec emax) with (nneg F); rewrite mul_negl; reflexivity.
  Qed.
  Lemma norm_neg k (u u' : vcar F k) : negated (u' : vcar bf k) u -> exists w w', vec_normalize u = Ok (Some w) /\ vec_normalize u' = Ok (Some w') /\ negated (w' : vcar bf k) w.
  Proof.
    intro H.
    destruct k; vcases u; neg_of u' H;
      cbn [vec_normalize mat2x1_normalize mat1x2_normalize mat3x1_normalize mat1x3_normalize mat4x1_normalize mat1x4_normalize
           mat2x1_magnitude mat1x2_magnitude mat3x1_magnitude mat1x3_magnitude mat4x1_magnitude mat1x4_magnitude unwrap bind];
      change (@Bopp prec emax) with (nneg F); rewrite ?powi2_neg, ?sq_neg;
      do 2 eexists; (split; [reflexivity | split; [reflexivity |]]); unfold negated; cbn [vcomps map list2 list3 list4 v2x1 v1x2 v3x1 v1x3 v4x1 v1x4];
      rewrite !div_negl; reflexivity.
  Qed.

  (** quaternions *)
  Notation qf := (quat F).
  Lemma qmul_negl (p q : qf) : opp_q (quat_mul (quat_negate p) q : quat bf) (quat_mul p q).
  Proof. destruct p as [a b c d], q as [x y z w]. repeat split; apply E_alike_opp; cbn [quat_mul quat_negate qx qy qz qw]; e_; rewrite mul_negl; reflexivity. Qed.
  Lemma qmul_negr (p q : qf) : opp_q (quat_mul p (quat_negate q) : quat bf) (quat_mul p q).
  Proof. destruct p as [a b c d], q as [x y z w]. repeat split; apply E_alike_opp; cbn [quat_mul quat_negate qx qy qz qw]; e_; rewrite mul_negr; reflexivity. Qed.
  Lemma qmul_negs (p q : qf) : quat_mul (quat_negate p) (quat_negate q) = quat_mul p q.
  Proof. destruct p as [a b c d], q as [x y z w]. unfold quat_mul, quat_negate. cbn [qx qy qz qw]. rewrite !mul_negs. reflexivity. Qed.
  Lemma qmul_scalar (p q : qf) : qw (quat_mul p q) = qw (quat_mul q p).
  Proof. destruct p as [a b c d], q as [x y z w]. cbn [quat_mul qw qx qy qz]. repeat (f_equal; try apply mul_comm). Qed.
  Lemma qlen_neg (q : qf) : quat_length_squared (quat_negate q) = quat_length_squared q /\ quat_length (quat_negate q) = quat_length q /\
    quat_length_squared (quat_conjugate q) = quat_length_squared q /\ quat_length (quat_conjugate q) = quat_length q.
  Proof. destruct q as [x y z w]. unfold quat_length_squared, quat_length, quat_negate, quat_conjugate. cbn [qx qy qz qw]. rewrite !sq_neg. repeat split; reflexivity. Qed.
  Lemma qinvol (q : qf) : quat_negate (quat_negate q) = q /\ quat_conjugate (quat_conjugate q) = q /\ quat_negate (quat_conjugate q) = quat_conjugate (quat_negate q).
  Proof. destruct q as [x y z w]. unfold quat_negate, quat_conjugate. cbn [qx qy qz qw]. rewrite !neg_neg. repeat split; reflexivity. Qed.
  Lemma qnorm_neg (q : qf) : quat_normalize (quat_negate q) = bind (quat_normalize q) (fun r => Ok (quat_negate r)) /\
    quat_normalize (quat_conjugate q) = bind (quat_normalize q) (fun r => Ok (quat_conjugate r)).
  Proof.
    destruct (qlen_neg q) as (_ & A & _ & B). unfold quat_normalize. rewrite A, B. destruct (_ || _)%bool; [| split; reflexivity].
    destruct q as [x y z w]. cbn [bind]. unfold quat_negate, quat_conjugate. cbn [qx qy qz qw]. rewrite !div_negl. split; reflexivity.
  Qed.
  Lemma qinv_neg (q : qf) : quat_inverse (quat_negate q) = bind (quat_inverse q) (fun r => Ok (quat_negate r)) /\
    quat_inverse (quat_conjugate q) = bind (quat_inverse q) (fun r => Ok (quat_conjugate r)).
  Proof.
    unfold quat_inverse. destruct (qlen_neg q) as (A & _ & B & _). destruct (qlen_neg (quat_negate q)) as (_ & _ & C & _). destruct (qlen_neg (quat_conjugate q)) as (_ & _ & D & _).
    rewrite C, D, A, B. destruct (assert _); [| split; reflexivity].
    destruct q as [x y z w]. cbn [bind]. unfold quat_scale, quat_negate, quat_conjugate. cbn [qx qy qz qw]. rewrite !mul_negl. split; reflexivity.
  Qed.
  Lemma matrix_neg (q : qf) rm : quat_to_rotation_matrix (quat_negate q) rm = quat_to_rotation_matrix q rm.
  Proof. destruct q as [x y z w], rm; unfold quat_to_rotation_matrix, quat_negate; cbn [qx qy qz qw]; rewrite !mul_negs; reflexivity. Qed.
  Lemma neg_mul_comm (x y : F) : nmul F x y = nmul F y x. Proof. apply mul_comm. Qed.
  Lemma matrix_conj (q : qf) rm : mat4_transpose (quat_to_rotation_matrix q rm) = Ok (quat_to_rotation_matrix (quat_conjugate q) rm).
  Proof.
    destruct q as [x y z w], rm; unfold quat_to_rotation_matrix, quat_conjugate; cbn [qx qy qz qw]; rewrite !mul_negs, !mul_negl, !sub_neg, <- !(nsub_F prec emax lm), ?(mul_comm z y); reflexivity.
  Qed.
  Lemma rotate_neg (q : qf) (v : mat3x1 F) : same_v (k := K3x1) (quat_rotate_vector (quat_negate q) v : mat3x1 bf) (quat_rotate_vector q v).
  Proof.
    destruct q as [x y z w]; vcases v. unfold quat_rotate_vector. cbn [quat_of_vec]. all2; apply E_alike; cbn [quat_mul quat_negate quat_conjugate qx qy qz qw];
    repeat first [apply (E_plus prec emax lm) | apply (E_minus prec emax lm)]; try (apply (E_mult prec emax lm true true)); 
    repeat first [apply (E_plus prec emax lm) | apply (E_minus prec emax lm)]; rewrite ?mul_negl; try reflexivity.
  Qed.
  Lemma rotate_opp (q : qf) (v v' : mat3x1 F) : negated (k := K3x1) (v' : mat3x1 bf) v -> opp_v (k := K3x1) (quat_rotate_vector q v' : mat3x1 bf) (quat_rotate_vector q v).
  Proof.
    intro H. destruct q as [x y z w]; vcases v. neg_of v' H. unfold quat_rotate_vector. cbn [quat_of_vec]. change (@Bopp prec emax) with (nneg F).
    all2; apply E_alike_opp; cbn [quat_mul quat_conjugate qx qy qz qw];
    repeat first [apply (E_plus prec emax lm) | apply (E_minus prec emax lm)]; apply (E_mult prec emax lm true false); try reflexivity;
    repeat first [apply (E_plus prec emax lm) | apply (E_minus prec emax lm)]; rewrite ?mul_negr; try reflexivity;
    apply (E_mult prec emax lm false true); try reflexivity; apply (E_zero prec emax lm).
  Qed.
  Lemma reflect_neg (q : qf) (v : mat3x1 F) : same_v (k := K3x1) (quat_reflection_in_plane (quat_negate q) v : mat3x1 bf) (quat_reflection_in_plane q v).
  Proof.
    destruct q as [x y z w]; vcases v. unfold quat_reflection_in_plane. cbn [quat_of_vec]. all2; apply E_alike; cbn [quat_mul quat_negate qx qy qz qw];
    repeat first [apply (E_plus prec emax lm) | apply (E_minus prec emax lm)]; try (apply (E_mult prec emax lm true true));
    repeat first [apply (E_plus prec emax lm) | apply (E_minus prec emax lm)]; rewrite ?mul_negl; try reflexivity.
  Qed.
  Lemma alike_self (x : bf) : alike x (Bopp x) -> is_nan x = true \/ (is_finite x = true /\ B2R x = 0%R).
  Proof.
    intros [H | (A & _ & B & _)]; [| right; split; assumption].
    destruct x as [[] | [] | | [] m e h]; try discriminate H; left; reflexivity.
  Qed.
  Lemma cross_self k (u : vcar F k) : vlen k = 3%nat -> exists w, vec_cross u u = Some w /\
    Forall (fun x : bf => is_nan x = true \/ (is_finite x = true /\ B2R x = 0%R)) (vcomps (w : vcar bf k)).
  Proof.
    intro H. destruct (cross_swap k u u H) as (d & d' & A & B & C). exists d. split; [exact A |]. rewrite A in B. injection B as <-.
    unfold opp_v in C. induction (vcomps (d : vcar bf k)); constructor; inversion C; subst; [apply alike_self; assumption | apply IHl; assumption].
  Qed.
End Laws.
