(** PMat4.v — transpose of a product and multiplication by the identity in IEEE arithmetic (C07), comparison of finite
    matrices with themselves (C11), the asymmetry witness of C12. *)
From Coq Require Import Reals List ZArith NArith Bool Lra Lia.
From Flocq Require Import Core BinarySingleNaN.
Import ListNotations.
From Verif Require Import Base Num Vec Mat Float Exact FloatFacts Order SpecMat PMat PMat2 PEqual PVec.
Local Open Scope R_scope.

Section Generic.
  Context {Nm : Num}.

  (** (AB)^T = B^T A^T, the same scalars, wherever scalar multiplication is commutative *)
  Lemma mul3_transpose (a b : mat3 Nm) : (forall x y : Nm, nmul Nm x y = nmul Nm y x) -> m3_rm a = m3_rm b ->
    exists c ct at' bt, mat3_mul a b = Ok (Some c) /\ mat3_transpose c = Ok ct /\
      mat3_transpose a = Ok at' /\ mat3_transpose b = Ok bt /\ mat3_mul bt at' = Ok (Some ct).
  Proof.
    intros Hc Hrm.
    destruct (mul3_repr a b _ _ Hrm (repr3_log a) (repr3_log b)) as [c [E1 [R1 Q1]]].
    destruct (transpose3_repr c _ Q1) as [ct [E2 [R2 Q2]]].
    destruct (transpose3_repr a _ (repr3_log a)) as [at' [E3 [R3 Q3]]].
    destruct (transpose3_repr b _ (repr3_log b)) as [bt [E4 [R4 Q4]]].
    destruct (mul3_repr bt at' _ _ ltac:(congruence) Q4 Q3) as [d [E5 [R5 Q5]]].
    exists c, ct, at', bt. repeat split; try assumption.
    rewrite E5. do 2 f_equal. apply (repr3_inj d ct (ltrans (lmul3 (log3 a) (log3 b)))); [congruence | | exact Q2].
    eapply repr3_ext; [exact Q5 |]. intros i j Hi Hj. unfold lmul3, ltrans, sum3.
    apply (f_equal2 (nadd Nm)); [apply (f_equal2 (nadd Nm)) |]; apply Hc.
  Qed.
  Lemma mul4_transpose (a b : mat4 Nm) : (forall x y : Nm, nmul Nm x y = nmul Nm y x) -> m4_rm a = m4_rm b ->
    exists c ct at' bt, mat4_mul a b = Ok (Some c) /\ mat4_transpose c = Ok ct /\
      mat4_transpose a = Ok at' /\ mat4_transpose b = Ok bt /\ mat4_mul bt at' = Ok (Some ct).
  Proof.
    intros Hc Hrm.
    destruct (mul4_repr a b _ _ Hrm (repr4_log a) (repr4_log b)) as [c [E1 [R1 Q1]]].
    destruct (transpose4_repr c _ Q1) as [ct [E2 [R2 Q2]]].
    destruct (transpose4_repr a _ (repr4_log a)) as [at' [E3 [R3 Q3]]].
    destruct (transpose4_repr b _ (repr4_log b)) as [bt [E4 [R4 Q4]]].
    destruct (mul4_repr bt at' _ _ ltac:(congruence) Q4 Q3) as [d [E5 [R5 Q5]]].
    exists c, ct, at', bt. repeat split; try assumption.
    rewrite E5. do 2 f_equal. apply (repr4_inj d ct (ltrans (lmul4 (log4 a) (log4 b)))); [congruence | | exact Q2].
    eapply repr4_ext; [exact Q5 |]. intros i j Hi Hj. unfold lmul4, ltrans, sum4.
    apply (f_equal2 (nadd Nm)); [apply (f_equal2 (nadd Nm)); [apply (f_equal2 (nadd Nm)) |] |]; apply Hc.
  Qed.
End Generic.

Section Ieee.
  Context (prec emax : Z) {Hp : Prec_gt_0 prec} {Hm : Prec_lt_emax prec emax} (lm : libm (binary_float prec emax)).
  Notation F := (@Ieee prec emax Hp Hm lm).
  Notation fv := (fv prec emax).

  Lemma z0 : fv (n0 : F) 0. Proof. split; [| ]; unfold n0; change (nlit F 0 1) with (@f_lit prec emax Hp Hm 0 1); rewrite lit_zero; reflexivity. Qed.
  Lemma o1 : fv (n1 : F) 1. Proof. exact (fv_lit_1 prec emax). Qed.

  Lemma m0r (x : F) : is_finite x = true -> fv (nmul F x n0) 0.
  Proof.
    intro H. change (nmul F x n0) with (Bmult mode_NE x (n0 : F)). destruct z0 as [Z1 Z2].
    rewrite <- Z2. apply fv_mult_exact; [exact H | exact Z1 |]. rewrite Z2. ring.
  Qed.
  Lemma m0l (x : F) : is_finite x = true -> fv (nmul F n0 x) 0.
  Proof.
    intro H. change (nmul F n0 x) with (Bmult mode_NE (n0 : F) x). destruct z0 as [Z1 Z2].
    rewrite <- Z2. apply fv_mult_exact; [exact Z1 | exact H |]. rewrite Z2. ring.
  Qed.
  Lemma m1r (x : F) : is_finite x = true -> fv (nmul F x n1) (B2R x).
  Proof.
    intro H. change (nmul F x n1) with (Bmult mode_NE x (n1 : F)). destruct o1 as [Z1 Z2].
    apply fv_mult_exact; [exact H | exact Z1 |]. rewrite Z2. ring.
  Qed.
  Lemma m1l (x : F) : is_finite x = true -> fv (nmul F n1 x) (B2R x).
  Proof.
    intro H. change (nmul F n1 x) with (Bmult mode_NE (n1 : F) x). destruct o1 as [Z1 Z2].
    apply fv_mult_exact; [exact Z1 | exact H |]. rewrite Z2. ring.
  Qed.
  Lemma a0l (u v : F) r : fv u 0 -> fv v r -> fv (nadd F u v) r.
  Proof.
    intros [U1 U2] [V1 V2]. change (nadd F u v) with (Bplus mode_NE u v). rewrite <- V2.
    apply fv_plus_exact; [exact U1 | exact V1 |]. rewrite U2. ring.
  Qed.
  Lemma a0r (u v : F) r : fv u r -> fv v 0 -> fv (nadd F u v) r.
  Proof.
    intros [U1 U2] [V1 V2]. change (nadd F u v) with (Bplus mode_NE u v). rewrite <- U2.
    apply fv_plus_exact; [exact U1 | exact V1 |]. rewrite V2. ring.
  Qed.
  (** equal as numbers: Rust's [==] *)
  Lemma fv_eq (x y : F) : is_finite y = true -> fv x (B2R y) -> is_finite x = true /\ neqb x y = true.
  Proof.
    intros Hy [H1 H2]. split; [exact H1 |]. apply (neqb_iff (ieee_ordered prec emax lm)). cbn [emb ieee_ordered].
    rewrite (b2x_finite prec emax x H1), (b2x_finite prec emax y Hy), H2. split; [reflexivity | discriminate].
  Qed.
  Ltac unit_sum H :=
    first [ apply a0l; [solve [unit_sum H] | solve [unit_sum H]]
          | apply a0r; [solve [unit_sum H] | solve [unit_sum H]]
          | apply m0r; apply H; reflexivity | apply m0l; apply H; reflexivity
          | apply m1r; apply H; reflexivity | apply m1l; apply H; reflexivity ].

  Lemma unit3_ieee (a : mat3 F) f : m3_rm a = true -> repr3 a f ->
    (forall i j, (i < 3)%N -> (j < 3)%N -> is_finite (f i j : F) = true) ->
    exists i l r g h, mat3_iden = Ok i /\ mat3_mul a i = Ok (Some r) /\ mat3_mul i a = Ok (Some l) /\
      m3_rm r = true /\ m3_rm l = true /\ repr3 r g /\ repr3 l h /\
      forall p q, (p < 3)%N -> (q < 3)%N -> neqb (g p q : F) (f p q) = true /\ neqb (h p q : F) (f p q) = true.
  Proof.
    intros Hrm Ha Hf. destruct (@iden3_spec F) as [i [E1 [R1 Q1]]].
    destruct (mul3_repr a i _ _ ltac:(congruence) Ha Q1) as [r [E2 [R2 Q2]]].
    destruct (mul3_repr i a _ _ ltac:(congruence) Q1 Ha) as [l [E3 [R3 Q3]]].
    exists i, l, r, (lmul3 f liden), (lmul3 liden f).
    repeat (split; [first [assumption | congruence] |]).
    intros p q Hpp Hq. split; (apply fv_eq; [apply Hf; assumption |]); unfold lmul3, sum3.
    - cases3 q Hq; cbn [liden N.eqb Pos.eqb]; unit_sum Hf || cases3 p Hpp; unit_sum Hf.
    - cases3 p Hpp; cbn [liden N.eqb Pos.eqb]; cases3 q Hq; unit_sum Hf.
  Qed.
  Lemma unit4_ieee (a : mat4 F) f : m4_rm a = true -> repr4 a f ->
    (forall i j, (i < 4)%N -> (j < 4)%N -> is_finite (f i j : F) = true) ->
    exists i l r g h, mat4_iden = Ok i /\ mat4_mul a i = Ok (Some r) /\ mat4_mul i a = Ok (Some l) /\
      m4_rm r = true /\ m4_rm l = true /\ repr4 r g /\ repr4 l h /\
      forall p q, (p < 4)%N -> (q < 4)%N -> neqb (g p q : F) (f p q) = true /\ neqb (h p q : F) (f p q) = true.
  Proof.
    intros Hrm Ha Hf. destruct (@iden4_spec F) as [i [E1 [R1 Q1]]].
    destruct (mul4_repr a i _ _ ltac:(congruence) Ha Q1) as [r [E2 [R2 Q2]]].
    destruct (mul4_repr i a _ _ ltac:(congruence) Q1 Ha) as [l [E3 [R3 Q3]]].
    exists i, l, r, (lmul4 f liden), (lmul4 liden f).
    repeat (split; [first [assumption | congruence] |]).
    intros p q Hpp Hq. split; (apply fv_eq; [apply Hf; assumption |]); unfold lmul4, sum4.
    - cases4 q Hq; cbn [liden N.eqb Pos.eqb]; cases4 p Hpp; unit_sum Hf.
    - cases4 p Hpp; cbn [liden N.eqb Pos.eqb]; cases4 q Hq; unit_sum Hf.
  Qed.

  (** the same for the product of a matrix transposed *)
  Lemma mul3_transpose_ieee (a b : mat3 F) : m3_rm a = m3_rm b ->
    exists c ct at' bt, mat3_mul a b = Ok (Some c) /\ mat3_transpose c = Ok ct /\
      mat3_transpose a = Ok at' /\ mat3_transpose b = Ok bt /\ mat3_mul bt at' = Ok (Some ct).
  Proof. apply mul3_transpose. apply nmul_comm_F. Qed.
  Lemma mul4_transpose_ieee (a b : mat4 F) : m4_rm a = m4_rm b ->
    exists c ct at' bt, mat4_mul a b = Ok (Some c) /\ mat4_transpose c = Ok ct /\
      mat4_transpose a = Ok at' /\ mat4_transpose b = Ok bt /\ mat4_mul bt at' = Ok (Some ct).
  Proof. apply mul4_transpose. apply nmul_comm_F. Qed.

  (** C11 in IEEE arithmetic *)
  Lemma is_equal3_nan (a b : mat3 F) f g e : repr3 a f -> repr3 b g -> mat3_is_equal a b e = Ok (Some true) ->
    e <> B754_nan /\ forall i j, (i < 3)%N -> (j < 3)%N -> f i j <> B754_nan /\ g i j <> B754_nan.
  Proof.
    intros Ha Hb H. destruct (is_equal3_iff a b f g e Ha Hb) as [r [E1 Hr]]. rewrite E1 in H. injection H as ->.
    destruct (proj1 Hr eq_refl) as [_ Hc]. split.
    - intro He. specialize (Hc 0 0 eq_refl eq_refl)%N. rewrite close_nan in Hc by (left; exact He). discriminate.
    - intros i j Hi Hj. specialize (Hc i j Hi Hj). split; intro Hx; rewrite close_nan in Hc by auto; discriminate.
  Qed.
  Lemma is_equal4_nan (a b : mat4 F) f g e : repr4 a f -> repr4 b g -> mat4_is_equal a b e = Ok (Some true) ->
    e <> B754_nan /\ forall i j, (i < 4)%N -> (j < 4)%N -> f i j <> B754_nan /\ g i j <> B754_nan.
  Proof.
    intros Ha Hb H. destruct (is_equal4_iff a b f g e Ha Hb) as [r [E1 Hr]]. rewrite E1 in H. injection H as ->.
    destruct (proj1 Hr eq_refl) as [_ Hc]. split.
    - intro He. specialize (Hc 0 0 eq_refl eq_refl)%N. rewrite close_nan in Hc by (left; exact He). discriminate.
    - intros i j Hi Hj. specialize (Hc i j Hi Hj). split; intro Hx; rewrite close_nan in Hc by auto; discriminate.
  Qed.
  Lemma is_equal3_refl (a : mat3 F) f e : repr3 a f -> nle (n0 : F) e = true ->
    (forall i j, (i < 3)%N -> (j < 3)%N -> is_finite (f i j : F) = true) -> mat3_is_equal a a e = Ok (Some true).
  Proof.
    intros Ha He Hf. destruct (is_equal3_iff a a f f e Ha Ha) as [r [E1 Hr]]. rewrite E1. do 2 f_equal.
    apply Hr. split; [reflexivity |]. intros i j Hi Hj. apply close_refl; auto.
  Qed.
  Lemma is_equal4_refl (a : mat4 F) f e : repr4 a f -> nle (n0 : F) e = true ->
    (forall i j, (i < 4)%N -> (j < 4)%N -> is_finite (f i j : F) = true) -> mat4_is_equal a a e = Ok (Some true).
  Proof.
    intros Ha He Hf. destruct (is_equal4_iff a a f f e Ha Ha) as [r [E1 Hr]]. rewrite E1. do 2 f_equal.
    apply Hr. split; [reflexivity |]. intros i j Hi Hj. apply close_refl; auto.
  Qed.
End Ieee.

(** vectors: one evaluation for the six types *)
Lemma vec_is_equal_eval {Nm : Num} k (u v : vcar Nm k) e : vec_is_equal u v e = Some (close_all e (vcomps u) (vcomps v)).
Proof.
  destruct k; [apply is_equal_2x1_eval | apply is_equal_1x2_eval | apply is_equal_3x1_eval | apply is_equal_1x3_eval
              | apply is_equal_4x1_eval | apply is_equal_1x4_eval].
Qed.
Lemma vec_is_equal_exact eps zs k (u v : vcar (Exact eps zs) k) l r e : isv eps zs u l -> isv eps zs v r ->
  exists b, vec_is_equal u v (Fin e : Exact eps zs) = Some b /\ (b = true <-> Forall2 (fun x y => Rabs (x - y) <= e) l r).
Proof.
  intros Hu Hv. eexists; split; [apply vec_is_equal_eval |]. unfold isv in *. rewrite Hu, Hv. apply close_all_fin.
  pose proof (vcomps_len k u) as L1. pose proof (vcomps_len k v) as L2. rewrite Hu, map_length in L1.
  rewrite Hv, map_length in L2. congruence.
Qed.
Lemma vec_is_equal_sym eps zs k (u v : vcar (Exact eps zs) k) e :
  vec_is_equal u v (Fin e : Exact eps zs) = vec_is_equal v u (Fin e : Exact eps zs).
Proof. rewrite !vec_is_equal_eval. f_equal. apply close_all_sym_exact. Qed.
Lemma vec_is_equal_nan prec emax {Hp : Prec_gt_0 prec} {Hm : Prec_lt_emax prec emax} lm k
  (u v : vcar (@Ieee prec emax Hp Hm lm) k) e : vec_is_equal u v e = Some true ->
  e <> B754_nan /\ Forall2 (fun x y : binary_float prec emax => x <> B754_nan /\ y <> B754_nan) (vcomps u) (vcomps v).
Proof.
  rewrite vec_is_equal_eval. intro H. injection H as H.
  assert (L : length (vcomps u) = length (vcomps v)) by (rewrite !vcomps_len; reflexivity).
  pose proof (close_all_nan prec emax lm e _ _ L H) as A. split.
  - assert (L1 := vcomps_len k u). revert L1 A. generalize (vcomps u), (vcomps v). intros l r L1 A.
    destruct A as [| x y l r [A1 _] _]; [| exact A1]. destruct k; discriminate.
  - clear - A. induction A as [| x y l r [_ A1] _ IH]; constructor; assumption.
Qed.
Lemma vec_is_equal_refl prec emax {Hp : Prec_gt_0 prec} {Hm : Prec_lt_emax prec emax} lm k
  (u : vcar (@Ieee prec emax Hp Hm lm) k) e : nle (n0 : @Ieee prec emax Hp Hm lm) e = true ->
  Forall (fun x : binary_float prec emax => is_finite x = true) (vcomps u) -> vec_is_equal u u e = Some true.
Proof. intros He Hf. rewrite vec_is_equal_eval. f_equal. apply close_all_refl; assumption. Qed.
