(** PMat3.v — exact matrix algebra, inverses and tolerance comparison. *)
From Coq Require Import Reals List ZArith NArith Bool Lra.
Import ListNotations.
From Verif Require Import Base Num Vec Mat Exact SpecMat SpecReal SpecGeom ExactFacts PMat PMat2.
Local Open Scope R_scope.

Section PMat3.
  Context (eps : R) (zs : XR -> bool).
  Notation E := (Exact eps zs).

  (** ---- C07 ---- *)
  Lemma lmul3_fin f g : forall i j, @lmul3 E (fin f) (fin g) i j = fin (rmul3 f g) i j.
  Proof. reflexivity. Qed.
  Lemma lmul4_fin f g : forall i j, @lmul4 E (fin f) (fin g) i j = fin (rmul4 f g) i j.
  Proof. reflexivity. Qed.
  Lemma liden_fin : forall i j, @liden E i j = fin riden i j.
  Proof. intros. unfold liden, fin, riden. destruct (i =? j)%N; reflexivity. Qed.

  Lemma mul3_fin (a b : mat3 E) f g : m3_rm a = m3_rm b -> repr3 a (fin f : lmat E) -> repr3 b (fin g : lmat E) ->
    exists c, mat3_mul a b = Ok (Some c) /\ m3_rm c = m3_rm a /\ repr3 c (fin (rmul3 f g) : lmat E).
  Proof. intros H Ha Hb. exact (mul3_repr a b _ _ H Ha Hb). Qed.
  Lemma mul4_fin (a b : mat4 E) f g : m4_rm a = m4_rm b -> repr4 a (fin f : lmat E) -> repr4 b (fin g : lmat E) ->
    exists c, mat4_mul a b = Ok (Some c) /\ m4_rm c = m4_rm a /\ repr4 c (fin (rmul4 f g) : lmat E).
  Proof. intros H Ha Hb. exact (mul4_repr a b _ _ H Ha Hb). Qed.

  Lemma mul3_assoc (a b c : mat3 E) f g h :
    m3_rm a = m3_rm b -> m3_rm b = m3_rm c ->
    repr3 a (fin f : lmat E) -> repr3 b (fin g : lmat E) -> repr3 c (fin h : lmat E) ->
    exists ab bc r, mat3_mul a b = Ok (Some ab) /\ mat3_mul b c = Ok (Some bc) /\
      mat3_mul ab c = Ok (Some r) /\ mat3_mul a bc = Ok (Some r).
  Proof.
    intros H1 H2 Ha Hb Hc.
    destruct (mul3_fin a b f g H1 Ha Hb) as [ab [E1 [R1 Q1]]].
    destruct (mul3_fin b c g h H2 Hb Hc) as [bc [E2 [R2 Q2]]].
    destruct (mul3_fin ab c _ h (eq_trans R1 (eq_trans H1 H2)) Q1 Hc) as [r [E3 [R3 Q3]]].
    destruct (mul3_fin a bc f _ (eq_trans H1 (eq_sym R2)) Ha Q2) as [s [E4 [R4 Q4]]].
    assert (r = s) as ->.
    { apply (repr3_inj r s (fin (rmul3 (rmul3 f g) h) : lmat E)); [congruence | exact Q3 |].
      eapply repr3_ext; [exact Q4 |]. intros i j _ _. unfold fin, rmul3, rsum3. f_equal. ring. }
    exists ab, bc, s. repeat split; assumption.
  Qed.
  Lemma mul4_assoc (a b c : mat4 E) f g h :
    m4_rm a = m4_rm b -> m4_rm b = m4_rm c ->
    repr4 a (fin f : lmat E) -> repr4 b (fin g : lmat E) -> repr4 c (fin h : lmat E) ->
    exists ab bc r, mat4_mul a b = Ok (Some ab) /\ mat4_mul b c = Ok (Some bc) /\
      mat4_mul ab c = Ok (Some r) /\ mat4_mul a bc = Ok (Some r).
  Proof.
    intros H1 H2 Ha Hb Hc.
    destruct (mul4_fin a b f g H1 Ha Hb) as [ab [E1 [R1 Q1]]].
    destruct (mul4_fin b c g h H2 Hb Hc) as [bc [E2 [R2 Q2]]].
    destruct (mul4_fin ab c _ h (eq_trans R1 (eq_trans H1 H2)) Q1 Hc) as [r [E3 [R3 Q3]]].
    destruct (mul4_fin a bc f _ (eq_trans H1 (eq_sym R2)) Ha Q2) as [s [E4 [R4 Q4]]].
    assert (r = s) as ->.
    { apply (repr4_inj r s (fin (rmul4 (rmul4 f g) h) : lmat E)); [congruence | exact Q3 |].
      eapply repr4_ext; [exact Q4 |]. intros i j _ _. unfold fin, rmul4, rsum4. f_equal. ring. }
    exists ab, bc, s. repeat split; assumption.
  Qed.

  Lemma plus3_fin (a b : mat3 E) f g : m3_rm a = m3_rm b -> repr3 a (fin f : lmat E) -> repr3 b (fin g : lmat E) ->
    exists c, mat3_plus a b = Some c /\ m3_rm c = m3_rm a /\ repr3 c (fin (rplus f g) : lmat E).
  Proof.
    intros H Ha Hb. destruct (plus3_elem a b _ _ Ha Hb) as [c [E1 [R1 Q1]]]. exists c. repeat split; try assumption.
    rewrite H, Bool.eqb_reflx in Q1. exact Q1.
  Qed.
  Lemma plus4_fin (a b : mat4 E) f g : m4_rm a = m4_rm b -> repr4 a (fin f : lmat E) -> repr4 b (fin g : lmat E) ->
    exists c, mat4_plus a b = Some c /\ m4_rm c = m4_rm a /\ repr4 c (fin (rplus f g) : lmat E).
  Proof.
    intros H Ha Hb. destruct (plus4_elem a b _ _ Ha Hb) as [c [E1 [R1 Q1]]]. exists c. repeat split; try assumption.
    rewrite H, Bool.eqb_reflx in Q1. exact Q1.
  Qed.

  Lemma mul3_distr (a b c : mat3 E) f g h :
    m3_rm a = m3_rm b -> m3_rm b = m3_rm c ->
    repr3 a (fin f : lmat E) -> repr3 b (fin g : lmat E) -> repr3 c (fin h : lmat E) ->
    (exists bc ab ac r, mat3_plus b c = Some bc /\ mat3_mul a b = Ok (Some ab) /\ mat3_mul a c = Ok (Some ac) /\
      mat3_mul a bc = Ok (Some r) /\ mat3_plus ab ac = Some r) /\
    (exists ab ac bc r, mat3_plus a b = Some ab /\ mat3_mul a c = Ok (Some ac) /\ mat3_mul b c = Ok (Some bc) /\
      mat3_mul ab c = Ok (Some r) /\ mat3_plus ac bc = Some r).
  Proof.
    intros H1 H2 Ha Hb Hc. split.
    - destruct (plus3_fin b c g h H2 Hb Hc) as [bc [E1 [R1 Q1]]].
      destruct (mul3_fin a b f g H1 Ha Hb) as [ab [E2 [R2 Q2]]].
      destruct (mul3_fin a c f h (eq_trans H1 H2) Ha Hc) as [ac [E3 [R3 Q3]]].
      destruct (mul3_fin a bc f _ (eq_trans H1 (eq_sym R1)) Ha Q1) as [r [E4 [R4 Q4]]].
      destruct (plus3_fin ab ac _ _ (eq_trans R2 (eq_sym R3)) Q2 Q3) as [s [E5 [R5 Q5]]].
      exists bc, ab, ac, r. repeat split; try assumption. rewrite E5. f_equal.
      eapply repr3_inj; [congruence | exact Q5 |]. eapply repr3_ext; [exact Q4 |].
      intros i j _ _. unfold fin, rmul3, rplus, rsum3. f_equal. ring.
    - destruct (plus3_fin a b f g H1 Ha Hb) as [ab [E1 [R1 Q1]]].
      destruct (mul3_fin a c f h (eq_trans H1 H2) Ha Hc) as [ac [E2 [R2 Q2]]].
      destruct (mul3_fin b c g h H2 Hb Hc) as [bc [E3 [R3 Q3]]].
      destruct (mul3_fin ab c _ h (eq_trans R1 (eq_trans H1 H2)) Q1 Hc) as [r [E4 [R4 Q4]]].
      destruct (plus3_fin ac bc _ _ ltac:(congruence) Q2 Q3) as [s [E5 [R5 Q5]]].
      exists ab, ac, bc, r. repeat split; try assumption. rewrite E5. f_equal.
      eapply repr3_inj; [congruence | exact Q5 |]. eapply repr3_ext; [exact Q4 |].
      intros i j _ _. unfold fin, rmul3, rplus, rsum3. f_equal. ring.
  Qed.
  Lemma mul4_distr (a b c : mat4 E) f g h :
    m4_rm a = m4_rm b -> m4_rm b = m4_rm c ->
    repr4 a (fin f : lmat E) -> repr4 b (fin g : lmat E) -> repr4 c (fin h : lmat E) ->
    (exists bc ab ac r, mat4_plus b c = Some bc /\ mat4_mul a b = Ok (Some ab) /\ mat4_mul a c = Ok (Some ac) /\
      mat4_mul a bc = Ok (Some r) /\ mat4_plus ab ac = Some r) /\
    (exists ab ac bc r, mat4_plus a b = Some ab /\ mat4_mul a c = Ok (Some ac) /\ mat4_mul b c = Ok (Some bc) /\
      mat4_mul ab c = Ok (Some r) /\ mat4_plus ac bc = Some r).
  Proof.
    intros H1 H2 Ha Hb Hc. split.
    - destruct (plus4_fin b c g h H2 Hb Hc) as [bc [E1 [R1 Q1]]].
      destruct (mul4_fin a b f g H1 Ha Hb) as [ab [E2 [R2 Q2]]].
      destruct (mul4_fin a c f h (eq_trans H1 H2) Ha Hc) as [ac [E3 [R3 Q3]]].
      destruct (mul4_fin a bc f _ (eq_trans H1 (eq_sym R1)) Ha Q1) as [r [E4 [R4 Q4]]].
      destruct (plus4_fin ab ac _ _ (eq_trans R2 (eq_sym R3)) Q2 Q3) as [s [E5 [R5 Q5]]].
      exists bc, ab, ac, r. repeat split; try assumption. rewrite E5. f_equal.
      eapply repr4_inj; [congruence | exact Q5 |]. eapply repr4_ext; [exact Q4 |].
      intros i j _ _. unfold fin, rmul4, rplus, rsum4. f_equal. ring.
    - destruct (plus4_fin a b f g H1 Ha Hb) as [ab [E1 [R1 Q1]]].
      destruct (mul4_fin a c f h (eq_trans H1 H2) Ha Hc) as [ac [E2 [R2 Q2]]].
      destruct (mul4_fin b c g h H2 Hb Hc) as [bc [E3 [R3 Q3]]].
      destruct (mul4_fin ab c _ h (eq_trans R1 (eq_trans H1 H2)) Q1 Hc) as [r [E4 [R4 Q4]]].
      destruct (plus4_fin ac bc _ _ ltac:(congruence) Q2 Q3) as [s [E5 [R5 Q5]]].
      exists ab, ac, bc, r. repeat split; try assumption. rewrite E5. f_equal.
      eapply repr4_inj; [congruence | exact Q5 |]. eapply repr4_ext; [exact Q4 |].
      intros i j _ _. unfold fin, rmul4, rplus, rsum4. f_equal. ring.
  Qed.

  Lemma mul3_unit (a : mat3 E) f : m3_rm a = true -> repr3 a (fin f : lmat E) ->
    exists i, mat3_iden = Ok i /\ mat3_mul a i = Ok (Some a) /\ mat3_mul i a = Ok (Some a).
  Proof.
    intros H Ha. destruct (@iden3_spec E) as [i [E1 [R1 Q1]]].
    assert (Q1' : repr3 i (fin riden : lmat E)) by (eapply repr3_ext; [exact Q1 | intros p q _ _; apply liden_fin]).
    destruct (mul3_fin a i f riden ltac:(congruence) Ha Q1') as [r [E2 [R2 Q2]]].
    destruct (mul3_fin i a riden f ltac:(congruence) Q1' Ha) as [s [E3 [R3 Q3]]].
    exists i. split; [assumption |]. rewrite E2, E3. split; do 2 f_equal.
    - eapply repr3_inj; [congruence | | exact Ha]. eapply repr3_ext; [exact Q2 |].
      intros p q Hp Hq. unfold fin, rmul3, riden, rsum3. f_equal. cases3 q Hq; simpl; ring.
    - eapply repr3_inj; [congruence | | exact Ha]. eapply repr3_ext; [exact Q3 |].
      intros p q Hp Hq. unfold fin, rmul3, riden, rsum3. f_equal. cases3 p Hp; simpl; ring.
  Qed.
  Lemma mul4_unit (a : mat4 E) f : m4_rm a = true -> repr4 a (fin f : lmat E) ->
    exists i, mat4_iden = Ok i /\ mat4_mul a i = Ok (Some a) /\ mat4_mul i a = Ok (Some a).
  Proof.
    intros H Ha. destruct (@iden4_spec E) as [i [E1 [R1 Q1]]].
    assert (Q1' : repr4 i (fin riden : lmat E)) by (eapply repr4_ext; [exact Q1 | intros p q _ _; apply liden_fin]).
    destruct (mul4_fin a i f riden ltac:(congruence) Ha Q1') as [r [E2 [R2 Q2]]].
    destruct (mul4_fin i a riden f ltac:(congruence) Q1' Ha) as [s [E3 [R3 Q3]]].
    exists i. split; [assumption |]. rewrite E2, E3. split; do 2 f_equal.
    - eapply repr4_inj; [congruence | | exact Ha]. eapply repr4_ext; [exact Q2 |].
      intros p q Hp Hq. unfold fin, rmul4, riden, rsum4. f_equal. cases4 q Hq; simpl; ring.
    - eapply repr4_inj; [congruence | | exact Ha]. eapply repr4_ext; [exact Q3 |].
      intros p q Hp Hq. unfold fin, rmul4, riden, rsum4. f_equal. cases4 p Hp; simpl; ring.
  Qed.

  (** ---- C08 ---- *)
  Lemma radj4_inverse f : rdet4 f <> 0 -> rinverse4 f (fun i j => radj4 f i j * / rdet4 f).
  Proof.
    intro H. split; intros i j Hi Hj; unfold rmul4, rsum4, riden; rewrite <- ?Rmult_assoc;
      [ replace (f i 0%N * radj4 f 0%N j * / rdet4 f + f i 1%N * radj4 f 1%N j * / rdet4 f +
                 f i 2%N * radj4 f 2%N j * / rdet4 f + f i 3%N * radj4 f 3%N j * / rdet4 f)
          with ((f i 0%N * radj4 f 0%N j + f i 1%N * radj4 f 1%N j + f i 2%N * radj4 f 2%N j + f i 3%N * radj4 f 3%N j) * / rdet4 f) by ring
      | replace (radj4 f i 0%N * / rdet4 f * f 0%N j + radj4 f i 1%N * / rdet4 f * f 1%N j +
                 radj4 f i 2%N * / rdet4 f * f 2%N j + radj4 f i 3%N * / rdet4 f * f 3%N j)
          with ((radj4 f i 0%N * f 0%N j + radj4 f i 1%N * f 1%N j + radj4 f i 2%N * f 2%N j + radj4 f i 3%N * f 3%N j) * / rdet4 f) by ring ];
      cases4 i Hi; cases4 j Hj;
      (match goal with |- ?s * / ?d = _ =>
        let x := eval cbn in (N.eqb 0 0) in
        first [ replace s with 0 by (unfold radj4, rdet3, rdet2, minor, minor2, skip, sgn; simpl; ring); simpl; ring
              | replace s with d by (unfold rdet4, radj4, rdet3, rdet2, minor, minor2, skip, sgn; simpl; ring); simpl; field; exact H ] end).
  Qed.
  Lemma radj3_inverse f : rdet3 f <> 0 -> rinverse3 f (fun i j => radj3 f i j * / rdet3 f).
  Proof.
    intro H. split; intros i j Hi Hj; unfold rmul3, rsum3, riden; rewrite <- ?Rmult_assoc;
      [ replace (f i 0%N * radj3 f 0%N j * / rdet3 f + f i 1%N * radj3 f 1%N j * / rdet3 f +
                 f i 2%N * radj3 f 2%N j * / rdet3 f)
          with ((f i 0%N * radj3 f 0%N j + f i 1%N * radj3 f 1%N j + f i 2%N * radj3 f 2%N j) * / rdet3 f) by ring
      | replace (radj3 f i 0%N * / rdet3 f * f 0%N j + radj3 f i 1%N * / rdet3 f * f 1%N j +
                 radj3 f i 2%N * / rdet3 f * f 2%N j)
          with ((radj3 f i 0%N * f 0%N j + radj3 f i 1%N * f 1%N j + radj3 f i 2%N * f 2%N j) * / rdet3 f) by ring ];
      cases3 i Hi; cases3 j Hj;
      (match goal with |- ?s * / ?d = _ =>
        first [ replace s with 0 by (unfold radj3, rdet2, minor, minor2, skip, sgn; simpl; ring); simpl; ring
              | replace s with d by (unfold rdet3, radj3, rdet2, minor, minor2, skip, sgn; simpl; ring); simpl; field; exact H ] end).
  Qed.

  Lemma fin4_form (m : mat4 E) f : repr4 m (fin f : lmat E) ->
    m = mat4_init (A16 (fin f 0%N 0%N) (fin f 0%N 1%N) (fin f 0%N 2%N) (fin f 0%N 3%N)
                       (fin f 1%N 0%N) (fin f 1%N 1%N) (fin f 1%N 2%N) (fin f 1%N 3%N)
                       (fin f 2%N 0%N) (fin f 2%N 1%N) (fin f 2%N 2%N) (fin f 2%N 3%N)
                       (fin f 3%N 0%N) (fin f 3%N 1%N) (fin f 3%N 2%N) (fin f 3%N 3%N) : arr16 E) (m4_rm m).
  Proof.
    intro H. eapply repr4_inj; [symmetry; apply init4_rm | exact H |]. eapply repr4_ext; [apply init4_repr |].
    intros i j Hi Hj. cases4 i Hi; cases4 j Hj; reflexivity.
  Qed.
  Lemma fin3_form (m : mat3 E) f : repr3 m (fin f : lmat E) ->
    m = mat3_init (A9 (fin f 0%N 0%N) (fin f 0%N 1%N) (fin f 0%N 2%N)
                      (fin f 1%N 0%N) (fin f 1%N 1%N) (fin f 1%N 2%N)
                      (fin f 2%N 0%N) (fin f 2%N 1%N) (fin f 2%N 2%N) : arr9 E) (m3_rm m).
  Proof.
    intro H. eapply repr3_inj; [symmetry; apply init3_rm | exact H |]. eapply repr3_ext; [apply init3_repr |].
    intros i j Hi Hj. cases3 i Hi; cases3 j Hj; reflexivity.
  Qed.

End PMat3.
