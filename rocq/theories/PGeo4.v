(** PGeo4.v — box-point and point-point queries in any ordered arithmetic (C42, C45). *)
From Coq Require Import Reals List ZArith NArith Bool Lra Lia.
Import ListNotations.
From Verif Require Import Base Num Vec Mat Bound Shape Intersect Exact SpecMat SpecGeom SpecBound SpecShape SpecInter
  ExactFacts FloatFacts Order PMat PBound PShape PInter.

Section Any.
  Context {Nm : Num} (O : ordered Nm).
  Notation "# x" := (emb O x) (at level 9, format "# x").
  Local Open Scope num_scope.
  (** [x] is not outside [l, u] *)
  Definition not_out (l u x : Nm) : bool := negb (ngt l x || nlt u x).
  Lemma not_out_iff l u x : nisnan l = false -> nisnan u = false -> nisnan x = false ->
    (not_out l u x = true <-> nle l x = true /\ nle x u = true).
  Proof.
    rewrite !(nisnan_false O). intros Hl Hu Hx. unfold not_out. rewrite negb_true_iff, orb_false_iff, !(nle_iff O). split; intros [H1 H2].
    - split; [apply (ngt_false O); assumption | apply (nlt_false O); assumption].
    - split.
      + destruct (ngt l x) eqn:G; [| reflexivity]. apply (ngt_iff O) in G. apply (xle_nlt _ _ Hl Hx) in H1. contradiction.
      + destruct (nlt u x) eqn:G; [| reflexivity]. apply (nlt_iff O) in G. apply (xle_nlt _ _ Hx Hu) in H2. contradiction.
  Qed.
  Lemma not_out_nan l u x : nisnan x = true -> not_out l u x = true.
  Proof.
    rewrite (nisnan_iff O). intro Hx. unfold not_out. rewrite negb_true_iff, orb_false_iff. split.
    - destruct (ngt l x) eqn:G; [| reflexivity]. apply (ngt_iff O) in G. rewrite Hx in G. destruct (#l); contradiction.
    - destruct (nlt u x) eqn:G; [| reflexivity]. apply (nlt_iff O) in G. rewrite Hx in G. destruct (#u); contradiction.
  Qed.
  Lemma box_point_any (c0 c1 c2 h p0 p1 p2 : Nm) B P : recbox_init [c0; c1; c2] h = Ok B -> point_init [p0; p1; p2] = Ok P ->
    shape_get_intersect (SBox B) (SPoint P) =
    Ok (if not_out (c0 - h) (c0 + h) p0 && not_out (c1 - h) (c1 + h) p1 && not_out (c2 - h) (c2 + h) p2
        then (true, Some (M3x1 (A3 p0 p1 p2))) else (false, None)).
  Proof.
    intros HB HP. injection HB as <-. injection HP as <-. rewrite (intersect_core O). unfold overlap, shape_get_bound.
    rewrite ibb, intersect_eval. cbn [core pt_ori pt_bound bx_bound]. unfold not_out, apart, lo, up, comps3. cbn [b_lower b_upper].
    destruct (negb _ && negb _ && negb _)%bool; reflexivity.
  Qed.
  Lemma box_point_iff_any (c0 c1 c2 h p0 p1 p2 : Nm) B P : recbox_init [c0; c1; c2] h = Ok B -> point_init [p0; p1; p2] = Ok P ->
    (forall c p : Nm, In (c, p) [(c0, p0); (c1, p1); (c2, p2)] -> nisnan (c - h) = false /\ nisnan (c + h) = false /\ nisnan p = false) ->
    let isin := forall c p : Nm, In (c, p) [(c0, p0); (c1, p1); (c2, p2)] -> nle (c - h) p = true /\ nle p (c + h) = true in
    (isin -> shape_get_intersect (SBox B) (SPoint P) = Ok (true, Some (M3x1 (A3 p0 p1 p2)))) /\
    (~ isin -> shape_get_intersect (SBox B) (SPoint P) = Ok (false, None)).
  Proof.
    intros HB HP Hn isin. rewrite (box_point_any _ _ _ _ _ _ _ _ _ HB HP).
    assert (T : (not_out (c0 - h) (c0 + h) p0 && not_out (c1 - h) (c1 + h) p1 && not_out (c2 - h) (c2 + h) p2 = true) <-> isin).
    { assert (F : forall c p : Nm, In (c, p) [(c0, p0); (c1, p1); (c2, p2)] -> (not_out (c - h) (c + h) p = true <-> nle (c - h) p = true /\ nle p (c + h) = true)).
      { intros c p H. destruct (Hn c p H) as [H1 [H2 H3]]. apply not_out_iff; assumption. }
      rewrite !andb_true_iff. unfold isin. split.
      - intros [[H0 H1] H2] c p H. apply F; [exact H |]. destruct H as [E | [E | [E | []]]]; injection E as <- <-; assumption.
      - intro H. repeat split; apply F; try (apply H); cbn [In]; tauto. }
    destruct (_ && _ && _)%bool.
    - split; [reflexivity |]. intro C. exfalso. apply C, T. reflexivity.
    - split; [| reflexivity]. intro C. apply T in C. discriminate C.
  Qed.
  (** two points: bounds overlap only for equal coordinates *)
  Lemma point_point_any (p0 p1 p2 q0 q1 q2 : Nm) P Q e f : point_init [p0; p1; p2] = Ok P -> point_init [q0; q1; q2] = Ok Q ->
    nisnan p0 = false -> nisnan p1 = false -> nisnan p2 = false -> nisnan q0 = false -> nisnan q1 = false -> nisnan q2 = false ->
    (exists l, shape_get_intersect (shape_set_vicinity (SPoint P) e) (shape_set_vicinity (SPoint Q) f) = Ok (true, l)) ->
    neqb p0 q0 = true /\ neqb p1 q1 = true /\ neqb p2 q2 = true.
  Proof.
    intros HP HQ N0 N1 N2 M0 M1 M2 [l H]. injection HP as <-. injection HQ as <-. rewrite (intersect_core O) in H.
    destruct (overlap _ _) eqn:Eo; [| discriminate H]. unfold overlap, shape_set_vicinity, shape_get_bound in Eo.
    rewrite ibb, intersect_eval in Eo. rewrite !andb_true_iff, !negb_true_iff in Eo. destruct Eo as [[A0 A1] A2].
    assert (T : forall (A B : aabb Nm) i (x y : Nm), lo A i = x -> up A i = x -> lo B i = y -> up B i = y -> nisnan x = false -> nisnan y = false -> apart A B i = false -> neqb x y = true).
    { intros A B i x y X1 X2 Y1 Y2 Nx Ny Hap. rewrite (nisnan_false O) in Nx, Ny.
      apply (not_apart O) in Hap; rewrite ?X1, ?X2, ?Y1, ?Y2 in *; try assumption. rewrite !(nle_iff O) in Hap. apply (neqb_iff O).
      destruct Hap as [H1 H2]. split; [apply xle_antisym; assumption | exact Nx]. }
    cbn [pt_bound] in A0, A1, A2. split; [| split].
    - exact (T (AABB (A3 p0 p1 p2) (A3 p0 p1 p2)) (AABB (A3 q0 q1 q2) (A3 q0 q1 q2)) 0%N p0 q0 eq_refl eq_refl eq_refl eq_refl N0 M0 A0).
    - exact (T (AABB (A3 p0 p1 p2) (A3 p0 p1 p2)) (AABB (A3 q0 q1 q2) (A3 q0 q1 q2)) 1%N p1 q1 eq_refl eq_refl eq_refl eq_refl N1 M1 A1).
    - exact (T (AABB (A3 p0 p1 p2) (A3 p0 p1 p2)) (AABB (A3 q0 q1 q2) (A3 q0 q1 q2)) 2%N p2 q2 eq_refl eq_refl eq_refl eq_refl N2 M2 A2).
  Qed.
End Any.
