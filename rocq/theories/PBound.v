(** PBound.v — bounding boxes (C33-C38). *)
From Coq Require Import Reals List ZArith NArith Bool Lra Lia Psatz Permutation.
From Flocq Require Import Core BinarySingleNaN.
Import ListNotations.
From Verif Require Import Base Num Vec Mat Bound Shape Float Exact SpecMat SpecGeom SpecBound ExactFacts FloatFacts FloatRound Order PMat.
Local Open Scope R_scope.

Section AnyBound.
  Context {Nm : Num}.
  Definition apart (a b : aabb Nm) (i : N) : bool := (ngt (lo a i) (up b i) || nlt (up a i) (lo b i))%bool.
  Lemma intersect_eval (a b : aabb Nm) :
    aabb_intersect a (BBox b) = Ok (negb (apart a b 0) && negb (apart a b 1) && negb (apart a b 2))%bool.
  Proof.
    destruct a as [[a0 a1 a2] [c0 c1 c2]], b as [[b0 b1 b2] [d0 d1 d2]]. unfold apart, lo, up, comps3. cbn.
    destruct (ngt a0 d0 || nlt c0 b0)%bool; cbn; [reflexivity |].
    destruct (ngt a1 d1 || nlt c1 b1)%bool; cbn; [reflexivity |].
    destruct (ngt a2 d2 || nlt c2 b2)%bool; reflexivity.
  Qed.
  Lemma longest_z (b : aabb Nm) : aabb_get_longest_axis b = Ok (AxZ, nsub Nm (up b 2) (lo b 2)).
  Proof.
    destruct b as [[a0 a1 a2] [c0 c1 c2]]. unfold up, lo. cbn.
    destruct (nlt (nsub Nm c0 a0) (nsub Nm c1 a1)); cbn;
    match goal with |- context [nlt ?x ?y] => destruct (nlt x y) end; reflexivity.
  Qed.
  Lemma centroid_eval (b : aabb Nm) : exists c, aabb_get_centroid b = Ok c /\
    forall i, (i < 3)%N -> comps3 c i = ndiv Nm (nadd Nm (lo b i) (up b i)) n2.
  Proof.
    destruct b as [[a0 a1 a2] [c0 c1 c2]]. eexists. split; [reflexivity |]. intros i Hi. cases3 i Hi; reflexivity.
  Qed.
  (** union, one step and the whole fold *)
  Definition join (s b : aabb Nm) : aabb Nm :=
    match b_lower s, b_upper s, b_lower b, b_upper b with A3 a0 a1 a2, A3 c0 c1 c2, A3 b0 b1 b2, A3 d0 d1 d2 =>
      AABB (A3 (nmin a0 b0) (nmin a1 b1) (nmin a2 b2)) (A3 (nmax c0 d0) (nmax c1 d1) (nmax c2 d2)) end.
  Definition empty_box : aabb Nm := AABB (A3 (ninf Nm) (ninf Nm) (ninf Nm)) (A3 (nninf Nm) (nninf Nm) (nninf Nm)).
  Definition joins (l : list (aabb Nm)) : aabb Nm := fold_left join l empty_box.
  Lemma union_eval_from (l : list (aabb Nm)) s :
    for_each (map BBox l) (fun i self =>
      match ibound_get_type i with
      | BTAxisAlignBox =>
          let! b := ibound_get_bound_data i in
          let! b_lo := slice b 0 3 in
          let! b_up := slice b 3 6 in
          for_range 3 (fun j self =>
            let! sl := get3 (b_lower self) j in let! bl := idx b_lo j in
            let! lo := set3 (b_lower self) j (nmin sl bl) in
            let! su := get3 (b_upper self) j in let! bu := idx b_up j in
            let! up := set3 (b_upper self) j (nmax su bu) in
            Ok (AABB lo up)) self
      | BTSphere => Panic PUnimplemented
      end) s = Ok (fold_left join l s).
  Proof.
    revert s. induction l as [| b l IH]; intro s; [reflexivity |].
    change (map BBox (b :: l)) with (BBox b :: map BBox l). cbn [for_each fold_left].
    match goal with |- bind ?x _ = _ => replace x with (Ok (join s b)) end; [apply IH |].
    destruct s as [[] []], b as [[] []]. reflexivity.
  Qed.
  Lemma union_eval s (l : list (aabb Nm)) : aabb_get_union s (map BBox l) = Ok (joins l).
  Proof. unfold aabb_get_union. cbv zeta. apply union_eval_from. Qed.
  Lemma union_sphere s (l1 : list (aabb Nm)) l2 :
    aabb_get_union s (map BBox l1 ++ BSphere :: l2) = Panic PUnimplemented.
  Proof.
    unfold aabb_get_union. cbv zeta. generalize (AABB (A3 (ninf Nm) (ninf Nm) (ninf Nm)) (A3 (nninf Nm) (nninf Nm) (nninf Nm))).
    induction l1 as [| b l IH]; intro a; [reflexivity |].
    change (map BBox (b :: l) ++ BSphere :: l2) with (BBox b :: (map BBox l ++ BSphere :: l2)). cbn [for_each].
    match goal with |- bind ?x _ = _ => replace x with (Ok (join a b)) end; [apply IH |].
    destruct a as [[] []], b as [[] []]. reflexivity.
  Qed.
  Lemma union_receiver s s' (l : list (ibound Nm)) : aabb_get_union s l = aabb_get_union s' l.
  Proof. reflexivity. Qed.
  Lemma lo_join s b i : (i < 3)%N -> lo (join s b) i = nmin (lo s i) (lo b i).
  Proof. intro Hi. destruct s as [[] []], b as [[] []]. cases3 i Hi; reflexivity. Qed.
  Lemma up_join s b i : (i < 3)%N -> up (join s b) i = nmax (up s i) (up b i).
  Proof. intro Hi. destruct s as [[] []], b as [[] []]. cases3 i Hi; reflexivity. Qed.
End AnyBound.

Section OrdBound.
  Context {Nm : Num} (O : ordered Nm).
  Notation "# a" := (emb O a) (at level 9).

  Lemma ngt_nlt (a b : Nm) : ngt a b = nlt b a.
  Proof.
    destruct (ngt a b) eqn:G, (nlt b a) eqn:L; try reflexivity.
    - apply (ngt_iff O) in G. apply (nlt_iff O) in G. congruence.
    - apply (nlt_iff O) in L. apply (ngt_iff O) in L. congruence.
  Qed.
  Lemma nge_nle (a b : Nm) : nge a b = nle b a.
  Proof.
    destruct (nge a b) eqn:G, (nle b a) eqn:L; try reflexivity.
    - apply (nge_iff O) in G. apply (nle_iff O) in G. congruence.
    - apply (nle_iff O) in L. apply (nge_iff O) in L. congruence.
  Qed.
  Lemma apart_sym (a b : aabb Nm) i : apart a b i = apart b a i.
  Proof. unfold apart. rewrite !ngt_nlt. apply orb_comm. Qed.
  Lemma intersect_sym (a b : aabb Nm) : aabb_intersect a (BBox b) = aabb_intersect b (BBox a) /\
    exists r, aabb_intersect a (BBox b) = Ok r.
  Proof. rewrite !intersect_eval, !(apart_sym a b). split; [reflexivity | eexists; reflexivity]. Qed.

  Lemma nle_refl' (a : Nm) : #a <> NaN -> nle a a = true.
  Proof. intro Ha. apply (nle_iff O), xle_refl, Ha. Qed.
  Lemma nle_trans (a b c : Nm) : nle a b = true -> nle b c = true -> nle a c = true.
  Proof. rewrite !(nle_iff O). apply xle_trans. Qed.
  Lemma xle_nonan a b : xle a b -> a <> NaN /\ b <> NaN.
  Proof. destruct a, b; simpl; try tauto; intros; split; discriminate. Qed.
  Lemma not_apart (a b : aabb Nm) i : #(lo a i) <> NaN -> #(up a i) <> NaN -> #(lo b i) <> NaN -> #(up b i) <> NaN ->
    (apart a b i = false <-> nle (lo a i) (up b i) = true /\ nle (lo b i) (up a i) = true).
  Proof.
    intros A1 A2 B1 B2. unfold apart. rewrite orb_false_iff. split; intros [H1 H2].
    - split; apply (nle_iff O); [apply (ngt_false O) | apply (nlt_false O)]; assumption.
    - rewrite (nle_iff O) in H1, H2. split.
      + destruct (ngt (lo a i) (up b i)) eqn:G; [| reflexivity]. apply (ngt_iff O) in G.
        apply (xle_nlt _ _ A1 B2) in H1. contradiction.
      + destruct (nlt (up a i) (lo b i)) eqn:G; [| reflexivity]. apply (nlt_iff O) in G.
        apply (xle_nlt _ _ B1 A2) in H2. contradiction.
  Qed.
  Lemma proper_nonan (b : aabb Nm) i : proper b -> (i < 3)%N -> #(lo b i) <> NaN /\ #(up b i) <> NaN.
  Proof. intros Hb Hi. specialize (Hb i Hi). apply (nle_iff O) in Hb. apply xle_nonan, Hb. Qed.
  Lemma intersect_meets (a b : aabb Nm) : proper a -> proper b ->
    (aabb_intersect a (BBox b) = Ok true <-> exists p, inb a p /\ inb b p).
  Proof.
    intros Ha Hb. rewrite intersect_eval.
    assert (Hax : forall i, (i < 3)%N -> (apart a b i = false <-> exists p, (nle (lo a i) p = true /\ nle p (up a i) = true) /\
                                                        (nle (lo b i) p = true /\ nle p (up b i) = true))).
    { intros i Hi. destruct (proper_nonan a i Ha Hi) as [A1 A2]. destruct (proper_nonan b i Hb Hi) as [B1 B2].
      rewrite not_apart by assumption. split.
      - intros [H1 H2]. destruct (xle_total #(lo a i) #(lo b i) A1 B1) as [Hc | Hc]; apply (nle_iff O) in Hc.
        + exists (lo b i). repeat split; auto using nle_refl'.
        + exists (lo a i). repeat split; auto using nle_refl'.
      - intros [p [[H1 H2] [H3 H4]]]. split; eapply nle_trans; eassumption. }
    split.
    - intro Hh. injection Hh as Hh. apply andb_true_iff in Hh. destruct Hh as [Hh H2]. apply andb_true_iff in Hh. destruct Hh as [H0 H1].
      apply negb_true_iff in H0, H1, H2.
      apply Hax in H0; [| reflexivity]. apply Hax in H1; [| reflexivity]. apply Hax in H2; [| reflexivity].
      destruct H0 as [p0 [P0 Q0]], H1 as [p1 [P1 Q1]], H2 as [p2 [P2 Q2]].
      exists (A3 p0 p1 p2). split; intros i Hi; cases3 i Hi; assumption.
    - intros [p [Pa Pb]]. assert (F : forall i, (i < 3)%N -> apart a b i = false).
      { intros i Hi. apply Hax; [exact Hi |]. exists (comps3 p i). split; [apply Pa | apply Pb]; exact Hi. }
      rewrite !F by reflexivity. reflexivity.
  Qed.

  (** min and max without NaN *)
  Lemma nisnan_false (a : Nm) : nisnan a = false <-> #a <> NaN.
  Proof.
    split.
    - intros H C. apply (nisnan_iff O) in C. congruence.
    - intro H. destruct (nisnan a) eqn:E; [| reflexivity]. apply (nisnan_iff O) in E. contradiction.
  Qed.
  Lemma nmin_spec (a b : Nm) : nisnan a = false -> nisnan b = false ->
    nisnan (nmin a b) = false /\ nle (nmin a b) a = true /\ nle (nmin a b) b = true /\ (nmin a b = a \/ nmin a b = b).
  Proof.
    intros Ha Hb. unfold nmin. rewrite Ha, Hb. pose proof (proj1 (nisnan_false a) Ha) as A. pose proof (proj1 (nisnan_false b) Hb) as B.
    destruct (nlt b a) eqn:L.
    - repeat split; auto; [apply (nle_iff O), xlt_xle, (nlt_iff O), L | apply nle_refl', B].
    - repeat split; auto; [apply nle_refl', A | apply (nle_iff O), (nlt_false O); assumption].
  Qed.
  Lemma nmax_spec (a b : Nm) : nisnan a = false -> nisnan b = false ->
    nisnan (nmax a b) = false /\ nle a (nmax a b) = true /\ nle b (nmax a b) = true /\ (nmax a b = a \/ nmax a b = b).
  Proof.
    intros Ha Hb. unfold nmax. rewrite Ha, Hb. pose proof (proj1 (nisnan_false a) Ha) as A. pose proof (proj1 (nisnan_false b) Hb) as B.
    destruct (ngt b a) eqn:L.
    - repeat split; auto; [apply (nle_iff O), xlt_xle, (ngt_iff O), L | apply nle_refl', B].
    - repeat split; auto; [apply nle_refl', A | apply (nle_iff O), (ngt_false O); assumption].
  Qed.
  Lemma encloses_trans (a b c : aabb Nm) : encloses a b -> encloses b c -> encloses a c.
  Proof. intros H1 H2 i Hi. destruct (H1 i Hi), (H2 i Hi). split; eapply nle_trans; eassumption. Qed.
  Lemma join_spec (s b : aabb Nm) : nonan s -> nonan b ->
    nonan (join s b) /\ encloses (join s b) s /\ encloses (join s b) b /\
    (forall c, encloses c s -> encloses c b -> encloses c (join s b)).
  Proof.
    intros Hs Hb.
    assert (Hall : forall i, (i < 3)%N -> _) by (intros i Hi; exact (conj (nmin_spec (lo s i) (lo b i) (proj1 (Hs i Hi)) (proj1 (Hb i Hi)))
                                                     (nmax_spec (up s i) (up b i) (proj2 (Hs i Hi)) (proj2 (Hb i Hi))))).
    split; [| split; [| split]].
    - intros i Hi. rewrite lo_join, up_join by exact Hi. destruct (Hall i Hi) as [[? _] [? _]]. auto.
    - intros i Hi. rewrite lo_join, up_join by exact Hi. destruct (Hall i Hi) as [[_ [? _]] [_ [? _]]]. auto.
    - intros i Hi. rewrite lo_join, up_join by exact Hi. destruct (Hall i Hi) as [[_ [_ [? _]]] [_ [_ [? _]]]]. auto.
    - intros c Cs Cb i Hi. rewrite lo_join, up_join by exact Hi. destruct (Hall i Hi) as [[_ [_ [_ M]]] [_ [_ [_ X]]]].
      destruct (Cs i Hi), (Cb i Hi). destruct M as [-> | ->], X as [-> | ->]; auto.
  Qed.
  Lemma joins_from (l : list (aabb Nm)) s : nonan s -> Forall nonan l ->
    let u := fold_left join l s in
    nonan u /\ encloses u s /\ (forall b, In b l -> encloses u b) /\
    (forall c, encloses c s -> (forall b, In b l -> encloses c b) -> encloses c u).
  Proof.
    revert s. induction l as [| b l IH]; intros s Hs Hl; cbn [fold_left].
    - split; [exact Hs |]. split.
      { intros i Hi. destruct (Hs i Hi) as [H1 H2]. split; apply nle_refl', nisnan_false; assumption. }
      split; [intros b [] |]. intros c Hc _. exact Hc.
    - inversion Hl as [| b' l' Hb Hl']; subst. destruct (join_spec s b Hs Hb) as [J1 [J2 [J3 J4]]].
      destruct (IH (join s b) J1 Hl') as [I1 [I2 [I3 I4]]]. split; [exact I1 |].
      split; [eapply encloses_trans; eassumption |]. split.
      + intros x [<- | Hx]; [eapply encloses_trans; eassumption | apply I3, Hx].
      + intros c Cs Cl. apply I4; [apply J4; [exact Cs | apply Cl; left; reflexivity] |].
        intros x Hx. apply Cl. right. exact Hx.
  Qed.
  Lemma empty_nonan : nonan (empty_box : aabb Nm).
  Proof.
    intros i Hi. rewrite !nisnan_false. cases3 i Hi; unfold lo, up; cbn; rewrite (emb_inf _ O), (emb_ninf _ O); split; discriminate.
  Qed.
  Lemma encloses_empty (c : aabb Nm) : nonan c -> encloses c empty_box.
  Proof.
    intros Hc i Hi. destruct (Hc i Hi) as [H1 H2]. rewrite nisnan_false in H1, H2. rewrite !(nle_iff O).
    cases3 i Hi; unfold lo, up in *; cbn in *; rewrite (emb_inf _ O), (emb_ninf _ O);
      split; match goal with |- context [emb O ?x] => destruct (emb O x) end; simpl; auto.
  Qed.
  Lemma union_spec (s : aabb Nm) (l : list (aabb Nm)) : Forall nonan l -> exists u,
    aabb_get_union s (map BBox l) = Ok u /\ nonan u /\ (forall b, In b l -> encloses u b) /\
    (forall c, nonan c -> (forall b, In b l -> encloses c b) -> encloses c u).
  Proof.
    intro Hl. exists (joins l). split; [apply union_eval |].
    destruct (joins_from l empty_box empty_nonan Hl) as [I1 [_ [I3 I4]]]. split; [exact I1 |]. split; [exact I3 |].
    intros c Hc Cl. apply I4; [apply encloses_empty, Hc | exact Cl].
  Qed.
  Lemma encloses_antisym (a b : aabb Nm) : encloses a b -> encloses b a -> same_box a b.
  Proof.
    intros H1 H2 i Hi. destruct (H1 i Hi) as [P1 P2], (H2 i Hi) as [Q1 Q2]. rewrite (nle_iff O) in P1, P2, Q1, Q2.
    rewrite !(neqb_iff O). destruct (xle_nonan _ _ P1), (xle_nonan _ _ P2).
    split; (split; [apply xle_antisym; assumption | assumption]).
  Qed.
  Lemma union_perm (s s' : aabb Nm) (l l' : list (aabb Nm)) : Forall nonan l -> Permutation l l' -> exists u u',
    aabb_get_union s (map BBox l) = Ok u /\ aabb_get_union s' (map BBox l') = Ok u' /\ same_box u u'.
  Proof.
    intros Hl Hp. destruct (union_spec s l Hl) as [u [U1 [U2 [U3 U4]]]].
    assert (Hl' : Forall nonan l') by (rewrite Forall_forall in *; intros x Hx; apply Hl; eapply Permutation_in; [apply Permutation_sym, Hp | exact Hx]).
    destruct (union_spec s' l' Hl') as [u' [V1 [V2 [V3 V4]]]]. exists u, u'. split; [exact U1 |]. split; [exact V1 |].
    apply encloses_antisym.
    - apply V4; [exact U2 |]. intros b Hb. apply U3. eapply Permutation_in; [apply Permutation_sym, Hp | exact Hb].
    - apply U4; [exact V2 |]. intros b Hb. apply V3. eapply Permutation_in; [apply Hp | exact Hb].
  Qed.
End OrdBound.

(** centroid *)
Section Centroid.
  Variable eps : R.
  Variable zs : XR -> bool.
  Notation E := (Exact eps zs).
  Lemma centroid_exact (b : aabb E) (l u : N -> R) : (forall i, (i < 3)%N -> lo b i = Fin (l i) /\ up b i = Fin (u i) /\ l i <= u i) ->
    exists c, aabb_get_centroid b = Ok c /\ inb b c /\ forall i, (i < 3)%N -> comps3 c i = Fin ((l i + u i) / 2).
  Proof.
    intro H. destruct (centroid_eval b) as [c [H1 H2]]. exists c.
    assert (Hc : forall i, (i < 3)%N -> comps3 c i = Fin ((l i + u i) / 2)).
    { intros i Hi. rewrite H2 by exact Hi. destruct (H i Hi) as [-> [-> _]]. change (n2 : E) with (Fin 2 : E). cbn [nadd E Exact xadd].
      unfold Exact at 1. apply ndiv_fin. lra. }
    split; [exact H1 |]. split; [| exact Hc].
    intros i Hi. rewrite (Hc i Hi). destruct (H i Hi) as [-> [-> Hle]].
    rewrite !(nle_iff (exact_ordered eps zs)). simpl. lra.
  Qed.
End Centroid.

Section CentroidIeee.
  Context (prec emax : Z) {Hp : Prec_gt_0 prec} {Hm : Prec_lt_emax prec emax} (lm : libm (binary_float prec emax)).
  Notation F := (@Ieee prec emax Hp Hm lm).
  Notation rnd := (round radix2 (SpecFloat.fexp prec emax) ZnearestE).
  Lemma centroid_ieee (b : aabb F) : proper b ->
    (forall i, (i < 3)%N -> is_finite (lo b i) = true /\ is_finite (up b i) = true /\ is_finite (nadd F (lo b i) (up b i)) = true) ->
    exists c, aabb_get_centroid b = Ok c /\ inb b c /\
      forall i, (i < 3)%N -> is_finite (comps3 c i) = true /\ B2R (comps3 c i) = rnd (rnd (B2R (lo b i) + B2R (up b i)) / 2).
  Proof.
    intros Hb H. destruct (centroid_eval b) as [c [H1 H2]]. exists c. split; [exact H1 |].
    assert (Hall : forall i, (i < 3)%N -> is_finite (comps3 c i) = true /\ B2R (lo b i) <= B2R (comps3 c i) <= B2R (up b i) /\
              B2R (comps3 c i) = rnd (rnd (B2R (lo b i) + B2R (up b i)) / 2)).
    { intros i Hi. destruct (H i Hi) as [F1 [F2 F3]]. rewrite H2 by exact Hi.
      apply (half_sum prec emax (lo b i) (up b i) (@n2 F) F1 F2); [| apply fv_lit_2 | exact F3].
      specialize (Hb i Hi). apply (nle_iff (ieee_ordered prec emax lm)) in Hb. cbn [emb ieee_ordered] in Hb.
      rewrite !b2x_finite in Hb by assumption. exact Hb. }
    split.
    - intros i Hi. destruct (Hall i Hi) as [F1 [F2 _]]. destruct (H i Hi) as [G1 [G2 _]].
      rewrite !(nle_iff (ieee_ordered prec emax lm)). cbn [emb ieee_ordered]. rewrite !b2x_finite by assumption. exact F2.
    - intros i Hi. destruct (Hall i Hi) as [F1 [_ F2]]. split; assumption.
  Qed.
End CentroidIeee.

(** witnesses *)
Lemma longest_refuted (eps : R) (zs : XR -> bool) : ~ (forall b : aabb (Exact eps zs), proper b -> exists x,
  aabb_get_longest_axis b = Ok (x, nsub (Exact eps zs) (up b (match x with AxX => 0 | AxY => 1 | AxZ => 2 end)%N)
                                     (lo b (match x with AxX => 0 | AxY => 1 | AxZ => 2 end)%N)) /\
  forall y, nle (nsub (Exact eps zs) (up b (match y with AxX => 0 | AxY => 1 | AxZ => 2 end)%N)
                                     (lo b (match y with AxX => 0 | AxY => 1 | AxZ => 2 end)%N))
                (nsub (Exact eps zs) (up b (match x with AxX => 0 | AxY => 1 | AxZ => 2 end)%N)
                                     (lo b (match x with AxX => 0 | AxY => 1 | AxZ => 2 end)%N)) = true).
Proof.
  intro H. set (E := Exact eps zs) in *.
  specialize (H (AABB (A3 (Fin 0) (Fin 0) (Fin 0) : arr3 E) (A3 (Fin 10) (Fin 1) (Fin 1) : arr3 E))).
  destruct H as [x [H1 H2]].
  { intros i Hi. apply (nle_iff (exact_ordered eps zs)). cases3 i Hi; simpl; lra. }
  rewrite longest_z in H1. destruct x; try discriminate H1. specialize (H2 AxX).
  apply (nle_iff (exact_ordered eps zs)) in H2. simpl in H2. lra.
Qed.
Lemma centroid_refuted (lm : libm f64) : ~ (forall b : aabb (F64 lm), proper b ->
  (forall i, (i < 3)%N -> is_finite (lo b i) = true /\ is_finite (up b i) = true) ->
  exists c, aabb_get_centroid b = Ok c /\ inb b c).
Proof.
  intro H. set (m := nlit (F64 lm) (2 ^ 1023) 1).
  destruct (H (AABB (A3 m m m) (A3 m m m))) as [c [H1 H2]].
  - intros i Hi. cases3 i Hi; vm_compute; reflexivity.
  - intros i Hi. cases3 i Hi; split; vm_compute; reflexivity.
  - destruct (centroid_eval (AABB (A3 m m m) (A3 m m m))) as [c' [G1 G2]]. rewrite G1 in H1. injection H1 as ->.
    assert (C : nle (comps3 c 0%N) m = true) by apply (H2 0%N eq_refl).
    rewrite (G2 0%N eq_refl) in C. vm_compute in C. discriminate C.
Qed.
