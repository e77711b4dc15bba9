(** PMisc.v — element access, defaults and sizes of the vector types, the methods of Mat3/Mat4 that are not products
    (C72, C73, C74), default values and the unimplemented parts of the bound types (C75). *)
From Coq Require Import Reals List ZArith NArith Bool Lra Lia.
From Flocq Require Import Core BinarySingleNaN.
Import ListNotations.
From Verif Require Import Base Num Vec Mat Quat Bound Shape Intersect Float Exact FloatFacts Order SpecMat SpecReal SpecGeom SpecQuat
  SpecBound SpecMisc ExactFacts PMat PMat4 PVec PBound PInter PIeee1.
Local Open Scope R_scope.

Definition vec_index {Nm : Num} {k : vkind} : vcar Nm k -> nat -> res Nm :=
  match k with | K2x1 => mat2x1_index | K1x2 => mat1x2_index | K3x1 => mat3x1_index | K1x3 => mat1x3_index | K4x1 => mat4x1_index | K1x4 => mat1x4_index end.
Definition vec_set {Nm : Num} {k : vkind} : vcar Nm k -> nat -> Nm -> res (vcar Nm k) :=
  match k with | K2x1 => mat2x1_set | K1x2 => mat1x2_set | K3x1 => mat3x1_set | K1x3 => mat1x3_set | K4x1 => mat4x1_set | K1x4 => mat1x4_set end.
Definition vec_default {Nm : Num} {k : vkind} : vcar Nm k :=
  match k with | K2x1 => mat2x1_default | K1x2 => mat1x2_default | K3x1 => mat3x1_default | K1x3 => mat1x3_default | K4x1 => mat4x1_default | K1x4 => mat1x4_default end.
Definition vec_size {Nm : Num} {k : vkind} : vcar Nm k -> option nat :=
  match k with | K2x1 => mat2x1_size | K1x2 => mat1x2_size | K3x1 => mat3x1_size | K1x3 => mat1x3_size | K4x1 => mat4x1_size | K1x4 => mat1x4_size end.

Section Gen.
  Context {Nm : Num}.
  Local Open Scope num_scope.

  Ltac vcase k v := destruct k; simpl in v; destruct v as [[]].

  Lemma vec_len k (v : vcar Nm k) : length (vcomps v) = vlen k.
  Proof. vcase k v; reflexivity. Qed.
  Lemma vec_index_in k (v : vcar Nm k) i x : (i < vlen k)%nat -> vec_index v i = Ok x <-> nth_error (vcomps v) i = Some x.
  Proof.
    intro H. rewrite <- (vec_len k v) in H.
    assert (A : vec_index v i = match nth_error (vcomps v) i with Some y => Ok y | None => Panic PIndex end) by (destruct k; reflexivity).
    rewrite A. destruct (nth_error (vcomps v) i); split; intro Q; inversion Q; reflexivity.
  Qed.
  Lemma vec_index_some k (v : vcar Nm k) i : (i < vlen k)%nat -> exists x, vec_index v i = Ok x /\ nth_error (vcomps v) i = Some x.
  Proof.
    intro H. destruct (nth_error (vcomps v) i) eqn:Q.
    - exists n. split; [apply vec_index_in; assumption | reflexivity].
    - apply nth_error_None in Q. rewrite vec_len in Q. lia.
  Qed.
  Lemma vec_index_out k (v : vcar Nm k) i : (vlen k <= i)%nat -> vec_index v i = Panic PIndex.
  Proof.
    intro H. rewrite <- (vec_len k v) in H. apply nth_error_None in H.
    destruct k; cbv [vec_index mat2x1_index mat1x2_index mat3x1_index mat1x3_index mat4x1_index mat1x4_index get2 get3 get4 idx];
      cbn [vcomps] in H; rewrite H; reflexivity.
  Qed.
  Lemma vec_set_in k (v : vcar Nm k) i x : (i < vlen k)%nat ->
    exists w, vec_set v i x = Ok w /\ vcomps w = upd (vcomps v) i x.
  Proof.
    intro H. vcase k v; simpl in H; do 5 (try (destruct i as [|i]; [eexists; split; reflexivity |])); lia.
  Qed.
  Lemma vec_set_out k (v : vcar Nm k) i x : (vlen k <= i)%nat -> vec_set v i x = Panic PIndex.
  Proof.
    intro H. vcase k v; simpl in H; do 4 (try (destruct i as [|i]; [lia |])); reflexivity.
  Qed.
  Lemma vec_read_write k (v w : vcar Nm k) i j x : vec_set v i x = Ok w ->
    vec_index w j = if (j =? i)%nat then Ok x else vec_index v j.
  Proof.
    intro H. destruct (le_lt_dec (vlen k) i) as [L | L]; [rewrite vec_set_out in H by exact L; discriminate |].
    vcase k v; simpl in L; do 4 (try (destruct i as [|i]; [inversion H; subst w; do 4 (try destruct j as [|j]); reflexivity |])); lia.
  Qed.
  Lemma vec_default_size k (v : vcar Nm k) :
    vcomps (vec_default : vcar Nm k) = repeat n0 (vlen k) /\ vec_size v = Some (vlen k).
  Proof. vcase k v; split; reflexivity. Qed.

  Lemma mat3_norm_list (m : mat3 Nm) : exists r l, mat3_normalize m = Ok (Some r) /\ mat3_raw m 8 = Ok l /\
    m3_rm r = m3_rm m /\ list9 (m3_val r) = map (fun a => a / l) (list9 (m3_val m)).
  Proof. destruct m as [[a0 a1 a2 a3 a4 a5 a6 a7 a8] b]. do 2 eexists. repeat split; reflexivity. Qed.
  Lemma mat4_norm_list (m : mat4 Nm) : exists r l, mat4_normalize m = Ok (Some r) /\ mat4_raw m 15 = Ok l /\
    m4_rm r = m4_rm m /\ list16 (m4_val r) = map (fun a => a / l) (list16 (m4_val m)).
  Proof. destruct m as [[a0 a1 a2 a3 a4 a5 a6 a7 a8 a9 a10 a11 a12 a13 a14 a15] b]. do 2 eexists. repeat split; reflexivity. Qed.

  Lemma mat3_norm_repr (m : mat3 Nm) f : repr3 m f ->
    exists r, mat3_normalize m = Ok (Some r) /\ m3_rm r = m3_rm m /\ repr3 r (lmap (fun a => a / f 2%N 2%N) f).
  Proof.
    intro H. apply repr3_iff in H. destruct m as [[a0 a1 a2 a3 a4 a5 a6 a7 a8] b].
    eexists. split; [reflexivity | split; [reflexivity |]]. apply repr3_iff. intros p q Hp Hq. unfold lmap.
    rewrite <- !H by (assumption || reflexivity). destruct b; cases3 p Hp; cases3 q Hq; reflexivity.
  Qed.
  Lemma mat4_norm_repr (m : mat4 Nm) f : repr4 m f ->
    exists r, mat4_normalize m = Ok (Some r) /\ m4_rm r = m4_rm m /\ repr4 r (lmap (fun a => a / f 3%N 3%N) f).
  Proof.
    intro H. apply repr4_iff in H. destruct m as [[a0 a1 a2 a3 a4 a5 a6 a7 a8 a9 a10 a11 a12 a13 a14 a15] b].
    eexists. split; [reflexivity | split; [reflexivity |]]. apply repr4_iff. intros p q Hp Hq. unfold lmap.
    rewrite <- !H by (assumption || reflexivity). destruct b; cases4 p Hp; cases4 q Hq; reflexivity.
  Qed.
  Lemma mat_defaults : repr3 (mat3_default : mat3 Nm) (fun _ _ => n0) /\ repr4 (mat4_default : mat4 Nm) (fun _ _ => n0) /\
    m3_rm (mat3_default : mat3 Nm) = true /\ m4_rm (mat4_default : mat4 Nm) = true.
  Proof.
    repeat split; [intros chk i j Hi Hj; cases3 i Hi; cases3 j Hj; destruct chk; reflexivity
                  | intros chk i j Hi Hj; cases4 i Hi; cases4 j Hj; destruct chk; reflexivity].
  Qed.
  Lemma mat_rest (a b : mat3 Nm) (c d : mat4 Nm) :
    mat3_size a = Some 9%nat /\ mat4_size c = Some 16%nat /\ mat3_dot a b = None /\ mat4_dot c d = None /\
    mat3_magnitude a = Panic PUnimplemented /\ mat4_magnitude c = Panic PUnimplemented.
  Proof. destruct a as [[] ?], c as [[] ?]. repeat split; reflexivity. Qed.
  Lemma bsphere_panics (o : ibound Nm) (b : aabb Nm) :
    ibound_intersect BSphere o = Panic PUnimplemented /\ ibound_intersect (BBox b) BSphere = Panic PUnimplemented /\
    ibound_get_bound_data (BSphere : ibound Nm) = Panic PUnimplemented /\ ibound_get_centroid (BSphere : ibound Nm) = Panic PUnimplemented /\
    ibound_get_centroid (BBox b) = aabb_get_centroid b /\ forall s t : ibound Nm, ibound_get_shortest_separation s t = Panic PUnimplemented.
  Proof. repeat split; reflexivity. Qed.
End Gen.

Section Ord.
  Context {Nm : Num} (O : ordered Nm).
  Notation "# a" := (emb O a) (at level 9).
  Lemma apart_default_l (b : aabb Nm) i : (i < 3)%N -> apart aabb_default b i = false /\ apart b aabb_default i = false.
  Proof.
    intro Hi. unfold apart, ngt, nlt. rewrite !(emb_cmp O).
    assert (L : #(lo (aabb_default : aabb Nm) i) = NInf) by (cases3 i Hi; apply (emb_ninf Nm O)).
    assert (U : #(up (aabb_default : aabb Nm) i) = PInf) by (cases3 i Hi; apply (emb_inf Nm O)).
    rewrite L, U. destruct (emb O (lo b i)), (emb O (up b i)); split; reflexivity.
  Qed.
  Lemma default_meets (b : aabb Nm) : aabb_intersect aabb_default (BBox b) = Ok true /\ aabb_intersect b (BBox aabb_default) = Ok true.
  Proof.
    rewrite !intersect_eval. split;
      rewrite (proj1 (apart_default_l b 0 eq_refl)), (proj1 (apart_default_l b 1 eq_refl)), (proj1 (apart_default_l b 2 eq_refl))
      || rewrite (proj2 (apart_default_l b 0 eq_refl)), (proj2 (apart_default_l b 1 eq_refl)), (proj2 (apart_default_l b 2 eq_refl));
      reflexivity.
  Qed.
  Lemma default_encloses (b : aabb Nm) : nonan b -> encloses aabb_default b.
  Proof.
    intros H i Hi. destruct (H i Hi) as [H1 H2]. apply (nisnan_false O) in H1. apply (nisnan_false O) in H2.
    assert (L : #(lo (aabb_default : aabb Nm) i) = NInf) by (cases3 i Hi; apply (emb_ninf Nm O)).
    assert (U : #(up (aabb_default : aabb Nm) i) = PInf) by (cases3 i Hi; apply (emb_inf Nm O)).
    unfold nle. rewrite !(emb_cmp O), L, U. destruct (emb O (lo b i)), (emb O (up b i)); split; try reflexivity; contradiction.
  Qed.
End Ord.

Section Exact.
  Context (eps : R) (zs : XR -> bool).
  Notation E := (Exact eps zs).
  Lemma mat3_norm_exact (m : mat3 E) (f : rmat) : repr3 m (fin f : lmat E) -> f 2%N 2%N <> 0 ->
    exists r, mat3_normalize m = Ok (Some r) /\ m3_rm r = m3_rm m /\ repr3 r (fin (fun i j => f i j / f 2%N 2%N) : lmat E).
  Proof.
    intros H Hz. destruct (mat3_norm_repr m _ H) as [r [R1 [R2 R3]]]. exists r. split; [exact R1 | split; [exact R2 |]].
    eapply repr3_ext; [exact R3 |]. intros i j Hi Hj. unfold lmap, fin. apply (ndiv_fin eps zs _ _ Hz).
  Qed.
  Lemma mat4_norm_exact (m : mat4 E) (f : rmat) : repr4 m (fin f : lmat E) -> f 3%N 3%N <> 0 ->
    exists r, mat4_normalize m = Ok (Some r) /\ m4_rm r = m4_rm m /\ repr4 r (fin (fun i j => f i j / f 3%N 3%N) : lmat E).
  Proof.
    intros H Hz. destruct (mat4_norm_repr m _ H) as [r [R1 [R2 R3]]]. exists r. split; [exact R1 | split; [exact R2 |]].
    eapply repr4_ext; [exact R3 |]. intros i j Hi Hj. unfold lmap, fin. apply (ndiv_fin eps zs _ _ Hz).
  Qed.
  Lemma mat_norm_zero (m : mat3 E) (m' : mat4 E) (f g : rmat) : repr3 m (fin f : lmat E) -> repr4 m' (fin g : lmat E) ->
    (f 2%N 2%N = 0 -> exists r, mat3_normalize m = Ok (Some r) /\ mat3_index true r 2 2 = Ok (NaN : E)) /\
    (g 3%N 3%N = 0 -> exists r, mat4_normalize m' = Ok (Some r) /\ mat4_index true r 3 3 = Ok (NaN : E)).
  Proof.
    intros H H'. split; intro Hz.
    - destruct (mat3_norm_repr m _ H) as [r [R1 [R2 R3]]]. exists r. split; [exact R1 |]. rewrite (R3 true 2 2 eq_refl eq_refl)%N.
      unfold lmap, fin. rewrite Hz. f_equal. apply (ndiv_0_0 eps zs).
    - destruct (mat4_norm_repr m' _ H') as [r [R1 [R2 R3]]]. exists r. split; [exact R1 |]. rewrite (R3 true 3 3 eq_refl eq_refl)%N.
      unfold lmap, fin. rewrite Hz. f_equal. apply (ndiv_0_0 eps zs).
  Qed.
  Lemma default_centroid : exists c, aabb_get_centroid (aabb_default : aabb E) = Ok c /\
    forall i, (i < 3)%N -> comps3 c i = NaN.
  Proof.
    destruct (centroid_eval (aabb_default : aabb E)) as [c [C1 C2]]. exists c. split; [exact C1 |].
    intros i Hi. rewrite C2 by exact Hi. cases3 i Hi; reflexivity.
  Qed.
End Exact.

Section Ieee.
  Context (prec emax : Z) {Hp : Prec_gt_0 prec} {Hm : Prec_lt_emax prec emax} (lm : libm (binary_float prec emax)).
  Notation F := (@Ieee prec emax Hp Hm lm).
  Notation fv := (fv prec emax).
  Lemma div_self (x : F) : is_finite x = true -> neqb x n0 = false -> neqb (ndiv F x x) n1 = true.
  Proof.
    intros Hx Hz. assert (B2R (x : binary_float prec emax) <> 0).
    { intro Q. destruct (fv_eq prec emax lm x n0) as [_ A].
      - apply (z0 prec emax lm).
      - split; [exact Hx |]. rewrite Q. symmetry. apply (z0 prec emax lm).
      - congruence. }
    destruct (o1 prec emax lm) as [O1 O2].
    apply (fv_eq prec emax lm); [exact O1 |].
    apply (fv_div_exact prec emax x x (n1 : F)); [exact Hx | assumption |]. rewrite O2. field. assumption.
  Qed.
  Lemma mat_norm_ieee (m : mat3 F) (m' : mat4 F) (f g : lmat F) : repr3 m f -> repr4 m' g ->
    (is_finite (f 2%N 2%N : F) = true -> neqb (f 2%N 2%N) n0 = false ->
       exists r x, mat3_normalize m = Ok (Some r) /\ mat3_index true r 2 2 = Ok x /\ neqb x n1 = true) /\
    (is_finite (g 3%N 3%N : F) = true -> neqb (g 3%N 3%N) n0 = false ->
       exists r x, mat4_normalize m' = Ok (Some r) /\ mat4_index true r 3 3 = Ok x /\ neqb x n1 = true).
  Proof.
    intros H H'. split; intros Hf Hz.
    - destruct (mat3_norm_repr m _ H) as [r [R1 [R2 R3]]]. do 2 eexists. split; [exact R1 | split; [apply R3; reflexivity |]].
      apply div_self; assumption.
    - destruct (mat4_norm_repr m' _ H') as [r [R1 [R2 R3]]]. do 2 eexists. split; [exact R1 | split; [apply R3; reflexivity |]].
      apply div_self; assumption.
  Qed.
  Lemma s0r (u v : F) r : fv u r -> fv v 0 -> fv (nsub F u v) r.
  Proof.
    intros [U1 U2] [V1 V2]. change (nsub F u v) with (Bminus mode_NE u v). rewrite Bminus_plus. rewrite <- U2.
    apply fv_plus_exact; [exact U1 | rewrite is_finite_Bopp; exact V1 |]. rewrite B2R_Bopp, V2. ring.
  Qed.
  Lemma fm (u v : F) a b c : fv u a -> fv v b -> (a = 0 /\ c = 0) \/ (b = 0 /\ c = 0) \/ (a = 1 /\ c = b) \/ (b = 1 /\ c = a) -> fv (nmul F u v) c.
  Proof.
    intros [U1 U2] [V1 V2] H. change (nmul F u v) with (Bmult mode_NE u v).
    destruct H as [[-> ->] | [[-> ->] | [[-> ->] | [-> ->]]]].
    - rewrite <- U2. apply fv_mult_exact; [exact U1 | exact V1 |]. rewrite U2. ring.
    - rewrite <- V2. apply fv_mult_exact; [exact U1 | exact V1 |]. rewrite V2. ring.
    - rewrite <- V2. apply fv_mult_exact; [exact U1 | exact V1 |]. rewrite U2. ring.
    - rewrite <- U2. apply fv_mult_exact; [exact U1 | exact V1 |]. rewrite V2. ring.
  Qed.
  Definition qfv (q : quat F) (x y z w : R) : Prop := fv (qx q) x /\ fv (qy q) y /\ fv (qz q) z /\ fv (qw q) w.
  Ltac qsum :=
    first [ apply a0l; [solve [qsum] | solve [qsum]]
          | apply a0r; [solve [qsum] | solve [qsum]]
          | apply s0r; [solve [qsum] | solve [qsum]]
          | solve [eapply fm; [eassumption | eassumption | lra]]].
  Lemma id_mul (q : quat F) x y z w (p : quat F) : qfv q x y z w -> qfv p 0 0 0 1 ->
    qfv (quat_mul p q) x y z w /\ qfv (quat_mul q p) x y z w.
  Proof.
    intros [H1 [H2 [H3 H4]]] [G1 [G2 [G3 G4]]]. destruct p as [px py pz pw], q as [qx0 qy0 qz0 qw0]. cbn [qx qy qz qw] in *.
    unfold qfv, quat_mul. cbn [qx qy qz qw].
    refine (conj (conj _ (conj _ (conj _ _))) (conj _ (conj _ (conj _ _)))); qsum.
  Qed.
  Lemma qfv_of (q : quat F) : is_finite (qx q : F) = true -> is_finite (qy q : F) = true -> is_finite (qz q : F) = true -> is_finite (qw q : F) = true ->
    qfv q (B2R (qx q : F)) (B2R (qy q : F)) (B2R (qz q : F)) (B2R (qw q : F)).
  Proof. intros. refine (conj _ (conj _ (conj _ _))); split; trivial. Qed.
  Lemma id_default : qfv quat_default 0 0 0 1.
  Proof. refine (conj _ (conj _ (conj _ _))); first [apply (z0 prec emax lm) | apply (o1 prec emax lm)]. Qed.
  Lemma qneg (x : F) r : fv x r -> fv (nneg F x) (- r).
  Proof. intros [H1 H2]. split; [change (is_finite (Bopp x) = true); rewrite is_finite_Bopp; exact H1 | change (B2R (Bopp x) = - r); rewrite B2R_Bopp, H2; reflexivity]. Qed.
  Lemma id_conj : qfv (quat_conjugate quat_default) 0 0 0 1.
  Proof.
    destruct id_default as [H1 [H2 [H3 H4]]]. refine (conj _ (conj _ (conj _ _))); try exact H4;
      (replace 0 with (- 0) by ring; apply qneg; assumption).
  Qed.
  (** equal as numbers *)
  Definition qsame (p q : quat F) : Prop := neqb (qx p) (qx q) = true /\ neqb (qy p) (qy q) = true /\ neqb (qz p) (qz q) = true /\ neqb (qw p) (qw q) = true.
  Lemma default_unit (q : quat F) : is_finite (qx q : F) = true -> is_finite (qy q : F) = true -> is_finite (qz q : F) = true -> is_finite (qw q : F) = true ->
    qsame (quat_mul quat_default q) q /\ qsame (quat_mul q quat_default) q.
  Proof.
    intros H1 H2 H3 H4. destruct (id_mul q _ _ _ _ quat_default (qfv_of q H1 H2 H3 H4) id_default) as [[A1 [A2 [A3 A4]]] [B1 [B2 [B3 B4]]]].
    split; (refine (conj _ (conj _ (conj _ _))); apply (fv_eq prec emax lm); assumption).
  Qed.
  Lemma default_rotate (x y z : F) : is_finite x = true -> is_finite y = true -> is_finite z = true ->
    exists x' y' z', quat_rotate_vector quat_default (M3x1 (A3 x y z)) = M3x1 (A3 x' y' z') /\
      neqb x' x = true /\ neqb y' y = true /\ neqb z' z = true.
  Proof.
    intros H1 H2 H3. set (q := Q x y z n0 : quat F). assert (Hq : qfv q (B2R x) (B2R y) (B2R z) 0).
    { refine (conj _ (conj _ (conj _ _))); [split; trivial | split; trivial | split; trivial | apply (z0 prec emax lm)]. }
    destruct (id_mul q _ _ _ _ quat_default Hq id_default) as [A _].
    destruct (id_mul _ _ _ _ _ (quat_conjugate quat_default) A id_conj) as [_ [B1 [B2 [B3 B4]]]].
    do 3 eexists. split; [reflexivity |].
    refine (conj _ (conj _ _)); apply (fv_eq prec emax lm); assumption.
  Qed.
End Ieee.

Section Prism.
  Context (eps : R) (zs : XR -> bool).
  Notation E := (Exact eps zs).
  Lemma default_prism_point (p : V3) (b : aabb E) (e : E) :
    shape_get_intersect (SPrism triprism_default) (SPoint (MkPoint (ev eps zs p) b e)) = Ok (true, Some (ev eps zs p)).
  Proof.
    pose proof (proj1 (default_meets (exact_ordered eps zs) b)) as D.
    unfold shape_get_intersect, triprism_get_intersect.
    change (ibound_intersect (shape_get_bound (SPrism (triprism_default : triprism E))) (shape_get_bound (SPoint (MkPoint (ev eps zs p) b e))))
      with (aabb_intersect (aabb_default : aabb E) (BBox b)).
    rewrite D. cbn [bind negb shape_get_type].
    unfold triprism_point. cbn.
    repeat (match goal with |- context [Rlt_dec ?s 0] => destruct (Rlt_dec s 0) as [C | _]; [exfalso; nra |] end;
            match goal with |- context [Rlt_dec 0 ?s] => destruct (Rlt_dec 0 s) as [C | _]; [exfalso; nra |] end; cbn).
    reflexivity.
  Qed.
End Prism.

(** ---- the tolerance of the default prism ---- *)
Lemma default_prism_within (eps : R) (zs : XR -> bool) (a b : R) :
  shape_within_vicinity (SPrism triprism_default) (Fin a : Exact eps zs) (Fin b) = true <-> a = b.
Proof.
  rewrite (PInter.within_shape eps zs (SPrism triprism_default) 0 a b) by (cbn; f_equal; lra). split; intro H.
  - apply Rabs_le_inv in H. lra.
  - rewrite H, Rminus_diag_eq, Rabs_R0 by reflexivity. lra.
Qed.
Lemma default_prism_within_ieee prec emax {Hp : Prec_gt_0 prec} {Hm : Prec_lt_emax prec emax} lm (a b : @Ieee prec emax Hp Hm lm) :
  is_finite (a : binary_float prec emax) = true -> is_finite (b : binary_float prec emax) = true ->
  (shape_within_vicinity (SPrism triprism_default) a b = true <-> B2R (a : binary_float prec emax) = B2R (b : binary_float prec emax)).
Proof.
  intros Fa Fb. unfold shape_within_vicinity, Shape.within. rewrite andb_true_iff, (nge_iff (ieee_ordered prec emax lm)), (nle_iff (ieee_ordered prec emax lm)).
  change (emb (ieee_ordered prec emax lm)) with (b2x prec emax). destruct (@fv_lit_0 prec emax Hp Hm) as [F0 V0].
  change (shape_vicinity (SPrism (@triprism_default (@Ieee prec emax Hp Hm lm)))) with (@f_lit prec emax Hp Hm 0 1). cbn [nadd nsub Ieee].
  rewrite (PIeee1.plus_x prec emax a _ Fa F0), (PIeee1.minus_x prec emax a _ Fa F0), V0, Rplus_0_r, Rminus_0_r, rnd_B2R, (b2x_finite prec emax b Fb).
  assert (O : ovf emax (B2R (a : binary_float prec emax)) = Fin (B2R (a : binary_float prec emax))).
  { unfold ovf. destruct (Rlt_dec _ _) as [_ | C]; [reflexivity | destruct C; apply B2R_lt_emax]. }
  rewrite O. cbn [xle]. lra.
Qed.
