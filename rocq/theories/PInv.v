(** PInv.v — Mat4::inverse and Mat3::inverse as functions of the logical entries (any arithmetic), and their exact meaning. *)
From Coq Require Import Reals List ZArith NArith Bool Lra Psatz.
Import ListNotations.
From Verif Require Import Base Num Vec Mat Exact SpecMat SpecReal SpecGeom ExactFacts PMat PMat2 PMat3.

Section InvGeneric.
  Context {Nm : Num}.
  Local Open Scope num_scope.
  Definition adj4_00 (f : lmat Nm) : Nm :=
    (f 1%N 1%N * f 2%N 2%N * f 3%N 3%N - f 1%N 1%N * f 3%N 2%N * f 2%N 3%N - f 1%N 2%N * f 2%N 1%N * f 3%N 3%N + f 1%N 2%N * f 3%N 1%N * f 2%N 3%N + f 1%N 3%N * f 2%N 1%N * f 3%N 2%N - f 1%N 3%N * f 3%N 1%N * f 2%N 2%N).
  Definition adj4_01 (f : lmat Nm) : Nm :=
    (-f 0%N 1%N * f 2%N 2%N * f 3%N 3%N + f 0%N 1%N * f 3%N 2%N * f 2%N 3%N + f 0%N 2%N * f 2%N 1%N * f 3%N 3%N - f 0%N 2%N * f 3%N 1%N * f 2%N 3%N - f 0%N 3%N * f 2%N 1%N * f 3%N 2%N + f 0%N 3%N * f 3%N 1%N * f 2%N 2%N).
  Definition adj4_02 (f : lmat Nm) : Nm :=
    (f 0%N 1%N * f 1%N 2%N * f 3%N 3%N - f 0%N 1%N * f 3%N 2%N * f 1%N 3%N - f 0%N 2%N * f 1%N 1%N * f 3%N 3%N + f 0%N 2%N * f 3%N 1%N * f 1%N 3%N + f 0%N 3%N * f 1%N 1%N * f 3%N 2%N - f 0%N 3%N * f 3%N 1%N * f 1%N 2%N).
  Definition adj4_03 (f : lmat Nm) : Nm :=
    (-f 0%N 1%N * f 1%N 2%N * f 2%N 3%N + f 0%N 1%N * f 2%N 2%N * f 1%N 3%N + f 0%N 2%N * f 1%N 1%N * f 2%N 3%N - f 0%N 2%N * f 2%N 1%N * f 1%N 3%N - f 0%N 3%N * f 1%N 1%N * f 2%N 2%N + f 0%N 3%N * f 2%N 1%N * f 1%N 2%N).
  Definition adj4_10 (f : lmat Nm) : Nm :=
    (-f 1%N 0%N * f 2%N 2%N * f 3%N 3%N + f 1%N 0%N * f 3%N 2%N * f 2%N 3%N + f 1%N 2%N * f 2%N 0%N * f 3%N 3%N - f 1%N 2%N * f 3%N 0%N * f 2%N 3%N - f 1%N 3%N * f 2%N 0%N * f 3%N 2%N + f 1%N 3%N * f 3%N 0%N * f 2%N 2%N).
  Definition adj4_11 (f : lmat Nm) : Nm :=
    (f 0%N 0%N * f 2%N 2%N * f 3%N 3%N - f 0%N 0%N * f 3%N 2%N * f 2%N 3%N - f 0%N 2%N * f 2%N 0%N * f 3%N 3%N + f 0%N 2%N * f 3%N 0%N * f 2%N 3%N + f 0%N 3%N * f 2%N 0%N * f 3%N 2%N - f 0%N 3%N * f 3%N 0%N * f 2%N 2%N).
  Definition adj4_12 (f : lmat Nm) : Nm :=
    (-f 0%N 0%N * f 1%N 2%N * f 3%N 3%N + f 0%N 0%N * f 3%N 2%N * f 1%N 3%N + f 0%N 2%N * f 1%N 0%N * f 3%N 3%N - f 0%N 2%N * f 3%N 0%N * f 1%N 3%N - f 0%N 3%N * f 1%N 0%N * f 3%N 2%N + f 0%N 3%N * f 3%N 0%N * f 1%N 2%N).
  Definition adj4_13 (f : lmat Nm) : Nm :=
    (f 0%N 0%N * f 1%N 2%N * f 2%N 3%N - f 0%N 0%N * f 2%N 2%N * f 1%N 3%N - f 0%N 2%N * f 1%N 0%N * f 2%N 3%N + f 0%N 2%N * f 2%N 0%N * f 1%N 3%N + f 0%N 3%N * f 1%N 0%N * f 2%N 2%N - f 0%N 3%N * f 2%N 0%N * f 1%N 2%N).
  Definition adj4_20 (f : lmat Nm) : Nm :=
    (f 1%N 0%N * f 2%N 1%N * f 3%N 3%N - f 1%N 0%N * f 3%N 1%N * f 2%N 3%N - f 1%N 1%N * f 2%N 0%N * f 3%N 3%N + f 1%N 1%N * f 3%N 0%N * f 2%N 3%N + f 1%N 3%N * f 2%N 0%N * f 3%N 1%N - f 1%N 3%N * f 3%N 0%N * f 2%N 1%N).
  Definition adj4_21 (f : lmat Nm) : Nm :=
    (-f 0%N 0%N * f 2%N 1%N * f 3%N 3%N + f 0%N 0%N * f 3%N 1%N * f 2%N 3%N + f 0%N 1%N * f 2%N 0%N * f 3%N 3%N - f 0%N 1%N * f 3%N 0%N * f 2%N 3%N - f 0%N 3%N * f 2%N 0%N * f 3%N 1%N + f 0%N 3%N * f 3%N 0%N * f 2%N 1%N).
  Definition adj4_22 (f : lmat Nm) : Nm :=
    (f 0%N 0%N * f 1%N 1%N * f 3%N 3%N - f 0%N 0%N * f 3%N 1%N * f 1%N 3%N - f 0%N 1%N * f 1%N 0%N * f 3%N 3%N + f 0%N 1%N * f 3%N 0%N * f 1%N 3%N + f 0%N 3%N * f 1%N 0%N * f 3%N 1%N - f 0%N 3%N * f 3%N 0%N * f 1%N 1%N).
  Definition adj4_23 (f : lmat Nm) : Nm :=
    (-f 0%N 0%N * f 1%N 1%N * f 2%N 3%N + f 0%N 0%N * f 2%N 1%N * f 1%N 3%N + f 0%N 1%N * f 1%N 0%N * f 2%N 3%N - f 0%N 1%N * f 2%N 0%N * f 1%N 3%N - f 0%N 3%N * f 1%N 0%N * f 2%N 1%N + f 0%N 3%N * f 2%N 0%N * f 1%N 1%N).
  Definition adj4_30 (f : lmat Nm) : Nm :=
    (-f 1%N 0%N * f 2%N 1%N * f 3%N 2%N + f 1%N 0%N * f 3%N 1%N * f 2%N 2%N + f 1%N 1%N * f 2%N 0%N * f 3%N 2%N - f 1%N 1%N * f 3%N 0%N * f 2%N 2%N - f 1%N 2%N * f 2%N 0%N * f 3%N 1%N + f 1%N 2%N * f 3%N 0%N * f 2%N 1%N).
  Definition adj4_31 (f : lmat Nm) : Nm :=
    (f 0%N 0%N * f 2%N 1%N * f 3%N 2%N - f 0%N 0%N * f 3%N 1%N * f 2%N 2%N - f 0%N 1%N * f 2%N 0%N * f 3%N 2%N + f 0%N 1%N * f 3%N 0%N * f 2%N 2%N + f 0%N 2%N * f 2%N 0%N * f 3%N 1%N - f 0%N 2%N * f 3%N 0%N * f 2%N 1%N).
  Definition adj4_32 (f : lmat Nm) : Nm :=
    (-f 0%N 0%N * f 1%N 1%N * f 3%N 2%N + f 0%N 0%N * f 3%N 1%N * f 1%N 2%N + f 0%N 1%N * f 1%N 0%N * f 3%N 2%N - f 0%N 1%N * f 3%N 0%N * f 1%N 2%N - f 0%N 2%N * f 1%N 0%N * f 3%N 1%N + f 0%N 2%N * f 3%N 0%N * f 1%N 1%N).
  Definition adj4_33 (f : lmat Nm) : Nm :=
    (f 0%N 0%N * f 1%N 1%N * f 2%N 2%N - f 0%N 0%N * f 2%N 1%N * f 1%N 2%N - f 0%N 1%N * f 1%N 0%N * f 2%N 2%N + f 0%N 1%N * f 2%N 0%N * f 1%N 2%N + f 0%N 2%N * f 1%N 0%N * f 2%N 1%N - f 0%N 2%N * f 2%N 0%N * f 1%N 1%N).
  Definition adj4_det (f : lmat Nm) : Nm :=
    f 0%N 0%N * adj4_00 f + f 1%N 0%N * adj4_01 f + f 2%N 0%N * adj4_02 f + f 3%N 0%N * adj4_03 f.
  Definition adj4 (f : lmat Nm) : lmat Nm := rows16 (A16
    (adj4_00 f) (adj4_01 f) (adj4_02 f) (adj4_03 f) (adj4_10 f) (adj4_11 f) (adj4_12 f) (adj4_13 f) (adj4_20 f) (adj4_21 f) (adj4_22 f) (adj4_23 f) (adj4_30 f) (adj4_31 f) (adj4_32 f) (adj4_33 f)).

  Lemma inv4_eval (m : mat4 Nm) f : repr4 m f ->
    mat4_inverse m =
      if nlt (nabs Nm (adj4_det f)) (neps Nm) then Ok None
      else let k := nlit Nm 1 1 / adj4_det f in
        Ok (Some (M4 (A16
    (adj4_00 f * k) (adj4_10 f * k) (adj4_20 f * k) (adj4_30 f * k) (adj4_01 f * k) (adj4_11 f * k) (adj4_21 f * k) (adj4_31 f * k) (adj4_02 f * k) (adj4_12 f * k) (adj4_22 f * k) (adj4_32 f * k) (adj4_03 f * k) (adj4_13 f * k) (adj4_23 f * k) (adj4_33 f * k)) true)).
  Proof.
    intro H. apply repr4_iff in H.
    assert (Hf : forall i j, (i < 4)%N -> (j < 4)%N -> f i j = log4 m i j) by (intros; symmetry; apply H; assumption).
    unfold adj4_00, adj4_01, adj4_02, adj4_03.
    unfold adj4_10, adj4_11, adj4_12, adj4_13.
    unfold adj4_20, adj4_21, adj4_22, adj4_23.
    unfold adj4_30, adj4_31, adj4_32, adj4_33.
    unfold adj4_det, adj4_00, adj4_01, adj4_02, adj4_03.
    rewrite !Hf by reflexivity. clear H Hf f.
    destruct m as [[] []]; reflexivity.
  Qed.

  Definition det3_of (f : lmat Nm) : Nm :=
    f 0%N 0%N * (f 1%N 1%N * f 2%N 2%N - f 2%N 1%N * f 1%N 2%N) - f 1%N 0%N * (f 0%N 1%N * f 2%N 2%N - f 2%N 1%N * f 0%N 2%N) + f 2%N 0%N * (f 0%N 1%N * f 1%N 2%N - f 1%N 1%N * f 0%N 2%N).
  Definition inv3_00 (f : lmat Nm) : Nm := f 1%N 1%N * f 2%N 2%N - f 1%N 2%N * f 2%N 1%N / det3_of f.
  Definition inv3_10 (f : lmat Nm) : Nm := -(f 1%N 0%N * f 2%N 2%N - f 1%N 2%N * f 2%N 0%N) / det3_of f.
  Definition inv3_20 (f : lmat Nm) : Nm := f 1%N 0%N * f 2%N 1%N - f 1%N 1%N * f 2%N 0%N / det3_of f.
  Definition inv3_01 (f : lmat Nm) : Nm := f 0%N 1%N * f 2%N 2%N - f 0%N 2%N * f 2%N 1%N / det3_of f.
  Definition inv3_11 (f : lmat Nm) : Nm := -(f 0%N 0%N * f 2%N 2%N - f 0%N 2%N * f 2%N 0%N) / det3_of f.
  Definition inv3_21 (f : lmat Nm) : Nm := f 0%N 0%N * f 2%N 1%N - f 0%N 1%N * f 2%N 0%N / det3_of f.
  Definition inv3_02 (f : lmat Nm) : Nm := f 0%N 1%N * f 1%N 2%N - f 0%N 2%N * f 1%N 1%N / det3_of f.
  Definition inv3_12 (f : lmat Nm) : Nm := -(f 0%N 0%N * f 1%N 2%N - f 0%N 2%N * f 1%N 0%N) / det3_of f.
  Definition inv3_22 (f : lmat Nm) : Nm := f 0%N 0%N * f 1%N 1%N - f 0%N 1%N * f 1%N 0%N / det3_of f.
  Lemma inv3_eval (m : mat3 Nm) f : repr3 m f ->
    mat3_inverse m =
      if nlt (det3_of f) (nlit Nm 1 10000000000) && ngt (det3_of f) (- nlit Nm 1 100000000000) then Ok None
      else Ok (Some (mat3_init (A9
        (inv3_00 f) (inv3_01 f) (inv3_02 f) (inv3_10 f) (inv3_11 f) (inv3_12 f) (inv3_20 f) (inv3_21 f) (inv3_22 f)) (m3_rm m))).
  Proof.
    intro H. apply repr3_iff in H.
    assert (Hf : forall i j, (i < 3)%N -> (j < 3)%N -> f i j = log3 m i j) by (intros; symmetry; apply H; assumption).
    unfold inv3_00, inv3_01, inv3_02, inv3_10, inv3_11, inv3_12, inv3_20, inv3_21, inv3_22, det3_of.
    rewrite !Hf by reflexivity. clear H Hf f.
    destruct m as [[] []]; reflexivity.
  Qed.
End InvGeneric.

Local Open Scope R_scope.

Section InvExact.
  Context (eps : R) (zs : XR -> bool).
  Notation E := (Exact eps zs).

  Ltac adj4_tac :=
    unfold adj4_det, adj4_00, adj4_01, adj4_02, adj4_03, adj4_10, adj4_11, adj4_12, adj4_13,
      adj4_20, adj4_21, adj4_22, adj4_23, adj4_30, adj4_31, adj4_32, adj4_33, fin;
    cbn [nmul nadd nsub nneg Exact xmul xadd xsub xneg];
    unfold radj4, rdet4, rdet3, rdet2, minor, minor2, skip, sgn; simpl; f_equal; ring.

  Lemma adj4_fin f i j : (i < 4)%N -> (j < 4)%N -> @adj4 E (fin f) i j = Fin (radj4 f i j).
  Proof. intros Hi Hj. cases4 i Hi; cases4 j Hj; cbn [adj4 rows16]; adj4_tac. Qed.
  Lemma adj4_det_fin f : @adj4_det E (fin f) = Fin (rdet4 f).
  Proof. adj4_tac. Qed.

  Lemma inv4_fin (m : mat4 E) f : repr4 m (fin f : lmat E) ->
    (Rabs (rdet4 f) < eps -> mat4_inverse m = Ok None) /\
    (eps <= Rabs (rdet4 f) -> rdet4 f <> 0 ->
      exists r, mat4_inverse m = Ok (Some r) /\ m4_rm r = true /\
        repr4 r (fin (fun i j => radj4 f j i * / rdet4 f) : lmat E)).
  Proof.
    intro H. rewrite (inv4_eval m _ H), adj4_det_fin. clear H m.
    change (nabs E (Fin (rdet4 f))) with (Fin (Rabs (rdet4 f))). change (neps E) with (Fin eps).
    rewrite nlt_fin. split.
    - intro Hl. destruct (Rlt_dec (Rabs (rdet4 f)) eps); [reflexivity | contradiction].
    - intros Hl Hd. destruct (Rlt_dec (Rabs (rdet4 f)) eps); [lra |]. cbv zeta.
      change (nlit E 1 1) with (Fin 1). rewrite ndiv_fin by exact Hd.
      eexists; split; [reflexivity | split; [reflexivity |]].
      apply (repr4_ext _ (fun i j => nmul E (@adj4 E (fin f) j i) (Fin (1 / rdet4 f)))).
      + intros chk i j Hi Hj. cases4 i Hi; cases4 j Hj; destruct chk; reflexivity.
      + intros i j Hi Hj. rewrite adj4_fin by assumption. unfold fin. cbn [nmul Exact xmul]. f_equal. unfold Rdiv. ring.
  Qed.

  (** what Mat4::inverse returns: the transpose of the inverse, always row-major *)
  Lemma inv4_meaning (m : mat4 E) f : 0 < eps -> repr4 m (fin f : lmat E) ->
    (mat4_inverse m = Ok None <-> Rabs (rdet4 f) < eps) /\
    (forall o, mat4_inverse m = Ok o -> o = None \/
      exists r g, o = Some r /\ m4_rm r = true /\ repr4 r (fin g : lmat E) /\ rinverse4 f (ltrans g)) /\
    (exists o, mat4_inverse m = Ok o).
  Proof.
    intros He H. destruct (inv4_fin m f H) as [H1 H2].
    destruct (Rlt_dec (Rabs (rdet4 f)) eps) as [Hl | Hl].
    - specialize (H1 Hl). rewrite H1. split; [|split].
      + split; [intros _; exact Hl | reflexivity].
      + intros o Ho. injection Ho as <-. left; reflexivity.
      + eexists; reflexivity.
    - assert (Hd : rdet4 f <> 0) by (intro Hz; rewrite Hz, Rabs_R0 in Hl; lra).
      destruct (H2 ltac:(lra) Hd) as [r [E1 [R1 Q1]]]. rewrite E1. split; [|split].
      + split; [discriminate | intro; contradiction].
      + intros o Ho. injection Ho as <-. right. exists r, (fun i j => radj4 f j i * / rdet4 f).
        repeat split; try assumption; apply (radj4_inverse f Hd).
      + eexists; reflexivity.
  Qed.

  (** the matrix with ones on the diagonal and at (0,1) *)
  Definition shear : rmat := fun i j => if ((i =? j) || ((i =? 0) && (j =? 1)))%N then 1 else 0.
  Definition shear_arr : arr16 E :=
    A16 (Fin 1) (Fin 1) (Fin 0) (Fin 0) (Fin 0) (Fin 1) (Fin 0) (Fin 0)
        (Fin 0) (Fin 0) (Fin 1) (Fin 0) (Fin 0) (Fin 0) (Fin 0) (Fin 1).

  Lemma shear_det : rdet4 shear = 1.
  Proof. unfold rdet4, rdet3, rdet2, minor, skip, shear; simpl. ring. Qed.

  Lemma inv4_not_inverse : 0 < eps <= 1 ->
    ~ (forall (m r p : mat4 E) f, repr4 m (fin f : lmat E) -> mat4_inverse m = Ok (Some r) ->
         mat4_mul m r = Ok (Some p) -> repr4 p (fin riden : lmat E)).
  Proof.
    intros He Hall.
    assert (Hm : repr4 (mat4_init shear_arr true) (fin shear : lmat E)).
    { eapply repr4_ext; [apply init4_repr |]. intros i j Hi Hj. cases4 i Hi; cases4 j Hj; reflexivity. }
    destruct (inv4_fin _ _ Hm) as [_ H2].
    destruct H2 as [r [E1 [R1 Q1]]]; [rewrite shear_det, Rabs_R1; lra | rewrite shear_det; lra |].
    destruct (mul4_fin eps zs (mat4_init shear_arr true) r _ _ (eq_sym R1) Hm Q1) as [p [E2 [R2 Q2]]].
    pose proof (Hall _ _ _ _ Hm E1 E2) as Q.
    pose proof (repr4_unique _ _ _ Q Q2 0%N 0%N eq_refl eq_refl) as C.
    unfold fin in C. injection C as C. revert C. rewrite shear_det.
    unfold riden, rmul4, rsum4, radj4, rdet3, rdet2, minor, minor2, skip, sgn, shear; simpl. lra.
  Qed.

  (** ---- Mat3 ---- *)
  Lemma det3_fin f : @det3_of E (fin f) = Fin (rdet3 f).
  Proof.
    unfold det3_of, fin. cbn [nmul nadd nsub Exact xmul xadd xsub].
    unfold rdet3, rdet2, minor, skip; simpl. f_equal. ring.
  Qed.

  Definition band3 (d : R) : Prop := - (1 / 100000000000) < d < 1 / 10000000000.

  Ltac inv3_tac Hd :=
    unfold inv3_00, inv3_01, inv3_02, inv3_10, inv3_11, inv3_12, inv3_20, inv3_21, inv3_22;
    rewrite ?det3_fin; unfold fin; cbn [nmul nadd nsub nneg Exact xmul xadd xsub xneg];
    rewrite ?ndiv_fin by exact Hd; cbn [xsub].

  (** the entries the code computes *)
  Definition bad3 (f : rmat) (d : R) : rmat := fun i j =>
    match i, j with
    | 0%N, 0%N => f 1%N 1%N * f 2%N 2%N - f 1%N 2%N * f 2%N 1%N / d
    | 1%N, 0%N => - (f 1%N 0%N * f 2%N 2%N - f 1%N 2%N * f 2%N 0%N) / d
    | 2%N, 0%N => f 1%N 0%N * f 2%N 1%N - f 1%N 1%N * f 2%N 0%N / d
    | 0%N, 1%N => f 0%N 1%N * f 2%N 2%N - f 0%N 2%N * f 2%N 1%N / d
    | 1%N, 1%N => - (f 0%N 0%N * f 2%N 2%N - f 0%N 2%N * f 2%N 0%N) / d
    | 2%N, 1%N => f 0%N 0%N * f 2%N 1%N - f 0%N 1%N * f 2%N 0%N / d
    | 0%N, 2%N => f 0%N 1%N * f 1%N 2%N - f 0%N 2%N * f 1%N 1%N / d
    | 1%N, 2%N => - (f 0%N 0%N * f 1%N 2%N - f 0%N 2%N * f 1%N 0%N) / d
    | _, _ => f 0%N 0%N * f 1%N 1%N - f 0%N 1%N * f 1%N 0%N / d
    end.

  Lemma inv3_fin (m : mat3 E) f : repr3 m (fin f : lmat E) ->
    (band3 (rdet3 f) -> mat3_inverse m = Ok None) /\
    (~ band3 (rdet3 f) -> exists r, mat3_inverse m = Ok (Some r) /\ m3_rm r = m3_rm m /\
       repr3 r (fin (bad3 f (rdet3 f)) : lmat E)).
  Proof.
    intro H. rewrite (inv3_eval m _ H), det3_fin.
    change (nneg E (nlit E 1 100000000000)) with (Fin (- (1 / 100000000000))).
    change (nlit E 1 10000000000) with (Fin (1 / 10000000000)).
    rewrite nlt_fin, ngt_fin. unfold band3. split.
    - intros [H1 H2]. destruct (Rlt_dec (rdet3 f) (1 / 10000000000)); [|lra].
      destruct (Rlt_dec (- (1 / 100000000000)) (rdet3 f)); [reflexivity | lra].
    - intro Hb. assert (Hd : rdet3 f <> 0) by lra.
      destruct (Rlt_dec (rdet3 f) (1 / 10000000000)), (Rlt_dec (- (1 / 100000000000)) (rdet3 f)); cbn [andb];
        try (exfalso; apply Hb; split; assumption);
        (eexists; split; [reflexivity | split; [apply init3_rm |]];
         eapply repr3_ext; [apply init3_repr |];
         intros i j Hi Hj; cases3 i Hi; cases3 j Hj; cbn [rows9]; inv3_tac Hd; reflexivity).
  Qed.

  (** None exactly in the tolerance band; never a panic; the layout is kept *)
  Lemma inv3_none (m : mat3 E) f : repr3 m (fin f : lmat E) ->
    (mat3_inverse m = Ok None <-> band3 (rdet3 f)) /\
    (exists o, mat3_inverse m = Ok o) /\
    (forall r, mat3_inverse m = Ok (Some r) -> m3_rm r = m3_rm m).
  Proof.
    intro H. destruct (inv3_fin m f H) as [H1 H2].
    assert (Hdec : band3 (rdet3 f) \/ ~ band3 (rdet3 f)) by (unfold band3; lra).
    destruct Hdec as [Hb | Hb].
    - specialize (H1 Hb). rewrite H1. repeat split; try (eexists; reflexivity); try discriminate; intros; apply Hb.
    - destruct (H2 Hb) as [r [E1 [R1 Q1]]]. rewrite E1. split; [|split].
      + split; [discriminate | intro; contradiction].
      + eexists; reflexivity.
      + intros r' Hr. injection Hr as <-. exact R1.
  Qed.

  (** for determinant one the result is the inverse with the middle column negated *)
  Lemma inv3_unimodular (m : mat3 E) f : repr3 m (fin f : lmat E) -> rdet3 f = 1 ->
    exists r g, mat3_inverse m = Ok (Some r) /\ repr3 r (fin g : lmat E) /\
      lmat_eq 3 (rmul3 f g) rflip /\ rinverse3 f (rmul3 g rflip).
  Proof.
    intros H Hd. destruct (inv3_fin m f H) as [_ H2].
    destruct (H2 ltac:(unfold band3; lra)) as [r [E1 [R1 Q1]]].
    exists r, (bad3 f (rdet3 f)). split; [exact E1 | split; [exact Q1 |]].
    rewrite Hd.
    assert (Ha : lmat_eq 3 (rmul3 (bad3 f 1) rflip) (fun i j => radj3 f i j * / rdet3 f)).
    { intros i j Hi Hj. rewrite Hd, Rinv_1. cases3 i Hi; cases3 j Hj;
      unfold rmul3, rsum3, rflip, bad3, radj3, rdet2, minor2, skip, sgn; simpl; field. }
    assert (Hb : rinverse3 f (rmul3 (bad3 f 1) rflip)).
    { destruct (radj3_inverse f ltac:(lra)) as [I1 I2]. split; intros i j Hi Hj;
      [rewrite <- (I1 i j Hi Hj) | rewrite <- (I2 i j Hi Hj)]; unfold rmul3 at 1 3; unfold rsum3;
      rewrite ?Ha by (reflexivity || assumption); reflexivity. }
    split; [| exact Hb].
    intros i j Hi Hj. destruct Hb as [I1 _].
    pose proof (I1 i j Hi Hj) as Q. revert Q. unfold rmul3, rsum3, rflip, riden.
    cases3 i Hi; cases3 j Hj; simpl; lra.
  Qed.

  Lemma inv3_not_inverse :
    ~ (forall (m r p : mat3 E) f, repr3 m (fin f : lmat E) -> mat3_inverse m = Ok (Some r) ->
         mat3_mul m r = Ok (Some p) -> repr3 p (fin riden : lmat E)).
  Proof.
    intro Hall. destruct (@iden3_spec E) as [i [E1 [R1 Q1]]].
    assert (Q1' : repr3 i (fin riden : lmat E)) by (eapply repr3_ext; [exact Q1 | intros p q _ _; apply liden_fin]).
    assert (Hd : rdet3 riden = 1) by (unfold rdet3, rdet2, minor, skip, riden; simpl; ring).
    destruct (inv3_unimodular i riden Q1' Hd) as [r [g [E2 [Q2 [P2 _]]]]].
    destruct (inv3_none i riden Q1') as [_ [_ HL]]. specialize (HL r E2).
    destruct (mul3_fin eps zs i r _ _ (eq_sym HL) Q1' Q2) as [p [E3 [R3 Q3]]].
    pose proof (Hall _ _ _ _ Q1' E2 E3) as Q.
    pose proof (repr3_unique _ _ _ Q Q3 1%N 1%N eq_refl eq_refl) as C. unfold fin in C. injection C as C.
    rewrite (P2 1%N 1%N eq_refl eq_refl) in C. unfold riden, rflip in C. simpl in C. lra.
  Qed.
End InvExact.
