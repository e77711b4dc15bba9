(** PMat.v — proofs about matrices that hold for every scalar arithmetic. *)
From Coq Require Import List ZArith NArith Bool Lia.
Import ListNotations.
From Verif Require Import Base Num Vec Mat SpecMat.

Lemma lt3_cases (i : N) : (i < 3)%N -> (i = 0 \/ i = 1 \/ i = 2)%N.
Proof. lia. Qed.
Lemma lt4_cases (i : N) : (i < 4)%N -> (i = 0 \/ i = 1 \/ i = 2 \/ i = 3)%N.
Proof. lia. Qed.
Ltac cases3 i H := destruct (lt3_cases i H) as [-> | [-> | ->]].
Ltac cases4 i H := destruct (lt4_cases i H) as [-> | [-> | [-> | ->]]].

Section PMat.
  Context {Nm : Num}.

  (** the logical matrix a stored matrix represents *)
  Definition log3 (m : mat3 Nm) : lmat Nm :=
    if m3_rm m then rows9 (m3_val m) else ltrans (rows9 (m3_val m)).
  Definition log4 (m : mat4 Nm) : lmat Nm :=
    if m4_rm m then rows16 (m4_val m) else ltrans (rows16 (m4_val m)).

  Lemma repr3_log (m : mat3 Nm) : repr3 m (log3 m).
  Proof.
    intros chk i j Hi Hj. destruct m as [[] rm]. cases3 i Hi; cases3 j Hj; destruct rm, chk; reflexivity.
  Qed.
  Lemma repr4_log (m : mat4 Nm) : repr4 m (log4 m).
  Proof.
    intros chk i j Hi Hj. destruct m as [[] rm]. cases4 i Hi; cases4 j Hj; destruct rm, chk; reflexivity.
  Qed.
  Lemma repr3_unique (m : mat3 Nm) f g : repr3 m f -> repr3 m g -> lmat_eq 3 f g.
  Proof. intros Hf Hg i j Hi Hj. specialize (Hf true i j Hi Hj). specialize (Hg true i j Hi Hj). congruence. Qed.
  Lemma repr4_unique (m : mat4 Nm) f g : repr4 m f -> repr4 m g -> lmat_eq 4 f g.
  Proof. intros Hf Hg i j Hi Hj. specialize (Hf true i j Hi Hj). specialize (Hg true i j Hi Hj). congruence. Qed.
  Lemma repr3_ext (m : mat3 Nm) f g : repr3 m f -> lmat_eq 3 f g -> repr3 m g.
  Proof. intros Hf E chk i j Hi Hj. rewrite <- E by assumption. auto. Qed.
  Lemma repr4_ext (m : mat4 Nm) f g : repr4 m f -> lmat_eq 4 f g -> repr4 m g.
  Proof. intros Hf E chk i j Hi Hj. rewrite <- E by assumption. auto. Qed.
  Lemma repr3_iff (m : mat3 Nm) f : repr3 m f <-> lmat_eq 3 (log3 m) f.
  Proof.
    split; intro H.
    - eapply repr3_unique; [apply repr3_log | exact H].
    - eapply repr3_ext; [apply repr3_log | exact H].
  Qed.
  Lemma repr4_iff (m : mat4 Nm) f : repr4 m f <-> lmat_eq 4 (log4 m) f.
  Proof.
    split; intro H.
    - eapply repr4_unique; [apply repr4_log | exact H].
    - eapply repr4_ext; [apply repr4_log | exact H].
  Qed.
  (** a matrix is determined by its layout and its logical entries *)
  Lemma repr3_inj (a b : mat3 Nm) f : m3_rm a = m3_rm b -> repr3 a f -> repr3 b f -> a = b.
  Proof.
    intros Hrm Ha Hb. apply repr3_iff in Ha. apply repr3_iff in Hb.
    assert (H : lmat_eq 3 (log3 a) (log3 b)) by (intros i j Hi Hj; rewrite Ha, Hb by assumption; reflexivity).
    destruct a as [[] ra], b as [[] rb]. simpl in Hrm. subst rb.
    pose proof (H 0 0 eq_refl eq_refl)%N as H00. pose proof (H 0 1 eq_refl eq_refl)%N as H01.
    pose proof (H 0 2 eq_refl eq_refl)%N as H02. pose proof (H 1 0 eq_refl eq_refl)%N as H10.
    pose proof (H 1 1 eq_refl eq_refl)%N as H11. pose proof (H 1 2 eq_refl eq_refl)%N as H12.
    pose proof (H 2 0 eq_refl eq_refl)%N as H20. pose proof (H 2 1 eq_refl eq_refl)%N as H21.
    pose proof (H 2 2 eq_refl eq_refl)%N as H22.
    destruct ra; cbn in *; subst; reflexivity.
  Qed.
  Lemma repr4_inj (a b : mat4 Nm) f : m4_rm a = m4_rm b -> repr4 a f -> repr4 b f -> a = b.
  Proof.
    intros Hrm Ha Hb. apply repr4_iff in Ha. apply repr4_iff in Hb.
    assert (H : lmat_eq 4 (log4 a) (log4 b)) by (intros i j Hi Hj; rewrite Ha, Hb by assumption; reflexivity).
    destruct a as [[] ra], b as [[] rb]. simpl in Hrm. subst rb.
    pose proof (H 0 0 eq_refl eq_refl)%N as H00. pose proof (H 0 1 eq_refl eq_refl)%N as H01.
    pose proof (H 0 2 eq_refl eq_refl)%N as H02. pose proof (H 0 3 eq_refl eq_refl)%N as H03.
    pose proof (H 1 0 eq_refl eq_refl)%N as H10. pose proof (H 1 1 eq_refl eq_refl)%N as H11.
    pose proof (H 1 2 eq_refl eq_refl)%N as H12. pose proof (H 1 3 eq_refl eq_refl)%N as H13.
    pose proof (H 2 0 eq_refl eq_refl)%N as H20. pose proof (H 2 1 eq_refl eq_refl)%N as H21.
    pose proof (H 2 2 eq_refl eq_refl)%N as H22. pose proof (H 2 3 eq_refl eq_refl)%N as H23.
    pose proof (H 3 0 eq_refl eq_refl)%N as H30. pose proof (H 3 1 eq_refl eq_refl)%N as H31.
    pose proof (H 3 2 eq_refl eq_refl)%N as H32. pose proof (H 3 3 eq_refl eq_refl)%N as H33.
    destruct ra; cbn in *; subst; reflexivity.
  Qed.

  (** C01 *)
  Lemma init3_repr (arr : arr9 Nm) rm : repr3 (mat3_init arr rm) (rows9 arr).
  Proof. apply repr3_iff. intros i j Hi Hj. destruct arr, rm; cases3 i Hi; cases3 j Hj; reflexivity. Qed.
  Lemma init4_repr (arr : arr16 Nm) rm : repr4 (mat4_init arr rm) (rows16 arr).
  Proof. apply repr4_iff. intros i j Hi Hj. destruct arr, rm; cases4 i Hi; cases4 j Hj; reflexivity. Qed.
  Lemma init3_rm (arr : arr9 Nm) rm : m3_rm (mat3_init arr rm) = rm.
  Proof. destruct rm, arr; reflexivity. Qed.
  Lemma init4_rm (arr : arr16 Nm) rm : m4_rm (mat4_init arr rm) = rm.
  Proof. destruct rm, arr; reflexivity. Qed.

  (** C03 *)
  Lemma set3_repr (m : mat3 Nm) f chk i j v :
    repr3 m f -> (i < 3)%N -> (j < 3)%N ->
    exists m', mat3_set chk m i j v = Ok m' /\ m3_rm m' = m3_rm m /\ repr3 m' (lset f i j v).
  Proof.
    intros Hr Hi Hj. apply repr3_iff in Hr. destruct m as [[] rm].
    cases3 i Hi; cases3 j Hj; destruct rm, chk;
      (eexists; split; [reflexivity | split; [reflexivity |]]);
      apply repr3_iff; intros p q Hp Hq; unfold lset; rewrite <- Hr by assumption;
      cases3 p Hp; cases3 q Hq; reflexivity.
  Qed.
  Lemma set4_repr (m : mat4 Nm) f chk i j v :
    repr4 m f -> (i < 4)%N -> (j < 4)%N ->
    exists m', mat4_set chk m i j v = Ok m' /\ m4_rm m' = m4_rm m /\ repr4 m' (lset f i j v).
  Proof.
    intros Hr Hi Hj. apply repr4_iff in Hr. destruct m as [[] rm].
    cases4 i Hi; cases4 j Hj; destruct rm, chk;
      (eexists; split; [reflexivity | split; [reflexivity |]]);
      apply repr4_iff; intros p q Hp Hq; unfold lset; rewrite <- Hr by assumption;
      cases4 p Hp; cases4 q Hq; reflexivity.
  Qed.

  (** C04 *)
  Lemma transpose3_repr (m : mat3 Nm) f : repr3 m f ->
    exists m', mat3_transpose m = Ok m' /\ m3_rm m' = m3_rm m /\ repr3 m' (ltrans f).
  Proof.
    intros Hr. apply repr3_iff in Hr. destruct m as [[] rm].
    eexists; split; [reflexivity | split; [reflexivity |]].
    apply repr3_iff; intros p q Hp Hq. unfold ltrans. rewrite <- Hr by assumption.
    destruct rm; cases3 p Hp; cases3 q Hq; reflexivity.
  Qed.
  Lemma transpose4_repr (m : mat4 Nm) f : repr4 m f ->
    exists m', mat4_transpose m = Ok m' /\ m4_rm m' = m4_rm m /\ repr4 m' (ltrans f).
  Proof.
    intros Hr. apply repr4_iff in Hr. destruct m as [[] rm].
    eexists; split; [reflexivity | split; [reflexivity |]].
    apply repr4_iff; intros p q Hp Hq. unfold ltrans. rewrite <- Hr by assumption.
    destruct rm; cases4 p Hp; cases4 q Hq; reflexivity.
  Qed.
  Lemma transpose3_self (m : mat3 Nm) : mat3_transpose_self m = mat3_transpose m.
  Proof. destruct m as [[] rm]. reflexivity. Qed.
  Lemma transpose4_self (m : mat4 Nm) : mat4_transpose_self m = mat4_transpose m.
  Proof. destruct m as [[] rm]. reflexivity. Qed.
  Lemma transpose3_inv (m : mat3 Nm) : (let! t := mat3_transpose m in mat3_transpose t) = Ok m.
  Proof. destruct m as [[] rm]. reflexivity. Qed.
  Lemma transpose4_inv (m : mat4 Nm) : (let! t := mat4_transpose m in mat4_transpose t) = Ok m.
  Proof. destruct m as [[] rm]. reflexivity. Qed.

  (** C05 *)
  Lemma mul3_repr (a b : mat3 Nm) f g : m3_rm a = m3_rm b -> repr3 a f -> repr3 b g ->
    exists c, mat3_mul a b = Ok (Some c) /\ m3_rm c = m3_rm a /\ repr3 c (lmul3 f g).
  Proof.
    intros Hrm Ha Hb. apply repr3_iff in Ha. apply repr3_iff in Hb.
    destruct a as [[] ra], b as [[] rb]. simpl in Hrm. subst rb.
    destruct ra;
      (eexists; split; [reflexivity | split; [reflexivity |]]);
      apply repr3_iff; intros p q Hp Hq; unfold lmul3, sum3; rewrite <- !Ha, <- !Hb by (assumption || reflexivity);
      cases3 p Hp; cases3 q Hq; reflexivity.
  Qed.
  Lemma mul4_repr (a b : mat4 Nm) f g : m4_rm a = m4_rm b -> repr4 a f -> repr4 b g ->
    exists c, mat4_mul a b = Ok (Some c) /\ m4_rm c = m4_rm a /\ repr4 c (lmul4 f g).
  Proof.
    intros Hrm Ha Hb. apply repr4_iff in Ha. apply repr4_iff in Hb.
    destruct a as [[] ra], b as [[] rb]. simpl in Hrm. subst rb.
    destruct ra;
      (eexists; split; [reflexivity | split; [reflexivity |]]);
      apply repr4_iff; intros p q Hp Hq; unfold lmul4, sum4; rewrite <- !Ha, <- !Hb by (assumption || reflexivity);
      cases4 p Hp; cases4 q Hq; reflexivity.
  Qed.
  Lemma mul3_mixed (a b : mat3 Nm) : m3_rm a <> m3_rm b -> mat3_mul a b = Panic PAssert.
  Proof. destruct a as [va []], b as [vb []]; simpl; intro H; congruence || reflexivity. Qed.
  Lemma mul4_mixed (a b : mat4 Nm) : m4_rm a <> m4_rm b -> mat4_mul a b = Panic PAssert.
  Proof. destruct a as [va []], b as [vb []]; simpl; intro H; congruence || reflexivity. Qed.

  (** C06 *)
  Definition logc3 (v : mat3x1 Nm) : lvec Nm := comps3 (v3x1 v).
  Definition logr3 (v : mat1x3 Nm) : lvec Nm := comps3 (v1x3 v).
  Definition logc4 (v : mat4x1 Nm) : lvec Nm := comps4 (v4x1 v).
  Definition logr4 (v : mat1x4 Nm) : lvec Nm := comps4 (v1x4 v).
  Lemma reprc3_iff (v : mat3x1 Nm) f : reprc3 v f <-> lvec_eq 3 (logc3 v) f.
  Proof.
    destruct v as [[]]. split; intros H i Hi; specialize (H i Hi).
    - cases3 i Hi; injection H as H; exact H.
    - rewrite <- H. cases3 i Hi; reflexivity.
  Qed.
  Lemma reprr3_iff (v : mat1x3 Nm) f : reprr3 v f <-> lvec_eq 3 (logr3 v) f.
  Proof.
    destruct v as [[]]. split; intros H i Hi; specialize (H i Hi).
    - cases3 i Hi; injection H as H; exact H.
    - rewrite <- H. cases3 i Hi; reflexivity.
  Qed.
  Lemma reprc4_iff (v : mat4x1 Nm) f : reprc4 v f <-> lvec_eq 4 (logc4 v) f.
  Proof.
    destruct v as [[]]. split; intros H i Hi; specialize (H i Hi).
    - cases4 i Hi; injection H as H; exact H.
    - rewrite <- H. cases4 i Hi; reflexivity.
  Qed.
  Lemma reprr4_iff (v : mat1x4 Nm) f : reprr4 v f <-> lvec_eq 4 (logr4 v) f.
  Proof.
    destruct v as [[]]. split; intros H i Hi; specialize (H i Hi).
    - cases4 i Hi; injection H as H; exact H.
    - rewrite <- H. cases4 i Hi; reflexivity.
  Qed.
  Lemma mulv3_repr (a : mat3 Nm) (v : mat3x1 Nm) f g : repr3 a f -> reprc3 v g ->
    exists w, mat3_mul_mat3x1 a v = Ok (Some w) /\ reprc3 w (lmulv3 f g).
  Proof.
    intros Ha Hv. apply repr3_iff in Ha. apply reprc3_iff in Hv. destruct a as [[] ra], v as [[]].
    destruct ra; (eexists; split; [reflexivity |]);
      apply reprc3_iff; intros p Hp; unfold lmulv3, sum3; rewrite <- !Ha, <- !Hv by (assumption || reflexivity);
      cases3 p Hp; reflexivity.
  Qed.
  Lemma mulv4_repr (a : mat4 Nm) (v : mat4x1 Nm) f g : repr4 a f -> reprc4 v g ->
    exists w, mat4_mul_mat4x1 a v = Ok (Some w) /\ reprc4 w (lmulv4 f g).
  Proof.
    intros Ha Hv. apply repr4_iff in Ha. apply reprc4_iff in Hv. destruct a as [[] ra], v as [[]].
    destruct ra; (eexists; split; [reflexivity |]);
      apply reprc4_iff; intros p Hp; unfold lmulv4, sum4; rewrite <- !Ha, <- !Hv by (assumption || reflexivity);
      cases4 p Hp; reflexivity.
  Qed.
  Lemma vmul3_repr (a : mat3 Nm) (v : mat1x3 Nm) f g : repr3 a f -> reprr3 v g ->
    exists w, mat1x3_mul_mat3x3 v a = Ok (Some w) /\ reprr3 w (lvmul3 g f).
  Proof.
    intros Ha Hv. apply repr3_iff in Ha. apply reprr3_iff in Hv. destruct a as [[] ra], v as [[]].
    destruct ra; (eexists; split; [reflexivity |]);
      apply reprr3_iff; intros p Hp; unfold lvmul3, sum3; rewrite <- !Ha, <- !Hv by (assumption || reflexivity);
      cases3 p Hp; reflexivity.
  Qed.
  Lemma vmul4_repr (a : mat4 Nm) (v : mat1x4 Nm) f g : repr4 a f -> reprr4 v g ->
    exists w, mat1x4_mul_mat4x4 v a = Ok (Some w) /\ reprr4 w (lvmul4 g f).
  Proof.
    intros Ha Hv. apply repr4_iff in Ha. apply reprr4_iff in Hv. destruct a as [[] ra], v as [[]].
    destruct ra; (eexists; split; [reflexivity |]);
      apply reprr4_iff; intros p Hp; unfold lvmul4, sum4; rewrite <- !Ha, <- !Hv by (assumption || reflexivity);
      cases4 p Hp; reflexivity.
  Qed.
  (** v * M = (M^T * v^T)^T, the same scalars *)
  Lemma vmul3_transpose (a : mat3 Nm) (v : mat1x3 Nm) :
    mat1x3_mul_mat3x3 v a =
    (let! t := mat3_transpose a in
     let! o := mat3_mul_mat3x1 t (mat1x3_transpose v) in
     Ok (option_map mat3x1_transpose o)).
  Proof. destruct a as [[] []], v as [[]]; reflexivity. Qed.
  Lemma vmul4_transpose (a : mat4 Nm) (v : mat1x4 Nm) :
    mat1x4_mul_mat4x4 v a =
    (let! t := mat4_transpose a in
     let! o := mat4_mul_mat4x1 t (mat1x4_transpose v) in
     Ok (option_map mat4x1_transpose o)).
  Proof. destruct a as [[] []], v as [[]]; reflexivity. Qed.
End PMat.
