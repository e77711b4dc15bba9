(** Order.v — what the comparison operators mean, for every scalar arithmetic whose comparison embeds into the extended
    reals (both instances do). *)
From Coq Require Import Reals ZArith Bool Lra.
From Flocq Require Import Core BinarySingleNaN.
From Verif Require Import Base Num Float Exact FloatFacts.
Local Open Scope R_scope.

(** the order of the extended reals; NaN is related to nothing *)
Definition xle (a b : XR) : Prop :=
  match a, b with
  | NaN, _ | _, NaN => False
  | NInf, _ | _, PInf => True
  | Fin a, Fin b => a <= b
  | _, _ => False
  end.
Definition xlt (a b : XR) : Prop :=
  match a, b with
  | NaN, _ | _, NaN => False
  | NInf, NInf | PInf, PInf => False
  | NInf, _ | _, PInf => True
  | Fin a, Fin b => a < b
  | _, _ => False
  end.

Record ordered (Nm : Num) := MkOrdered {
  emb : Nm -> XR;
  emb_cmp : forall a b, ncmp Nm a b = xcmp (emb a) (emb b);
  emb_inf : emb (ninf Nm) = PInf;
  emb_ninf : emb (nninf Nm) = NInf
}.
Arguments emb {Nm} _ _.
Arguments emb_cmp {Nm} _ _ _.

Definition exact_ordered (eps : R) (zs : XR -> bool) : ordered (Exact eps zs).
Proof. exact (MkOrdered (Exact eps zs) (fun x => x) (fun _ _ => eq_refl) eq_refl eq_refl). Defined.
Definition ieee_ordered prec emax {Hp : Prec_gt_0 prec} {Hm : Prec_lt_emax prec emax} (lm : libm (binary_float prec emax)) :
  ordered (@Ieee prec emax Hp Hm lm).
Proof. exact (MkOrdered (@Ieee prec emax Hp Hm lm) (b2x prec emax) (Bcompare_xcmp prec emax) eq_refl eq_refl). Defined.

Lemma xle_trans a b c : xle a b -> xle b c -> xle a c.
Proof. destruct a, b, c; simpl; try tauto; lra. Qed.
Lemma xle_refl a : a <> NaN -> xle a a.
Proof. destruct a; simpl; try tauto; intros; lra. Qed.
Lemma xle_total a b : a <> NaN -> b <> NaN -> xle a b \/ xle b a.
Proof. destruct a, b; simpl; try tauto; intros; lra. Qed.
Lemma xle_antisym a b : xle a b -> xle b a -> a = b.
Proof. destruct a, b; simpl; try tauto. intros; f_equal; lra. Qed.
Lemma xlt_nle a b : a <> NaN -> b <> NaN -> (xlt a b <-> ~ xle b a).
Proof. destruct a, b; simpl; try tauto; intros; lra. Qed.
Lemma xle_nlt a b : a <> NaN -> b <> NaN -> (xle a b <-> ~ xlt b a).
Proof. destruct a, b; simpl; try tauto; intros; lra. Qed.
Lemma xlt_xle a b : xlt a b -> xle a b.
Proof. destruct a, b; simpl; try tauto; lra. Qed.

Section Ordered.
  Context {Nm : Num} (O : ordered Nm).
  Notation "# a" := (emb O a) (at level 9).

  Ltac go a b :=
    unfold nle, nlt, nge, ngt, neqb, nisnan, nne; rewrite (emb_cmp O);
    destruct (emb O a), (emb O b); simpl;
    repeat match goal with |- context [Rlt_dec ?x ?y] => destruct (Rlt_dec x y) end;
    try (split; (intro; try discriminate; try reflexivity; try tauto; try lra)).

  Lemma nle_iff (a b : Nm) : nle a b = true <-> xle #a #b. Proof. go a b. Qed.
  Lemma nge_iff (a b : Nm) : nge a b = true <-> xle #b #a. Proof. go a b. Qed.
  Lemma nlt_iff (a b : Nm) : nlt a b = true <-> xlt #a #b. Proof. go a b. Qed.
  Lemma ngt_iff (a b : Nm) : ngt a b = true <-> xlt #b #a. Proof. go a b. Qed.
  Lemma neqb_iff (a b : Nm) : neqb a b = true <-> (#a = #b /\ #a <> NaN).
  Proof.
    unfold neqb; rewrite (emb_cmp O); destruct (emb O a), (emb O b); simpl;
      repeat match goal with |- context [Rlt_dec ?x ?y] => destruct (Rlt_dec x y) end;
      (split; [intro H; try discriminate H | intros [H1 H2]; try discriminate H1; try reflexivity]);
      try (split; [reflexivity | discriminate]); try tauto.
    - injection H1 as ->. lra.
    - injection H1 as ->. lra.
    - split; [f_equal; lra | discriminate].
  Qed.
  Lemma nisnan_iff (a : Nm) : nisnan a = true <-> #a = NaN.
  Proof.
    unfold nisnan, nne. rewrite negb_true_iff. split; intro H.
    - destruct (emb O a) eqn:Ea; try reflexivity; exfalso;
        (assert (Hc : neqb a a = true) by (apply neqb_iff; rewrite Ea; split; [reflexivity | discriminate])); congruence.
    - destruct (neqb a a) eqn:Eb; [|reflexivity]. apply neqb_iff in Eb. tauto.
  Qed.

  Lemma nlt_false (a b : Nm) : #a <> NaN -> #b <> NaN -> nlt a b = false -> xle #b #a.
  Proof.
    intros Ha Hb H. apply (xle_nlt _ _ Hb Ha). intro C. apply nlt_iff in C. congruence.
  Qed.
  Lemma ngt_false (a b : Nm) : #a <> NaN -> #b <> NaN -> ngt a b = false -> xle #a #b.
  Proof.
    intros Ha Hb H. apply (xle_nlt _ _ Ha Hb). intro C. apply ngt_iff in C. congruence.
  Qed.
End Ordered.
