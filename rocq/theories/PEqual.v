(** PEqual.v — IComparableError::is_equal: meaning, symmetry, NaN behaviour (C11, C12). *)
From Coq Require Import Reals List ZArith NArith Bool Lra Lia.
From Flocq Require Import Core BinarySingleNaN.
Import ListNotations.
From Verif Require Import Base Num Vec Mat Float Exact FloatFacts Order SpecMat SpecReal SpecGeom ExactFacts PMat PMat2.
Local Open Scope R_scope.

(** one comparison [a >= b - error && a <= b + error] *)
Definition close {Nm : Num} (e x y : Nm) : bool := nge x (nsub Nm y e) && nle x (nadd Nm y e).

(** all pairs of two equally long lists *)
Fixpoint close_all {Nm : Num} (e : Nm) (l r : list Nm) : bool :=
  match l, r with x :: l', y :: r' => close e x y && close_all e l' r' | _, _ => true end.

Section Generic.
  Context {Nm : Num}.

  Lemma close_all_forall (e : Nm) l r : length l = length r ->
    (close_all e l r = true <-> Forall2 (fun x y => close e x y = true) l r).
  Proof.
    revert r. induction l as [|x l IH]; intros [|y r] H; try discriminate.
    - split; constructor.
    - simpl. rewrite andb_true_iff. injection H as H. rewrite (IH r H). split.
      + intros [H1 H2]; constructor; assumption.
      + intro HF; inversion HF; split; assumption.
  Qed.

  Lemma for_ret_all (n k : nat) (c : nat -> bool) (body : nat -> res (ctl (option bool))) :
    (forall i, (k <= i < k + n)%nat -> body i = if negb (c i) then Ok (Ret (Some false)) else Ok Next) ->
    for_ret (seq k n) body = Ok (if forallb c (seq k n) then None else Some (Some false)).
  Proof.
    revert k. induction n as [|n IH]; intros k H; [reflexivity |].
    simpl. rewrite H by lia. simpl. destruct (c k) eqn:Ec; simpl; [|reflexivity].
    apply IH. intros i Hi. apply H. lia.
  Qed.

  Lemma is_equal3_eval (a b : mat3 Nm) e :
    mat3_is_equal a b e = Ok (Some (Bool.eqb (m3_rm a) (m3_rm b) && close_all e (list9 (m3_val a)) (list9 (m3_val b)))).
  Proof.
    unfold mat3_is_equal. destruct (Bool.eqb (m3_rm a) (m3_rm b)) eqn:Er; [|reflexivity]. cbn [negb andb].
    rewrite (for_ret_all 9 0 (fun i => close e (nth i (list9 (m3_val a)) n0) (nth i (list9 (m3_val b)) n0))).
    - destruct a as [[] ra], b as [[] rb]. cbn [m3_val list9 seq forallb nth close_all bind].
      match goal with |- context [if ?c then _ else _] => destruct c end; reflexivity.
    - intros i Hi. destruct a as [[] ra], b as [[] rb].
      do 9 (destruct i as [|i]; [reflexivity |]). lia.
  Qed.
  Lemma is_equal4_eval (a b : mat4 Nm) e :
    mat4_is_equal a b e = Ok (Some (Bool.eqb (m4_rm a) (m4_rm b) && close_all e (list16 (m4_val a)) (list16 (m4_val b)))).
  Proof.
    unfold mat4_is_equal. destruct (Bool.eqb (m4_rm a) (m4_rm b)) eqn:Er; [|reflexivity]. cbn [negb andb].
    rewrite (for_ret_all 16 0 (fun i => close e (nth i (list16 (m4_val a)) n0) (nth i (list16 (m4_val b)) n0))).
    - destruct a as [[] ra], b as [[] rb]. cbn [m4_val list16 seq forallb nth close_all bind].
      match goal with |- context [if ?c then _ else _] => destruct c end; reflexivity.
    - intros i Hi. destruct a as [[] ra], b as [[] rb].
      do 16 (destruct i as [|i]; [reflexivity |]). lia.
  Qed.

  (** in terms of entries *)
  Lemma is_equal3_iff (a b : mat3 Nm) f g e : repr3 a f -> repr3 b g ->
    exists r, mat3_is_equal a b e = Ok (Some r) /\
      (r = true <-> (m3_rm a = m3_rm b /\ forall i j, (i < 3)%N -> (j < 3)%N -> close e (f i j) (g i j) = true)).
  Proof.
    intros Ha Hb. apply repr3_iff in Ha. apply repr3_iff in Hb. rewrite is_equal3_eval.
    eexists; split; [reflexivity |]. rewrite andb_true_iff, eqb_true_iff. split; intros [Hr H]; split; try exact Hr.
    - intros i j Hi Hj. rewrite <- Ha, <- Hb by assumption. destruct a as [[] ra], b as [[] rb]. cbn in Hr. subst rb.
      cbn [m3_val list9 close_all] in H. rewrite !andb_true_iff in H.
      destruct ra; cases3 i Hi; cases3 j Hj; cbn; tauto.
    - assert (H' : forall i j, (i < 3)%N -> (j < 3)%N -> close e (log3 a i j) (log3 b i j) = true)
        by (intros; rewrite Ha, Hb by assumption; apply H; assumption). clear H Ha Hb.
      destruct a as [[] ra], b as [[] rb]. cbn in Hr. subst rb. cbn [m3_val list9 close_all]. rewrite !andb_true_iff.
      pose proof (H' 0 0 eq_refl eq_refl)%N. pose proof (H' 0 1 eq_refl eq_refl)%N. pose proof (H' 0 2 eq_refl eq_refl)%N.
      pose proof (H' 1 0 eq_refl eq_refl)%N. pose proof (H' 1 1 eq_refl eq_refl)%N. pose proof (H' 1 2 eq_refl eq_refl)%N.
      pose proof (H' 2 0 eq_refl eq_refl)%N. pose proof (H' 2 1 eq_refl eq_refl)%N. pose proof (H' 2 2 eq_refl eq_refl)%N.
      clear H'. destruct ra; cbn in *; repeat split; assumption.
  Qed.
  Lemma is_equal4_iff (a b : mat4 Nm) f g e : repr4 a f -> repr4 b g ->
    exists r, mat4_is_equal a b e = Ok (Some r) /\
      (r = true <-> (m4_rm a = m4_rm b /\ forall i j, (i < 4)%N -> (j < 4)%N -> close e (f i j) (g i j) = true)).
  Proof.
    intros Ha Hb. apply repr4_iff in Ha. apply repr4_iff in Hb. rewrite is_equal4_eval.
    eexists; split; [reflexivity |]. rewrite andb_true_iff, eqb_true_iff. split; intros [Hr H]; split; try exact Hr.
    - intros i j Hi Hj. rewrite <- Ha, <- Hb by assumption. destruct a as [[] ra], b as [[] rb]. cbn in Hr. subst rb.
      cbn [m4_val list16 close_all] in H. rewrite !andb_true_iff in H.
      destruct ra; cases4 i Hi; cases4 j Hj; cbn; tauto.
    - assert (H' : forall i j, (i < 4)%N -> (j < 4)%N -> close e (log4 a i j) (log4 b i j) = true)
        by (intros; rewrite Ha, Hb by assumption; apply H; assumption). clear H Ha Hb.
      destruct a as [[] ra], b as [[] rb]. cbn in Hr. subst rb. cbn [m4_val list16 close_all]. rewrite !andb_true_iff.
      pose proof (H' 0 0 eq_refl eq_refl)%N. pose proof (H' 0 1 eq_refl eq_refl)%N. pose proof (H' 0 2 eq_refl eq_refl)%N. pose proof (H' 0 3 eq_refl eq_refl)%N.
      pose proof (H' 1 0 eq_refl eq_refl)%N. pose proof (H' 1 1 eq_refl eq_refl)%N. pose proof (H' 1 2 eq_refl eq_refl)%N. pose proof (H' 1 3 eq_refl eq_refl)%N.
      pose proof (H' 2 0 eq_refl eq_refl)%N. pose proof (H' 2 1 eq_refl eq_refl)%N. pose proof (H' 2 2 eq_refl eq_refl)%N. pose proof (H' 2 3 eq_refl eq_refl)%N.
      pose proof (H' 3 0 eq_refl eq_refl)%N. pose proof (H' 3 1 eq_refl eq_refl)%N. pose proof (H' 3 2 eq_refl eq_refl)%N. pose proof (H' 3 3 eq_refl eq_refl)%N.
      clear H'. destruct ra; cbn in *; repeat split; assumption.
  Qed.

  (** the six vector types *)
  Ltac vtac := unfold close; rewrite ?andb_true_r, ?andb_assoc; reflexivity.
  Lemma is_equal_2x1_eval (a b : mat2x1 Nm) e : mat2x1_is_equal a b e = Some (close_all e (list2 (v2x1 a)) (list2 (v2x1 b))).
  Proof. destruct a as [[]], b as [[]]. cbn [mat2x1_is_equal v2x1 list2 close_all]. vtac. Qed.
  Lemma is_equal_1x2_eval (a b : mat1x2 Nm) e : mat1x2_is_equal a b e = Some (close_all e (list2 (v1x2 a)) (list2 (v1x2 b))).
  Proof. destruct a as [[]], b as [[]]. cbn [mat1x2_is_equal v1x2 list2 close_all]. vtac. Qed.
  Lemma is_equal_3x1_eval (a b : mat3x1 Nm) e : mat3x1_is_equal a b e = Some (close_all e (list3 (v3x1 a)) (list3 (v3x1 b))).
  Proof. destruct a as [[]], b as [[]]. cbn [mat3x1_is_equal v3x1 list3 close_all]. vtac. Qed.
  Lemma is_equal_1x3_eval (a b : mat1x3 Nm) e : mat1x3_is_equal a b e = Some (close_all e (list3 (v1x3 a)) (list3 (v1x3 b))).
  Proof. destruct a as [[]], b as [[]]. cbn [mat1x3_is_equal v1x3 list3 close_all]. vtac. Qed.
  Lemma is_equal_4x1_eval (a b : mat4x1 Nm) e : mat4x1_is_equal a b e = Some (close_all e (list4 (v4x1 a)) (list4 (v4x1 b))).
  Proof. destruct a as [[]], b as [[]]. cbn [mat4x1_is_equal v4x1 list4 close_all]. vtac. Qed.
  Lemma is_equal_1x4_eval (a b : mat1x4 Nm) e : mat1x4_is_equal a b e = Some (close_all e (list4 (v1x4 a)) (list4 (v1x4 b))).
  Proof. destruct a as [[]], b as [[]]. cbn [mat1x4_is_equal v1x4 list4 close_all]. vtac. Qed.
End Generic.

Section ExactEq.
  Context (eps : R) (zs : XR -> bool).
  Notation E := (Exact eps zs).

  Lemma close_fin e x y : @close E (Fin e) (Fin x) (Fin y) = true <-> Rabs (x - y) <= e.
  Proof.
    unfold close. cbn [nsub nadd Exact xsub xadd]. rewrite nge_fin, nle_fin. rewrite andb_true_iff.
    destruct (Rle_dec (y - e) x), (Rle_dec x (y + e)); split; intro H;
      try (destruct H; discriminate); try (split; reflexivity); try (apply Rabs_le; lra);
      exfalso; apply Rabs_le_inv in H; lra.
  Qed.

  Lemma close_all_fin e l r : length l = length r ->
    (@close_all E (Fin e) (map Fin l) (map Fin r) = true <-> Forall2 (fun x y => Rabs (x - y) <= e) l r).
  Proof.
    revert r. induction l as [|x l IH]; intros [|y r] H; try discriminate.
    - split; constructor.
    - cbn [map close_all]. rewrite andb_true_iff, close_fin. injection H as H. rewrite (IH r H). split.
      + intros [H1 H2]; constructor; assumption.
      + intro HF; inversion HF; split; assumption.
  Qed.

  Lemma is_equal3_exact (a b : mat3 E) f g e : repr3 a (fin f : lmat E) -> repr3 b (fin g : lmat E) ->
    exists r, mat3_is_equal a b (Fin e : E) = Ok (Some r) /\
      (r = true <-> (m3_rm a = m3_rm b /\ forall i j, (i < 3)%N -> (j < 3)%N -> Rabs (f i j - g i j) <= e)).
  Proof.
    intros Ha Hb. destruct (is_equal3_iff a b _ _ (Fin e : E) Ha Hb) as [r [H1 H2]]. exists r. split; [exact H1 |].
    rewrite H2. split; (intros [Q1 Q2]; split; [exact Q1 |]; intros i j Hi Hj; apply close_fin; apply (Q2 i j Hi Hj)).
  Qed.
  Lemma is_equal4_exact (a b : mat4 E) f g e : repr4 a (fin f : lmat E) -> repr4 b (fin g : lmat E) ->
    exists r, mat4_is_equal a b (Fin e : E) = Ok (Some r) /\
      (r = true <-> (m4_rm a = m4_rm b /\ forall i j, (i < 4)%N -> (j < 4)%N -> Rabs (f i j - g i j) <= e)).
  Proof.
    intros Ha Hb. destruct (is_equal4_iff a b _ _ (Fin e : E) Ha Hb) as [r [H1 H2]]. exists r. split; [exact H1 |].
    rewrite H2. split; (intros [Q1 Q2]; split; [exact Q1 |]; intros i j Hi Hj; apply close_fin; apply (Q2 i j Hi Hj)).
  Qed.

  (** symmetry: for a finite tolerance and all exact values, also infinite and NaN ones *)
  Lemma close_sym_exact e (x y : E) : close (Fin e : E) x y = close (Fin e : E) y x.
  Proof.
    unfold close. destruct x as [x| | |], y as [y| | |]; cbn [nsub nadd Exact xsub xadd xneg];
      try reflexivity; rewrite ?nge_fin, ?nle_fin;
      try (destruct (Rle_dec (y - e) x), (Rle_dec x (y + e)), (Rle_dec (x - e) y), (Rle_dec y (x + e)); try reflexivity; exfalso; lra).
  Qed.
  Lemma close_all_sym_exact e l r : close_all (Fin e : E) l r = close_all (Fin e : E) r l.
  Proof. revert r. induction l as [|x l IH]; intros [|y r]; try reflexivity. cbn. rewrite IH, close_sym_exact. reflexivity. Qed.
  Lemma is_equal3_sym (a b : mat3 E) e : mat3_is_equal a b (Fin e : E) = mat3_is_equal b a (Fin e : E).
  Proof. rewrite !is_equal3_eval, close_all_sym_exact. destruct (m3_rm a), (m3_rm b); reflexivity. Qed.
  Lemma is_equal4_sym (a b : mat4 E) e : mat4_is_equal a b (Fin e : E) = mat4_is_equal b a (Fin e : E).
  Proof. rewrite !is_equal4_eval, close_all_sym_exact. destruct (m4_rm a), (m4_rm b); reflexivity. Qed.
End ExactEq.

Section IeeeEq.
  Context (prec emax : Z) {Hp : Prec_gt_0 prec} {Hm : Prec_lt_emax prec emax} (lm : libm (binary_float prec emax)).
  Notation F := (@Ieee prec emax Hp Hm lm).
  Notation nan := (B754_nan : binary_float prec emax).

  Lemma close_nan (e x y : F) : e = nan \/ x = nan \/ y = nan -> close e x y = false.
  Proof.
    unfold close, nge, nle. intros [-> | [-> | ->]]; simpl.
    - destruct x, y; reflexivity.
    - reflexivity.
    - destruct x; reflexivity.
  Qed.
  Lemma close_all_nan (e : F) l r : length l = length r -> close_all e l r = true ->
    Forall2 (fun x y => e <> nan /\ x <> nan /\ y <> nan) l r.
  Proof.
    intros Hl H. apply (close_all_forall e l r Hl) in H. clear Hl. induction H as [|x y l r Hc _ IH]; constructor; [|exact IH].
    repeat split; intro Hn; rewrite close_nan in Hc by tauto; discriminate.
  Qed.

  Lemma B2R_pos_ge (e : F) : nle (n0 : F) e = true -> is_finite e = true -> 0 <= B2R e.
  Proof.
    intros H Fe. apply (nle_iff (ieee_ordered prec emax lm)) in H.
    change (xle (b2x prec emax (f_lit prec emax 0 1)) (b2x prec emax e)) in H.
    rewrite lit_zero, (b2x_finite prec emax e Fe) in H. exact H.
  Qed.

  (** a finite value equals itself within every non-negative tolerance, infinite ones included *)
  Lemma close_refl (e x : F) : is_finite x = true -> nle (n0 : F) e = true -> close e x x = true.
  Proof.
    intros Fx He. set (O := ieee_ordered prec emax lm). unfold close. rewrite andb_true_iff.
    rewrite (nge_iff O), (nle_iff O). cbn [emb O ieee_ordered].
    rewrite (b2x_finite prec emax x Fx).
    destruct (is_finite e) eqn:Fe.
    - pose proof (B2R_pos_ge e He Fe) as Hpos. cbn [nsub nadd Ieee].
      pose proof (Bminus_correct prec emax Hp Hm mode_NE x e Fx Fe) as Qm.
      pose proof (Bplus_correct prec emax Hp Hm mode_NE x e Fx Fe) as Qp.
      change (round_mode mode_NE) with ZnearestE in Qm, Qp.
      assert (Lm : round radix2 (SpecFloat.fexp prec emax) ZnearestE (B2R x - B2R e) <= B2R x).
      { rewrite <- (rnd_B2R prec emax x) at 2. apply rnd_le; [exact Hp|]. lra. }
      assert (Lp : B2R x <= round radix2 (SpecFloat.fexp prec emax) ZnearestE (B2R x + B2R e)).
      { rewrite <- (rnd_B2R prec emax x) at 1. apply rnd_le; [exact Hp|]. lra. }
      split.
      + destruct (Rlt_bool _ _) eqn:Eb in Qm.
        * destruct Qm as [Q1 [Q2 _]]. rewrite (b2x_finite prec emax _ Q2), Q1. exact Lm.
        * destruct Qm as [Q1 Q2].
          (* overflow: x - e is an infinity of the sign of x; its sign must be negative *)
          pose proof (B2R_lt_emax prec emax x) as Bx. apply Rabs_def2 in Bx.
          assert (Hneg : round radix2 (SpecFloat.fexp prec emax) ZnearestE (B2R x - B2R e) <= - bpow radix2 emax).
          { destruct (Rlt_bool_spec (Rabs (round radix2 (SpecFloat.fexp prec emax) ZnearestE (B2R x - B2R e))) (bpow radix2 emax)) as [|Hge]; [discriminate|].
            unfold Rabs in Hge. destruct (Rcase_abs _); lra. }
          assert (Sx : Bsign x = true).
          { destruct (Bsign x) eqn:Sx; [reflexivity |]. exfalso.
            assert (0 <= B2R x) by (destruct x as [| | |[] m ex Hx]; simpl in *; try discriminate; try lra; apply F2R_ge_0; simpl; lia).
            assert (0 - B2R e <= B2R x - B2R e) by lra.
            assert (HL := rnd_le prec emax (0 - B2R e) (B2R x - B2R e) H0).
            replace (0 - B2R e) with (- B2R e) in HL by ring. rewrite rnd_opp, rnd_B2R in HL.
            pose proof (B2R_lt_emax prec emax e) as Be. apply Rabs_def2 in Be. lra. }
          rewrite Sx in Q1. cbn in Q1. assert (Hi : Bminus mode_NE x e = B754_infinity true) by (apply B2SF_inj; exact Q1).
          rewrite Hi. exact I.
      + destruct (Rlt_bool _ _) eqn:Eb in Qp.
        * destruct Qp as [Q1 [Q2 _]]. rewrite (b2x_finite prec emax _ Q2), Q1. exact Lp.
        * destruct Qp as [Q1 Q2].
          pose proof (B2R_lt_emax prec emax x) as Bx. apply Rabs_def2 in Bx.
          assert (Hposs : bpow radix2 emax <= round radix2 (SpecFloat.fexp prec emax) ZnearestE (B2R x + B2R e)).
          { destruct (Rlt_bool_spec (Rabs (round radix2 (SpecFloat.fexp prec emax) ZnearestE (B2R x + B2R e))) (bpow radix2 emax)) as [|Hge]; [discriminate|].
            unfold Rabs in Hge. destruct (Rcase_abs _); lra. }
          assert (Sx : Bsign x = false).
          { destruct (Bsign x) eqn:Sx; [|reflexivity]. exfalso.
            assert (B2R x <= 0) by (destruct x as [| | |[] m ex Hx]; simpl in *; try discriminate; try lra; apply F2R_le_0; simpl; lia).
            assert (B2R x + B2R e <= B2R e) by lra.
            assert (HL := rnd_le prec emax (B2R x + B2R e) (B2R e) H0). rewrite rnd_B2R in HL.
            pose proof (B2R_lt_emax prec emax e) as Be. apply Rabs_def2 in Be. lra. }
          rewrite Sx in Q1. cbn in Q1. assert (Hi : Bplus mode_NE x e = B754_infinity false) by (apply B2SF_inj; exact Q1).
          rewrite Hi. exact I.
    - (* e = +inf (NaN and -inf are excluded by the comparison with zero) *)
      assert (Hi : e = B754_infinity false).
      { unfold nle in He. change (ncmp F n0 e) with (Bcompare (f_lit prec emax 0 1) e) in He. rewrite lit_zero in He. destruct e as [| [] | |]; try discriminate; reflexivity. }
      subst e. destruct x as [? | ? | | ? ? ? ?]; try discriminate; split; exact I.
  Qed.

  Lemma close_all_refl (e : F) l : nle (n0 : F) e = true -> Forall (fun x : F => is_finite x = true) l -> close_all e l l = true.
  Proof. intros He Hf. induction Hf; [reflexivity |]. cbn. rewrite close_refl by assumption. exact IHHf. Qed.
End IeeeEq.
