(** PTol.v — the tolerance comparison in IEEE arithmetic (C135). *)
From Coq Require Import Reals List ZArith NArith Bool Lra Lia.
From Flocq Require Import Core BinarySingleNaN.
Import ListNotations.
From Verif Require Import Base Num Vec Mat Float FloatFacts FloatRound Order SpecMat SpecReal SpecRound SpecGeom SpecTol ExactFacts PMat PMat2 PEqual PVec PMat4 PRound PIeee2.
Local Open Scope R_scope.

Section Tol.
  Context (prec emax : Z) {Hp : Prec_gt_0 prec} {Hm : Prec_lt_emax prec emax} (lm : libm (binary_float prec emax)).
  Notation bf := (binary_float prec emax).
  Notation F := (@Ieee prec emax Hp Hm lm).
  Notation u := (uro prec).
  Notation val := (@B2R prec emax).
  Notation rnd := (round radix2 (SpecFloat.fexp prec emax) ZnearestE).

  Lemma sign_ge (x : bf) : Bsign x = false -> 0 <= val x.
  Proof. intro S. destruct x as [| | |[] m ex Hx]; simpl in *; try discriminate; try lra; apply F2R_ge_0; simpl; lia. Qed.
  Lemma sign_le (x : bf) : Bsign x = true -> val x <= 0.
  Proof. intro S. destruct x as [| | |[] m ex Hx]; simpl in *; try discriminate; try lra; apply F2R_le_0; simpl; lia. Qed.
  (** comparing with a sum that may overflow is comparing with the rounded real sum *)
  Lemma sum_cmp (x y e : bf) : is_finite x = true -> is_finite y = true -> is_finite e = true ->
    (xle (b2x prec emax x) (b2x prec emax (Bplus mode_NE y e)) <-> val x <= rnd (val y + val e)) /\ (xle (b2x prec emax (Bplus mode_NE y e)) (b2x prec emax x) <-> rnd (val y + val e) <= val x).
  Proof.
    intros Fx Fy Fe. rewrite (b2x_finite prec emax x Fx). pose proof (Bplus_correct prec emax Hp Hm mode_NE y e Fy Fe) as Q. change (round_mode mode_NE) with ZnearestE in Q.
    pose proof (B2R_lt_emax prec emax x) as Bx. apply Rabs_def2 in Bx.
    destruct (Rlt_bool_spec (Rabs (rnd (val y + val e))) (bpow radix2 emax)) as [L | L].
    - destruct Q as [Q1 [Q2 _]]. rewrite (b2x_finite prec emax _ Q2), Q1. split; reflexivity.
    - destruct Q as [Q1 Q2]. rewrite SFovf_inf in Q1. assert (Hi : Bplus mode_NE y e = B754_infinity (Bsign y)) by (apply B2SF_inj; exact Q1). rewrite Hi. destruct (Bsign y) eqn:Sy; symmetry in Q2.
      + pose proof (sign_le y Sy). pose proof (sign_le e Q2). assert (Z : rnd (val y + val e) <= 0) by (rewrite <- (round_0 radix2 (SpecFloat.fexp prec emax) ZnearestE); apply rnd_le; [exact Hp | lra]). rewrite Rabs_left1 in L by exact Z. cbn. split; split; intro A; first [contradiction | exact I | lra | exfalso; lra].
      + pose proof (sign_ge y Sy). pose proof (sign_ge e Q2). assert (Z : 0 <= rnd (val y + val e)) by (rewrite <- (round_0 radix2 (SpecFloat.fexp prec emax) ZnearestE); apply rnd_le; [exact Hp | lra]). rewrite Rabs_pos_eq in L by exact Z. cbn. split; split; intro A; first [contradiction | exact I | lra | exfalso; lra].
  Qed.
  (** and with a difference *)
  Lemma diff_cmp (x y e : bf) : is_finite x = true -> is_finite y = true -> is_finite e = true ->
    (xle (b2x prec emax x) (b2x prec emax (Bminus mode_NE y e)) <-> val x <= rnd (val y - val e)) /\ (xle (b2x prec emax (Bminus mode_NE y e)) (b2x prec emax x) <-> rnd (val y - val e) <= val x).
  Proof.
    intros Fx Fy Fe. rewrite (b2x_finite prec emax x Fx). pose proof (Bminus_correct prec emax Hp Hm mode_NE y e Fy Fe) as Q. change (round_mode mode_NE) with ZnearestE in Q.
    pose proof (B2R_lt_emax prec emax x) as Bx. apply Rabs_def2 in Bx.
    destruct (Rlt_bool_spec (Rabs (rnd (val y - val e))) (bpow radix2 emax)) as [L | L].
    - destruct Q as [Q1 [Q2 _]]. rewrite (b2x_finite prec emax _ Q2), Q1. split; reflexivity.
    - destruct Q as [Q1 Q2]. rewrite SFovf_inf in Q1. assert (Hi : Bminus mode_NE y e = B754_infinity (Bsign y)) by (apply B2SF_inj; exact Q1). rewrite Hi. destruct (Bsign y) eqn:Sy; symmetry in Q2; apply (f_equal negb) in Q2; rewrite negb_involutive in Q2; cbn [negb] in Q2.
      + pose proof (sign_le y Sy). pose proof (sign_ge e Q2). assert (Z : rnd (val y - val e) <= 0) by (rewrite <- (round_0 radix2 (SpecFloat.fexp prec emax) ZnearestE); apply rnd_le; [exact Hp | lra]). rewrite Rabs_left1 in L by exact Z. cbn. split; split; intro A; first [contradiction | exact I | lra | exfalso; lra].
      + pose proof (sign_ge y Sy). pose proof (sign_le e Q2). assert (Z : 0 <= rnd (val y - val e)) by (rewrite <- (round_0 radix2 (SpecFloat.fexp prec emax) ZnearestE); apply rnd_le; [exact Hp | lra]). rewrite Rabs_pos_eq in L by exact Z. cbn. split; split; intro A; first [contradiction | exact I | lra | exfalso; lra].
  Qed.
  Lemma close_iff (e x y : F) : is_finite (e : bf) = true -> is_finite (x : bf) = true -> is_finite (y : bf) = true ->
    (close e x y = true <-> rnd (val y - val e) <= val x <= rnd (val y + val e)).
  Proof.
    intros Fe Fx Fy. set (O := ieee_ordered prec emax lm). unfold close. rewrite andb_true_iff, (nge_iff O), (nle_iff O). cbn [emb O ieee_ordered].
    pose proof (proj1 (sum_cmp x y e Fx Fy Fe)) as P1. pose proof (proj2 (diff_cmp x y e Fx Fy Fe)) as P2.
    change (nsub F y e) with (Bminus mode_NE (y : bf) (e : bf)). change (nadd F y e) with (Bplus mode_NE (y : bf) (e : bf)). rewrite P1, P2. reflexivity.
  Qed.
  Lemma near_sum (x y : bf) : Rabs (rnd (val x + val y) - (val x + val y)) <= u * (Rabs (val x) + Rabs (val y)).
  Proof.
    destruct (plus_rel prec emax x y) as [d [D E]]. rewrite E. replace ((val x + val y) * (1 + d) - (val x + val y)) with (d * (val x + val y)) by ring. rewrite Rabs_mult. apply Rmult_le_compat; [apply Rabs_pos | apply Rabs_pos | exact D | apply Rabs_triang].
  Qed.
  Lemma close_in (e x y : F) : is_finite (e : bf) = true -> is_finite (x : bf) = true -> is_finite (y : bf) = true -> Rabs (val x - val y) <= val e -> close e x y = true.
  Proof.
    intros Fe Fx Fy D. apply (close_iff e x y Fe Fx Fy). apply Rabs_le_inv in D. rewrite <- (rnd_B2R prec emax x). split; apply rnd_le; try exact Hp; lra.
  Qed.
  Lemma close_out (e x y : F) : is_finite (e : bf) = true -> is_finite (x : bf) = true -> is_finite (y : bf) = true -> close e x y = true -> Rabs (val x - val y) <= val e + u * (Rabs (val y) + Rabs (val e)).
  Proof.
    intros Fe Fx Fy C. apply (close_iff e x y Fe Fx Fy) in C. pose proof (near_sum y e) as A. pose proof (near_sum y (Bopp e)) as B. rewrite B2R_Bopp, Rabs_Ropp in B. change (val y + - val e) with (val y - val e) in B. apply Rabs_le_inv in A, B. apply Rabs_le. lra.
  Qed.
  Lemma close_mono (e f x y : F) : is_finite (e : bf) = true -> is_finite (f : bf) = true -> is_finite (x : bf) = true -> is_finite (y : bf) = true -> val e <= val f -> close e x y = true -> close f x y = true.
  Proof.
    intros Fe Ff Fx Fy L C. apply (close_iff e x y Fe Fx Fy) in C. apply (close_iff f x y Ff Fx Fy). split; [apply Rle_trans with (rnd (val y - val e)) | apply Rle_trans with (rnd (val y + val e))]; try apply C; apply rnd_le; try exact Hp; lra.
  Qed.
  Lemma close_inf (x y : F) : is_finite (x : bf) = true -> is_finite (y : bf) = true -> close (B754_infinity false : F) x y = true.
  Proof. intros Fx Fy. unfold close. destruct x as [? | ? | | ? ? ? ?], y as [? | ? | | ? ? ? ?]; try discriminate; reflexivity. Qed.

  (** the entries compared, for the six vector types and the two matrix types *)
  Notation finl l := (Forall (fun x : F => is_finite (x : bf) = true) l).
  Notation pairs d l r := (Forall2 (fun x y : F => apart d (x : bf) (y : bf)) l r).
  Lemma all_in (e : F) l r : is_finite (e : bf) = true -> finl l -> finl r -> pairs (fun _ _ => val e) l r -> close_all e l r = true.
  Proof.
    intros Fe Fl Fr P. revert Fl Fr. induction P as [| x y l r A _ IH]; intros Fl Fr; [reflexivity |]. inversion Fl; inversion Fr; subst. cbn [close_all]. rewrite (close_in e x y), IH by assumption. reflexivity.
  Qed.
  Lemma all_out (e : F) l r : length l = length r -> is_finite (e : bf) = true -> finl l -> finl r -> close_all e l r = true -> pairs (fun _ y => val e + u * (Rabs y + Rabs (val e))) l r.
  Proof.
    intros L Fe Fl Fr C. apply (close_all_forall e l r L) in C. clear L. revert Fl Fr. induction C as [| x y l r A _ IH]; intros Fl Fr; constructor; inversion Fl; inversion Fr; subst; [apply (close_out e x y); assumption | apply IH; assumption].
  Qed.
  Lemma all_mono (e f : F) l r : is_finite (e : bf) = true -> is_finite (f : bf) = true -> finl l -> finl r -> val e <= val f -> close_all e l r = true -> close_all f l r = true.
  Proof.
    intros Fe Ff Fl Fr L. revert r Fr. induction Fl as [| x l Fx _ IH]; intros r Fr; [intros; destruct r; reflexivity |]. destruct r as [| y r]; [reflexivity |]. inversion Fr; subst. cbn [close_all]. rewrite !andb_true_iff. intros [A B]. split; [apply (close_mono e f x y); assumption | apply IH; assumption].
  Qed.
  Lemma all_inf l r : finl l -> finl r -> close_all (B754_infinity false : F) l r = true.
  Proof.
    intros Fl. revert r. induction Fl as [| x l Fx _ IH]; intros r Fr; [destruct r; reflexivity |]. destruct r as [| y r]; [reflexivity |]. inversion Fr; subst. cbn [close_all]. rewrite (close_inf x y), IH by assumption. reflexivity.
  Qed.
  (** two comparisons, with tolerances e and f, give a third with any tolerance g large enough *)
  Lemma all_trans (e f g : F) (M : R) l m r : length l = length m -> length m = length r -> is_finite (e : bf) = true -> is_finite (f : bf) = true -> is_finite (g : bf) = true -> finl l -> finl m -> finl r ->
    Forall (fun x : F => Rabs (val (x : bf)) <= M) m -> Forall (fun x : F => Rabs (val (x : bf)) <= M) r ->
    val e + val f + u * (2 * M + Rabs (val e) + Rabs (val f)) <= val g -> close_all e l m = true -> close_all f m r = true -> close_all g l r = true.
  Proof.
    intros L1 L2 Fe Ff Fg Fl Fm Fr Bm Br G C1 C2. pose proof (u_pos prec) as U0. apply (all_out e l m L1 Fe Fl Fm) in C1. apply (all_out f m r L2 Ff Fm Fr) in C2. apply all_in; try assumption. clear L1 L2 Fl Fm Fr.
    revert r Br C2. induction C1 as [| x y l m A _ IH]; intros r Br C2; inversion C2; subst; constructor; inversion Bm; inversion Br; subst; [| apply IH; assumption].
    unfold apart in *. match goal with H : Rabs (val y - val ?z) <= _, H1 : Rabs (val y) <= M, H2 : Rabs (val ?z) <= M |- _ => apply Rle_trans with (Rabs (val x - val y) + Rabs (val y - val z)); [replace (val x - val z) with ((val x - val y) + (val y - val z)) by ring; apply Rabs_triang |]; assert (u * Rabs (val y) <= u * M) by (apply Rmult_le_compat_l; lra); assert (u * Rabs (val z) <= u * M) by (apply Rmult_le_compat_l; lra); lra end.
  Qed.
  Lemma all_sym (e g : F) (M : R) l r : length l = length r -> is_finite (e : bf) = true -> is_finite (g : bf) = true -> finl l -> finl r ->
    Forall (fun x : F => Rabs (val (x : bf)) <= M) r -> val e + u * (M + Rabs (val e)) <= val g -> close_all e l r = true -> close_all g r l = true.
  Proof.
    intros L Fe Fg Fl Fr Br G C. pose proof (u_pos prec) as U0. apply (all_out e l r L Fe Fl Fr) in C. apply all_in; try assumption. clear L Fl Fr. induction C as [| x y l r A _ IH]; constructor; inversion Br; subst; [| apply IH; assumption].
    unfold apart in *. rewrite Rabs_minus_sym. match goal with H1 : Rabs (val y) <= M |- _ => assert (u * Rabs (val y) <= u * M) by (apply Rmult_le_compat_l; lra) end. lra.
  Qed.
End Tol.

Lemma tents_len {Nm : Num} k (a b : tcar Nm k) : length (tents a) = length (tents b).
Proof. destruct k as [k | |]; [exact (eq_trans (@vcomps_len Nm k a) (eq_sym (@vcomps_len Nm k b))) | destruct a as [[] ?], b as [[] ?]; reflexivity | destruct a as [[] ?], b as [[] ?]; reflexivity]. Qed.
Lemma tequal_iff {Nm : Num} k (a b : tcar Nm k) (e : Nm) : tequal a b e = Ok (Some true) <-> tsame a b /\ close_all e (tents a) (tents b) = true.
Proof.
  destruct k as [k | |]; cbn [tequal tsame tents].
  - rewrite vec_is_equal_eval. split; [intro H; injection H as H; split; [exact I | exact H] | intros [_ H]; rewrite H; reflexivity].
  - rewrite is_equal3_eval. split; [intro H; injection H as H; apply andb_true_iff in H as [A B]; split; [apply eqb_prop, A | exact B] | intros [A B]; rewrite A, B, eqb_reflx; reflexivity].
  - rewrite is_equal4_eval. split; [intro H; injection H as H; apply andb_true_iff in H as [A B]; split; [apply eqb_prop, A | exact B] | intros [A B]; rewrite A, B, eqb_reflx; reflexivity].
Qed.
Lemma tequal_total {Nm : Num} k (a b : tcar Nm k) (e : Nm) : exists r, tequal a b e = Ok (Some r).
Proof. destruct k as [k | |]; cbn [tequal]; [rewrite vec_is_equal_eval | rewrite is_equal3_eval | rewrite is_equal4_eval]; eexists; reflexivity. Qed.
Lemma tsame_sym {T : Type} k (a b : tcar T k) : tsame a b -> tsame b a.
Proof. destruct k; cbn; auto. Qed.
Lemma tsame_trans {T : Type} k (a b c : tcar T k) : tsame a b -> tsame b c -> tsame a c.
Proof. destruct k; cbn; auto; congruence. Qed.
