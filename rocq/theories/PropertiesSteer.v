(** PropertiesSteer.v — C131: steering an orientation by turns given as axis and angle, in IEEE arithmetic. *)
From Coq Require Import Reals List ZArith NArith Bool Lra Lia.
From Flocq Require Import Core BinarySingleNaN.
Import ListNotations.
From Verif Require Import Base Num Vec Mat Quat Float FloatFacts SpecGeom SpecQuat SpecRound SpecBuild SpecFq SpecTrig SpecRun SpecSteer PRound PIeee2 PPrismF PTrig2 PTrig3 PTrig4 PRun PSteer PropertiesTrig.
Local Open Scope R_scope.

Section Steer.
Context (prec emax : Z) {Hp : Prec_gt_0 prec} {Hm : Prec_lt_emax prec emax} (lm : libm (binary_float prec emax)).
Notation bf := (binary_float prec emax).
Notation F := (@Ieee prec emax Hp Hm lm).
Notation u := (uro prec).
Notation et := (eta prec emax).
Notation hq q := (qval (q : quat bf)).
Notation ctl := (control (mat3x1 F) F).
Notation tru l := (map (fun c : ctl => cval (c : control (mat3x1 bf) bf)) l).
(** Any number of turns by angles up to B, about axes that can be normalised, fixed or carried along: nothing panics or overflows, the orientation keeps
    length 1 up to 9 roundoffs, and each turn adds at most 6 d + 57 u to the error. *)
Theorem C131_steer (B d : R) (l : list ctl) (q : quat F) (U : H4) (e : R) : (9 < prec)%Z -> sincos_acc lm B d -> d <= / 64 -> near (q : quat bf) ->
  Forall (fun c : ctl => cgood B (c : control (mat3x1 bf) bf)) l -> hdist (hq q) U <= e -> hlen U = 1 ->
  exists r, steer l q = Ok r /\ near (r : quat bf) /\ hdist (hq r) (fold_left hsteer (tru l) U) <= e + INR (length l) * (6 * d + 57 * u).
Proof. exact (steer_ok prec emax lm B d l q U e). Qed.
(** All about one axis, starting from the identity: the outcome is the turn by the sum of the angles, and vectors are turned as Rodrigues' formula says. *)
Theorem C131_wheel (B d : R) (k : mat3x1 F) (l : list ctl) (v : mat3x1 F) : (9 < prec)%Z -> sincos_acc lm B d -> d <= / 64 -> l <> [] ->
  Forall (fun c : ctl => cgood B (c : control (mat3x1 bf) bf)) l -> Forall (fun c : ctl => snd (fst c) = k) l ->
  fin3 (v : mat3x1 bf) -> norm (v3 (v : mat3x1 bf)) <= bpow radix2 (emax - 8) ->
  let K := s_unit (v3 (k : mat3x1 bf)) in let t := angles (tru l) in let D := INR (length l) * (6 * d + 57 * u) in
  exists r, steer l quat_init = Ok r /\ near (r : quat bf) /\ hdist (hq r) (SpecTrig.turn K t) <= D /\ fin3 (quat_rotate_vector r v : mat3x1 bf) /\
    dist (v3 (quat_rotate_vector r v : mat3x1 bf)) (rodrigues K t (v3 (v : mat3x1 bf))) <= (201 / 100 * D + 20 * u) * norm (v3 (v : mat3x1 bf)) + 28 * et.
Proof. exact (wheel_ok prec emax lm B d k l v). Qed.
End Steer.
Print Assumptions C131_steer.
Print Assumptions C131_wheel.

(** ---- n + 1 turns by half a radian about (1,2,2), with a correctly rounded libm ---- *)
Section Case.
  Context (prec emax : Z) {Hp : Prec_gt_0 prec} {Hm : Prec_lt_emax prec emax}.
  Hypotheses (P24 : (24 <= prec)%Z) (E64 : (64 <= emax)%Z).
  Notation bf := (binary_float prec emax).
  Notation lm := (rounded_libm prec emax).
  Notation F := (@Ieee prec emax Hp Hm lm).
  Notation h := (nlit F 1 2).
  Lemma angles_repeat (c : control V3 R) n : angles (repeat c n) = INR n * snd c.
  Proof. unfold angles. induction n as [| n IH]; [cbn; ring |]. change (repeat c (S n)) with (c :: repeat c n). cbn [map fold_right]. rewrite IH, S_INR. ring. Qed.
  Lemma map_repeat' {A C} (f : A -> C) c n : map f (repeat c n) = repeat (f c) n.
  Proof. induction n as [| n IH]; [reflexivity |]. cbn. rewrite IH. reflexivity. Qed.
  Example C131_case (n : nat) : let l := repeat (false, z3 F 1 2 2, h : F) (S n) in exists r, steer l quat_init = Ok r /\
    hdist (qval (r : quat bf)) (SpecTrig.turn (V (1 / 3) (2 / 3) (2 / 3)) (INR (S n) * / 2)) <= INR (S n) * (81 * uro prec).
  Proof.
    intro l. destruct (case_axis prec emax P24 E64) as [G V3]. destruct (case_libm prec emax P24) as (SC & _ & _ & D). destruct (case_half prec emax P24) as [Fh Vh]. pose proof (PRound.u_pos prec) as U0.
    destruct (C131_wheel prec emax lm 1000 (4 * uro prec) (z3 F 1 2 2) l (z3 F 1 2 2) ltac:(lia) SC ltac:(lra)) as (r & E & _ & Dr & _).
    - unfold l. discriminate.
    - apply Forall_forall. intros c Hc. apply repeat_spec in Hc. subst c. split; [exact G |]. split; [exact Fh |]. rewrite Vh, Rabs_pos_eq; lra.
    - apply Forall_forall. intros c Hc. apply repeat_spec in Hc. subst c. reflexivity.
    - apply (z3_ok prec emax lm ltac:(lia) 1 2 2 ltac:(lia) ltac:(lia) ltac:(lia)).
    - rewrite V3. apply Rle_trans with (bpow radix2 2); [| apply bpow_le; lia]. change (bpow radix2 2) with 4. unfold norm, vdot. cbn [vx vy vz]. replace (1 * 1 + 2 * 2 + 2 * 2) with (3 * 3) by ring. rewrite sqrt_square by lra. lra.
    - exists r. split; [exact E |]. cbv zeta in Dr. unfold l in Dr. rewrite map_repeat', angles_repeat, repeat_length, V3 in Dr. cbn [cval snd] in Dr. rewrite Vh in Dr.
      replace (s_unit (V 1 2 2)) with (V (1 / 3) (2 / 3) (2 / 3)) in Dr.
      2: { unfold s_unit, norm, vdot. simpl. replace (1 * 1 + 2 * 2 + 2 * 2) with (3 * 3) by ring. rewrite sqrt_square by lra. unfold vscale. simpl. f_equal; field. }
      eapply Rle_trans; [exact Dr |]. right. ring.
  Qed.
End Case.
