(** PropertiesTol.v — C135: is_equal in IEEE arithmetic, all eight types. *)
From Coq Require Import Reals List ZArith NArith Bool Lra Lia.
From Flocq Require Import Core BinarySingleNaN.
Import ListNotations.
From Verif Require Import Base Num Vec Mat Float FloatFacts SpecMat SpecReal SpecRound SpecGeom SpecTol ExactFacts PEqual PVec PMat4 PRound PIeee2 PIeee3 PPrismF PTol PropertiesMat.
Local Open Scope R_scope.

Section Tol.
Context (prec emax : Z) {Hp : Prec_gt_0 prec} {Hm : Prec_lt_emax prec emax} (lm : libm (binary_float prec emax)).
Notation bf := (binary_float prec emax).
Notation F := (@Ieee prec emax Hp Hm lm).
Notation u := (uro prec).
Notation val := (@B2R prec emax).
Notation ents a := (tents a : list bf).

(** entries that are truly within the tolerance are never rejected, whatever overflows on the way *)
Theorem C135_never_rejects k (a b : tcar F k) (e : F) : is_finite (e : bf) = true -> tfin (ents a) -> tfin (ents b) -> tsame a b ->
  Forall2 (fun x y : bf => apart (fun _ _ => val e) x y) (ents a) (ents b) -> tequal a b e = Ok (Some true).
Proof. intros Fe Fa Fb S H. apply tequal_iff. split; [exact S |]. exact (all_in prec emax lm e _ _ Fe Fa Fb H). Qed.
(** accepted entries are within the tolerance up to one rounding of b - e and b + e *)
Theorem C135_sound k (a b : tcar F k) (e : F) : is_finite (e : bf) = true -> tfin (ents a) -> tfin (ents b) -> tequal a b e = Ok (Some true) ->
  tsame a b /\ Forall2 (fun x y : bf => apart (fun _ y => val e + u * (Rabs y + Rabs (val e))) x y) (ents a) (ents b).
Proof. intros Fe Fa Fb H. apply tequal_iff in H as [S H]. split; [exact S |]. exact (all_out prec emax lm e _ _ (@tents_len F k a b) Fe Fa Fb H). Qed.
(** a larger tolerance accepts more, exactly; the infinite one accepts everything *)
Theorem C135_monotone k (a b : tcar F k) (e f : F) : is_finite (e : bf) = true -> is_finite (f : bf) = true -> tfin (ents a) -> tfin (ents b) -> val e <= val f -> tequal a b e = Ok (Some true) -> tequal a b f = Ok (Some true).
Proof. intros Fe Ff Fa Fb L H. apply tequal_iff in H as [S H]. apply tequal_iff. split; [exact S |]. exact (all_mono prec emax lm e f _ _ Fe Ff Fa Fb L H). Qed.
Theorem C135_infinite k (a b : tcar F k) : tfin (ents a) -> tfin (ents b) -> tsame a b -> tequal a b (B754_infinity false : F) = Ok (Some true).
Proof. intros Fa Fb S. apply tequal_iff. split; [exact S |]. exact (all_inf prec emax lm _ _ Fa Fb). Qed.
(** symmetry and transitivity, which fail exactly (C12_refuted), hold with a slightly larger tolerance *)
Theorem C135_swapped k (a b : tcar F k) (e g : F) (M : R) : is_finite (e : bf) = true -> is_finite (g : bf) = true -> tfin (ents a) -> tfin (ents b) -> tmax M (ents b) ->
  val e + u * (M + Rabs (val e)) <= val g -> tequal a b e = Ok (Some true) -> tequal b a g = Ok (Some true).
Proof. intros Fe Fg Fa Fb B G H. apply tequal_iff in H as [S H]. apply tequal_iff. split; [apply tsame_sym, S |]. exact (all_sym prec emax lm e g M _ _ (@tents_len F k a b) Fe Fg Fa Fb B G H). Qed.
Theorem C135_chained k (a b c : tcar F k) (e f g : F) (M : R) : is_finite (e : bf) = true -> is_finite (f : bf) = true -> is_finite (g : bf) = true -> tfin (ents a) -> tfin (ents b) -> tfin (ents c) -> tmax M (ents b) -> tmax M (ents c) ->
  val e + val f + u * (2 * M + Rabs (val e) + Rabs (val f)) <= val g -> tequal a b e = Ok (Some true) -> tequal b c f = Ok (Some true) -> tequal a c g = Ok (Some true).
Proof. intros Fe Ff Fg Fa Fb Fc B C G H K. apply tequal_iff in H as [S H]. apply tequal_iff in K as [S' K]. apply tequal_iff. split; [exact (tsame_trans k a b c S S') |]. exact (all_trans prec emax lm e f g M _ _ _ (@tents_len F k a b) (@tents_len F k b c) Fe Ff Fg Fa Fb Fc B C G H K). Qed.
(** no comparison panics or gives None *)
Theorem C135_total k (a b : tcar F k) (e : F) : exists r, tequal a b e = Ok (Some r).
Proof. apply tequal_total. Qed.
End Tol.
Print Assumptions C135_never_rejects.
Print Assumptions C135_sound.
Print Assumptions C135_monotone.
Print Assumptions C135_infinite.
Print Assumptions C135_swapped.
Print Assumptions C135_chained.
Print Assumptions C135_total.

Section Cases.
  Variable lm : libm f64.
  Notation F := (F64 lm).
  Notation z x := (nlit F x 1).
  Lemma case_num x : (Z.abs x < 512)%Z -> is_finite (z x : f64) = true /\ B2R (z x : f64) = IZR x.
  Proof. exact (@lit_z 53 1024 f64_prec_gt_0 f64_prec_lt_emax lm eq_refl x). Qed.
  (** (1,20,300) and (4,17,303) agree within 3; (7,14,306) and (4,17,303) too; (1,20,300) and (7,14,306) within 7 *)
  Example C135_case : let a : tcar F (TV K3x1) := M3x1 (A3 (z 1) (z 20) (z 300)) in let b : tcar F (TV K3x1) := M3x1 (A3 (z 4) (z 17) (z 303)) in let c : tcar F (TV K3x1) := M3x1 (A3 (z 7) (z 14) (z 306)) in
    tequal a b (z 3) = Ok (Some true) /\ tequal b c (z 3) = Ok (Some true) /\ tequal a c (z 7) = Ok (Some true).
  Proof.
    assert (Q : forall x y t, (Z.abs x < 512)%Z -> (Z.abs y < 512)%Z -> (Z.abs t < 512)%Z -> Rabs (IZR x - IZR y) <= IZR t -> @apart 53 1024 (fun _ _ => B2R (z t : f64)) (z x) (z y)) by (intros x y t X Y T H; unfold apart; rewrite (proj2 (case_num x X)), (proj2 (case_num y Y)), (proj2 (case_num t T)); exact H).
    assert (Fz : forall x, (Z.abs x < 512)%Z -> is_finite (z x : f64) = true) by (intros x X; exact (proj1 (case_num x X))).
    intros a b c. assert (Fa : tfin (tents a : list f64)) by (apply Forall_cons; [apply Fz; reflexivity | apply Forall_cons; [apply Fz; reflexivity | apply Forall_cons; [apply Fz; reflexivity | apply Forall_nil]]]). assert (Fb : tfin (tents b : list f64)) by (apply Forall_cons; [apply Fz; reflexivity | apply Forall_cons; [apply Fz; reflexivity | apply Forall_cons; [apply Fz; reflexivity | apply Forall_nil]]]). assert (Fc : tfin (tents c : list f64)) by (apply Forall_cons; [apply Fz; reflexivity | apply Forall_cons; [apply Fz; reflexivity | apply Forall_cons; [apply Fz; reflexivity | apply Forall_nil]]]).
    assert (Mx : forall x, (Z.abs x < 512)%Z -> Rabs (B2R (z x : f64)) <= 512) by (intros x X; rewrite (proj2 (case_num x X)), <- abs_IZR; apply IZR_le; lia).
    assert (AB : tequal a b (z 3) = Ok (Some true)) by (apply (@C135_never_rejects 53 1024 f64_prec_gt_0 f64_prec_lt_emax lm (TV K3x1) a b (z 3) (Fz 3%Z eq_refl) Fa Fb I); apply Forall2_cons; [| apply Forall2_cons; [| apply Forall2_cons; [| apply Forall2_nil]]]; (apply Q; [reflexivity | reflexivity | reflexivity | apply Rabs_le; lra])).
    assert (BC : tequal b c (z 3) = Ok (Some true)) by (apply (@C135_never_rejects 53 1024 f64_prec_gt_0 f64_prec_lt_emax lm (TV K3x1) b c (z 3) (Fz 3%Z eq_refl) Fb Fc I); apply Forall2_cons; [| apply Forall2_cons; [| apply Forall2_cons; [| apply Forall2_nil]]]; (apply Q; [reflexivity | reflexivity | reflexivity | apply Rabs_le; lra])).
    split; [exact AB |]. split; [exact BC |]. apply (@C135_chained 53 1024 f64_prec_gt_0 f64_prec_lt_emax lm (TV K3x1) a b c (z 3) (z 3) (z 7) 512 (Fz 3%Z eq_refl) (Fz 3%Z eq_refl) (Fz 7%Z eq_refl) Fa Fb Fc); [| | | exact AB | exact BC].
    - apply Forall_cons; [apply Mx; reflexivity | apply Forall_cons; [apply Mx; reflexivity | apply Forall_cons; [apply Mx; reflexivity | apply Forall_nil]]].
    - apply Forall_cons; [apply Mx; reflexivity | apply Forall_cons; [apply Mx; reflexivity | apply Forall_cons; [apply Mx; reflexivity | apply Forall_nil]]].
    - assert (V3' : B2R (z 3 : f64) = 3) by exact (proj2 (case_num 3 eq_refl)). assert (V7 : B2R (z 7 : f64) = 7) by exact (proj2 (case_num 7 eq_refl)). pose proof (u_small 53 eq_refl) as U. pose proof (u_pos 53) as U0. refine (eq_ind_r (fun v => v + v + uro 53 * (2 * 512 + Rabs v + Rabs v) <= _) _ V3'). refine (eq_ind_r (fun v => _ <= v) _ V7). rewrite (Rabs_pos_eq 3) by lra. assert (U2 : uro 53 <= / 9000000000000000) by (unfold uro; cbn; lra). lra.
  Qed.
  (** the matrix with entries 1..9 stored in the two layouts: never equal, the layouts are compared first *)
  Example C135_case_layout (e : F) : let a : tcar F T3 := M3 (ex9 lm) true in let b : tcar F T3 := M3 (ex9 lm) false in tequal a b e = Ok (Some false).
  Proof. reflexivity. Qed.
End Cases.
