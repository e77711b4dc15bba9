(** PIeee5.v — rays in IEEE arithmetic: ray against plane and sphere (C84, C85). *)
From Coq Require Import Reals List ZArith NArith Bool Lra Lia Psatz.
From Flocq Require Import Core BinarySingleNaN.
Import ListNotations.
From Verif Require Import Base Num Vec Mat Bound Shape Intersect Float Exact FloatFacts FloatRound ExactFacts Order SpecMat SpecGeom
  SpecBound SpecShape SpecBuild SpecRound PMat PBound PShape PBuild PRound PRound2 PRound3 PGeo1 PIeee1 PIeee2 PIeee3.
Local Open Scope R_scope.

(** ---- real vectors ---- *)
Lemma norm_le_sq v k : 0 <= k -> vdot v v <= k * k -> norm v <= k.
Proof. intros Hk H. unfold norm. rewrite <- (sqrt_square k) by exact Hk. apply sqrt_le_1_alt. exact H. Qed.
Lemma vdot_diff a b c d : vdot a b - vdot c d = vdot (vsub a c) b + vdot c (vsub b d).
Proof. unfold vdot. simpl. ring. Qed.
Lemma dot_near a b c d : Rabs (vdot a b - vdot c d) <= dist a c * norm b + norm c * dist b d.
Proof. rewrite vdot_diff. eapply Rle_trans; [apply Rabs_triang |]. apply Rplus_le_compat; apply cauchy. Qed.
Lemma norm_close a b : norm a <= norm b + dist a b.
Proof. unfold dist. replace a with (vadd b (vsub a b)) at 1 by (apply V3_eq; simpl; ring). apply triangle. Qed.

Definition vabs (v : V3) : V3 := V (Rabs (vx v)) (Rabs (vy v)) (Rabs (vz v)).
Lemma norm_vabs v : norm (vabs v) = norm v.
Proof. unfold norm, vdot, vabs. cbn [vx vy vz]. rewrite <- !Rabs_mult, !sqr_abs. reflexivity. Qed.
Lemma norm_mono v w : Rabs (vx v) <= vx w -> Rabs (vy v) <= vy w -> Rabs (vz v) <= vz w -> norm v <= norm w.
Proof.
  intros A B C. unfold norm. apply sqrt_le_1_alt. unfold vdot.
  assert (Q : forall a b, Rabs a <= b -> a * a <= b * b).
  { intros a b H. rewrite <- (sqr_abs a), Rabs_mult. pose proof (Rabs_pos a). apply Rmult_le_compat; assumption. }
  apply Q in A, B, C. lra.
Qed.
Lemma norm_scale_pos k v : 0 <= k -> norm (vscale k v) = k * norm v.
Proof.
  intro H. unfold norm. replace (vdot (vscale k v) (vscale k v)) with (k * k * vdot v v) by (unfold vdot, vscale; cbn [vx vy vz]; ring).
  rewrite sqrt_mult_alt by nra. rewrite sqrt_square by exact H. reflexivity.
Qed.
Lemma norm_scale_abs k v : norm (vscale k v) = Rabs k * norm v.
Proof.
  unfold norm. replace (vdot (vscale k v) (vscale k v)) with (k * k * vdot v v) by (unfold vdot, vscale; cbn [vx vy vz]; ring).
  rewrite sqrt_mult_alt by nra. f_equal. exact (sqrt_Rsqr_abs k).
Qed.
(** componentwise bounds give a bound on the norm *)
Lemma norm_comb e a b al be g : 0 <= al -> 0 <= be -> 0 <= g -> Rabs (vx e) <= al * Rabs (vx a) + be * Rabs (vx b) + g ->
  Rabs (vy e) <= al * Rabs (vy a) + be * Rabs (vy b) + g -> Rabs (vz e) <= al * Rabs (vz a) + be * Rabs (vz b) + g ->
  norm e <= al * norm a + be * norm b + 2 * g.
Proof.
  intros A B G X Y Z. set (w := vadd (vadd (vscale al (vabs a)) (vscale be (vabs b))) (V g g g)).
  apply Rle_trans with (norm w); [apply norm_mono; assumption |]. unfold w. eapply Rle_trans; [apply triangle |]. apply Rplus_le_compat.
  - eapply Rle_trans; [apply triangle |]. rewrite !norm_scale_pos, !norm_vabs by assumption. lra.
  - apply norm_le_sq; [lra |]. unfold vdot. cbn [vx vy vz]. nra.
Qed.

Lemma eb2_core u et n : 0 <= u <= / 1024 -> 0 <= et <= u * / 256 -> 0 <= n -> (13 * u * n + 4 * et) * (202 / 100 * n + 4 * et) <= 265 / 10 * u * (n * n) + 12 * et.
Proof.
  intros U T N. assert (A : et * n <= et * ((1 + n * n) / 2)) by (apply Rmult_le_compat_l; [lra | pose proof (Rle_0_sqr (n - 1)) as Q; unfold Rsqr in Q; lra]).
  assert (B : et * (n * n) <= u * / 256 * (n * n)) by (apply Rmult_le_compat_r; nra).
  assert (TN : 0 <= et * n) by (apply Rmult_le_pos; lra). assert (C : u * (et * n) <= / 1024 * (et * n)) by (apply Rmult_le_compat_r; lra).
  assert (D : et * et <= et * 1) by (apply Rmult_le_compat_l; lra). assert (E : et * et <= et * / 256) by (apply Rmult_le_compat_l; lra).
  assert (G : 0 <= u * (n * n)) by (apply Rmult_le_pos; nra). lra.
Qed.
Lemma rel_small s e u : 0 <= s -> - u <= e <= u -> - (u * s) <= s * e <= u * s.
Proof. intros; nra. Qed.
Lemma sq_abs_le x k : Rabs x <= k -> x * x <= k * k.
Proof. intro H. rewrite <- (sqr_abs x), Rabs_mult. pose proof (Rabs_pos x). apply Rmult_le_compat; assumption. Qed.
Lemma dist_tri3 a b c : dist a c <= dist a b + dist b c.
Proof. unfold dist. replace (vsub a c) with (vadd (vsub a b) (vsub b c)) by (apply V3_eq; simpl; ring). apply triangle. Qed.

Lemma res_core u et n m M B b dl dt w sd g T e1 e2 h : 0 <= u <= / 1024 -> 0 <= et <= u * / 256 -> 0 <= n <= m -> M = m * m -> 0 <= m -> Rabs B <= n ->
  dt <= M -> Rabs (b - B) <= 13 * u * n + 4 * et -> Rabs (dl - dt) <= 38 * u * M + 20 * et -> 0 <= w -> w * w = dl ->
  sd = w * (1 + e1) + h -> Rabs e1 <= u -> Rabs h <= et -> Rabs e2 <= u -> Rabs g = 1 -> T = (- b + g * sd) * (1 + e2) ->
  Rabs ((T + B) * (T + B) - dt) <= 80 * u * M + 30 * et.
Proof.
  intros U ET N EM m0 HB HD Hb Hl w0 Ew Esd He1 Hh He2 Hg ET'.
  assert (M0 : 0 <= M) by (rewrite EM; nra). assert (UM0 : 0 <= u * M) by (apply Rmult_le_pos; lra).
  assert (UM1 : u * M <= / 1024 * M) by (apply Rmult_le_compat_r; lra).
  assert (Hl' := Rabs_le_inv _ _ Hl).
  assert (W2 : w * w <= 104 / 100 * M + 20 * et) by lra.
  assert (MW : m * w <= 102 / 100 * M + 10 * et) by (pose proof (Rle_0_sqr (m - w)) as Q; unfold Rsqr in Q; lra).
  assert (TW : et * w <= et * ((1 + w * w) / 2)) by (apply Rmult_le_compat_l; [lra |]; pose proof (Rle_0_sqr (w - 1)) as Q; unfold Rsqr in Q; lra).
  assert (TW2 : et * (w * w) <= / 262144 * (w * w)) by (apply Rmult_le_compat_r; nra).
  assert (TW2' : et * (w * w) <= u * / 256 * (w * w)) by (apply Rmult_le_compat_r; nra).
  assert (UW2 : u * (w * w) <= u * (104 / 100 * M + 20 * et)) by (apply Rmult_le_compat_l; lra).
  assert (UMW : u * (m * w) <= u * (102 / 100 * M + 10 * et)) by (apply Rmult_le_compat_l; lra).
  assert (UE : u * et <= / 1024 * et) by (apply Rmult_le_compat_r; lra).
  assert (EE : et * et <= / 262144 * et) by (apply Rmult_le_compat_r; lra).
  assert (TM : et * m <= et * ((1 + M) / 2)) by (apply Rmult_le_compat_l; [lra |]; rewrite EM; pose proof (Rle_0_sqr (m - 1)) as Q; unfold Rsqr in Q; lra).
  assert (TMM : et * M <= u * / 256 * M) by (apply Rmult_le_compat_r; lra).
  assert (um0 : 0 <= u * m) by (apply Rmult_le_pos; lra). assert (uw0 : 0 <= u * w) by (apply Rmult_le_pos; lra). assert (tw0 : 0 <= et * w) by (apply Rmult_le_pos; lra). assert (tm0 : 0 <= et * m) by (apply Rmult_le_pos; lra).
  assert (UUM : u * (u * M) <= / 1024 * (u * M)) by (apply Rmult_le_compat_r; lra).
  assert (uww0 : 0 <= u * (w * w)) by (apply Rmult_le_pos; nra).
  assert (UUW : u * (u * (w * w)) <= / 1024 * (u * (w * w))) by (apply Rmult_le_compat_r; lra).
  assert (UTM : u * (et * m) <= / 1024 * (et * m)) by (apply Rmult_le_compat_r; lra). assert (UTW : u * (et * w) <= / 1024 * (et * w)) by (apply Rmult_le_compat_r; lra).
  assert (un : u * n <= u * m) by (apply Rmult_le_compat_l; lra). assert (un0 : 0 <= u * n) by (apply Rmult_le_pos; lra).
  assert (e1a := Rabs_le_inv _ _ He1). assert (ha := Rabs_le_inv _ _ Hh).
  assert (A1 : Rabs (1 + e1) <= 1001 / 1000) by (apply Rabs_le; lra).
  assert (Sd : Rabs sd <= 1001 / 1000 * w + et).
  { rewrite Esd. eapply Rle_trans; [apply Rabs_triang |]. rewrite Rabs_mult, (Rabs_pos_eq w) by exact w0. assert (w * Rabs (1 + e1) <= w * (1001 / 1000)) by (apply Rmult_le_compat_l; assumption). lra. }
  assert (Ab : Rabs b <= 102 / 100 * m + 4 * et).
  { replace b with ((b - B) + B) by ring. eapply Rle_trans; [apply Rabs_triang |]. assert (u * m <= / 1024 * m) by (apply Rmult_le_compat_r; lra). lra. }
  set (G := (B - b) + (- b + g * sd) * e2).
  assert (HG : Rabs G <= 1403 / 100 * (u * m) + 101 / 100 * (u * w) + 401 / 100 * et).
  { unfold G. eapply Rle_trans; [apply Rabs_triang |]. rewrite Rabs_mult, (Rabs_minus_sym B b).
    assert (Q : Rabs (- b + g * sd) <= 102 / 100 * m + 4 * et + (1001 / 1000 * w + et)).
    { eapply Rle_trans; [apply Rabs_triang |]. rewrite Rabs_Ropp, Rabs_mult, Hg. lra. }
    assert (Rabs (- b + g * sd) * Rabs e2 <= (102 / 100 * m + 4 * et + (1001 / 1000 * w + et)) * u) by (apply Rmult_le_compat; try apply Rabs_pos; assumption). lra. }
  replace ((T + B) * (T + B) - dt) with ((sd * sd - dl) + (dl - dt) + 2 * (g * sd * G) + G * G).
  2: { assert (GG : g * g = 1) by (rewrite <- (Rabs_pos_eq (g * g)) by nra; rewrite Rabs_mult, Hg; ring). replace (T + B) with (g * sd + G) by (unfold G; rewrite ET'; ring).
       replace ((g * sd + G) * (g * sd + G)) with (g * g * (sd * sd) + 2 * (g * sd * G) + G * G) by ring. rewrite GG. ring. }
  assert (P1 : Rabs (sd * sd - dl) <= 21 / 10 * (u * M) + 12 / 10 * et).
  { assert (X : sd * sd - dl = w * w * (2 * e1 + e1 * e1) + 2 * (w * (1 + e1) * h) + h * h) by (rewrite Esd, <- Ew; ring). rewrite X. clear X.
    assert (Y1 : Rabs (w * w * (2 * e1 + e1 * e1)) <= w * w * (2001 / 1000 * u)).
    { rewrite Rabs_mult, (Rabs_pos_eq (w * w)) by nra. apply Rmult_le_compat_l; [nra |]. apply Rabs_le. nra. }
    assert (Y2 : Rabs (w * (1 + e1) * h) <= w * (1001 / 1000) * et).
    { rewrite !Rabs_mult, (Rabs_pos_eq w) by exact w0. apply Rmult_le_compat; [apply Rmult_le_pos; [lra | apply Rabs_pos] | apply Rabs_pos | apply Rmult_le_compat_l; assumption | assumption]. }
    assert (Y3 : Rabs (h * h) <= et * et) by (rewrite Rabs_mult; apply Rmult_le_compat; try apply Rabs_pos; assumption).
    eapply Rle_trans; [apply Rabs_triang |]. eapply Rle_trans; [apply Rplus_le_compat_r, Rabs_triang |]. rewrite (Rabs_mult 2), (Rabs_pos_eq 2) by lra. lra. }
  assert (P2 : Rabs (g * sd * G) <= (1001 / 1000 * w + et) * (1403 / 100 * (u * m) + 101 / 100 * (u * w) + 401 / 100 * et)).
  { rewrite !Rabs_mult, Hg, Rmult_1_l. apply Rmult_le_compat; try apply Rabs_pos; assumption. }
  assert (P3 : Rabs (G * G) <= (1403 / 100 * (u * m) + 101 / 100 * (u * w) + 401 / 100 * et) * (1403 / 100 * (u * m) + 101 / 100 * (u * w) + 401 / 100 * et)).
  { rewrite !Rabs_mult. apply Rmult_le_compat; try apply Rabs_pos; assumption. }
  assert (UUMW : u * (u * (m * w)) <= / 1024 * (u * (m * w))) by (apply Rmult_le_compat_r; [apply Rmult_le_pos; [lra | apply Rmult_le_pos; lra] | lra]).
  rewrite EM in *.
  eapply Rle_trans; [apply Rabs_triang |]. eapply Rle_trans; [apply Rplus_le_compat_r, Rabs_triang |]. eapply Rle_trans; [do 2 apply Rplus_le_compat_r; apply Rabs_triang |].
  rewrite (Rabs_mult 2), (Rabs_pos_eq 2) by lra. lra.
Qed.
Lemma neg_core u et b n w sd e h e2 : 0 <= u <= / 1024 -> 0 <= et <= u * / 256 -> 0 <= n -> 0 <= b <= 102 / 100 * n + 4 * et -> 0 <= w -> b * b * (1 - u) - et <= w * w ->
  sd = w * (1 + e) + h -> Rabs e <= u -> Rabs h <= et -> Rabs e2 <= u -> - (3 * u * n + 3 * sqrt et) <= (- b + sd) * (1 + e2).
Proof.
  intros U ET N B W HW Esd He Hh He2. apply Rabs_le_inv in He, Hh, He2. pose proof (sqrt_pos et) as S0. pose proof (sqrt_sqrt et ltac:(lra)) as SS. set (s := sqrt et) in *.
  assert (Es : et <= s) by nra.
  assert (Wy : b * (1 - u) - s <= w).
  { destruct (Rle_or_lt (b * (1 - u)) s) as [H | H]; [lra |]. set (y := b * (1 - u)) in *.
    assert (y * y <= b * b * (1 - u)) by (unfold y; assert (0 <= b * b) by nra; nra).
    apply Rnot_lt_le. intro K. assert (w * w < (y - s) * (y - s)) by nra. nra. }
  assert (Q : - (2 * u * b) - s - et <= - b + sd).
  { assert (Q1 : w * (1 - u) <= w * (1 + e)) by (apply Rmult_le_compat_l; lra). assert (Q2 : (b * (1 - u) - s) * (1 - u) <= w * (1 - u)) by (apply Rmult_le_compat_r; lra).
    assert (0 <= s * u) by (apply Rmult_le_pos; lra). assert (0 <= b * (u * u)) by (apply Rmult_le_pos; nra). rewrite Esd. lra. }
  assert (ub : u * b <= u * (102 / 100 * n + 4 * et)) by (apply Rmult_le_compat_l; lra). assert (ub0 : 0 <= u * b) by (apply Rmult_le_pos; lra).
  assert (un0 : 0 <= u * n) by (apply Rmult_le_pos; lra). assert (ue : u * et <= / 1024 * et) by (apply Rmult_le_compat_r; lra).
  set (k := 2 * u * b + s + et) in *. assert (K0 : 0 <= k) by (unfold k; lra).
  assert (- (k * (1 + / 1024)) <= (- b + sd) * (1 + e2)).
  { destruct (Rle_or_lt 0 (- b + sd)) as [H | H]; [assert (0 <= (- b + sd) * (1 + e2)) by (apply Rmult_le_pos; lra); nra |].
    assert ((- b + sd) * (1 + e2) >= (- k) * (1 + e2)) by (apply Rle_ge, Rmult_le_compat_r; [lra | unfold k; lra]).
    assert (k * (1 + e2) <= k * (1 + / 1024)) by (apply Rmult_le_compat_l; lra). lra. }
  assert (3 * s >= 3 * s) by lra. unfold k in H. lra.
Qed.

Section Ieee5.
  Context (prec emax : Z) {Hp : Prec_gt_0 prec} {Hm : Prec_lt_emax prec emax} (lm : libm (binary_float prec emax)).
  Notation bf := (binary_float prec emax).
  Notation fmt := (SpecFloat.fexp prec emax).
  Notation rnd := (round radix2 fmt ZnearestE).
  Notation val := (@B2R prec emax).
  Notation fin x := (is_finite (x : bf) = true).
  Notation u := (uro prec).
  Notation et := (eta prec emax).
  Notation fv := (fv prec emax).
  Notation bnd := (bnd prec emax).
  Notation F := (@Ieee prec emax Hp Hm lm).
  Notation "# a" := (b2x prec emax a) (at level 9).
  Notation w3 v := (v3 (v : mat3x1 bf)).

  Definition bnd3 (k : Z) (v : mat3x1 F) : Prop := match v with M3x1 (A3 a b c) => bnd k a /\ bnd k b /\ bnd k c end.
  Lemma bnd3_fin k v : bnd3 k v -> fin3 (v : mat3x1 bf).
  Proof. destruct v as [[a b c]]. intros ([] & [] & []). repeat split; assumption. Qed.
  Lemma moderate_bnd3 v : moderate (v : mat3x1 bf) -> bnd3 (emax / 2 - 3) v.
  Proof. destruct v as [[a b c]]. intros [(F1 & F2 & F3) (L1 & L2 & L3)]. repeat split; assumption. Qed.
  Lemma err3_small A : (9 < prec)%Z -> 0 <= A -> err prec emax 3 A <= 301 / 100 * u * A + 4 * et.
  Proof.
    intros P HA. pose proof (u_small prec P) as U. pose proof (u_pos prec) as U0. pose proof (et_pos prec emax) as T0.
    unfold err. replace (INR 3) with 3 by (simpl; lra). change (3 - 1)%nat with 2%nat.
    assert ((1 + u) ^ 3 - 1 <= 301 / 100 * u) by (simpl; nra). assert (3 * (1 + u) ^ 2 <= 4) by (simpl; nra).
    assert (((1 + u) ^ 3 - 1) * A <= 301 / 100 * u * A) by (apply Rmult_le_compat_r; assumption).
    assert (3 * (1 + u) ^ 2 * et <= 4 * et) by (apply Rmult_le_compat_r; lra). lra.
  Qed.
  Lemma dot_v (a b : mat3x1 F) j k : (9 < prec)%Z -> (3 - emax - prec <= j + k)%Z -> (j + k + 2 < emax)%Z -> bnd3 j a -> bnd3 k b ->
    exists t, mat3x1_dot a b = Some t /\ fin t /\ Rabs (val t - vdot (w3 a) (w3 b)) <= 301 / 100 * u * (norm (w3 a) * norm (w3 b)) + 4 * et.
  Proof.
    intros P K1 K2 Ba Bb. destruct a as [[a0 a1 a2]], b as [[b0 b1 b2]]. destruct Ba as (A0 & A1 & A2), Bb as (B0 & B1 & B2).
    assert (Z1 : (j + k < emax)%Z) by lia. assert (Z2 : (j + k + 1 < emax)%Z) by lia. assert (Z3 : (3 - emax - prec <= j + k + 1)%Z) by lia.
    assert (Z4 : (j + k + 1 + 1 < emax)%Z) by lia. assert (Z5 : (j + k <= j + k + 1)%Z) by lia.
    destruct (mult_bnd prec emax j k a0 b0 K1 Z1 A0 B0) as [_ M0]. destruct (mult_bnd prec emax j k a1 b1 K1 Z1 A1 B1) as [_ M1].
    destruct (mult_bnd prec emax j k a2 b2 K1 Z1 A2 B2) as [_ M2]. destruct (plus_bnd prec emax (j + k) _ _ K1 Z2 M0 M1) as [_ M3].
    destruct (plus_bnd prec emax (j + k + 1) _ _ Z3 Z4 M3 (bnd_le prec emax (j + k) (j + k + 1) _ Z5 M2)) as [_ M4].
    eexists. split; [reflexivity |]. split; [exact (proj1 M4) |].
    eapply Rle_trans; [exact (dot3_err prec emax lm a0 a1 a2 b0 b1 b2 _ eq_refl (proj1 M4)) |].
    assert (Q : Rabs (val a0 * val b0) + Rabs (val a1 * val b1) + Rabs (val a2 * val b2) <= norm (w3 (M3x1 (A3 a0 a1 a2))) * norm (w3 (M3x1 (A3 b0 b1 b2)))).
    { apply prod_sum3; try apply norm_pos; rewrite norm_sq; reflexivity. }
    eapply Rle_trans; [apply err3_small; [exact P |] |].
    - pose proof (Rabs_pos (val a0 * val b0)). pose proof (Rabs_pos (val a1 * val b1)). pose proof (Rabs_pos (val a2 * val b2)). lra.
    - apply Rplus_le_compat_r. apply Rmult_le_compat_l; [pose proof (u_pos prec); lra | exact Q].
  Qed.
  (** the computed unit vector *)
  Lemma nrm_ieee (n : mat3x1 F) : (9 < prec)%Z -> good_normal (n : mat3x1 bf) ->
    bnd3 1 (nrm n) /\ dist (w3 (nrm n)) (unit (v3 n)) <= 8 * u /\ norm (unit (w3 n)) = 1.
  Proof.
    intros P [[Fn Ln] HS]. destruct n as [[a b c]]. destruct Fn as [Fa [Fb Fc]]. destruct Ln as [La [Lb Lc]]. pose proof (half_k prec emax P) as [Hk1 Hk2]. set (k := (emax / 2 - 3)%Z) in *.
    destruct (len3_ok prec emax k a b c ltac:(lia) ltac:(lia) (conj Fa La) (conj Fb Lb) (conj Fc Lc)) as [_ [_ [Fl _]]].
    destruct (norm3 prec emax lm a b c (len3 prec emax a b c) P eq_refl Fl HS) as [_ [x [y [z [E [[Fx Ex] [[Fy Ey] [[Fz Ez] _]]]]]]]].
    rewrite normalize_nrm in E.
    apply (f_equal (fun r => match r with Ok (Some v) => v | _ => M3x1 (A3 x y z) end)) in E. rewrite E. clear E.
    change (val a * val a + val b * val b + val c * val c) with (vdot (w3 (M3x1 (A3 a b c))) (w3 (M3x1 (A3 a b c)))) in *.
    set (nv := w3 (M3x1 (A3 a b c))) in *. change (sqrt (vdot nv nv)) with (norm nv) in *.
    assert (S0 : 0 < vdot nv nv) by (eapply Rlt_le_trans; [apply bpow_gt_0 | exact HS]).
    assert (NZ : nv <> vzero) by (intro H; rewrite H in S0; unfold vdot, vzero in S0; simpl in S0; lra).
    pose proof (norm_nz nv NZ) as NP. pose proof (unit_norm nv NZ) as UN.
    assert (Ux : vx (unit nv) = val a / norm nv) by (unfold unit, vscale; simpl; field; lra).
    assert (Uy : vy (unit nv) = val b / norm nv) by (unfold unit, vscale; simpl; field; lra).
    assert (Uz : vz (unit nv) = val c / norm nv) by (unfold unit, vscale; simpl; field; lra).
    rewrite <- Ux in Ex. rewrite <- Uy in Ey. rewrite <- Uz in Ez.
    destruct (abs_comp_norm (unit nv)) as [B0 [B1 B2]]. rewrite UN in B0, B1, B2.
    pose proof (u_small prec P) as U. pose proof (u_pos prec) as U0. pose proof (et_pos prec emax) as T0. pose proof (et_small prec emax P) as T.
    assert (Ex' : Rabs (val x - vx (unit nv)) <= 7 * u * Rabs (vx (unit nv)) + et) by exact Ex.
    assert (Ey' : Rabs (val y - vy (unit nv)) <= 7 * u * Rabs (vy (unit nv)) + et) by exact Ey.
    assert (Ez' : Rabs (val z - vz (unit nv)) <= 7 * u * Rabs (vz (unit nv)) + et) by exact Ez. clear Ex Ey Ez Ux Uy Uz.
    assert (BX : forall (w : bf) v, fin w -> Rabs v <= 1 -> Rabs (val w - v) <= 7 * u * Rabs v + et -> bnd 1 w).
    { intros w v Fw Bv Ew. split; [exact Fw |]. change (bpow radix2 1) with 2. replace (val w) with (v + (val w - v)) by ring.
      eapply Rle_trans; [apply Rabs_triang |]. nra. }
    split; [| split; [| exact UN]].
    - split; [exact (BX _ _ Fx B0 Ex') | split; [exact (BX _ _ Fy B1 Ey') | exact (BX _ _ Fz B2 Ez')]].
    - unfold dist. apply norm_le_sq; [lra |]. unfold vdot, vsub, v3. cbn [vx vy vz].
      assert (Sq : forall w v, Rabs (w - v) <= 7 * u * Rabs v + et -> (w - v) * (w - v) <= 49 * (u * u) * (v * v) + (14 * u * et * Rabs v + et * et)).
      { intros w v Hw. rewrite <- (sqr_abs v), Rabs_mult. rewrite <- (sqr_abs (w - v)), Rabs_mult. pose proof (Rabs_pos v). pose proof (Rabs_pos (w - v)).
        assert (Rabs (w - v) * Rabs (w - v) <= (7 * u * Rabs v + et) * (7 * u * Rabs v + et)) by (apply Rmult_le_compat; assumption). lra. }
      apply Sq in Ex', Ey', Ez'. pose proof (norm_sq (unit nv)) as NQ. rewrite UN in NQ. unfold vdot in NQ.
      set (X := vx (unit nv)) in *. set (Y := vy (unit nv)) in *. set (Zc := vz (unit nv)) in *.
      assert (UT : 0 <= u * et) by (apply Rmult_le_pos; lra).
      assert (W : forall v, Rabs v <= 1 -> 14 * u * et * Rabs v <= 14 * u * et) by (intros v Hv; rewrite <- (Rmult_1_r (14 * u * et)) at 2; apply Rmult_le_compat_l; lra).
      pose proof (W X B0). pose proof (W Y B1). pose proof (W Zc B2).
      assert (UE : u * et <= u * (u * / 256)) by (apply Rmult_le_compat_l; lra).
      assert (EE : et * et <= (u * / 256) * (u * / 256)) by (apply Rmult_le_compat; lra).
      assert (UU : 0 <= u * u) by nra.
      assert (S49 : 49 * (u * u) * (X * X) + 49 * (u * u) * (Y * Y) + 49 * (u * u) * (Zc * Zc) = 49 * (u * u)).
      { replace (49 * (u * u)) with (49 * (u * u) * (1 * 1)) at 4 by ring. rewrite NQ. ring. }
      lra.
  Qed.
  Lemma dot_comm3 (a b : mat3x1 F) : mat3x1_dot a b = mat3x1_dot b a.
  Proof. destruct a as [[a0 a1 a2]], b as [[b0 b1 b2]]. unfold mat3x1_dot. rewrite (nmul_comm_F prec emax lm a0), (nmul_comm_F prec emax lm a1), (nmul_comm_F prec emax lm a2). reflexivity. Qed.
  (** the sign of a quotient by a negative number of moderate size *)
  Lemma div_sign (x y : bf) : fin x -> fin y -> val y < 0 -> Rabs (val y) <= 2 ->
    (val x <= 0 -> nlt (Bdiv mode_NE x y : F) n0 = false) /\ (bpow radix2 (4 - emax - prec) <= val x -> nlt (Bdiv mode_NE x y : F) n0 = true).
  Proof.
    intros Fx Fy Ny By. destruct (@fv_lit_0 prec emax Hp Hm) as [F0 V0].
    pose proof (Bdiv_correct prec emax Hp Hm mode_NE x y ltac:(lra)) as C. change (round_mode mode_NE) with ZnearestE in C.
    assert (Sy : Bsign y = true).
    { destruct y as [s | s | | s m e h]; try discriminate Fy; simpl in Ny; [lra |]. simpl. destruct s; [reflexivity |].
      assert (0 < F2R (Float radix2 (Z.pos m) e)) by (apply F2R_gt_0; simpl; lia). simpl in Ny. lra. }
    destruct (Rlt_bool_spec (Rabs (rnd (val x / val y))) (bpow radix2 emax)) as [L | L].
    - destruct C as (V & Fd & _). rewrite Fx in Fd.
      assert (N : nlt (Bdiv mode_NE x y : F) n0 = true <-> rnd (val x / val y) < 0).
      { rewrite (nlt_F prec emax lm), (fin_x prec emax _ Fd). change (@n0 F) with (@f_lit prec emax Hp Hm 0 1). rewrite (fin_x prec emax _ F0), V0.
        change (xlt (Fin (val (Bdiv mode_NE x y))) (Fin 0)) with (val (Bdiv mode_NE x y) < 0). rewrite V. reflexivity. }
      split; intro H.
      + apply not_true_is_false. rewrite N. intro K. assert (0 <= rnd (val x / val y)); [| lra]. rewrite <- (rnd_0 prec emax). apply (rnd_le prec emax).
        unfold Rdiv. pose proof (Rinv_lt_0_compat _ Ny). nra.
      + apply N. apply Rle_lt_trans with (rnd (- bpow radix2 (3 - emax - prec))).
        * apply (rnd_le prec emax). replace (4 - emax - prec)%Z with (3 - emax - prec + 1)%Z in H by lia. rewrite bpow_plus in H. change (bpow radix2 1) with 2 in H.
          assert (Iy : / val y <= - / 2).
          { pose proof (Rinv_lt_0_compat _ Ny) as Li. pose proof (Rinv_r (val y) ltac:(lra)) as Ri. rewrite Rabs_left in By by exact Ny. nra. }
          unfold Rdiv. pose proof (bpow_gt_0 radix2 (3 - emax - prec)). nra.
        * rewrite (rnd_opp prec emax). rewrite round_generic; [pose proof (bpow_gt_0 radix2 (3 - emax - prec)); lra | apply valid_rnd_N |].
          apply generic_format_bpow. change fmt with (FLT_exp (3 - emax - prec) prec). unfold FLT_exp. unfold Prec_gt_0 in Hp. lia.
    - assert (Nz : val x <> 0).
      { intro Z. rewrite Z in L. unfold Rdiv in L. rewrite Rmult_0_l, rnd_0, Rabs_R0 in L. pose proof (bpow_gt_0 radix2 emax). lra. }
      assert (Sx : Bsign x = true <-> val x < 0).
      { destruct x as [s | s | | s m e h]; try discriminate Fx; [simpl in Nz; lra |]. destruct s; simpl.
        - split; [intros _ | reflexivity]. apply F2R_lt_0. simpl. lia.
        - split; [discriminate |]. intro Q. exfalso. assert (0 < F2R (Float radix2 (Z.pos m) e)) by (apply F2R_gt_0; simpl; lia). simpl in Q. lra. }
      rewrite Sy in C. assert (O : B2SF (Bdiv mode_NE x y) = SpecFloat.S754_infinity (xorb (Bsign x) true)) by (rewrite C; reflexivity).
      destruct (Bdiv mode_NE x y) as [s | s | | s m e h]; try discriminate O. injection O as ->. rewrite !(nlt_F prec emax lm).
      split; intro H.
      + rewrite (proj2 Sx) by lra. apply not_true_is_false. rewrite (nlt_F prec emax lm). change (@n0 F) with (@f_lit prec emax Hp Hm 0 1). rewrite (fin_x prec emax _ F0). simpl. intros [].
      + assert (Bsign x = false) as ->.
        { apply not_true_is_false. rewrite Sx. intro Q. pose proof (bpow_gt_0 radix2 (4 - emax - prec)). lra. }
        change (@n0 F) with (@f_lit prec emax Hp Hm 0 1). rewrite (fin_x prec emax _ F0). simpl. exact I.
  Qed.

  (** the point at parameter [t] of a computed direction, against the point at parameter [T] of the true one *)
  Lemma along_ieee (d o : mat3x1 F) (t : F) (D : V3) (T : R) : (9 < prec)%Z -> bnd3 1 d -> dist (w3 d) D <= 8 * u -> norm D = 1 ->
    bnd (emax / 2 + 2) t -> moderate (o : mat3x1 bf) -> exists p, along d t o = Ok p /\ fin3 (p : mat3x1 bf) /\
    dist (w3 p) (vadd (w3 o) (vscale T D)) <= 102 / 100 * Rabs (val t - T) + 11 * u * Rabs T + u * norm (w3 o) + 3 * et.
  Proof.
    intros P Bd Hd ND Bt Mo. pose proof (half_k prec emax P) as [Hk1 Hk2]. apply moderate_bnd3 in Mo.
    assert (Z1 : (3 - emax - prec <= 1 + (emax / 2 + 2))%Z) by lia. assert (Z2 : (1 + (emax / 2 + 2) < emax)%Z).
    { assert (HM : (prec < emax)%Z) by exact Hm. lia. }
    assert (Z3 : (1 + (emax / 2 + 2) + 1 < emax)%Z) by (assert (HM : (prec < emax)%Z) by exact Hm; lia). assert (Z4 : (emax / 2 - 3 <= 1 + (emax / 2 + 2))%Z) by lia.
    pose proof (u_small prec P) as U. pose proof (u_pos prec) as U0. pose proof (et_pos prec emax) as T0. pose proof (et_small prec emax P) as Ts.
    assert (Nd : norm (w3 d) <= 101 / 100) by (pose proof (norm_close (w3 d) D); lra). pose proof (norm_pos (w3 d)) as Nd0.
    destruct d as [[d0 d1 d2]], o as [[o0 o1 o2]]. destruct Bd as (A0 & A1 & A2), Mo as (B0 & B1 & B2).
    assert (S : forall a b : bf, bnd 1 a -> bnd (emax / 2 - 3) b -> fin (Bplus mode_NE (Bmult mode_NE a t) b) /\
      Rabs (val (Bplus mode_NE (Bmult mode_NE a t) b) - (val b + val t * val a)) <= 201 / 100 * u * Rabs (val t * val a) + u * Rabs (val b) + 101 / 100 * et).
    { intros a b Ba Bb. destruct (mult_bnd prec emax 1 (emax / 2 + 2) a t Z1 Z2 Ba Bt) as [[_ V1] Bm].
      destruct (plus_bnd prec emax (1 + (emax / 2 + 2)) _ b Z1 Z3 Bm (bnd_le prec emax _ _ b Z4 Bb)) as [[F2 V2] _]. split; [exact F2 |].
      destruct (plus_rel prec emax (Bmult mode_NE a t) b) as [f [Hf Rf]]. rewrite Rf in V2. destruct (rnd_err prec emax (val a * val t)) as [e [h [He [Hh Re]]]].
      rewrite Re in V1. rewrite V1 in V2. rewrite V2.
      replace (((val a * val t) * (1 + e) + h + val b) * (1 + f) - (val b + val t * val a)) with ((val t * val a) * (e + f + e * f) + val b * f + h * (1 + f)) by ring.
      eapply Rle_trans; [apply Rabs_triang |]. eapply Rle_trans; [apply Rplus_le_compat_r, Rabs_triang |]. rewrite !Rabs_mult.
      assert (Q1 : Rabs (e + f + e * f) <= 201 / 100 * u).
      { eapply Rle_trans; [apply Rabs_triang |]. pose proof (Rabs_triang e f). rewrite Rabs_mult. pose proof (Rabs_pos e). pose proof (Rabs_pos f). nra. }
      assert (Q2 : Rabs (1 + f) <= 101 / 100) by (eapply Rle_trans; [apply Rabs_triang |]; rewrite Rabs_R1; lra).
      rewrite <- Rabs_mult. pose proof (Rabs_pos (val t * val a)). pose proof (Rabs_pos (val b)). pose proof (Rabs_pos h). pose proof (Rabs_pos (1 + f)).
      assert (Rabs (val t * val a) * Rabs (e + f + e * f) <= Rabs (val t * val a) * (201 / 100 * u)) by (apply Rmult_le_compat_l; assumption).
      assert (Rabs (val b) * Rabs f <= Rabs (val b) * u) by (apply Rmult_le_compat_l; assumption).
      assert (Rabs h * Rabs (1 + f) <= et * (101 / 100)) by (apply Rmult_le_compat; assumption). lra. }
    eexists. split; [reflexivity |]. destruct (S d0 o0 A0 B0) as [G0 E0], (S d1 o1 A1 B1) as [G1 E1], (S d2 o2 A2 B2) as [G2 E2].
    split; [repeat split; assumption |].
    set (dv := w3 (M3x1 (A3 d0 d1 d2))) in *. set (ov := w3 (M3x1 (A3 o0 o1 o2))) in *. set (pv := w3 _).
    assert (H1 : dist pv (vadd ov (vscale (val t) dv)) <= 201 / 100 * u * norm (vscale (val t) dv) + u * norm ov + 2 * (101 / 100 * et)).
    { unfold dist. apply norm_comb; try (lra); [exact E0 | exact E1 | exact E2]. }
    assert (H2 : dist (vadd ov (vscale (val t) dv)) (vadd ov (vscale T D)) <= Rabs (val t - T) * norm dv + Rabs T * dist dv D).
    { unfold dist. replace (vsub (vadd ov (vscale (val t) dv)) (vadd ov (vscale T D))) with (vadd (vscale (val t - T) dv) (vscale T (vsub dv D))).
      - eapply Rle_trans; [apply triangle |]. rewrite !norm_scale_abs. lra.
      - apply V3_eq; unfold vadd, vsub, vscale; cbn [vx vy vz]; ring. }
    assert (H3 : dist pv (vadd ov (vscale T D)) <= dist pv (vadd ov (vscale (val t) dv)) + dist (vadd ov (vscale (val t) dv)) (vadd ov (vscale T D))) by apply dist_tri3.
    rewrite norm_scale_abs in H1. assert (H4 : Rabs (val t) <= Rabs (val t - T) + Rabs T) by (replace (val t) with ((val t - T) + T) at 1 by ring; apply Rabs_triang).
    pose proof (Rabs_pos (val t - T)) as X0. pose proof (Rabs_pos T) as Y0. pose proof (norm_pos ov) as W0. set (X := Rabs (val t - T)) in *. set (Y := Rabs T) in *. set (nd := norm dv) in *.
    assert (X * nd <= X * (101 / 100)) by (apply Rmult_le_compat_l; assumption). assert (Y * dist dv D <= Y * (8 * u)) by (apply Rmult_le_compat_l; assumption).
    assert (Rabs (val t) * nd <= (X + Y) * (101 / 100)) by (apply Rmult_le_compat; try assumption; apply Rabs_pos).
    assert (201 / 100 * u * (Rabs (val t) * nd) <= 201 / 100 * u * ((X + Y) * (101 / 100))) by (apply Rmult_le_compat_l; [lra | assumption]).
    assert (u * X <= / 1024 * X) by (apply Rmult_le_compat_r; assumption). assert (0 <= u * Y) by (apply Rmult_le_pos; lra). lra.
  Qed.

  (** the cosine of two computed unit vectors *)
  Lemma cos_ieee (n d : mat3x1 F) : (9 < prec)%Z -> good_normal (n : mat3x1 bf) -> good_normal (d : mat3x1 bf) -> exists c,
    mat3x1_dot (nrm n) (nrm d) = Some c /\ fin c /\ Rabs (val c - vdot (unit (v3 n)) (unit (v3 d))) <= 21 * u /\ Rabs (val c) <= 2.
  Proof.
    intros P Gn Gd. destruct (nrm_ieee n P Gn) as [Bn [Dn Un]], (nrm_ieee d P Gd) as [Bd [Dd Ud]].
    assert (HP : (0 < prec)%Z) by exact Hp. assert (HM : (prec < emax)%Z) by exact Hm.
    destruct (dot_v (nrm n) (nrm d) 1 1 P ltac:(lia) ltac:(lia) Bn Bd) as [c [Ec [Fc Hc]]]. exists c. split; [exact Ec |]. split; [exact Fc |].
    pose proof (u_small prec P) as U. pose proof (u_pos prec) as U0. pose proof (et_pos prec emax) as T0. pose proof (et_small prec emax P) as Ts.
    pose proof (dot_near (w3 (nrm n)) (w3 (nrm d)) (unit (v3 n)) (unit (v3 d))) as Q. rewrite Un in Q.
    pose proof (norm_close (w3 (nrm n)) (unit (v3 n))) as Nn. pose proof (norm_close (w3 (nrm d)) (unit (v3 d))) as Nd. rewrite Un in Nn. rewrite Ud in Nd.
    pose proof (norm_pos (w3 (nrm n))) as Pn. pose proof (norm_pos (w3 (nrm d))) as Pd. pose proof (cauchy (unit (v3 n)) (unit (v3 d))) as C1. rewrite Un, Ud in C1.
    set (N := unit (v3 n)) in *. set (D := unit (v3 d)) in *. set (nn := w3 (nrm n)) in *. set (dd := w3 (nrm d)) in *.
    assert (0 <= dist nn N) by apply norm_pos.
    assert (dist nn N * norm dd <= 8 * u * (101 / 100)) by (apply Rmult_le_compat; lra).
    assert (norm nn * norm dd <= (1 + 8 * u) * (1 + 8 * u)) by (apply Rmult_le_compat; lra).
    assert ((1 + 8 * u) * (1 + 8 * u) <= 102 / 100) by nra.
    assert (301 / 100 * u * (norm nn * norm dd) <= 301 / 100 * u * (102 / 100)) by (apply Rmult_le_compat_l; lra).
    assert (E : Rabs (val c - vdot N D) <= 21 * u).
    { replace (val c - vdot N D) with ((val c - vdot nn dd) + (vdot nn dd - vdot N D)) by ring. eapply Rle_trans; [apply Rabs_triang |]. lra. }
    split; [exact E |]. replace (val c) with ((val c - vdot N D) + vdot N D) by ring. eapply Rle_trans; [apply Rabs_triang |]. lra.
  Qed.
  Lemma neqb_val_false (x y : F) : fin x -> fin y -> val x <> val y -> neqb x y = false.
  Proof.
    intros Fx Fy N. apply not_true_is_false. intro H. apply (neqb_iff (ieee_ordered prec emax lm)) in H. destruct H as [H _].
    change (#x = #y) in H. rewrite !(fin_x prec emax) in H by assumption. injection H as H. apply N, H.
  Qed.
  Lemma moderate_norm (p : mat3x1 F) : moderate (p : mat3x1 bf) -> norm (w3 p) <= 2 * bpow radix2 (emax / 2 - 3).
  Proof.
    destruct p as [[x y z]]. intros [_ (A & B & C)]. pose proof (bpow_gt_0 radix2 (emax / 2 - 3)) as L. set (k := bpow radix2 (emax / 2 - 3)) in *.
    apply norm_le_sq; [lra |]. unfold vdot, v3. cbn [vx vy vz].
    assert (Q : forall a, Rabs a <= k -> a * a <= k * k).
    { intros a H. rewrite <- (sqr_abs a), Rabs_mult. pose proof (Rabs_pos a). apply Rmult_le_compat; assumption. }
    apply Q in A, B, C. nra.
  Qed.
  (** the parameter of the hit *)
  Lemma quot_near num den s c E G : 0 < c -> 0 <= E -> 0 <= s -> Rabs (num - s) <= E -> Rabs (den - c) <= G -> 2 * G <= c ->
    Rabs (num / den - s / c) <= 2 * (E + G * (s / c)) / c.
  Proof.
    intros Pc PE Ps Hn Hd HG. apply Rabs_le_inv in Hd. assert (Dp : c / 2 <= den) by lra.
    replace (num / den - s / c) with (((num - s) - (den - c) * (s / c)) * / den) by (field; lra). rewrite Rabs_mult, (Rabs_pos_eq (/ den)) by (left; apply Rinv_0_lt_compat; lra).
    assert (ST : 0 <= s / c) by (apply Rmult_le_pos; [exact Ps | left; apply Rinv_0_lt_compat; exact Pc]).
    assert (N1 : Rabs ((num - s) - (den - c) * (s / c)) <= E + G * (s / c)).
    { eapply Rle_trans; [apply Rabs_triang |]. rewrite Rabs_Ropp, Rabs_mult, (Rabs_pos_eq (s / c)) by exact ST.
      apply Rplus_le_compat; [exact Hn |]. apply Rmult_le_compat_r; [exact ST |]. apply Rabs_le. exact Hd. }
    replace (2 * (E + G * (s / c)) / c) with ((E + G * (s / c)) * (2 / c)) by (field; lra).
    apply Rmult_le_compat; [apply Rabs_pos | left; apply Rinv_0_lt_compat; lra | exact N1 |].
    replace (2 / c) with (/ (c / 2)) by (field; lra). apply Rinv_le_contravar; lra.
  Qed.
  Theorem ray_plane_ieee (o d : mat3x1 F) e (p n : mat3x1 F) f (a b : shape F) : (9 < prec)%Z -> moderate (o : mat3x1 bf) -> good_normal (d : mat3x1 bf) ->
    moderate (p : mat3x1 bf) -> good_normal (n : mat3x1 bf) -> mk_ray o d e a -> mk_plane p n f b ->
    let N := unit (v3 n) in let D := unit (v3 d) in let s := vdot N (vsub (v3 p) (v3 o)) in let c := vdot N D in
    let E := 13 * u * (norm (v3 o) + norm (v3 p)) + 13 * et in
    (c < - (21 * u) -> s <= - E -> exists q, shape_get_intersect a b = Ok (true, Some q)) /\
    (c < - (21 * u) -> E <= s -> shape_get_intersect a b = Ok (false, None)) /\
    (21 * u < c -> shape_get_intersect a b = Ok (false, None)) /\
    (c <= - (42 * u) -> s <= - E -> s / c <= bpow radix2 (emax / 2) -> exists q, shape_get_intersect a b = Ok (true, Some q) /\ fin3 (q : mat3x1 bf) /\
      dist (v3 q) (vadd (v3 o) (vscale (s / c) D)) <= (3 * E + 57 * u * (s / c)) / - c).
  Proof.
    intros P Mo Gd Mp Gn Ma Mb N D s c E.
    assert (Fo : fin3 (o : mat3x1 bf)) by apply Mo. assert (Fd : fin3 (d : mat3x1 bf)) by apply Gd.
    assert (O1 : owns prec emax lm a (v3 o)).
    { eapply own_ray; [exact Ma | exact Fo | exact Fd |]. exists 0. split; [lra |]. apply V3_eq; unfold vadd, vscale; cbn [vx vy vz]; ring. }
    assert (O2 : owns prec emax lm b (v3 o)) by (eapply own_plane; eassumption).
    pose proof (owns_meet prec emax lm a b _ O1 O2) as I1. clear O1 O2.
    destruct (proj_diff prec emax lm n p o P Gn Mp Mo) as [k1 [k2 [K1 [K2 [Fn Hn]]]]]. fold N s in Hn.
    destruct (cos_ieee n d P Gn Gd) as [g [Eg [Fg [Hg Bg]]]]. fold N D c in Hg.
    pose proof (u_small prec P) as U. pose proof (u_pos prec) as U0. pose proof (et_pos prec emax) as T0. pose proof (et_small prec emax P) as Ts.
    destruct (@fv_lit_0 prec emax Hp Hm) as [F0 V0]. change (@f_lit prec emax Hp Hm 0 1) with (@n0 F) in F0, V0.
    assert (Hn' : Rabs (val (nsub F k1 k2) - s) <= E - 4 * et) by (unfold E; lra). clear Hn.
    pose proof (norm_pos (w3 o)) as No. pose proof (norm_pos (w3 p)) as Np.
    assert (E0 : 0 <= u * norm (w3 o)) by (apply Rmult_le_pos; lra). assert (E1 : 0 <= u * norm (w3 p)) by (apply Rmult_le_pos; lra).
    apply ray_any_eq in Ma. apply plane_any in Mb. subst a b.
    assert (EV : shape_get_intersect (SRay (MkRay o (nrm d) (ray_any o d) (nabs F e))) (SPlane (MkPlane p (nrm n) whole_any (nabs F f))) =
      if neqb g n0 then (if neqb k1 k2 then Ok (true, Some o) else Ok (@miss F)) else if ngt g n0 then Ok (@miss F) else
      if nlt (ndiv F (nsub F k1 k2) g) n0 then Ok (@miss F) else let! q := along (nrm d) (ndiv F (nsub F k1 k2) g) o in Ok (true, Some q)).
    { unfold shape_get_intersect, ray_get_intersect. rewrite I1. cbn [bind negb]. change (shape_get_type _) with TPlane. cbv iota. unfold ray_plane. rewrite data_plane, vec_at_sl. cbn [bind].
      rewrite vec_at3_sl. cbn [bind ray_ori ray_dir]. rewrite (dot_comm3 p (nrm n)), K1. cbn [unwrap bind]. rewrite (dot_comm3 o (nrm n)), K2. cbn [unwrap bind]. rewrite Eg. cbn [unwrap bind].
      reflexivity. }
    rewrite EV. clear EV I1. set (num := nsub F k1 k2) in *.
    apply Rabs_le_inv in Hn'. assert (Hg' := Rabs_le_inv _ _ Hg).
    assert (Neg : c < - (21 * u) -> neqb g n0 = false /\ ngt g n0 = false /\ val g < 0).
    { intro H. split; [apply neqb_val_false; try assumption; lra |]. split; [apply (ngt_val_false prec emax lm); try assumption; lra | lra]. }
    assert (Hit : c < - (21 * u) -> s <= - E -> nlt (ndiv F num g) n0 = false).
    { intros H1 H2. destruct (Neg H1) as [_ [_ G3]]. apply (proj1 (div_sign num g Fn Fg G3 Bg)). lra. }
    split; [| split; [| split]].
    - intros H1 H2. destruct (Neg H1) as [-> [-> _]]. rewrite (Hit H1 H2). unfold along. destruct (nrm d) as [[x y z]], o as [[q0 q1 q2]]. eexists. reflexivity.
    - intros H1 H2. destruct (Neg H1) as [-> [-> G3]]. assert (Nt : nlt (ndiv F num g) n0 = true); [apply (proj2 (div_sign num g Fn Fg G3 Bg)) | rewrite Nt; reflexivity].
      assert (Q4 : bpow radix2 (4 - emax - prec) = 4 * et).
      { unfold eta. replace (4 - emax - prec)%Z with (2 - emax - prec + 2)%Z by lia. rewrite bpow_plus. change (bpow radix2 2) with 4. ring. }
      rewrite Q4. lra.
    - intro H1. rewrite neqb_val_false by (try assumption; lra). assert (G : ngt g n0 = true) by (apply (ngt_val prec emax lm); try assumption; lra). rewrite G. reflexivity.
    - intros H1 H2 HT. assert (H1' : c < - (21 * u)) by lra. destruct (Neg H1') as [-> [-> G3]]. rewrite (Hit H1' H2).
      assert (PE : 0 <= E) by (unfold E; lra).
      pose proof (quot_near (- val num) (- val g) (- s) (- c) E (21 * u) ltac:(lra) PE ltac:(lra)) as Q.
      replace (- val num / - val g) with (val num / val g) in Q by (field; lra). replace (- s / - c) with (s / c) in Q by (field; lra).
      set (T := s / c) in *. set (w := - c) in *. assert (PT : 0 <= T) by (unfold T; replace (s / c) with ((- s) / w) by (unfold w; field; lra); apply Rmult_le_pos; [lra | left; apply Rinv_0_lt_compat; unfold w; lra]).
      assert (Q' : Rabs (val num / val g - T) <= 2 * (E + 21 * u * T) / w).
      { apply Q; [| |unfold w; lra]. - replace (- val num - - s) with (- (val num - s)) by ring. rewrite Rabs_Ropp. apply Rabs_le. lra.
        - replace (- val g - w) with (- (val g - c)) by (unfold w; ring). rewrite Rabs_Ropp. exact Hg. }
      clear Q. pose proof (half_k prec emax P) as [Hk1 Hk2].
      pose proof (moderate_norm o Mo) as Lo. pose proof (moderate_norm p Mp) as Lp.
      assert (LL : bpow radix2 (emax / 2) = 8 * bpow radix2 (emax / 2 - 3)) by (replace (emax / 2)%Z with (emax / 2 - 3 + 3)%Z at 1 by lia; rewrite bpow_plus; change (bpow radix2 3) with 8; ring).
      assert (LM : bpow radix2 (emax / 2 + 2) = 32 * bpow radix2 (emax / 2 - 3)) by (replace (emax / 2 + 2)%Z with (emax / 2 - 3 + 5)%Z by lia; rewrite bpow_plus; change (bpow radix2 5) with 32; ring).
      assert (L1 : 4 <= bpow radix2 (emax / 2 - 3)) by (change 4 with (bpow radix2 2); apply bpow_le; lia).
      rewrite LL in HT. set (L := bpow radix2 (emax / 2 - 3)) in *.
      assert (Cw : 42 * u <= w <= 1).
      { unfold w. split; [lra |]. pose proof (cauchy N D) as C1. destruct (nrm_ieee n P Gn) as [_ [_ Un]], (nrm_ieee d P Gd) as [_ [_ Ud]]. fold N in Un. fold D in Ud.
        rewrite Un, Ud in C1. fold c in C1. apply Rabs_le_inv in C1. lra. }
      assert (Pw : 0 < w) by lra. assert (Iw : 0 < / w) by (apply Rinv_0_lt_compat; exact Pw). assert (Ww : w * / w = 1) by (apply Rinv_r; lra).
      set (X := / w) in *. unfold Rdiv in Q'. fold X in Q'.
      assert (X1 : 1 <= X) by nra. assert (UX : 42 * (u * X) <= 1) by nra.
      assert (TX : 0 <= u * X) by (apply Rmult_le_pos; lra). assert (UT : 0 <= u * T) by (apply Rmult_le_pos; lra). assert (UTX : u * T <= u * T * X) by nra.
      assert (EX : E * X <= 14 / 10 * L).
      { unfold E. assert (et * X <= / 256) by (apply Rle_trans with (u * / 256 * X); [apply Rmult_le_compat_r; lra | lra]).
        assert (u * X * (norm (w3 o) + norm (w3 p)) <= u * X * (4 * L)) by (apply Rmult_le_compat_l; lra). assert (u * X * (4 * L) <= / 42 * (4 * L)) by (apply Rmult_le_compat_r; lra). lra. }
      assert (UTX2 : u * T * X <= / 42 * T) by nra.
      assert (B1 : Rabs (val num / val g - T) <= 13 * L) by (eapply Rle_trans; [exact Q' |]; lra).
      assert (Bq : Rabs (val num / val g) <= bpow radix2 (emax / 2 + 2)).
      { rewrite LM. replace (val num / val g) with ((val num / val g - T) + T) by ring. eapply Rle_trans; [apply Rabs_triang |]. rewrite (Rabs_pos_eq T) by exact PT. lra. }
      assert (HM : (prec < emax)%Z) by exact Hm. assert (HP : (0 < prec)%Z) by exact Hp.
      assert (Br : Rabs (rnd (val num / val g)) <= bpow radix2 (emax / 2 + 2)) by (apply (rnd_bpow prec emax); [lia | exact Bq]).
      destruct (proj1 (div_round prec emax num g Fn ltac:(lra)) (below_big emax (emax / 2 + 2) _ ltac:(lia) Br)) as [Ft Vt].
      destruct (rnd_err prec emax (val num / val g)) as [e1 [h1 [He [Hh R1]]]].
      assert (Bt : bnd (emax / 2 + 2) (ndiv F num g : bf)) by (split; [exact Ft | cbn [ndiv Ieee]; rewrite Vt; exact Br]).
      destruct (nrm_ieee d P Gd) as [Bd [Dd Ud]]. fold D in Dd, Ud.
      destruct (along_ieee (nrm d) o (ndiv F num g) D T P Bd Dd Ud Bt Mo) as [q [Eq [Fq Hq]]].
      rewrite Eq. cbn [bind]. exists q. split; [reflexivity |]. split; [exact Fq |]. eapply Rle_trans; [exact Hq |]. rewrite (Rabs_pos_eq T) by exact PT.
      assert (Tt : Rabs (val (ndiv F num g : bf) - T) <= 202 / 100 * (E + 21 * u * T) * X + u * T + et).
      { cbn [ndiv Ieee]. rewrite Vt, R1. set (Y := val num / val g) in *. replace (Y * (1 + e1) + h1 - T) with ((Y - T) * (1 + e1) + T * e1 + h1) by ring.
        eapply Rle_trans; [apply Rabs_triang |]. eapply Rle_trans; [apply Rplus_le_compat_r, Rabs_triang |]. rewrite !Rabs_mult, (Rabs_pos_eq T) by exact PT.
        assert (Rabs (1 + e1) <= 101 / 100) by (eapply Rle_trans; [apply Rabs_triang |]; rewrite Rabs_R1; lra).
        assert (Rabs (Y - T) * Rabs (1 + e1) <= (2 * (E + 21 * u * T) * X) * (101 / 100)) by (apply Rmult_le_compat; try apply Rabs_pos; assumption).
        assert (T * Rabs e1 <= T * u) by (apply Rmult_le_compat_l; assumption). lra. }
      unfold Rdiv. fold X. assert (EX1 : E <= E * X) by nra. assert (EE : 13 * (u * norm (w3 o)) + 13 * et <= E) by (unfold E; lra). lra.
  Qed.

  (** ray against sphere: the numbers of the quadratic equation *)
  Definition rs_B (o d c : V3) : R := vdot (vsub o c) (unit d).
  Definition rs_C (o c : V3) (r : R) : R := vdot (vsub o c) (vsub o c) - r * r.
  Lemma rs_num (o d c : mat3x1 F) (r : F) : (9 < prec)%Z -> moderate (o : mat3x1 bf) -> good_normal (d : mat3x1 bf) -> moderate (c : mat3x1 bf) ->
    bnd (emax / 2 - 3) r -> exists rel b rr,
    mat3x1_minus o c = Some rel /\ mat3x1_dot rel (nrm d) = Some b /\ mat3x1_dot rel rel = Some rr /\
    let q := nsub F rr (nmul F r r) in let dl := nsub F (nmul F b b) q in
    let B := rs_B (v3 o) (v3 d) (v3 c) in let C := rs_C (v3 o) (v3 c) (val r) in let M := vdot (vsub (v3 o) (v3 c)) (vsub (v3 o) (v3 c)) + val r * val r in
    fin b /\ fin q /\ fin dl /\ bnd (emax / 2 - 1) b /\ bnd (2 * (emax / 2 - 3) + 5) dl /\
    Rabs (val b - B) <= 13 * u * dist (v3 o) (v3 c) + 4 * et /\
    Rabs (val q - C) <= 7 * u * M + 6 * et /\
    Rabs (val dl - (B * B - C)) <= 38 * u * M + 20 * et.
  Proof.
    intros P Mo Gd Mc Br. pose proof (half_k prec emax P) as [Hk1 Hk2]. assert (HM : (prec < emax)%Z) by exact Hm. assert (HP : (0 < prec)%Z) by exact Hp.
    pose proof (u_small prec P) as U. pose proof (u_pos prec) as U0. pose proof (et_pos prec emax) as T0. pose proof (et_small prec emax P) as Ts.
    pose proof (moderate_norm o Mo) as Lo. pose proof (moderate_norm c Mc) as Lc.
    set (k := (emax / 2 - 3)%Z) in *.
    assert (RL : exists rel, mat3x1_minus o c = Some rel /\ bnd3 (k + 1) rel /\ dist (w3 rel) (vsub (w3 o) (w3 c)) <= u * dist (w3 o) (w3 c) /\
      dist (w3 o) (w3 c) <= 7 / 2 * bpow radix2 k).
    { apply moderate_bnd3 in Mo, Mc. fold k in Mo, Mc. destruct o as [[o0 o1 o2]], c as [[c0 c1 c2]]. destruct Mo as (A0 & A1 & A2), Mc as (B0 & B1 & B2).
      destruct (minus_bnd prec emax k o0 c0 ltac:(lia) ltac:(lia) A0 B0) as [[F0 V0] G0]. destruct (minus_bnd prec emax k o1 c1 ltac:(lia) ltac:(lia) A1 B1) as [[F1 V1] G1].
      destruct (minus_bnd prec emax k o2 c2 ltac:(lia) ltac:(lia) A2 B2) as [[F2 V2] G2].
      eexists. split; [reflexivity |]. split; [split; [exact G0 | split; [exact G1 | exact G2]] |]. split.
      - unfold dist at 1. rewrite <- (Rplus_0_r (u * _)). replace 0 with (0 * norm vzero + 2 * 0) by ring. rewrite <- Rplus_assoc.
        assert (W : forall x y : bf, val (Bminus mode_NE x y) = rnd (val x - val y) -> Rabs (val (Bminus mode_NE x y) - (val x - val y)) <= u * Rabs (val x - val y) + 0 * Rabs 0 + 0).
        { intros x y V. rewrite V. destruct (minus_rel prec emax x y) as [ee [He Re]]. rewrite Re. replace ((val x - val y) * (1 + ee) - (val x - val y)) with (ee * (val x - val y)) by ring.
          rewrite Rabs_mult. pose proof (Rabs_pos (val x - val y)). assert (Rabs ee * Rabs (val x - val y) <= u * Rabs (val x - val y)) by (apply Rmult_le_compat_r; assumption). lra. }
        apply norm_comb; try lra; [exact (W _ _ V0) | exact (W _ _ V1) | exact (W _ _ V2)].
      - unfold dist. pose proof (bpow_gt_0 radix2 k) as Lk. set (L := bpow radix2 k) in *. apply norm_le_sq; [lra |]. unfold vdot, vsub, v3. cbn [vx vy vz].
        assert (W : forall x y : bf, bnd k x -> bnd k y -> (val x - val y) * (val x - val y) <= 4 * (L * L)).
        { intros x y [_ X] [_ Y]. fold L in X, Y. apply Rabs_le_inv in X, Y. nra. }
        pose proof (W _ _ A0 B0). pose proof (W _ _ A1 B1). pose proof (W _ _ A2 B2). nra. }
    destruct RL as [rel [Er [Gr [Dr Lr]]]]. destruct (nrm_ieee d P Gd) as [Bd [Dd Ud]].
    destruct (dot_v rel (nrm d) (k + 1) 1 P ltac:(lia) ltac:(lia) Gr Bd) as [b [Eb [Fb Hb]]].
    destruct (dot_v rel rel (k + 1) (k + 1) P ltac:(lia) ltac:(lia) Gr Gr) as [rr [Err [Frr Hrr]]].
    exists rel, b, rr. split; [exact Er |]. split; [exact Eb |]. split; [exact Err |]. intros q dl B C M.
    set (rho := vsub (w3 o) (w3 c)) in *. set (D := unit (v3 d)) in *. set (rl := w3 rel) in *. set (dd := w3 (nrm d)) in *.
    change (dist (w3 o) (w3 c)) with (norm rho) in *. pose proof (norm_pos rho) as R0. set (n := norm rho) in *.
    assert (Nn : n * n = vdot rho rho) by (apply norm_sq).
    assert (Nr : norm rl <= (1 + u) * n) by (pose proof (norm_close rl rho); fold n in H; lra). pose proof (norm_pos rl) as Nr0.
    assert (Nd : norm dd <= 1 + 8 * u) by (pose proof (norm_close dd D); lra). pose proof (norm_pos dd) as Nd0.
    assert (UN : 0 <= u * n) by (apply Rmult_le_pos; lra). assert (UNN : 0 <= u * (n * n)) by (apply Rmult_le_pos; nra).
    assert (Eb1 : Rabs (val b - B) <= 13 * u * n + 4 * et).
    { pose proof (dot_near rl dd rho D) as Q. fold n in Q. change (vdot rho D) with B in Q.
      assert (dist rl rho * norm dd <= u * n * (101 / 100)) by (apply Rmult_le_compat; try assumption; [apply norm_pos | lra]).
      assert (n * dist dd D <= n * (8 * u)) by (apply Rmult_le_compat_l; assumption).
      assert (norm rl * norm dd <= (1 + u) * n * (1 + 8 * u)) by (apply Rmult_le_compat; assumption).
      assert ((1 + u) * n * (1 + 8 * u) <= 102 / 100 * n) by nra.
      assert (301 / 100 * u * (norm rl * norm dd) <= 301 / 100 * u * (102 / 100 * n)) by (apply Rmult_le_compat_l; lra).
      replace (val b - B) with ((val b - vdot rl dd) + (vdot rl dd - B)) by ring. eapply Rle_trans; [apply Rabs_triang |]. lra. }
    assert (AB : Rabs B <= n) by (pose proof (cauchy rho D) as Q; rewrite Ud, Rmult_1_r in Q; exact Q).
    assert (Err1 : Rabs (val rr - n * n) <= 51 / 10 * u * (n * n) + 4 * et).
    { assert (S1 : Rabs (vdot rl rl - n * n) <= 201 / 100 * u * (n * n)).
      { rewrite Nn. pose proof (dot_near rl rl rho rho) as Q. fold n in Q. assert (dist rl rho * norm rl <= u * n * ((1 + u) * n)) by (apply Rmult_le_compat; try assumption; apply norm_pos).
        assert (n * dist rl rho <= n * (u * n)) by (apply Rmult_le_compat_l; assumption). assert (u * n * ((1 + u) * n) <= 101 / 100 * u * (n * n)) by nra. rewrite <- Nn. rewrite <- Nn in Q. lra. }
      assert (norm rl * norm rl <= (1 + u) * n * ((1 + u) * n)) by (apply Rmult_le_compat; assumption).
      assert ((1 + u) * n * ((1 + u) * n) <= 101 / 100 * (n * n)) by nra.
      assert (301 / 100 * u * (norm rl * norm rl) <= 301 / 100 * u * (101 / 100 * (n * n))) by (apply Rmult_le_compat_l; lra).
      replace (val rr - n * n) with ((val rr - vdot rl rl) + (vdot rl rl - n * n)) by ring. eapply Rle_trans; [apply Rabs_triang |]. lra. }
    pose proof (bpow_gt_0 radix2 k) as Lk. assert (L1 : 4 <= bpow radix2 k) by (change 4 with (bpow radix2 2); apply bpow_le; lia).
    assert (L2 : bpow radix2 (emax / 2 - 1) = 4 * bpow radix2 k) by (replace (emax / 2 - 1)%Z with (k + 2)%Z by (unfold k; lia); rewrite bpow_plus; change (bpow radix2 2) with 4; ring).
    assert (L4 : bpow radix2 (2 * k + 4) = 16 * (bpow radix2 k * bpow radix2 k)) by (replace (2 * k + 4)%Z with (k + k + 4)%Z by lia; rewrite !bpow_plus; change (bpow radix2 4) with 16; ring).
    set (L := bpow radix2 k) in *.
    assert (UN3 : u * n <= / 1024 * n) by (apply Rmult_le_compat_r; assumption).
    assert (Bb : bnd (emax / 2 - 1) b).
    { split; [exact Fb |]. rewrite L2. replace (val b) with ((val b - B) + B) by ring. eapply Rle_trans; [apply Rabs_triang |]. lra. }
    assert (nnL : n * n <= 49 / 4 * (L * L)) by nra.
    assert (UNN3 : u * (n * n) <= / 1024 * (n * n)) by (apply Rmult_le_compat_r; nra).
    assert (LL16 : 16 <= L * L) by nra.
    apply Rabs_le_inv in Err1.
    assert (Prr : 0 <= val rr).
    { clear - Err Gr Hk1 Hk2 Hm HM HP. destruct rel as [[x y z]]. destruct Gr as (G0 & G1 & G2).
      apply (f_equal (fun w : option F => match w with Some t => t | None => rr end)) in Err. cbn [mat3x1_dot] in Err. rewrite <- Err.
      exact (proj1 (proj2 (len3_ok prec emax (k + 1) x y z ltac:(lia) ltac:(lia) G0 G1 G2))). }
    assert (Brr : bnd (2 * k + 4) rr) by (split; [exact Frr |]; rewrite L4, Rabs_pos_eq by exact Prr; lra).
    destruct (mult_bnd prec emax k k r r ltac:(lia) ltac:(lia) Br Br) as [[Fr2 Vr2] Br2].
    destruct (mult_bnd prec emax (emax / 2 - 1) (emax / 2 - 1) b b ltac:(lia) ltac:(lia) Bb Bb) as [[Fb2 Vb2] Bb2].
    assert (Pr2 : 0 <= val (Bmult mode_NE r r)) by (rewrite Vr2; apply (rnd_nonneg prec emax); nra).
    assert (Bq : bnd (2 * k + 4) (Bminus mode_NE rr (Bmult mode_NE r r)) /\ fv (Bminus mode_NE rr (Bmult mode_NE r r)) (rnd (val rr - val (Bmult mode_NE r r)))).
    { assert (Q : Rabs (val rr - val (Bmult mode_NE r r)) <= bpow radix2 (2 * k + 4)).
      { destruct Brr as [_ Y1], Br2 as [_ Y2]. rewrite Rabs_pos_eq in Y1, Y2 by assumption. assert (bpow radix2 (k + k) <= bpow radix2 (2 * k + 4)) by (apply bpow_le; lia). apply Rabs_le. lra. }
      assert (Q2 : Rabs (rnd (val rr - val (Bmult mode_NE r r))) <= bpow radix2 (2 * k + 4)) by (apply (rnd_bpow prec emax); [lia | exact Q]).
      destruct (proj1 (minus_round prec emax rr (Bmult mode_NE r r) Frr Fr2) (below_big emax (2 * k + 4) _ ltac:(lia) Q2)) as [Fm Vm]. split; [split; [exact Fm |]; rewrite Vm; exact Q2 | split; assumption]. }
    destruct Bq as [Bq [Fq Vq]]. change (Bminus mode_NE rr (Bmult mode_NE r r)) with (q : bf) in *.
    assert (Bb2' : bnd (2 * k + 4) (Bmult mode_NE b b)) by (apply (bnd_le prec emax (emax / 2 - 1 + (emax / 2 - 1))); [unfold k; lia | exact Bb2]).
    destruct (minus_bnd prec emax (2 * k + 4) (Bmult mode_NE b b) q ltac:(lia) ltac:(lia) Bb2' Bq) as [[Fl Vl] Bl]. change (Bminus mode_NE (Bmult mode_NE b b) q) with (dl : bf) in *.
    split; [exact Fb |]. split; [exact Fq |]. split; [exact Fl |]. split; [exact Bb |]. split; [replace (2 * k + 5)%Z with (2 * k + 4 + 1)%Z by lia; exact Bl |]. split; [exact Eb1 |].
    destruct (rnd_err prec emax (val r * val r)) as [e1 [h1 [He1 [Hh1 R1]]]]. destruct (rnd_err prec emax (val b * val b)) as [e2 [h2 [He2 [Hh2 R2]]]].
    destruct (minus_rel prec emax rr (Bmult mode_NE r r)) as [e3 [He3 R3]]. destruct (minus_rel prec emax (Bmult mode_NE b b) q) as [e4 [He4 R4]].
    rewrite R1 in Vr2. rewrite R2 in Vb2. rewrite R3 in Vq. rewrite R4 in Vl. clear R1 R2 R3 R4.
    apply Rabs_le_inv in He1, Hh1, He2, Hh2, He3, He4.
    set (s2 := val r * val r) in *. assert (S2 : 0 <= s2) by apply Rle_0_sqr. assert (US2 : 0 <= u * s2) by (apply Rmult_le_pos; lra). assert (US3 : u * s2 <= / 1024 * s2) by (apply Rmult_le_compat_r; lra).
    assert (EM : M = n * n + s2) by (unfold M; rewrite Nn; reflexivity). assert (EC : C = n * n - s2) by (unfold C, rs_C; rewrite Nn; reflexivity). rewrite EM, EC.
    assert (es : - (u * s2) <= s2 * e1 <= u * s2) by (apply rel_small; lra).
    assert (Er2 : Rabs (val (Bmult mode_NE r r) - s2) <= u * s2 + et) by (rewrite Vr2; apply Rabs_le; lra). apply Rabs_le_inv in Er2.
    set (x1 := val rr) in *. set (x2 := val (Bmult mode_NE r r)) in *.
    assert (Ue : u * et <= / 1024 * et) by (apply Rmult_le_compat_r; lra).
    assert (E3 : Rabs ((x1 - x2) * e3) <= u * (101 / 100 * (n * n) + 101 / 100 * s2 + 4 * et)).
    { rewrite Rabs_mult, Rmult_comm. apply Rmult_le_compat; try apply Rabs_pos; [apply Rabs_le; lra |]. apply Rabs_le. lra. }
    apply Rabs_le_inv in E3.
    assert (Eq1 : Rabs (val q - (n * n - s2)) <= 62 / 10 * u * (n * n) + 21 / 10 * u * s2 + 51 / 10 * et).
    { rewrite Vq. apply Rabs_le. lra. }
    split; [apply Rabs_le; apply Rabs_le_inv in Eq1; lra |].
    assert (Eb2 : Rabs (val b * val b - B * B) <= 265 / 10 * u * (n * n) + 12 * et).
    { replace (val b * val b - B * B) with ((val b - B) * (val b - B + 2 * B)) by ring. rewrite Rabs_mult.
      assert (Rabs (val b - B + 2 * B) <= 13 * u * n + 4 * et + 2 * n).
      { eapply Rle_trans; [apply Rabs_triang |]. rewrite Rabs_mult, (Rabs_pos_eq 2) by lra. lra. }
      apply Rle_trans with ((13 * u * n + 4 * et) * (202 / 100 * n + 4 * et)).
      - apply Rmult_le_compat; try apply Rabs_pos; [exact Eb1 | lra].
      - apply eb2_core; lra. }
    apply Rabs_le_inv in Eb2, Eq1.
    assert (BBn : B * B <= n * n) by (apply sq_abs_le; exact AB). assert (BB0 : 0 <= B * B) by apply Rle_0_sqr.
    set (b2 := val b * val b) in *. assert (b20 : 0 <= b2) by apply Rle_0_sqr.
    assert (b2n : b2 <= 103 / 100 * (n * n) + 12 * et) by lra.
    assert (Ub2 : 0 <= u * b2) by (apply Rmult_le_pos; lra). assert (Ub2' : u * b2 <= u * (103 / 100 * (n * n) + 12 * et)) by (apply Rmult_le_compat_l; lra).
    assert (es2 : - (u * b2) <= b2 * e2 <= u * b2) by (apply rel_small; lra).
    assert (Em2 : Rabs (val (Bmult mode_NE b b) - B * B) <= 276 / 10 * u * (n * n) + 131 / 10 * et) by (rewrite Vb2; apply Rabs_le; lra). apply Rabs_le_inv in Em2.
    set (x3 := val (Bmult mode_NE b b)) in *. set (x4 := val q) in *.
    assert (E4 : Rabs ((x3 - x4) * e4) <= u * (21 / 10 * (n * n) + 21 / 10 * s2 + 20 * et)).
    { rewrite Rabs_mult, Rmult_comm. apply Rmult_le_compat; try apply Rabs_pos; [apply Rabs_le; lra |]. apply Rabs_le. lra. }
    apply Rabs_le_inv in E4. rewrite Vl. apply Rabs_le. lra.
  Qed.

  Lemma nlt_val (x y : F) : fin x -> fin y -> (nlt x y = true <-> val x < val y).
  Proof. intros Fx Fy. rewrite (nlt_F prec emax lm), !(fin_x prec emax) by assumption. reflexivity. Qed.
  Lemma ray_sphere_eval (o d c : mat3x1 F) (r e f : F) rel b rr : mat3x1_minus o c = Some rel -> mat3x1_dot rel (nrm d) = Some b -> mat3x1_dot rel rel = Some rr ->
    let q := nsub F rr (nmul F r r) in let dl := nsub F (nmul F b b) q in
    let t1 := nsub F (nneg F b) (nsqrt F dl) in let t2 := nadd F (nneg F b) (nsqrt F dl) in
    let t := if nlt t1 n0 then t2 else if nlt t2 n0 then t1 else if nlt t1 t2 then t1 else t2 in
    let ans := if (ngt b n0 && ngt q n0)%bool then Ok (@miss F) else if nlt dl n0 then Ok (@miss F) else let! p := along (nrm d) t o in Ok (true, Some p) in
    let a := SRay (MkRay o (nrm d) (ray_any o d) (nabs F e)) in let z := SSphere (MkSphere c r (cube_any c r) (nabs F f)) in
    shape_get_intersect a z = ans \/ shape_get_intersect a z = Ok (false, None) /\ ibound_intersect (shape_get_bound a) (shape_get_bound z) <> Ok true.
  Proof.
    intros Er Eb Err q dl t1 t2 t ans a z. unfold shape_get_intersect, a, ray_get_intersect.
    destruct (ibound_intersect (shape_get_bound (SRay (MkRay o (nrm d) (ray_any o d) (nabs F e)))) (shape_get_bound z)) as [i | e0] eqn:I1.
    - cbn [bind]. destruct i; cbn [negb]; [left | right; split; [reflexivity | discriminate]].
      change (shape_get_type z) with TSphere. cbv iota. unfold ray_sphere, z. rewrite data_sphere, vec_at_sl. cbn [bind]. rewrite idx3_sl. cbn [bind ray_ori ray_dir].
      rewrite Er. cbn [unwrap bind]. rewrite Eb. cbn [unwrap bind]. rewrite Err. cbn [unwrap bind]. reflexivity.
    - exfalso. unfold z in I1. change (ibound_intersect _ _) with (aabb_intersect (ray_any o d) (BBox (cube_any c r))) in I1. rewrite intersect_eval in I1. discriminate.
  Qed.
  (** a ray and a ball meet when the discriminant is not negative and the ball is not behind *)
  Lemma ray_ball_point o d c r : 0 <= r -> d <> vzero -> 0 <= rs_B o d c * rs_B o d c - rs_C o c r -> rs_B o d c <= 0 \/ rs_C o c r <= 0 ->
    exists x, s_ray o d x /\ s_ball c r x.
  Proof.
    intros Pr Nz HD HB. pose proof (unit_norm d Nz) as Ud. pose proof (norm_nz d Nz) as Nd. set (B := rs_B o d c) in *. set (C := rs_C o c r) in *. set (S := sqrt (B * B - C)).
    assert (SS : S * S = B * B - C) by (apply sqrt_sqrt; exact HD). assert (S0 : 0 <= S) by apply sqrt_pos.
    assert (T0 : 0 <= - B + S) by (destruct HB as [H | H]; nra).
    exists (vadd o (vscale ((- B + S) * / norm d) d)). split.
    - exists ((- B + S) * / norm d). split; [apply Rmult_le_pos; [exact T0 | left; apply Rinv_0_lt_compat; exact Nd] | reflexivity].
    - unfold s_ball, dist. apply norm_le_sq; [exact Pr |]. set (T := - B + S) in *.
      replace (vsub (vadd o (vscale (T * / norm d) d)) c) with (vadd (vsub o c) (vscale T (unit d))) by (apply V3_eq; unfold unit, vadd, vsub, vscale; cbn [vx vy vz]; ring).
      replace (vdot (vadd (vsub o c) (vscale T (unit d))) (vadd (vsub o c) (vscale T (unit d)))) with (vdot (vsub o c) (vsub o c) + 2 * T * B + T * T * vdot (unit d) (unit d))
        by (unfold B, rs_B, vdot, vadd, vscale; cbn [vx vy vz]; ring).
      rewrite <- (norm_sq (unit d)), Ud. assert (C = vdot (vsub o c) (vsub o c) - r * r) by reflexivity. unfold T. nra.
  Qed.
  Theorem ray_sphere_ieee (o d : mat3x1 F) e (c : mat3x1 F) (r : F) f (a z : shape F) : (9 < prec)%Z -> moderate (o : mat3x1 bf) -> good_normal (d : mat3x1 bf) ->
    moderate (c : mat3x1 bf) -> bnd (emax / 2 - 3) r -> 0 <= val r -> mk_ray o d e a -> mk_sphere c r f z ->
    let B := rs_B (v3 o) (v3 d) (v3 c) in let C := rs_C (v3 o) (v3 c) (val r) in
    let M := vdot (vsub (v3 o) (v3 c)) (vsub (v3 o) (v3 c)) + val r * val r in
    let Eb := 13 * u * dist (v3 o) (v3 c) + 4 * et in let Ec := 7 * u * M + 6 * et in let Ed := 38 * u * M + 20 * et in
    (Ed <= B * B - C -> B <= - Eb \/ C <= - Ec -> exists p, shape_get_intersect a z = Ok (true, Some p)) /\
    (B * B - C < - Ed -> shape_get_intersect a z = Ok (false, None)) /\
    (Eb < B -> Ec < C -> shape_get_intersect a z = Ok (false, None)).
  Proof.
    intros P Mo Gd Mc Br Pr Ma Mz B C M Eb Ec Ed.
    destruct (rs_num o d c r P Mo Gd Mc Br) as [rel [b [rr [Er [Ebb [Err H]]]]]]. cbv zeta in H. destruct H as (Fb & Fq & Fl & _ & _ & Hb & Hq & Hl). fold B in Hb, Hl. fold C in Hq, Hl. fold M in Hq, Hl. fold Eb in Hb. fold Ec in Hq. fold Ed in Hl.
    destruct (@fv_lit_0 prec emax Hp Hm) as [F0 V0]. change (@f_lit prec emax Hp Hm 0 1) with (@n0 F) in F0, V0.
    pose proof (u_pos prec) as U0. pose proof (et_pos prec emax) as T0.
    assert (PM : 0 <= M) by (unfold M; pose proof (vdot_pos (vsub (v3 o) (v3 c))); pose proof (Rle_0_sqr (val r)) as Q; unfold Rsqr in Q; lra).
    assert (PEd : 0 <= Ed) by (unfold Ed; pose proof (Rmult_le_pos u M ltac:(lra) PM); lra). assert (PEc : 0 <= Ec) by (unfold Ec; pose proof (Rmult_le_pos u M ltac:(lra) PM); lra).
    assert (PEb : 0 <= Eb) by (unfold Eb; pose proof (Rmult_le_pos u (dist (v3 o) (v3 c)) ltac:(lra) (norm_pos _)); lra).
    assert (Fo : fin3 (o : mat3x1 bf)) by apply Mo. assert (Fd : fin3 (d : mat3x1 bf)) by apply Gd. assert (Fc : fin3 (c : mat3x1 bf)) by apply Mc. assert (Fr : fin r) by apply Br.
    assert (MEET : 0 <= B * B - C -> B <= 0 \/ C <= 0 -> ibound_intersect (shape_get_bound a) (shape_get_bound z) = Ok true).
    { intros H1 H2. assert (NZ : v3 (d : mat3x1 bf) <> vzero).
      { destruct Gd as [_ HS]. intro H. rewrite H in HS. pose proof (bpow_gt_0 radix2 (6 - emax)). replace (vdot vzero vzero) with 0 in HS by (unfold vdot, vzero; cbn [vx vy vz]; ring). lra. }
      destruct (ray_ball_point (v3 o) (v3 d) (v3 c) (val r) Pr NZ H1 H2) as [x [X1 X2]].
      apply (owns_meet prec emax lm a z x); [eapply own_ray; eassumption | eapply own_sphere; eassumption]. }
    apply ray_any_eq in Ma. apply sphere_any in Mz. subst a z. apply Rabs_le_inv in Hb, Hq, Hl.
    pose proof (ray_sphere_eval o d c r e f rel b rr Er Ebb Err) as EV. cbv zeta in EV.
    set (q := nsub F rr (nmul F r r)) in *. set (dl := nsub F (nmul F b b) q) in *. set (t := if nlt (nsub F (nneg F b) (nsqrt F dl)) n0 then _ else _) in *.
    split; [| split].
    - intros H1 H2. destruct EV as [EV | [_ EV]]; [rewrite EV | exfalso; apply EV, MEET; [lra | destruct H2; [left | right]; lra]].
      assert (G1 : (ngt b n0 && ngt q n0)%bool = false).
      { apply andb_false_iff. destruct H2 as [H2 | H2]; [left | right]; apply (ngt_val_false prec emax lm); try assumption; lra. }
      assert (G2 : nlt dl n0 = false).
      { apply not_true_is_false. rewrite nlt_val by assumption. lra. }
      rewrite G1, G2. unfold along. destruct (nrm d) as [[x0 x1 x2]], o as [[y0 y1 y2]]. eexists. reflexivity.
    - intro H1. destruct EV as [EV | [EV _]]; [rewrite EV | exact EV]. destruct (ngt b n0 && ngt q n0)%bool; [reflexivity |].
      assert (G2 : nlt dl n0 = true).
      { apply nlt_val; try assumption. lra. }
      rewrite G2. reflexivity.
    - intros H1 H2. destruct EV as [EV | [EV _]]; [rewrite EV | exact EV].
      assert (G1 : ngt b n0 = true) by (apply (ngt_val prec emax lm); try assumption; lra). assert (G2 : ngt q n0 = true) by (apply (ngt_val prec emax lm); try assumption; lra).
      rewrite G1, G2. reflexivity.
  Qed.

  (** where the hit is, without any margin *)
  Theorem ray_sphere_loc (o d : mat3x1 F) e (c : mat3x1 F) (r : F) f (a z : shape F) p : (9 < prec)%Z -> moderate (o : mat3x1 bf) -> good_normal (d : mat3x1 bf) ->
    moderate (c : mat3x1 bf) -> bnd (emax / 2 - 3) r -> mk_ray o d e a -> mk_sphere c r f z -> shape_get_intersect a z = Ok (true, Some p) ->
    let n := dist (v3 o) (v3 c) in let M := n * n + val r * val r in
    fin3 (p : mat3x1 bf) /\ exists T, - (3 * u * n + 3 * sqrt et) <= T /\ let x := vadd (v3 o) (vscale T (unit (v3 d))) in
    Rabs (dist x (v3 c) * dist x (v3 c) - val r * val r) <= 80 * u * M + 30 * et /\
    dist (v3 p) x <= 11 * u * Rabs T + u * norm (v3 o) + 3 * et.
  Proof.
    intros P. pose proof (half_k prec emax P) as [Hk1 Hk2]. assert (HM : (prec < emax)%Z) by exact Hm. assert (HP : (0 < prec)%Z) by exact Hp.
    assert (Z1 : (3 - emax - prec <= emax / 2)%Z) by lia. assert (Z2 : (2 * (emax / 2 - 3) + 5 <= emax / 2 + emax / 2)%Z) by lia. assert (Z3 : (emax / 2 - 1 <= emax / 2)%Z) by lia.
    assert (Z4 : (emax / 2 + 1 < emax)%Z) by lia. assert (Z5 : (emax / 2 + 1 <= emax / 2 + 2)%Z) by lia. assert (Z6 : (3 - emax - prec <= emax / 2 - 1 + (emax / 2 - 1))%Z) by lia. assert (Z7 : (emax / 2 - 1 + (emax / 2 - 1) < emax)%Z) by lia.
    intros Mo Gd Mc Br Ma Mz R n M.
    destruct (rs_num o d c r P Mo Gd Mc Br) as [rel [b [rr [Er [Ebb [Err H]]]]]]. cbv zeta in H. destruct H as (Fb & Fq & Fl & Bb & Bl & Hb & Hq & Hl).
    set (B := rs_B (v3 o) (v3 d) (v3 c)) in *. set (C := rs_C (v3 o) (v3 c) (val r)) in *.
    assert (NN : n * n = vdot (vsub (v3 o) (v3 c)) (vsub (v3 o) (v3 c))) by apply norm_sq. rewrite <- NN in Hq, Hl. fold n in Hb. fold M in Hq, Hl.
    destruct (@fv_lit_0 prec emax Hp Hm) as [F0 V0]. change (@f_lit prec emax Hp Hm 0 1) with (@n0 F) in F0, V0.
    pose proof (u_small prec P) as U. pose proof (u_pos prec) as U0. pose proof (et_pos prec emax) as T0. pose proof (et_small prec emax P) as Ts.
    apply ray_any_eq in Ma. apply sphere_any in Mz. subst a z.
    pose proof (ray_sphere_eval o d c r e f rel b rr Er Ebb Err) as EV. cbv zeta in EV. rewrite R in EV. clear R.
    destruct EV as [EV | [EV _]]; [symmetry in EV | discriminate EV].
    set (q := nsub F rr (nmul F r r)) in *. set (dl := nsub F (nmul F b b) q) in *.
    destruct (ngt b n0 && ngt q n0)%bool eqn:G1; [discriminate EV |]. destruct (nlt dl n0) eqn:G2; [discriminate EV |].
    assert (Pl : 0 <= val (dl : bf)).
    { apply Rnot_lt_le. intro K. assert (nlt dl n0 = true) by (apply nlt_val; try assumption; rewrite V0; exact K). congruence. }
    destruct (sqrt_ok prec emax dl Fl Pl) as [Fs Vs]. change (Bsqrt mode_NE dl) with (nsqrt F dl : bf) in Fs, Vs. set (sd := nsqrt F dl) in *.
    assert (Bs : bnd (emax / 2) (sd : bf)).
    { split; [exact Fs |]. rewrite Vs. apply (rnd_bpow prec emax); [exact Z1 |]. rewrite Rabs_pos_eq by apply sqrt_pos.
      rewrite <- (sqrt_square (bpow radix2 (emax / 2))) by apply bpow_ge_0. apply sqrt_le_1_alt. rewrite <- bpow_plus.
      destruct Bl as [_ Bl]. rewrite Rabs_pos_eq in Bl by exact Pl. eapply Rle_trans; [exact Bl |]. apply bpow_le. exact Z2. }
    assert (Bo : bnd (emax / 2) (nneg F b : bf)).
    { destruct Bb as [_ Bb]. split; [change (is_finite (Bopp (b : bf)) = true); rewrite is_finite_Bopp; exact Fb |]. change (val (nneg F b : bf)) with (val (Bopp (b : bf))). rewrite B2R_Bopp, Rabs_Ropp. eapply Rle_trans; [exact Bb |]. apply bpow_le. exact Z3. }
    assert (Vo : val (nneg F b : bf) = - val b) by apply B2R_Bopp.
    destruct (minus_bnd prec emax (emax / 2) (nneg F b) sd Z1 Z4 Bo Bs) as [[Ft1 Vt1] Bt1]. destruct (plus_bnd prec emax (emax / 2) (nneg F b) sd Z1 Z4 Bo Bs) as [[Ft2 Vt2] Bt2].
    change (Bminus mode_NE (nneg F b) sd) with (nsub F (nneg F b) sd : bf) in *. change (Bplus mode_NE (nneg F b) sd) with (nadd F (nneg F b) sd : bf) in *.
    set (t1 := nsub F (nneg F b) sd) in *. set (t2 := nadd F (nneg F b) sd) in *.
    destruct (minus_rel prec emax (nneg F b) sd) as [f1 [Hf1 Rf1]]. destruct (plus_rel prec emax (nneg F b) sd) as [f2 [Hf2 Rf2]]. rewrite Rf1, Vo in Vt1. rewrite Rf2, Vo in Vt2. clear Rf1 Rf2.
    destruct (rnd_err prec emax (sqrt (val (dl : bf)))) as [e1 [h1 [He1 [Hh1 R1]]]]. rewrite R1 in Vs. clear R1.
    set (w := sqrt (val (dl : bf))) in *. assert (W0 : 0 <= w) by apply sqrt_pos. assert (WW : w * w = val (dl : bf)) by (apply sqrt_sqrt; exact Pl).
    assert (N0 : 0 <= n) by apply norm_pos. assert (M0 : 0 <= M) by (unfold M; pose proof (Rle_0_sqr (val r)) as Q; unfold Rsqr in Q; nra).
    destruct (nrm_ieee d P Gd) as [Bd [Dd Ud]].
    assert (AB : Rabs B <= n) by (pose proof (cauchy (vsub (v3 o) (v3 c)) (unit (v3 d))) as Q; rewrite Ud, Rmult_1_r in Q; exact Q).
    assert (nM : n <= sqrt M) by (rewrite <- (sqrt_square n) by exact N0; apply sqrt_le_1_alt; unfold M; pose proof (Rle_0_sqr (val r)) as Q; unfold Rsqr in Q; lra).
    assert (MM : M = sqrt M * sqrt M) by (symmetry; apply sqrt_sqrt; exact M0).
    assert (EC : C = n * n - val r * val r) by (unfold C, rs_C; rewrite NN; reflexivity).
    assert (BBn : B * B <= n * n) by (apply sq_abs_le; exact AB).
    assert (DM : B * B - C <= M) by (rewrite EC; unfold M; nra).
    assert (KEY : forall (t : F) (g : R), val (t : bf) = (- val b + g * val (sd : bf)) * (1 + (if Rlt_dec 0 g then f2 else f1)) -> Rabs g = 1 ->
      - (3 * u * n + 3 * sqrt et) <= val (t : bf) -> bnd (emax / 2 + 1) (t : bf) -> (let! x := along (nrm d) t o in Ok (true, Some x)) = Ok (true, Some p) ->
      fin3 (p : mat3x1 bf) /\ exists T, - (3 * u * n + 3 * sqrt et) <= T /\ let x := vadd (v3 o) (vscale T (unit (v3 d))) in
      Rabs (dist x (v3 c) * dist x (v3 c) - val r * val r) <= 80 * u * M + 30 * et /\ dist (v3 p) x <= 11 * u * Rabs T + u * norm (v3 o) + 3 * et).
    { intros t g Vt Hg Lt Bt Et. apply (bnd_le prec emax (emax / 2 + 1) (emax / 2 + 2)) in Bt; [| exact Z5].
      destruct (along_ieee (nrm d) o t (unit (v3 d)) (val (t : bf)) P Bd Dd Ud Bt Mo) as [p' [Ep [Fp Hp']]]. rewrite Ep in Et. cbn [bind] in Et.
      apply (f_equal (fun v : res (@hit F) => match v with Ok (_, Some y) => y | _ => p end)) in Et. subst p'. split; [exact Fp |].
      exists (val (t : bf)). split; [exact Lt |]. cbv zeta. rewrite Rminus_diag_eq, Rabs_R0 in Hp' by reflexivity. split; [| lra].
      set (T := val (t : bf)) in *. set (D := unit (v3 d)) in *.
      assert (DX : dist (vadd (v3 o) (vscale T D)) (v3 c) * dist (vadd (v3 o) (vscale T D)) (v3 c) - val r * val r = (T + B) * (T + B) - (B * B - C)).
      { unfold dist. rewrite norm_sq. replace (vdot (vsub (vadd (v3 o) (vscale T D)) (v3 c)) (vsub (vadd (v3 o) (vscale T D)) (v3 c))) with
          (vdot (vsub (v3 o) (v3 c)) (vsub (v3 o) (v3 c)) + 2 * T * B + T * T * vdot D D) by (unfold B, rs_B, vdot, vadd, vsub, vscale; cbn [vx vy vz]; unfold D; ring).
        rewrite <- (norm_sq D), Ud, <- NN. rewrite EC. ring. }
      rewrite DX. apply (res_core u et n (sqrt M) M B (val b) (val (dl : bf)) (B * B - C) w (val (sd : bf)) g T e1 (if Rlt_dec 0 g then f2 else f1) h1);
        try assumption; try lra; try (split; assumption). destruct (Rlt_dec 0 g); assumption. }
    assert (SD0 : 0 <= val (sd : bf)).
    { destruct (sqrt_ok prec emax dl Fl Pl) as [_ V]. change (val (sd : bf) = rnd (sqrt (val (dl : bf)))) in V. rewrite V. apply (rnd_nonneg prec emax), sqrt_pos. }
    assert (Neg0 : - (3 * u * n + 3 * sqrt et) <= 0) by (pose proof (sqrt_pos et); pose proof (Rmult_le_pos u n ltac:(lra) N0); lra).
    assert (K1 : 0 <= val (t1 : bf) -> (let! x := along (nrm d) t1 o in Ok (true, Some x)) = Ok (true, Some p) ->
      fin3 (p : mat3x1 bf) /\ exists T, - (3 * u * n + 3 * sqrt et) <= T /\ let x := vadd (v3 o) (vscale T (unit (v3 d))) in
      Rabs (dist x (v3 c) * dist x (v3 c) - val r * val r) <= 80 * u * M + 30 * et /\ dist (v3 p) x <= 11 * u * Rabs T + u * norm (v3 o) + 3 * et).
    { intros L Et. apply (KEY t1 (-1)); [| | lra | exact Bt1 | exact Et].
      - destruct (Rlt_dec 0 (-1)); [lra |]. rewrite Vt1. ring.
      - rewrite Rabs_left; lra. }
    assert (K2 : - (3 * u * n + 3 * sqrt et) <= val (t2 : bf) -> (let! x := along (nrm d) t2 o in Ok (true, Some x)) = Ok (true, Some p) ->
      fin3 (p : mat3x1 bf) /\ exists T, - (3 * u * n + 3 * sqrt et) <= T /\ let x := vadd (v3 o) (vscale T (unit (v3 d))) in
      Rabs (dist x (v3 c) * dist x (v3 c) - val r * val r) <= 80 * u * M + 30 * et /\ dist (v3 p) x <= 11 * u * Rabs T + u * norm (v3 o) + 3 * et).
    { intros L Et. apply (KEY t2 1); [| | lra | exact Bt2 | exact Et].
      - destruct (Rlt_dec 0 1); [| lra]. rewrite Vt2. ring.
      - apply Rabs_R1. }
    clear KEY. destruct (nlt t1 n0) eqn:L1.
    - apply K2; [| exact EV]. destruct (Rle_or_lt (val b) 0) as [Bn | Bp].
      + apply Rle_trans with 0; [exact Neg0 |]. rewrite Vt2. apply Rabs_le_inv in Hf2. apply Rmult_le_pos; lra.
      + assert (Gb : ngt b n0 = true) by (apply (ngt_val prec emax lm); try assumption; rewrite V0; exact Bp). rewrite Gb in G1. cbn [andb] in G1.
        assert (Qn : val (q : bf) <= 0).
        { apply Rnot_lt_le. intro K. assert (ngt q n0 = true) by (apply (ngt_val prec emax lm); try assumption; rewrite V0; exact K). congruence. }
        assert (Bb' : bnd (emax / 2 - 1) b) by exact Bb.
        destruct (mult_bnd prec emax (emax / 2 - 1) (emax / 2 - 1) b b Z6 Z7 Bb' Bb') as [[Fb2 Vb2] _].
        assert (Dl : val b * val b * (1 - u) - et <= val (dl : bf)).
        { apply Rle_trans with (val (Bmult mode_NE b b)).
          - rewrite Vb2. destruct (rnd_err prec emax (val b * val b)) as [e3 [h3 [He3 [Hh3 R3]]]]. rewrite R3. apply Rabs_le_inv in He3, Hh3. assert (0 <= val b * val b) by apply Rle_0_sqr.
            pose proof (rel_small (val b * val b) e3 u H He3). lra.
          - rewrite <- (rnd_B2R prec emax (Bmult mode_NE b b)).
            destruct (proj1 (minus_round prec emax (Bmult mode_NE b b) q Fb2 Fq) (proj2 (minus_round prec emax (Bmult mode_NE b b) q Fb2 Fq) Fl)) as [_ V].
            change (val (dl : bf) = rnd (val (Bmult mode_NE b b) - val (q : bf))) in V. rewrite V. apply (rnd_le prec emax). lra. }
        rewrite Vt2. apply (neg_core u et (val b) n w (val (sd : bf)) e1 h1 f2); try assumption; try lra. split; [lra |].
        apply Rabs_le_inv in Hb, AB. assert (u * n <= / 1024 * n) by (apply Rmult_le_compat_r; assumption). lra.
    - assert (P1 : 0 <= val (t1 : bf)).
      { apply Rnot_lt_le. intro K. assert (nlt t1 n0 = true) by (apply nlt_val; try assumption; rewrite V0; exact K). congruence. }
      destruct (nlt t2 n0) eqn:L2; [exact (K1 P1 EV) |].
      assert (P2 : 0 <= val (t2 : bf)).
      { apply Rnot_lt_le. intro K. assert (nlt t2 n0 = true) by (apply nlt_val; try assumption; rewrite V0; exact K). congruence. }
      destruct (nlt t1 t2); [exact (K1 P1 EV) | exact (K2 ltac:(lra) EV)].
  Qed.
End Ieee5.
