(** PIeee1.v — IEEE facts about bounding boxes: rounding is monotone, so a box computed with rounded sums still contains
    every representable point of the shape (C78, C43). *)
From Coq Require Import Reals List ZArith NArith Bool Lra Lia Psatz.
From Flocq Require Import Core BinarySingleNaN.
Import ListNotations.
From Verif Require Import Base Num Vec Mat Bound Shape Intersect Float Exact FloatFacts FloatRound ExactFacts Order SpecMat SpecGeom
  SpecBound SpecBuild PMat PBound PShape PBuild.
Local Open Scope R_scope.

Section Ieee1.
  Context (prec emax : Z) {Hp : Prec_gt_0 prec} {Hm : Prec_lt_emax prec emax}.
  Notation bf := (binary_float prec emax).
  Notation fmt := (SpecFloat.fexp prec emax).
  Notation rnd := (round radix2 fmt ZnearestE).
  Notation big := (bpow radix2 emax).
  Notation val := (@B2R prec emax).
  Notation fin x := (is_finite (x : bf) = true).

  (** a rounded value, or the infinity of its sign *)
  Definition ovf (r : R) : XR := if Rlt_dec (Rabs r) big then Fin r else if Rlt_dec 0 r then PInf else NInf.
  Lemma ieee_ovf r : ieee prec emax r = ovf (rnd r). Proof. reflexivity. Qed.
  Lemma sign_pos (x : bf) : fin x -> Bsign x = false -> 0 <= val x.
  Proof.
    destruct x as [s | s | | s m e h]; simpl; intros F S; try discriminate; [lra |]. rewrite S. simpl. apply F2R_ge_0. simpl. lia.
  Qed.
  Lemma sign_neg (x : bf) : fin x -> Bsign x = true -> val x <= 0.
  Proof.
    destruct x as [s | s | | s m e h]; simpl; intros F S; try discriminate; [lra |]. rewrite S. simpl. apply F2R_le_0. simpl. lia.
  Qed.
  Lemma b2x_inf (x : bf) s : B2SF x = SpecFloat.S754_infinity s -> b2x prec emax x = if s then NInf else PInf.
  Proof. destruct x as [b | b | | b m e h]; simpl; intro H; try discriminate. injection H as <-. destruct b; reflexivity. Qed.
  Lemma rnd_0 : rnd 0 = 0. Proof. apply round_0, valid_rnd_N. Qed.
  Lemma plus_x (x y : bf) : fin x -> fin y -> b2x prec emax (Bplus mode_NE x y) = ovf (rnd (val x + val y)).
  Proof.
    intros Fx Fy. pose proof (Bplus_correct prec emax Hp Hm mode_NE x y Fx Fy) as C.
    unfold ovf. change (round_mode mode_NE) with ZnearestE in C.
    destruct (Rlt_dec (Rabs (rnd (val x + val y))) big) as [L | L].
    - rewrite Rlt_bool_true in C by exact L. destruct C as [C1 [C2 _]]. apply fv_b2x. split; assumption.
    - rewrite Rlt_bool_false in C by lra. destruct C as [C1 C2]. rewrite (b2x_inf _ _ C1). pose proof (bpow_gt_0 radix2 emax) as B.
      destruct (Bsign x) eqn:S.
      + symmetry in C2. assert (H : val x + val y <= 0) by (pose proof (sign_neg x Fx S); pose proof (sign_neg y Fy C2); lra).
        apply (rnd_le prec emax) in H. rewrite rnd_0 in H. destruct (Rlt_dec 0 _); [lra | reflexivity].
      + symmetry in C2. assert (H : 0 <= val x + val y) by (pose proof (sign_pos x Fx S); pose proof (sign_pos y Fy C2); lra).
        apply (rnd_le prec emax) in H. rewrite rnd_0 in H. destruct (Rlt_dec 0 _) as [| H']; [reflexivity |]. rewrite Rabs_pos_eq in L by exact H. lra.
  Qed.
  Lemma minus_x (x y : bf) : fin x -> fin y -> b2x prec emax (Bminus mode_NE x y) = ovf (rnd (val x - val y)).
  Proof.
    intros Fx Fy. rewrite Bminus_plus, plus_x by (try rewrite is_finite_Bopp; assumption). rewrite B2R_Bopp. reflexivity.
  Qed.
  Lemma ovf_le_val a (p : bf) : a <= val p -> xle (ovf (rnd a)) (Fin (val p)).
  Proof.
    intro H. apply (rnd_le prec emax) in H. rewrite rnd_B2R in H. pose proof (B2R_lt_emax prec emax p) as B. apply Rabs_def2 in B.
    unfold ovf. destruct (Rlt_dec _ _) as [L | L]; [exact H |]. destruct (Rlt_dec 0 _) as [P |]; [| exact I].
    rewrite Rabs_pos_eq in L by lra. exfalso. lra.
  Qed.
  Lemma val_le_ovf a (p : bf) : val p <= a -> xle (Fin (val p)) (ovf (rnd a)).
  Proof.
    intro H. apply (rnd_le prec emax) in H. rewrite rnd_B2R in H. pose proof (B2R_lt_emax prec emax p) as B. apply Rabs_def2 in B.
    unfold ovf. destruct (Rlt_dec _ _) as [L | L]; [exact H |]. destruct (Rlt_dec 0 _) as [P | P]; [exact I |].
    rewrite Rabs_left1 in L by lra. exfalso. lra.
  Qed.
  Lemma ovf_mono a b : a <= b -> xle (ovf (rnd a)) (ovf (rnd b)).
  Proof.
    intro H. apply (rnd_le prec emax) in H. unfold ovf. destruct (Rlt_dec (Rabs (rnd a)) _) as [L | L], (Rlt_dec (Rabs (rnd b)) _) as [M | M];
      repeat (destruct (Rlt_dec 0 _)); simpl; try exact I; try exact H;
      try (apply Rabs_def2 in L); try (apply Rabs_def2 in M); unfold Rabs in *; repeat (destruct (Rcase_abs _)); lra.
  Qed.
  Lemma ovf_nan r : ovf r <> NaN.
  Proof. unfold ovf. destruct (Rlt_dec _ _); [| destruct (Rlt_dec _ _)]; discriminate. Qed.
  Lemma ninf_le x : x <> NaN -> xle NInf x. Proof. destruct x; simpl; tauto. Qed.
  Lemma le_pinf x : x <> NaN -> xle x PInf. Proof. destruct x; simpl; tauto. Qed.

  Variable lm : libm bf.
  Notation F := (@Ieee prec emax Hp Hm lm).
  Notation "# a" := (b2x prec emax a) (at level 9).
  Lemma fin_x (x : bf) : fin x -> #x = Fin (val x). Proof. apply b2x_finite. Qed.

  (** axis by axis *)
  Lemma axis_sphere (c r : F) x : fin c -> fin r -> Rabs (x - val c) <= val r ->
    xle #(nsub F c r) (ovf (rnd x)) /\ xle (ovf (rnd x)) #(nadd F c r).
  Proof.
    intros Fc Fr H. apply Rabs_le_inv in H. cbn [nsub nadd Ieee]. rewrite minus_x, plus_x by assumption. split; apply ovf_mono; lra.
  Qed.
  Lemma n0_x : #(@n0 F) = Fin 0.
  Proof. unfold n0. cbn [nlit Ieee]. rewrite lit_zero. reflexivity. Qed.
  Lemma ngt_F (a b : F) : ngt a b = true <-> xlt #b #a. Proof. exact (ngt_iff (ieee_ordered prec emax lm) a b). Qed.
  Lemma nlt_F (a b : F) : nlt a b = true <-> xlt #a #b. Proof. exact (nlt_iff (ieee_ordered prec emax lm) a b). Qed.
  Lemma axis_ray (o d : F) t : fin o -> fin d -> 0 <= t ->
    xle #(rl d o) (ovf (rnd (val o + t * val d))) /\ xle (ovf (rnd (val o + t * val d))) #(ru d o).
  Proof.
    intros Fo Fd Ht. unfold rl, ru. destruct (ngt d n0) eqn:G.
    - apply ngt_F in G. rewrite n0_x, (fin_x d Fd) in G. simpl in G. split; [rewrite (fin_x o Fo); apply val_le_ovf; nra | apply le_pinf, ovf_nan].
    - destruct (nlt d n0) eqn:L.
      + apply nlt_F in L. rewrite n0_x, (fin_x d Fd) in L. simpl in L. split; [apply ninf_le, ovf_nan | rewrite (fin_x o Fo); apply ovf_le_val; nra].
      + assert (Z : val d = 0).
        { destruct (Rtotal_order (val d) 0) as [H | [H | H]]; [exfalso | exact H | exfalso].
          - assert (nlt d (@n0 F) = true) by (apply nlt_F; rewrite n0_x, (fin_x d Fd); exact H). congruence.
          - assert (ngt d (@n0 F) = true) by (apply ngt_F; rewrite n0_x, (fin_x d Fd); exact H). congruence. }
        rewrite Z, (fin_x o Fo). split; [apply val_le_ovf; lra | apply ovf_le_val; lra].
  Qed.
  Lemma mins_ok (l : list F) : forall x : F, fin x -> (forall y, In y l -> fin y) ->
    fin (mins x l) /\ val (mins x l) <= val x /\ forall y, In y l -> val (mins x l) <= val y.
  Proof.
    induction l as [| y l IH]; intros x Fx Fl; [split; [exact Fx | split; [apply Rle_refl | intros y []]] |].
    assert (Fy : fin y) by (apply Fl; left; reflexivity). assert (Fl' : forall z, In z l -> fin z) by (intros z Hz; apply Fl; right; exact Hz).
    assert (C := Bcompare_xcmp prec emax x y). rewrite (fin_x x Fx), (fin_x y Fy) in C. simpl in C.
    change (mins x (y :: l)) with (mins (match ncmp F x y with Some Gt => y | _ => x end) l).
    assert (Q : exists z, (match ncmp F x y with Some Gt => y | _ => x end) = z /\ fin z /\ val z <= val x /\ val z <= val y).
    { cbn [ncmp Ieee]. rewrite C. destruct (Rlt_dec (val x) (val y)); [exists x; repeat split; [exact Fx | lra | lra] |].
      destruct (Rlt_dec (val y) (val x)); [exists y; repeat split; [exact Fy | lra | lra] | exists x; repeat split; [exact Fx | lra | lra]]. }
    destruct Q as [z [-> [Fz [Zx Zy]]]]. destruct (IH z Fz Fl') as [I1 [I2 I3]].
    split; [exact I1 |]. split; [lra |]. intros w [<- | Hw]; [lra | exact (I3 w Hw)].
  Qed.
  Lemma maxs_ok (l : list F) : forall x : F, fin x -> (forall y, In y l -> fin y) ->
    fin (maxs x l) /\ val x <= val (maxs x l) /\ forall y, In y l -> val y <= val (maxs x l).
  Proof.
    induction l as [| y l IH]; intros x Fx Fl; [split; [exact Fx | split; [apply Rle_refl | intros y []]] |].
    assert (Fy : fin y) by (apply Fl; left; reflexivity). assert (Fl' : forall z, In z l -> fin z) by (intros z Hz; apply Fl; right; exact Hz).
    assert (C := Bcompare_xcmp prec emax x y). rewrite (fin_x x Fx), (fin_x y Fy) in C. simpl in C.
    change (maxs x (y :: l)) with (maxs (match ncmp F x y with Some Gt => x | _ => y end) l).
    assert (Q : exists z, (match ncmp F x y with Some Gt => x | _ => y end) = z /\ fin z /\ val x <= val z /\ val y <= val z).
    { cbn [ncmp Ieee]. rewrite C. destruct (Rlt_dec (val x) (val y)); [exists y; repeat split; [exact Fy | lra | lra] |].
      destruct (Rlt_dec (val y) (val x)); [exists x; repeat split; [exact Fx | lra | lra] | exists y; repeat split; [exact Fy | lra | lra]]. }
    destruct Q as [z [-> [Fz [Zx Zy]]]]. destruct (IH z Fz Fl') as [I1 [I2 I3]].
    split; [exact I1 |]. split; [lra |]. intros w [<- | Hw]; [lra | exact (I3 w Hw)].
  Qed.
  (** a weighted mean lies between the extreme values *)
  Lemma wmean (f : V3 -> R) m M : (forall a b, f (vadd a b) = f a + f b) -> (forall k a, f (vscale k a) = k * f a) -> f vzero = 0 ->
    forall ws ps, length ws = length ps -> (forall w, In w ws -> 0 <= w) -> (forall p, In p ps -> m <= f p <= M) ->
    fold_right Rplus 0 ws * m <= f (wsum ws ps) <= fold_right Rplus 0 ws * M.
  Proof.
    intros Fa Fs F0. induction ws as [| w ws IH]; intros [| p ps] L W P; try discriminate; simpl.
    - rewrite F0. lra.
    - rewrite Fa, Fs. assert (0 <= w) by (apply W; left; reflexivity). assert (m <= f p <= M) by (apply P; left; reflexivity).
      assert (I := IH ps ltac:(simpl in L; lia) ltac:(intros; apply W; right; assumption) ltac:(intros; apply P; right; assumption)). nra.
  Qed.
  Lemma comp_lin i : (forall a b, comp i (vadd a b) = comp i a + comp i b) /\ (forall k a, comp i (vscale k a) = k * comp i a) /\ comp i vzero = 0.
  Proof. unfold comp. split; [| split]; intros; destruct i as [| [| |]]; reflexivity. Qed.
  Lemma comp_v3 i (p : mat3x1 F) : (i < 3)%N -> comp i (v3 p) = val (comps3 (v3x1 p) i).
  Proof. intro H. destruct p as [[x y z]]. cases3 i H; reflexivity. Qed.
  Lemma hull_holds (p : mat3x1 F) l x : (forall q, In q (p :: l) -> fin3 q) -> s_hull (map v3 (p :: l)) x -> rholds (hull_any p l : aabb F) x.
  Proof.
    intros Fq [ws [L [W [S ->]]]] i Hi. rewrite ieee_ovf.
    assert (G : forall c : mat3x1 F -> F, (forall q, fin3 q -> fin (c q)) -> (forall q, comp i (v3 q) = val (c q)) ->
      xle #(mins (c p) (map c l)) (ovf (rnd (comp i (wsum ws (map v3 (p :: l)))))) /\
      xle (ovf (rnd (comp i (wsum ws (map v3 (p :: l)))))) #(maxs (c p) (map c l))).
    { intros c Fc Ec. assert (Fp : fin (c p)) by (apply Fc, Fq; left; reflexivity).
      assert (Fl : forall y, In y (map c l) -> fin y) by (intros y Hy; apply in_map_iff in Hy; destruct Hy as [q [<- Hq]]; apply Fc, Fq; right; exact Hq).
      destruct (mins_ok (map c l) (c p) Fp Fl) as [M1 [M2 M3]]. destruct (maxs_ok (map c l) (c p) Fp Fl) as [N1 [N2 N3]].
      destruct (comp_lin i) as [A1 [A2 A3]].
      pose proof (wmean (comp i) (val (mins (c p) (map c l))) (val (maxs (c p) (map c l))) A1 A2 A3 ws (map v3 (p :: l)) L W) as B. rewrite S in B.
      destruct B as [B1 B2].
      { intros v Hv. apply in_map_iff in Hv. destruct Hv as [q [<- Hq]]. rewrite Ec. destruct Hq as [<- | Hq]; [split; assumption |].
        split; [apply M3 | apply N3]; apply in_map; exact Hq. }
      rewrite (fin_x _ M1), (fin_x _ N1). split; [apply val_le_ovf | apply ovf_le_val]; lra. }
    unfold hull_any. cases3 i Hi; [apply (G c0) | apply (G c1) | apply (G c2)]; intros [[q0 q1 q2]]; simpl; tauto.
  Qed.
  Lemma rholds3 (l0 l1 l2 u0 u1 u2 : F) x : 
    (xle #l0 (ovf (rnd (vx x))) /\ xle (ovf (rnd (vx x))) #u0) -> (xle #l1 (ovf (rnd (vy x))) /\ xle (ovf (rnd (vy x))) #u1) ->
    (xle #l2 (ovf (rnd (vz x))) /\ xle (ovf (rnd (vz x))) #u2) -> rholds (AABB (A3 l0 l1 l2) (A3 u0 u1 u2) : aabb F) x.
  Proof. intros H0 H1 H2 i Hi. rewrite ieee_ovf. cases3 i Hi; assumption. Qed.
  Lemma cube_holds (c : mat3x1 F) (r : F) x : fin3 c -> fin r -> s_cube (v3 c) (val r) x -> rholds (cube_any c r : aabb F) x.
  Proof.
    destruct c as [[c0 c1 c2]]. intros [F0 [F1 F2]] Fr [H0 [H1 H2]]. apply rholds3; apply axis_sphere; assumption.
  Qed.
  Lemma ball_cube c r x : s_ball c r x -> s_cube c r x.
  Proof.
    unfold s_ball, s_cube, dist. intro H. pose proof (norm_pos (vsub x c)) as P. pose proof (norm_sq (vsub x c)) as Q.
    unfold vdot, vsub in Q. simpl in Q. pose proof (Rle_0_sqr (vx x - vx c)) as S0. pose proof (Rle_0_sqr (vy x - vy c)) as S1.
    pose proof (Rle_0_sqr (vz x - vz c)) as S2. unfold Rsqr in S0, S1, S2.
    repeat split; (eapply Rle_trans; [| exact H]; apply Rsqr_incr_0_var; [| exact P]; rewrite <- Rsqr_abs; unfold Rsqr, vsub in *; lra).
  Qed.
  Lemma point_holds (p : mat3x1 F) : fin3 p -> rholds (AABB (v3x1 p) (v3x1 p) : aabb F) (v3 p).
  Proof.
    destruct p as [[p0 p1 p2]]. intros [F0 [F1 F2]]. apply rholds3; rewrite fin_x by assumption; split; first [apply val_le_ovf | apply ovf_le_val]; apply Rle_refl.
  Qed.
  Lemma ray_holds (o d : mat3x1 F) x : fin3 o -> fin3 d -> s_ray (v3 o) (v3 d) x -> rholds (ray_any o d : aabb F) x.
  Proof.
    destruct o as [[o0 o1 o2]], d as [[d0 d1 d2]]. intros [F0 [F1 F2]] [G0 [G1 G2]] [t [Ht ->]]. apply rholds3; apply axis_ray; assumption.
  Qed.
  Lemma whole_holds x : rholds (whole_any : aabb F) x.
  Proof. apply rholds3; (split; [apply ninf_le | apply le_pinf]; apply ovf_nan). Qed.
  Lemma segment_hull a b x : s_segment a b x -> s_hull [a; b] x.
  Proof.
    intros [t [Ht ->]]. exists [1 - t; t]. repeat split; [intros w [<- | [<- | []]]; lra | simpl; lra |].
    destruct a, b. unfold wsum, vadd, vscale, vsub, vzero. simpl. f_equal; ring.
  Qed.
  Theorem owns_holds (s : shape F) x : owns prec emax lm s x -> exists b, shape_get_bound s = BBox b /\ rholds b x.
  Proof.
    intros [p e M Fp -> | o d e M Fo Fd S | c r e M Fc Fr S | o n e M | a b e M Fa Fb S | c h e M Fc Fh S | a b c h e t M E Fq S].
    - apply point_any in M as ->. eexists. split; [reflexivity | apply point_holds; assumption].
    - apply ray_any_eq in M as ->. eexists. split; [reflexivity | apply ray_holds; assumption].
    - apply sphere_any in M as ->. eexists. split; [reflexivity | apply cube_holds; try assumption; apply ball_cube; assumption].
    - apply plane_any in M as ->. eexists. split; [reflexivity | apply whole_holds].
    - apply line_any in M as ->. eexists. split; [reflexivity | apply hull_holds]. 
      + intros q [<- | [<- | []]]; assumption.
      + apply segment_hull. exact S.
    - apply box_any in M as ->. eexists. split; [reflexivity | apply cube_holds; assumption].
    - apply prism_any in M. rewrite E in M. injection M as ->. subst s. eexists. split; [reflexivity | apply hull_holds; assumption].
  Qed.
  Lemma rholds_meet (a b : aabb F) x : rholds a x -> rholds b x -> aabb_intersect a (BBox b) = Ok true.
  Proof.
    intros Ha Hb. rewrite intersect_eval.
    assert (A : forall i, (i < 3)%N -> apart a b i = false).
    { intros i Hi. destruct (Ha i Hi) as [A1 A2], (Hb i Hi) as [B1 B2]. unfold apart. apply orb_false_iff. split.
      - destruct (ngt _ _) eqn:G; [exfalso | reflexivity]. apply ngt_F in G. assert (L := xle_trans _ _ _ A1 B2).
        destruct (PBound.xle_nonan _ _ L) as [N1 N2]. apply (proj1 (xle_nlt _ _ N1 N2) L). exact G.
      - destruct (nlt _ _) eqn:G; [exfalso | reflexivity]. apply nlt_F in G. assert (L := xle_trans _ _ _ B1 A2).
        destruct (PBound.xle_nonan _ _ L) as [N1 N2]. apply (proj1 (xle_nlt _ _ N1 N2) L). exact G. }
    rewrite (A 0%N), (A 1%N), (A 2%N) by lia. reflexivity.
  Qed.
  Theorem owns_meet (s t : shape F) x : owns prec emax lm s x -> owns prec emax lm t x ->
    ibound_intersect (shape_get_bound s) (shape_get_bound t) = Ok true.
  Proof.
    intros Hs Ht. destruct (owns_holds s x Hs) as [a [-> A]], (owns_holds t x Ht) as [b [-> B]]. exact (rholds_meet a b x A B).
  Qed.
  (** a point of floats that belongs to the shape lies in the box as the library compares *)
  Theorem owns_inb (s : shape F) (p : mat3x1 F) : fin3 p -> owns prec emax lm s (v3 p) -> exists b, shape_get_bound s = BBox b /\ inb b (v3x1 p).
  Proof.
    intros Fp O. destruct (owns_holds s _ O) as [b [E H]]. exists b. split; [exact E |]. intros i Hi. destruct (H i Hi) as [A B].
    rewrite comp_v3 in A, B by exact Hi. rewrite ieee_ovf, rnd_B2R in A, B.
    assert (Q : ovf (val (comps3 (v3x1 p) i)) = #(comps3 (v3x1 p) i)).
    { unfold ovf. pose proof (B2R_lt_emax prec emax (comps3 (v3x1 p) i)) as L. destruct (Rlt_dec _ _) as [_ | C]; [| contradiction].
      symmetry. apply fin_x. destruct p as [[p0 p1 p2]], Fp as [F0 [F1 F2]]. cases3 i Hi; assumption. }
    rewrite Q in A, B. split; apply (nle_iff (ieee_ordered prec emax lm)); assumption.
  Qed.

  (** sphere against point *)
  Theorem sphere_point_ieee c (r : F) e p f (a b : shape F) : mk_sphere c r e a -> mk_point p f b -> fin3 c -> fin r -> fin3 p ->
    s_ball (v3 c) (val r) (v3 p) -> shape_get_intersect a b = Ok (true, Some p) /\ shape_get_intersect b a = Ok (true, Some p).
  Proof.
    intros Ma Mb Fc Fr Fp S.
    assert (O1 : owns prec emax lm a (v3 p)) by (eapply own_sphere; eassumption).
    assert (O2 : owns prec emax lm b (v3 p)) by (eapply own_point; [eassumption | assumption | reflexivity]).
    pose proof (owns_meet a b _ O1 O2) as I1. pose proof (owns_meet b a _ O2 O1) as I2.
    apply sphere_any in Ma. apply point_any in Mb. subst a b. apply ball_cube in S.
    assert (Q : @sphere_get_intersect F (MkSphere c r (cube_any c r) (nabs F e)) (SPoint (MkPoint p (AABB (v3x1 p) (v3x1 p)) (nabs F f))) = Ok (true, Some p)).
    { unfold sphere_get_intersect. rewrite I1. cbn [bind negb shape_get_shape_data]. 
      destruct c as [[c0 c1 c2]], p as [[p0 p1 p2]]. destruct Fc as [F0 [F1 F2]], Fp as [G0 [G1 G2]], S as [S0 [S1 S2]]. simpl in S0, S1, S2.
      assert (K : forall u v : F, fin u -> fin v -> Rabs (val u - val v) <= val r -> ngt (nsub F u v) r = false).
      { intros u v Fu Fv H. destruct (ngt _ _) eqn:G; [exfalso | reflexivity]. apply ngt_F in G. cbn [nsub Ieee] in G. rewrite minus_x in G by assumption.
        apply Rabs_le_inv in H. assert (L : xle (ovf (rnd (val u - val v))) #r) by (rewrite (fin_x r Fr); apply ovf_le_val; lra).
        destruct (PBound.xle_nonan _ _ L) as [N1 N2]. apply (proj1 (xle_nlt _ _ N1 N2) L). exact G. }
      unfold sphere_point. cbn -[nsub nlit ngt]. rewrite !K by assumption. reflexivity. }
    split; [exact Q |]. unfold shape_get_intersect, point_get_intersect. rewrite I2. cbn [bind negb]. exact Q.
  Qed.
End Ieee1.
