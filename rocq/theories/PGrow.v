(** PGrow.v — growing a shape never loses a hit, in every arithmetic whose rounding is monotone (C98). *)
From Coq Require Import Reals List ZArith NArith Bool Lra Lia Classical.
From Flocq Require Import Core BinarySingleNaN.
Import ListNotations.
From Verif Require Import Base Num Vec Mat Bound Shape Intersect Float Exact FloatFacts FloatRound Order SpecMat SpecGeom SpecBound SpecShape SpecBuild SpecGrow
  ExactFacts PMat PBound PInter PBuild PSim PIeee1 PGeo3.
Local Open Scope R_scope.

(** an arithmetic whose sums, differences and products are monotone roundings of the true ones *)
Record rounded {Nm : Num} (O : ordered Nm) := MkRounded {
  rd : R -> XR;
  rd_mono : forall x y, x <= y -> xle (rd x) (rd y);
  rd_0 : rd 0 = Fin 0;
  r_add : forall a b : Nm, emb O (nadd Nm a b) = match emb O a, emb O b with Fin x, Fin y => rd (x + y) | p, q => xadd p q end;
  r_sub : forall a b : Nm, emb O (nsub Nm a b) = match emb O a, emb O b with Fin x, Fin y => rd (x - y) | p, q => xsub p q end;
  r_mul : forall a b : Nm, emb O (nmul Nm a b) = match emb O a, emb O b with Fin x, Fin y => rd (x * y) | p, q => xmul p q end;
  r_n0 : emb O (@n0 Nm) = Fin 0
}.
Arguments rd {Nm O}. Arguments rd_mono {Nm O}. Arguments rd_0 {Nm O}. Arguments r_add {Nm O}. Arguments r_sub {Nm O}. Arguments r_mul {Nm O}. Arguments r_n0 {Nm O}.

Definition exact_rounded eps zs : rounded (exact_ordered eps zs).
Proof.
  refine (MkRounded _ (exact_ordered eps zs) Fin _ _ _ _ _ _).
  - intros x y H. exact H.
  - reflexivity.
  - intros [] []; reflexivity.
  - intros [] []; reflexivity.
  - intros [] []; reflexivity.
  - reflexivity.
Defined.

Section IeeeRounded.
  Context (prec emax : Z) {Hp : Prec_gt_0 prec} {Hm : Prec_lt_emax prec emax} (lm : libm (binary_float prec emax)).
  Notation bf := (binary_float prec emax).
  Notation fmt := (SpecFloat.fexp prec emax).
  Notation rnd := (round radix2 fmt ZnearestE).
  Notation ovf := (ovf emax).
  Lemma ovf_mono x y : x <= y -> xle (ovf (rnd x)) (ovf (rnd y)).
  Proof.
    intro H. apply (rnd_le prec emax) in H. unfold PIeee1.ovf. pose proof (bpow_gt_0 radix2 emax).
    destruct (Rlt_dec (Rabs (rnd x)) _) as [A | A], (Rlt_dec (Rabs (rnd y)) _) as [B | B]; cbn; try exact H;
      repeat match goal with |- context [Rlt_dec 0 ?z] => destruct (Rlt_dec 0 z) end; cbn; try exact I;
      repeat match goal with K : Rabs _ < _ |- _ => apply Rabs_def2 in K end;
      try (rewrite ?(Rabs_pos_eq (rnd x)), ?(Rabs_left1 (rnd x)), ?(Rabs_pos_eq (rnd y)), ?(Rabs_left1 (rnd y)) in * by lra); lra.
  Qed.
  Lemma x_cases (x : bf) : (is_finite x = true /\ b2x prec emax x = Fin (B2R x)) \/ (x = B754_infinity false /\ b2x prec emax x = PInf) \/ (x = B754_infinity true /\ b2x prec emax x = NInf) \/
    (x = B754_nan /\ b2x prec emax x = NaN).
  Proof. destruct x as [[] | [] | | [] m e h]; auto 6. Qed.
  Lemma mult_x (x y : bf) : is_finite x = true -> is_finite y = true -> b2x prec emax (Bmult mode_NE x y) = ovf (rnd (B2R x * B2R y)).
  Proof.
    intros Fx Fy. pose proof (Bmult_correct prec emax Hp Hm mode_NE x y) as C. change (round_mode mode_NE) with ZnearestE in C. unfold PIeee1.ovf.
    destruct (Rlt_dec (Rabs (rnd (B2R x * B2R y))) (bpow radix2 emax)) as [L | L].
    - rewrite Rlt_bool_true in C by exact L. destruct C as [C1 [C2 _]]. apply fv_b2x. split; [rewrite C2, Fx, Fy; reflexivity | exact C1].
    - rewrite Rlt_bool_false in C by lra. rewrite (b2x_inf prec emax _ _ C). pose proof (bpow_gt_0 radix2 emax) as B.
      assert (forall z : bf, is_finite z = true -> if Bsign z then B2R z <= 0 else 0 <= B2R z) as S.
      { intros z Fz. destruct (Bsign z) eqn:Sz; [apply (sign_neg prec emax) | apply (sign_pos prec emax)]; assumption. }
      pose proof (S x Fx) as Sx. pose proof (S y Fy) as Sy.
      assert (if xorb (Bsign x) (Bsign y) then B2R x * B2R y <= 0 else 0 <= B2R x * B2R y) as Sxy by (destruct (Bsign x), (Bsign y); cbn; nra).
      destruct (xorb (Bsign x) (Bsign y)).
      + apply (rnd_le prec emax) in Sxy. rewrite (rnd_0 prec emax) in Sxy. destruct (Rlt_dec 0 _); [lra | reflexivity].
      + apply (rnd_le prec emax) in Sxy. rewrite (rnd_0 prec emax) in Sxy. destruct (Rlt_dec 0 _); [reflexivity |]. rewrite Rabs_pos_eq in L by exact Sxy. lra.
  Qed.
  Lemma mult_inf (x : bf) s : is_finite x = true -> b2x prec emax (Bmult mode_NE x (B754_infinity s)) = xmul (Fin (B2R x)) (if s then NInf else PInf) /\
    b2x prec emax (Bmult mode_NE (B754_infinity s) x) = xmul (if s then NInf else PInf) (Fin (B2R x)).
  Proof.
    destruct x as [b | b | | b m e h]; try discriminate; intros _.
    - destruct s; cbn; unfold inf_sign; repeat match goal with |- context [Rlt_dec ?x ?y] => destruct (Rlt_dec x y); [exfalso; lra |] end; split; reflexivity.
    - assert (if b then B2R (B754_finite b m e h) < 0 else 0 < B2R (B754_finite b m e h)) as S.
      { destruct b; cbn [B2R]; [apply F2R_lt_0 | apply F2R_gt_0]; cbn; lia. }
      unfold xmul, inf_sign. set (v := B2R (B754_finite b m e h)) in *. clearbody v. destruct b, s; cbn;
        repeat match goal with |- context [Rlt_dec ?x ?y] => destruct (Rlt_dec x y); try (exfalso; lra) end; split; reflexivity.
  Qed.
  Definition ieee_rounded : rounded (ieee_ordered prec emax lm).
  Proof.
    refine (MkRounded _ (ieee_ordered prec emax lm) (fun x => ovf (rnd x)) ovf_mono _ _ _ _ _).
    - rewrite (rnd_0 prec emax). unfold PIeee1.ovf. rewrite Rabs_R0. pose proof (bpow_gt_0 radix2 emax). destruct (Rlt_dec 0 _); [reflexivity | contradiction].
    - intros a b. cbn [emb ieee_ordered nadd Ieee].
      destruct (x_cases a) as [[Fa Ea] | [[-> Ea] | [[-> Ea] | [-> Ea]]]], (x_cases b) as [[Fb Eb] | [[-> Eb] | [[-> Eb] | [-> Eb]]]]; rewrite ?Ea, ?Eb;
        first [reflexivity | apply (plus_x prec emax); assumption | destruct a; try discriminate; reflexivity | destruct b; try discriminate; reflexivity].
    - intros a b. cbn [emb ieee_ordered nsub Ieee].
      destruct (x_cases a) as [[Fa Ea] | [[-> Ea] | [[-> Ea] | [-> Ea]]]], (x_cases b) as [[Fb Eb] | [[-> Eb] | [[-> Eb] | [-> Eb]]]]; rewrite ?Ea, ?Eb;
        first [reflexivity | apply (minus_x prec emax); assumption | destruct a; try discriminate; reflexivity | destruct b; try discriminate; reflexivity].
    - intros a b. cbn [emb ieee_ordered nmul Ieee].
      destruct (x_cases a) as [[Fa Ea] | [[-> Ea] | [[-> Ea] | [-> Ea]]]], (x_cases b) as [[Fb Eb] | [[-> Eb] | [[-> Eb] | [-> Eb]]]]; rewrite ?Ea, ?Eb;
        first [reflexivity | apply mult_x; assumption | apply (mult_inf a false Fa) | apply (mult_inf a true Fa) | apply (mult_inf b false Fb) | apply (mult_inf b true Fb) | destruct a; try discriminate; reflexivity | destruct b; try discriminate; reflexivity].
    - apply (n0_x prec emax).
  Defined.
End IeeeRounded.

Section Grow.
  Context {Nm : Num} (O : ordered Nm) (M : rounded O).
  Notation "# a" := (emb O a) (at level 9).
  Local Open Scope num_scope.
  (** adding or subtracting a larger finite number *)
  Definition lex (a b : XR) : Prop := (a = NaN /\ b = NaN) \/ xle a b.
  Lemma rd_nan x : rd M x <> NaN.
  Proof. pose proof (rd_mono M x x (Rle_refl x)) as H. intro C. rewrite C in H. exact H. Qed.
  Lemma lex_refl a : lex a a. Proof. destruct a; [right; apply Rle_refl | right; exact I | right; exact I | left; auto]. Qed.
  Lemma add_grow (a w w' : Nm) : le_fin O w w' -> lex #(a + w) #(a + w').
  Proof.
    intros [x [y [X [Y H]]]]. rewrite !(r_add M), X, Y. destruct (#a) as [v | | |]; cbn; try (right; exact I); [| left; auto]. right. apply (rd_mono M). lra.
  Qed.
  Lemma sub_grow (a w w' : Nm) : le_fin O w w' -> lex #(a - w') #(a - w).
  Proof.
    intros [x [y [X [Y H]]]]. rewrite !(r_sub M), X, Y. destruct (#a) as [v | | |]; cbn; try (right; exact I); [| left; auto]. right. apply (rd_mono M). lra.
  Qed.
  Lemma gt_grow (a b b' : Nm) : lex #b #b' -> ngt a b = false -> ngt a b' = false.
  Proof.
    intros L H. destruct (ngt a b') eqn:G; [| reflexivity]. apply (ngt_iff O) in G. destruct L as [[_ L] | L]; [rewrite L in G; destruct (#a); contradiction |].
    assert (ngt a b = true); [| congruence]. apply (ngt_iff O). revert L G. destruct (#a), (#b), (#b'); cbn; try tauto; lra.
  Qed.
  Lemma gt_grow_l (a b b' : Nm) : lex #b' #b -> ngt b a = false -> ngt b' a = false.
  Proof.
    intros L H. destruct (ngt b' a) eqn:G; [| reflexivity]. apply (ngt_iff O) in G. destruct L as [[L _] | L]; [rewrite L in G; destruct (#a); contradiction |].
    assert (ngt b a = true); [| congruence]. apply (ngt_iff O). revert L G. destruct (#a), (#b), (#b'); cbn; try tauto; lra.
  Qed.
  Lemma lt_grow_l (a b b' : Nm) : lex #b #b' -> nlt b a = false -> nlt b' a = false.
  Proof.
    intros L H. destruct (nlt b' a) eqn:G; [| reflexivity]. apply (nlt_iff O) in G. destruct L as [[_ L] | L]; [rewrite L in G; destruct (#a); contradiction |].
    assert (nlt b a = true); [| congruence]. apply (nlt_iff O). revert L G. destruct (#a), (#b), (#b'); cbn; try tauto; lra.
  Qed.
  Lemma within_grow (w w' a b : Nm) : le_fin O w w' -> Shape.within w a b = true -> Shape.within w' a b = true.
  Proof.
    intro L. unfold Shape.within. rewrite !andb_true_iff, !(nge_iff O), !(nle_iff O). pose proof (add_grow a w w' L) as A. pose proof (sub_grow a w w' L) as S. intros [H1 H2]. split.
    - destruct A as [[A _] | A]; [rewrite A in H1; destruct (#b); contradiction |]. eapply xle_trans; eassumption.
    - destruct S as [[_ S] | S]; [rewrite S in H2; contradiction |]. eapply xle_trans; eassumption.
  Qed.
  Lemma nwithin_grow (w w' a b : Nm) : le_fin O w w' -> negb (Shape.within w a b) = false -> negb (Shape.within w' a b) = false.
  Proof. rewrite !negb_false_iff. apply within_grow. Qed.

  (** bounding boxes *)
  Lemma cube_apart c (r r' : Nm) (y : aabb Nm) i : (i < 3)%N -> le_fin O r r' -> apart (cube_any c r) y i = false -> apart (cube_any c r') y i = false.
  Proof.
    intros Hi L. destruct c as [[c0 c1 c2]]. unfold apart. rewrite !orb_false_iff. intros [A B]. unfold cube_any, lo, up in *. cbn [b_lower b_upper] in *.
    split.
    - refine (gt_grow_l _ _ _ _ A). cases3 i Hi; cbn [comps3]; apply sub_grow; exact L.
    - refine (lt_grow_l _ _ _ _ B). cases3 i Hi; cbn [comps3]; apply add_grow; exact L.
  Qed.
  Definition bound_of (s : shape Nm) : aabb Nm := match shape_get_bound s with BBox b => b | BSphere => whole_any end.
  Lemma overlap_bounds (x y : shape Nm) : overlap x y = (negb (apart (bound_of x) (bound_of y) 0) && negb (apart (bound_of x) (bound_of y) 1) && negb (apart (bound_of x) (bound_of y) 2))%bool.
  Proof. unfold overlap, bound_of, shape_get_bound. rewrite ibb, intersect_eval. reflexivity. Qed.
  Lemma overlap_cube c (r r' : Nm) (x x' y : shape Nm) : le_fin O r r' -> bound_of x = cube_any c r -> bound_of x' = cube_any c r' -> overlap x y = true -> overlap x' y = true.
  Proof.
    intros L E E'. rewrite !overlap_bounds, E, E'. rewrite !andb_true_iff, !negb_true_iff. intros [[A B] C].
    repeat split; (eapply cube_apart; [reflexivity | exact L | assumption]).
  Qed.
  Lemma overlap_same (x x' y : shape Nm) : bound_of x = bound_of x' -> overlap x y = overlap x' y.
  Proof. intro E. rewrite !overlap_bounds, E. reflexivity. Qed.

  (** the kernels *)
  Lemma hits_if (c : bool) (a b : res (bool * option (mat3x1 Nm))) : hits (if c then a else b) -> (c = true /\ hits a) \/ (c = false /\ hits b).
  Proof. destruct c; auto. Qed.
  Lemma no_miss : ~ hits (Ok (@miss Nm)). Proof. intros [l H]. discriminate H. Qed.
  Ltac hit H := apply hits_if in H; destruct H as [[_ H] | [?C H]]; [exfalso; exact (no_miss H) |].
  Lemma g_point_point (o : mat3x1 Nm) (B B' : aabb Nm) (w w' : Nm) l : le_fin O w w' -> hits (point_point (MkPoint o B w) l) -> hits (point_point (MkPoint o B' w') l).
  Proof.
    intro L. unfold point_point. cbn [pt_ori pt_vic]. rewrite !index0, !index1, !index2. cbn [bind].
    destruct (idx l 0) as [a |]; cbn [bind]; [| intros [? H]; discriminate H]. destruct (idx l 1) as [b |]; cbn [bind]; [| intros [? H]; discriminate H].
    destruct (idx l 2) as [c |]; cbn [bind]; [| intros [? H]; discriminate H].
    intro H. hit H. rewrite !orb_false_iff in C. destruct C as [[C0 C1] C2]. rewrite !(nwithin_grow w w') by assumption. eexists. reflexivity.
  Qed.
  Lemma no_panic k : ~ hits (Panic k : res (bool * option (mat3x1 Nm))). Proof. intros [l H]. discriminate H. Qed.
  Lemma g_plane_point (o n : mat3x1 Nm) (B B' : aabb Nm) (w w' : Nm) l : le_fin O w w' -> hits (plane_point (MkPlane o n B w) l) -> hits (plane_point (MkPlane o n B' w') l).
  Proof.
    intro L. unfold plane_point. cbn [pl_offset pl_normal pl_vic]. destruct (vec_at l 0) as [b |]; cbn [bind]; [| intro H; destruct (no_panic _ H)]. pures.
    intro H. hit H. rewrite (nwithin_grow w w') by assumption. eexists. reflexivity.
  Qed.
  Lemma g_ray_point (o d : mat3x1 Nm) (B B' : aabb Nm) (w w' : Nm) l : le_fin O w w' -> hits (ray_point (MkRay o d B w) l) -> hits (ray_point (MkRay o d B' w') l).
  Proof.
    intro L. unfold ray_point. cbn [ray_ori ray_dir ray_vic]. destruct (vec_at l 0) as [b |]; cbn [bind]; [| intro H; destruct (no_panic _ H)]. pures.
    rewrite ?index0, ?index1, ?index2. cbn [bind]. intro H. hit H. rewrite orb_false_iff in C. destruct C as [C0 C1].
    rewrite !(nwithin_grow w w') by assumption. exact H.
  Qed.
  Lemma g_ray_ray (o d : mat3x1 Nm) (B B' : aabb Nm) (w w' : Nm) l : le_fin O w w' -> hits (ray_ray (MkRay o d B w) l) -> hits (ray_ray (MkRay o d B' w') l).
  Proof.
    intro L. unfold ray_ray. cbn [ray_ori ray_dir ray_vic]. destruct (vec_at l 3) as [b |]; cbn [bind]; [| intro H; destruct (no_panic _ H)].
    destruct (vec_at l 0) as [c |]; cbn [bind]; [| intro H; destruct (no_panic _ H)]. pures.
    intro H. hit H. rewrite (nwithin_grow w w') by assumption.
    destruct (mat3x1_is_equal _ _ _) as [par |]; cbn [unwrap bind] in *; [| exact H]. destruct par; [| exact H].
    hit H. rewrite (nwithin_grow w w') by assumption. exact H.
  Qed.
  Lemma g_sphere_point (c : mat3x1 Nm) (r r' : Nm) (B B' : aabb Nm) (w w' : Nm) l : le_fin O r r' -> hits (sphere_point (MkSphere c r B w) l) -> hits (sphere_point (MkSphere c r' B' w') l).
  Proof.
    intro L. unfold sphere_point. cbn [sp_ori sp_radius]. destruct (vec_at l 0) as [b |]; cbn [bind]; [| intro H; destruct (no_panic _ H)]. pures.
    cbn [seq for_ret]. rewrite index0, index1, index2. cbn [bind].
    assert (lex #r #r') as X by (destruct L as [x [y [-> [-> L]]]]; right; exact (proj2 L)).
    destruct (ngt (c0 _) r) eqn:G0; cbn [bind]; [intro H; destruct (no_miss H) |]. rewrite (gt_grow _ r r' X G0). cbn [bind].
    destruct (ngt (c1 _) r) eqn:G1; cbn [bind]; [intro H; destruct (no_miss H) |]. rewrite (gt_grow _ r r' X G1). cbn [bind].
    destruct (ngt (c2 _) r) eqn:G2; cbn [bind]; [intro H; destruct (no_miss H) |]. rewrite (gt_grow _ r r' X G2). cbn [bind]. exact (fun H => H).
  Qed.
  Lemma g_sphere_plane (c : mat3x1 Nm) (r r' : Nm) (B B' : aabb Nm) (w w' : Nm) l : le_fin O r r' -> hits (sphere_plane (MkSphere c r B w) l) -> hits (sphere_plane (MkSphere c r' B' w') l).
  Proof.
    intro L. unfold sphere_plane. cbn [sp_ori sp_radius]. destruct (vec_at l 0) as [b |]; cbn [bind]; [| intro H; destruct (no_panic _ H)].
    destruct (vec_at l 3) as [n |]; cbn [bind]; [| intro H; destruct (no_panic _ H)]. pures.
    assert (lex #r #r') as X by (destruct L as [x [y [-> [-> L]]]]; right; exact (proj2 L)).
    intro H. hit H. rewrite (gt_grow _ r r' X C). exact H.
  Qed.
  Lemma add_grow_l (a w w' : Nm) : le_fin O w w' -> lex #(w + a) #(w' + a).
  Proof.
    intros [x [y [X [Y H]]]]. rewrite !(r_add M), X, Y. destruct (#a) as [v | | |]; cbn; try (right; exact I); [| left; auto]. right. apply (rd_mono M). lra.
  Qed.
  Lemma g_sphere_sphere (c : mat3x1 Nm) (r r' : Nm) (B B' : aabb Nm) (w w' : Nm) (y : sphere Nm) : le_fin O r r' ->
    (hits (sphere_sphere (MkSphere c r B w) (shape_get_shape_data (SSphere y))) -> hits (sphere_sphere (MkSphere c r' B' w') (shape_get_shape_data (SSphere y)))) /\
    (hits (sphere_sphere y (shape_get_shape_data (SSphere (MkSphere c r B w)))) -> hits (sphere_sphere y (shape_get_shape_data (SSphere (MkSphere c r' B' w'))))).
  Proof.
    intro L. destruct y as [q s G f]. unfold sphere_sphere. cbn [shape_get_shape_data sp_ori sp_radius]. rewrite !vec0', !idx3'. cbn [bind]. pures. split; intro H; hit H.
    - rewrite (gt_grow _ _ _ (add_grow s r r' L) C). eexists. reflexivity.
    - rewrite (gt_grow _ _ _ (add_grow_l s r r' L) C). eexists. reflexivity.
  Qed.
  (** ray and sphere: the square of the radius may overflow, the differences may be NaN *)
  Lemma g_ray_sphere (x : ray3 Nm) (c : mat3x1 Nm) (r r' : Nm) (B B' : aabb Nm) (w w' : Nm) : le_fin O r r' ->
    hits (ray_sphere x (shape_get_shape_data (SSphere (MkSphere c r B w)))) -> hits (ray_sphere x (shape_get_shape_data (SSphere (MkSphere c r' B' w')))).
  Proof.
    intros [a [a' [A [A' L]]]]. destruct x as [o d G f]. unfold ray_sphere. cbn [shape_get_shape_data sp_ori sp_radius ray_ori ray_dir]. rewrite !vec0', !idx3'. cbn [bind]. pures.
    set (b := vdotn (vminus o c) d). set (rr := vdotn (vminus o c) (vminus o c)). intro H. hit H. hit H. clear H.
    assert (#(r * r) = rd M (a * a)) as Q by (rewrite (r_mul M), A; reflexivity). assert (#(r' * r') = rd M (a' * a')) as Q' by (rewrite (r_mul M), A'; reflexivity).
    assert (xle (Fin 0) (rd M (a * a))) as P0. { rewrite <- (rd_0 M). apply (rd_mono M). nra. }
    assert (xle (rd M (a * a)) (rd M (a' * a'))) as P1 by (apply (rd_mono M); nra).
    set (e := rr - r * r) in *. set (e' := rr - r' * r').
    assert (#e' = NaN \/ xle #e' #e) as K.
    { unfold e, e'. rewrite !(r_sub M), Q, Q'. revert P0 P1. destruct (#rr) as [z | | |], (rd M (a * a)) as [u | | |], (rd M (a' * a')) as [v | | |]; cbn; intros P0 P1; try contradiction;
        try (left; reflexivity); right; try exact I;
        first [apply (rd_mono M); lra | match goal with |- context [rd M ?t] => destruct (rd M t) eqn:Z; try exact I; exact (rd_nan _ Z) end]. }
    assert (ngt b n0 && ngt e' n0 = false)%bool as ->.
    { destruct (ngt b n0); [| reflexivity]. cbn [andb] in *. destruct (ngt e' n0) eqn:G'; [| reflexivity]. apply (ngt_iff O) in G'. destruct K as [K | K]; [rewrite K, (r_n0 M) in G'; destruct G' |].
      assert (ngt e n0 = true); [| congruence]. apply (ngt_iff O). rewrite (r_n0 M) in *. revert K G'. destruct (#e), (#e'); cbn; try tauto; lra. }
    assert (nlt (b * b - e') n0 = false) as ->; [| eexists; reflexivity].
    destruct (nlt (b * b - e') n0) eqn:G'; [| reflexivity]. exfalso. apply (nlt_iff O) in G'.
    assert (nlt (b * b - e) n0 = true); [| congruence]. apply (nlt_iff O). rewrite (r_n0 M) in *. rewrite (r_sub M) in *.
    assert (#(b * b) = NaN \/ xle (Fin 0) #(b * b)) as S.
    { rewrite (r_mul M). destruct (#b) as [z | | |]; try (left; reflexivity); right; [| exact I | exact I]. rewrite <- (rd_0 M). apply (rd_mono M). nra. }
    revert K G' S. destruct (#(b * b)) as [z | | |], (#e) as [u | | |], (#e') as [v | | |]; cbn; intros K G' S; try (destruct K; discriminate || contradiction); try contradiction; try tauto;
      try (destruct S; discriminate || contradiction).
    all: try exact I.
    destruct K as [K | K]; [discriminate K |]. pose proof (rd_mono M (z - u) (z - v) ltac:(lra)) as W. revert W G'. destruct (rd M (z - u)), (rd M (z - v)); cbn; try tauto; lra.
  Qed.

  (** ---- all pairs ---- *)
  Theorem grow_hits (x x' y : shape Nm) : grows O x x' ->
    (hits (shape_get_intersect x y) -> hits (shape_get_intersect x' y)) /\ (hits (shape_get_intersect y x) -> hits (shape_get_intersect y x')).
  Proof.
    intro G. rewrite !(intersect_core O), !(overlap_sym O y x), !(overlap_sym O y x').
    assert (overlap x y = true -> overlap x' y = true) as Ov.
    { destruct G as [c r r' e e' L X X' | c h h' e e' L X X' | p e e' L X X' | o n e e' L X X' | o d e e' L X X'].
      - apply sphere_any in X, X'. subst. apply (overlap_cube c r r' _ _ y L); reflexivity.
      - apply box_any in X, X'. subst. apply (overlap_cube c h h' _ _ y L); reflexivity.
      - apply point_any in X, X'. subst. erewrite overlap_same; [exact (fun H => H) | reflexivity].
      - apply plane_any in X, X'. subst. erewrite overlap_same; [exact (fun H => H) | reflexivity].
      - apply ray_any_eq in X, X'. subst. erewrite overlap_same; [exact (fun H => H) | reflexivity]. }
    assert ((hits (core x y) -> hits (core x' y)) /\ (hits (core y x) -> hits (core y x'))) as [K1 K2].
    { destruct G as [c r r' e e' L X X' | c h h' e e' L X X' | p e e' L X X' | o n e e' L X X' | o d e e' L X X'].
      - apply sphere_any in X, X'. subst. destruct y; cbn [core]; try (split; exact (fun H => H)).
        + split; apply g_sphere_point; exact L.
        + split; apply g_ray_sphere; exact L.
        + apply g_sphere_sphere. exact L.
        + split; apply g_sphere_plane; exact L.
      - apply box_any in X, X'. subst. destruct y; cbn [core]; split; exact (fun H => H).
      - apply point_any in X, X'. subst. destruct y; cbn [core]; try (split; exact (fun H => H)).
        split; [apply g_point_point; exact L | exact (fun H => H)].
      - apply plane_any in X, X'. subst. destruct y; cbn [core]; try (split; exact (fun H => H)). split; apply g_plane_point; exact L.
      - apply ray_any_eq in X, X'. subst. destruct y; cbn [core]; try (split; exact (fun H => H)).
        + split; apply g_ray_point; exact L.
        + split; [apply g_ray_ray; exact L | exact (fun H => H)]. }
    destruct (overlap x y); [rewrite (Ov eq_refl); split; assumption |]. split; intro H; destruct (no_miss H).
  Qed.
End Grow.

(** ---- prisms and segments, exact arithmetic: both queries are exact, so larger sets give at least as many hits ---- *)
Section GrowExact.
  Context (eps : R) (zs : XR -> bool).
  Lemma prism_grows a b c h h' x : 0 < h <= h' -> s_prism a b c h x -> s_prism a b c h' x.
  Proof.
    intros Hh [y [k [T [K ->]]]]. exists y, (k * h / h'). split; [exact T |]. split.
    - assert (0 <= k * h) by (apply Rmult_le_pos; lra). split; [apply Rmult_le_pos; [assumption | apply Rlt_le, Rinv_0_lt_compat; lra] |].
      apply (Rmult_le_reg_r h'); [lra |]. unfold Rdiv. rewrite Rmult_assoc, Rinv_l by lra. nra.
    - do 2 f_equal. field. lra.
  Qed.
  Lemma prism_point_grows a b c h h' e e' p f x x' y : tri_ok a b c -> 0 < h <= h' -> is_prism eps zs a b c h e x -> is_prism eps zs a b c h' e' x' -> is_point eps zs p f y ->
    hits (shape_get_intersect x y) -> hits (shape_get_intersect x' y).
  Proof.
    intros T Hh X X' Y [l H]. pose proof (prism_point_iff eps zs a b c h e p f x y T ltac:(lra) X Y) as [_ N]. pose proof (prism_point_iff eps zs a b c h' e' p f x' y T ltac:(lra) X' Y) as [P _].
    destruct (classic (s_prism a b c h p)) as [K | K]; [eexists; apply P; exact (prism_grows a b c h h' p Hh K) |]. rewrite (N K) in H. discriminate H.
  Qed.
  Lemma prism_segment_grows a b c h h' e e' A B A' B' f f' x x' y y' : tri_ok a b c -> 0 < h <= h' -> A <> B -> A' <> B' -> (forall z, s_segment A B z -> s_segment A' B' z) ->
    is_prism eps zs a b c h e x -> is_prism eps zs a b c h' e' x' -> is_line eps zs A B f y -> is_line eps zs A' B' f' y' ->
    hits (shape_get_intersect x y) -> hits (shape_get_intersect x' y').
  Proof.
    intros T Hh N N' S X X' Y Y' [l H]. pose proof (prism_segment eps zs a b c h e A B f x y T ltac:(lra) N X Y) as [_ P]. pose proof (prism_segment eps zs a b c h' e' A' B' f' x' y' T ltac:(lra) N' X' Y') as [Q _].
    destruct (classic (meets (s_prism a b c h) (s_segment A B))) as [[z [K1 K2]] | K].
    - destruct Q as [w [Q _]]; [| eexists; exact Q]. exists z. split; [exact (prism_grows a b c h h' z Hh K1) | exact (S z K2)].
    - rewrite (P K) in H. discriminate H.
  Qed.
End GrowExact.
