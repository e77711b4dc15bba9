(** PMirror1.v — the queries of C108 in any arithmetic, and their conditions under a change of signs. *)
From Coq Require Import Reals List ZArith NArith Bool Lra Lia.
From Flocq Require Import Core BinarySingleNaN.
Import ListNotations.
From Verif Require Import Base Num Vec Mat Bound Shape Intersect Gjk Float FloatFacts FloatRound Order SpecMat SpecGeom SpecBound SpecBuild SpecMirror
  PMat PBound PShape PInter PBuild PRound PIeee1 PIeee2 PMirror.

Section Any.
  Context {Nm : Num}.
  Local Open Scope num_scope.
  Definition vdotn (a b : mat3x1 Nm) : Nm := c0 a * c0 b + c1 a * c1 b + c2 a * c2 b.
  Definition vmag (a : mat3x1 Nm) : Nm := nsqrt Nm (npowi2 (c0 a) + npowi2 (c1 a) + npowi2 (c2 a)).
  Definition vat (d : mat3x1 Nm) (t : Nm) (o : mat3x1 Nm) : mat3x1 Nm := vplus (vtimes d t) o.
  Definition near0 (e : Nm) (v : mat3x1 Nm) : bool :=
    (nge (c0 v) (n0 - e) && nle (c0 v) (n0 + e) && nge (c1 v) (n0 - e) && nle (c1 v) (n0 + e) && nge (c2 v) (n0 - e) && nle (c2 v) (n0 + e))%bool.
  Lemma ray_ray_any (o d : mat3x1 Nm) rb e o2 d2 rb2 e2 : ray_ray (MkRay o d rb e) (shape_get_shape_data (SRay (MkRay o2 d2 rb2 e2))) =
    let c := vminus d2 d in let v := vcrossn d d2 in let dl := vminus o2 o in
    if negb (within e (vdotn v c) n0) then Ok miss
    else if near0 (nlit Nm 1 10000) v then
      if negb (within e (vmag (vcrossn d dl)) n0) then Ok miss
      else let s := (if nlt (vdotn dl d) n0 then nlit Nm (-1) 1 else n1) * vmag dl / vmag d in
        if nlt s n0 then Ok (true, Some o) else Ok (true, Some (vat d s o))
    else let t := vmag (vcrossn dl d2) / vmag v in if nlt t n0 then Ok miss else Ok (true, Some (vat d t o)).
  Proof. destruct o as [[]], d as [[]], o2 as [[]], d2 as [[]]. reflexivity. Qed.
  Lemma ray_point_any o d rb e p pb pe : ray_point (MkRay o d rb e) (shape_get_shape_data (SPoint (MkPoint p pb pe))) =
    let dl := vminus p o in
    if (negb (within e (c0 dl / c0 d) (c1 dl / c1 d)) || negb (within e (c1 dl / c1 d) (c2 dl / c2 d)))%bool then Ok miss
    else if nge (c0 dl / c0 d) n0 then Ok (true, Some (vat d (c0 dl / c0 d) o)) else Ok miss.
  Proof. destruct o as [[]], d as [[]], p as [[]]. reflexivity. Qed.
  Lemma ray_sphere_any o d rb e p r pb pe : ray_sphere (MkRay o d rb e) (shape_get_shape_data (SSphere (MkSphere p r pb pe))) =
    let dl := vminus o p in let b := vdotn dl d in let c := vdotn dl dl - r * r in
    if (ngt b n0 && ngt c n0)%bool then Ok miss
    else let q := b * b - c in
      if nlt q n0 then Ok miss
      else let t1 := - b - nsqrt Nm q in let t2 := - b + nsqrt Nm q in
        let t := if nlt t1 n0 then t2 else if nlt t2 n0 then t1 else if nlt t1 t2 then t1 else t2 in
        Ok (true, Some (vat d t o)).
  Proof. destruct o as [[]], d as [[]], p as [[]]. reflexivity. Qed.
  Lemma ray_plane_any o d rb e p n pb pe : ray_plane (MkRay o d rb e) (shape_get_shape_data (SPlane (MkPlane p n pb pe))) =
    let k := vdotn p n in let q := vdotn n d in
    if neqb q n0 then if neqb k (vdotn o n) then Ok (true, Some o) else Ok miss
    else if ngt q n0 then Ok miss
    else let t := (k - vdotn n o) / q in if nlt t n0 then Ok miss else Ok (true, Some (vat d t o)).
  Proof. destruct o as [[]], d as [[]], p as [[]], n as [[]]. reflexivity. Qed.
  Lemma sphere_sphere_any o r rb e o2 r2 rb2 e2 : sphere_sphere (MkSphere o r rb e) (shape_get_shape_data (SSphere (MkSphere o2 r2 rb2 e2))) =
    let c := vminus o2 o in if ngt (vmag c) (r2 + r) then Ok miss else Ok (true, Some (vplus o (vtimes c (r / (r + r2))))).
  Proof. destruct o as [[]], o2 as [[]]. reflexivity. Qed.
  Lemma sphere_plane_any o r rb e p n pb pe : sphere_plane (MkSphere o r rb e) (shape_get_shape_data (SPlane (MkPlane p n pb pe))) =
    let t := vdotn n o - vdotn n p in if ngt t r then Ok miss else Ok (true, Some (vat n (- t) o)).
  Proof. destruct o as [[]], p as [[]], n as [[]]. reflexivity. Qed.
  Lemma plane_point_any o n rb e p pb pe : plane_point (MkPlane o n rb e) (shape_get_shape_data (SPoint (MkPoint p pb pe))) =
    if negb (within e (vdotn n o - vdotn n p) n0) then Ok miss else Ok (true, Some p).
  Proof. destruct o as [[]], n as [[]], p as [[]]. reflexivity. Qed.
  Lemma point_point_any (o : mat3x1 Nm) ob e (p : mat3x1 Nm) pb pe : point_point (MkPoint o ob e) (shape_get_shape_data (SPoint (MkPoint p pb pe))) =
    if (negb (within e (c0 o) (c0 p)) || negb (within e (c1 o) (c1 p)) || negb (within e (c2 o) (c2 p)))%bool then Ok miss else Ok (true, Some o).
  Proof. destruct o as [[]], p as [[]]. reflexivity. Qed.
  Lemma overlap_any (a b : aabb Nm) : aabb_intersect a (BBox b) = Ok (negb (apart a b 0) && negb (apart a b 1) && negb (apart a b 2))%bool.
  Proof. apply intersect_eval. Qed.
End Any.

Section Mirror1.
  Context (prec emax : Z) {Hp : Prec_gt_0 prec} {Hm : Prec_lt_emax prec emax} (lm : libm (binary_float prec emax)).
  Notation bf := (binary_float prec emax).
  Notation F := (@Ieee prec emax Hp Hm lm).
  Notation E := (E prec emax).
  Notation zr := (zr prec emax).

  Lemma E_plus b (x x' y y' : F) : E b x' x -> E b y' y -> E b (nadd F x' y') (nadd F x y).
  Proof.
    unfold PMirror.E. intros Hx Hy. cbn [nadd Ieee]. rewrite (plus_zr prec emax _ _ _ _ Hx Hy). destruct b; [| reflexivity]. apply plus_opp.
  Qed.
  Lemma E_opp b (x x' : F) : E b x' x -> E b (nneg F x') (nneg F x).
  Proof.
    unfold PMirror.E. intro H. cbn. rewrite <- (zr_opp prec emax x'), H, zr_opp. destruct b; reflexivity.
  Qed.
  Lemma nsub_F (x y : F) : nsub F x y = nadd F x (nneg F y).
  Proof. apply (FloatFacts.Bminus_plus prec emax). Qed.
  Lemma E_minus b (x x' y y' : F) : E b x' x -> E b y' y -> E b (nsub F x' y') (nsub F x y).
  Proof. intros Hx Hy. rewrite !nsub_F. apply E_plus; [exact Hx | apply E_opp; exact Hy]. Qed.
  Lemma E_mult b c (x x' y y' : F) : E b x' x -> E c y' y -> E (xorb b c) (nmul F x' y') (nmul F x y).
  Proof. unfold PMirror.E. intros Hx Hy. cbn [nmul Ieee]. rewrite (mult_zr prec emax _ _ _ _ Hx Hy), mult_sgn. reflexivity. Qed.
  Lemma E_div b c (x x' y : F) : E b x' x -> E (xorb b c) (ndiv F x' (sgn c y)) (ndiv F x y).
  Proof. unfold PMirror.E. intros Hx. cbn [ndiv Ieee]. rewrite (div_zr prec emax _ _ _ Hx), div_sgn. reflexivity. Qed.
  Lemma E_sqrt (x x' : F) : E false x' x -> E false (nsqrt F x') (nsqrt F x).
  Proof. unfold PMirror.E. cbn. apply sqrt_zr. Qed.
  Lemma sq_E b (x x' : F) : E b x' x -> npowi2 x' = npowi2 x.
  Proof.
    unfold PMirror.E, npowi2. intro H. cbn [nmul Ieee]. destruct (zr_cases prec emax _ _ H) as [-> | (s & t & -> & G)].
    - rewrite mult_sgn, xorb_nilpotent. reflexivity.
    - assert (exists t', x = B754_zero t') as [t' ->] by (destruct b; cbn in G; [destruct x; try discriminate G; eexists; reflexivity | eexists; exact G]).
      destruct s, t'; reflexivity.
  Qed.
  Lemma cmp_E b (x x' y y' : F) : E b x' x -> E b y' y -> ncmp F x' y' = if b then ncmp F y x else ncmp F x y.
  Proof.
    unfold PMirror.E. intros Hx Hy. cbn [ncmp Ieee]. rewrite (cmp_zr prec emax _ _ _ _ Hx Hy). destruct b; [apply cmp_opp | reflexivity].
  Qed.
  Lemma E_zero b : E b (n0 (N := F)) (n0 (N := F)).
  Proof.
    unfold PMirror.E. destruct (fv_lit_0 prec emax) as [Z0 Z1]. change (f_lit prec emax 0 1) with (n0 (N := F)) in *. apply zr_fin.
    - exact Z0.
    - destruct b; cbn; rewrite ?is_finite_Bopp; exact Z0.
    - destruct b; cbn [sgn]; rewrite ?B2R_Bopp; rewrite Z1; [rewrite Ropp_0 |]; reflexivity.
  Qed.
  Lemma lt_E (x x' y y' : F) : E false x' x -> E false y' y -> nlt x' y' = nlt x y.
  Proof. intros Hx Hy. unfold nlt. rewrite (cmp_E false x x' y y' Hx Hy). reflexivity. Qed.
  Lemma gt_E (x x' y y' : F) : E false x' x -> E false y' y -> ngt x' y' = ngt x y.
  Proof. intros Hx Hy. unfold ngt. rewrite (cmp_E false x x' y y' Hx Hy). reflexivity. Qed.
  Lemma ge_E (x x' y y' : F) : E false x' x -> E false y' y -> nge x' y' = nge x y.
  Proof. intros Hx Hy. unfold nge. rewrite (cmp_E false x x' y y' Hx Hy). reflexivity. Qed.
  Lemma eq_E (x x' y y' : F) : E false x' x -> E false y' y -> neqb x' y' = neqb x y.
  Proof. intros Hx Hy. unfold neqb. rewrite (cmp_E false x x' y y' Hx Hy). reflexivity. Qed.
  (** on the other side: the two halves of a tolerance test trade places *)
  Lemma swap_E (x x' y y' : F) : E true x' x -> E true y' y -> ngt x' y' = nlt x y /\ nlt x' y' = ngt x y /\ nge x' y' = nle x y /\ nle x' y' = nge x y.
  Proof.
    intros Hx Hy. unfold ngt, nlt, nge, nle. rewrite (cmp_E true x x' y y' Hx Hy).
    assert (C : ncmp F y x = match ncmp F x y with Some c => Some (CompOpp c) | None => None end) by (cbn [ncmp Ieee]; apply Bcompare_swap).
    rewrite C. destruct (ncmp F x y) as [[| |] |]; repeat split.
  Qed.
  Lemma sgn_true_false (x : F) : x = sgn false x. Proof. reflexivity. Qed.
  Lemma plus_minus_E (x x' e : F) : E true x' x -> E true (nadd F x' e) (nsub F x e) /\ E true (nsub F x' e) (nadd F x e).
  Proof.
    intro H. rewrite !nsub_F. split; apply E_plus; try exact H.
    - unfold PMirror.E. cbn. rewrite opp_opp. reflexivity.
    - reflexivity.
  Qed.
  Lemma within_E b (e x x' y y' : F) : E b x' x -> E b y' y -> within e x' y' = within e x y.
  Proof.
    intros Hx Hy. unfold within. destruct b.
    - destruct (plus_minus_E x x' e Hx) as [A B]. destruct (swap_E _ _ _ _ A Hy) as (_ & _ & -> & _). destruct (swap_E _ _ _ _ B Hy) as (_ & _ & _ & ->). apply andb_comm.
    - unfold nge, nle. rewrite (cmp_E false (nadd F x e) (nadd F x' e) y y'), (cmp_E false (nsub F x e) (nsub F x' e) y y'); try exact Hy; try reflexivity.
      + apply E_minus; [exact Hx | reflexivity].
      + apply E_plus; [exact Hx | reflexivity].
  Qed.
  Lemma close_E b (e x x' : F) : E b x' x -> (nge x' (nsub F n0 e) && nle x' (nadd F n0 e))%bool = (nge x (nsub F n0 e) && nle x (nadd F n0 e))%bool.
  Proof.
    intro H. destruct b.
    - destruct (plus_minus_E n0 n0 e (E_zero true)) as [A B]. destruct (swap_E _ _ _ _ H B) as (_ & _ & -> & _). destruct (swap_E _ _ _ _ H A) as (_ & _ & _ & ->). apply andb_comm.
    - unfold nge, nle. rewrite (cmp_E false x x' (nsub F n0 e) (nsub F n0 e) H eq_refl), (cmp_E false x x' (nadd F n0 e) (nadd F n0 e) H eq_refl). reflexivity.
  Qed.

  (** vectors: components 0, 1, 2 with given signs *)
  Definition Ev (s : signs) (v' v : mat3x1 F) : Prop := E (sg0 s) (c0 v') (c0 v) /\ E (sg1 s) (c1 v') (c1 v) /\ E (sg2 s) (c2 v') (c2 v).
  (** cross products of vectors of signs [s] *)
  Definition ax (s : signs) : signs := Sg (xorb (sg1 s) (sg2 s)) (xorb (sg2 s) (sg0 s)) (xorb (sg0 s) (sg1 s)).
  Lemma Ev_flip s (v : mat3x1 F) : Ev s (flip s v) v.
  Proof. destruct v as [[x y z]]. repeat split. Qed.
  Lemma Ev_minus s (v v' w w' : mat3x1 F) : Ev s v' v -> Ev s w' w -> Ev s (vminus v' w') (vminus v w).
  Proof. intros (A & B & C) (A' & B' & C'). repeat split; cbn [vminus c0 c1 c2]; apply E_minus; assumption. Qed.
  Lemma Ev_plus s (v v' w w' : mat3x1 F) : Ev s v' v -> Ev s w' w -> Ev s (vplus v' w') (vplus v w).
  Proof. intros (A & B & C) (A' & B' & C'). repeat split; cbn [vplus c0 c1 c2]; apply E_plus; assumption. Qed.
  Lemma E_mult' a b c (x x' y y' : F) : a = xorb b c -> E b x' x -> E c y' y -> E a (nmul F x' y') (nmul F x y).
  Proof. intros -> . apply E_mult. Qed.
  Lemma Ev_times s (v v' : mat3x1 F) (t t' : F) : Ev s v' v -> E false t' t -> Ev s (vtimes v' t') (vtimes v t).
  Proof.
    intros (A & B & C) T. repeat split; cbn [vtimes c0 c1 c2]; (eapply E_mult'; [| eassumption | eassumption]); rewrite xorb_false_r; reflexivity.
  Qed.
  Lemma Ev_cross s u (v v' w w' : mat3x1 F) : Ev s v' v -> Ev u w' w ->
    xorb (sg1 s) (sg2 u) = xorb (sg2 s) (sg1 u) -> xorb (sg2 s) (sg0 u) = xorb (sg0 s) (sg2 u) -> xorb (sg0 s) (sg1 u) = xorb (sg1 s) (sg0 u) ->
    Ev (Sg (xorb (sg1 s) (sg2 u)) (xorb (sg2 s) (sg0 u)) (xorb (sg0 s) (sg1 u))) (vcrossn v' w') (vcrossn v w).
  Proof.
    intros (A & B & C) (A' & B' & C') X Y Z. repeat split; cbn [vcrossn c0 c1 c2 sg0 sg1 sg2]; apply E_minus; (eapply E_mult'; [| eassumption | eassumption]); congruence.
  Qed.
  Lemma Ev_cross_same s (v v' w w' : mat3x1 F) : Ev s v' v -> Ev s w' w -> Ev (ax s) (vcrossn v' w') (vcrossn v w).
  Proof. intros V W. apply (Ev_cross s s); try assumption; apply xorb_comm. Qed.
  Lemma E_dot b s u (v v' w w' : mat3x1 F) : Ev s v' v -> Ev u w' w -> xorb (sg0 s) (sg0 u) = b -> xorb (sg1 s) (sg1 u) = b -> xorb (sg2 s) (sg2 u) = b ->
    E b (vdotn v' w') (vdotn v w).
  Proof.
    intros (A & B & C) (A' & B' & C') X Y Z. unfold vdotn. repeat apply E_plus; (eapply E_mult'; [| eassumption | eassumption]); congruence.
  Qed.
  Lemma E_dot_same s (v v' w w' : mat3x1 F) : Ev s v' v -> Ev s w' w -> E false (vdotn v' w') (vdotn v w).
  Proof. intros V W. apply (E_dot false s s); try assumption; apply xorb_nilpotent. Qed.
  Lemma mag_E s (v v' : mat3x1 F) : Ev s v' v -> vmag v' = vmag v.
  Proof. intros (A & B & C). unfold vmag. rewrite (sq_E _ _ _ A), (sq_E _ _ _ B), (sq_E _ _ _ C). reflexivity. Qed.
  Lemma near0_E s (e : F) (v v' : mat3x1 F) : Ev s v' v -> near0 e v' = near0 e v.
  Proof.
    intros (A & B & C). unfold near0. rewrite <- !andb_assoc. rewrite (andb_assoc (nge (c0 v') _)), (andb_assoc (nge (c1 v') _)), (close_E _ _ _ _ A), (close_E _ _ _ _ B), (close_E _ _ _ _ C).
    rewrite <- !andb_assoc. reflexivity.
  Qed.
  Lemma Ev_at s (d d' o o' : mat3x1 F) (t t' : F) : Ev s d' d -> E false t' t -> Ev s o' o -> Ev s (vat d' t' o') (vat d t o).
  Proof. intros D T O. apply Ev_plus; [apply Ev_times; assumption | exact O]. Qed.
  Lemma dot_flip s (v w : mat3x1 F) : vdotn (Nm := F) (flip s v) (flip s w) = vdotn (Nm := F) v w.
  Proof.
    destruct v as [[x y z]], w as [[p q r]]. unfold vdotn. cbn [flip c0 c1 c2]. cbn [nmul nadd Ieee]. rewrite !mult_sgn, !xorb_nilpotent. reflexivity.
  Qed.
  Lemma nrm_flip s (v : mat3x1 F) : nrm (Nm := F) (flip s v) = flip s (nrm (Nm := F) v).
  Proof.
    destruct v as [[x y z]]. unfold nrm. cbn [flip]. rewrite !(sq_E _ _ _ (E_sgn prec emax _ _)).
    set (m := nsqrt F _). clearbody m. assert (D : forall b (u : bf), Bdiv mode_NE (sgn b u) m = sgn b (Bdiv mode_NE u m)).
    { intros b u. pose proof (div_sgn prec emax b false u m) as H. rewrite xorb_false_r in H. exact H. }
    cbn [ndiv Ieee]. rewrite !D. reflexivity.
  Qed.
  Lemma c_flip s (v : mat3x1 F) : c0 (Nm := F) (flip s v) = sgn (sg0 s) (c0 (Nm := F) v) /\ c1 (Nm := F) (flip s v) = sgn (sg1 s) (c1 (Nm := F) v) /\ c2 (Nm := F) (flip s v) = sgn (sg2 s) (c2 (Nm := F) v).
  Proof. destruct v as [[x y z]]. repeat split. Qed.
End Mirror1.
