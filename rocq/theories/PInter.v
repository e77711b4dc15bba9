(** PInter.v — intersection queries in any arithmetic: symmetry, form of the answer, panics; vicinity (C39-C41, C64). *)
From Coq Require Import Reals List ZArith NArith Bool Lra Lia.
From Flocq Require Import Core BinarySingleNaN.
Import ListNotations.
From Verif Require Import Base Num Vec Mat Bound Shape Intersect Float Exact SpecMat SpecGeom SpecBound SpecInter ExactFacts FloatFacts Order PMat PBound.
Local Open Scope R_scope.

Section Any.
  Context {Nm : Num}.
  Definition good (m : res (bool * option (mat3x1 Nm))) : Prop := exists h, m = Ok h /\ answer h.
  Lemma good_miss : good (Ok miss).
  Proof. exists miss. split; [reflexivity |]. split; [discriminate | intros [p Hp]; discriminate Hp]. Qed.
  Lemma good_hit p : good (Ok (true, Some p)).
  Proof. eexists. split; [reflexivity |]. split; [intros _; eexists; reflexivity | reflexivity]. Qed.
  Lemma good_if (c : bool) a b : good a -> good b -> good (if c then a else b).
  Proof. destruct c; auto. Qed.

  Lemma vec_at_data (v : mat3x1 Nm) l : vec_at (vec_data v ++ l) 0 = Ok v.
  Proof. destruct v as [[]]. reflexivity. Qed.
  Lemma vec_at_data3 (v w : mat3x1 Nm) l : vec_at (vec_data v ++ vec_data w ++ l) 3 = Ok w.
  Proof. destruct v as [[]], w as [[]]. reflexivity. Qed.

  Ltac step := first [apply good_miss | apply good_hit | apply good_if | progress cbn].
  Lemma ray_ray_good (r q : ray3 Nm) : good (ray_ray r (shape_get_shape_data (SRay q))).
  Proof.
    destruct r as [[[]] [[]] rb rv], q as [[[]] [[]] qb qv]. unfold ray_ray. cbn -[within]. repeat step.
  Qed.
  Lemma ray_point_good (r : ray3 Nm) (q : point3 Nm) : good (ray_point r (shape_get_shape_data (SPoint q))).
  Proof. destruct r as [[[]] [[]] rb rv], q as [[[]] qb qv]. unfold ray_point. cbn -[within]. repeat step. Qed.
  Lemma ray_sphere_good (r : ray3 Nm) (q : sphere Nm) : good (ray_sphere r (shape_get_shape_data (SSphere q))).
  Proof. destruct r as [[[]] [[]] rb rv], q as [[[]] qr qb qv]. unfold ray_sphere. cbn -[within]. repeat step. Qed.
  Lemma ray_plane_good (r : ray3 Nm) (q : plane Nm) : good (ray_plane r (shape_get_shape_data (SPlane q))).
  Proof. destruct r as [[[]] [[]] rb rv], q as [[[]] [[]] qb qv]. unfold ray_plane. cbn -[within]. repeat step. Qed.
  Lemma sphere_sphere_good (r q : sphere Nm) : good (sphere_sphere r (shape_get_shape_data (SSphere q))).
  Proof. destruct r as [[[]] rr rb rv], q as [[[]] qr qb qv]. unfold sphere_sphere. cbn -[within]. repeat step. Qed.
  Lemma sphere_point_good (r : sphere Nm) (q : point3 Nm) : good (sphere_point r (shape_get_shape_data (SPoint q))).
  Proof.
    destruct r as [[[]] rr rb rv], q as [[[]] qb qv]. unfold sphere_point. cbn.
    repeat (match goal with |- context [ngt ?x ?y] => destruct (ngt x y) end; cbn; [apply good_miss |]). apply good_hit.
  Qed.
  Lemma sphere_plane_good (r : sphere Nm) (q : plane Nm) : good (sphere_plane r (shape_get_shape_data (SPlane q))).
  Proof. destruct r as [[[]] rr rb rv], q as [[[]] [[]] qb qv]. unfold sphere_plane. cbn. repeat step. Qed.
  Lemma plane_point_good (r : plane Nm) (q : point3 Nm) : good (plane_point r (shape_get_shape_data (SPoint q))).
  Proof. destruct r as [[[]] [[]] rb rv], q as [[[]] qb qv]. unfold plane_point. cbn -[within]. repeat step. Qed.
  Lemma point_point_good (r q : point3 Nm) : good (point_point r (shape_get_shape_data (SPoint q))).
  Proof. destruct r as [[[]] rb rv], q as [[[]] qb qv]. unfold point_point. cbn -[within]. repeat step. Qed.

  Lemma all_inside_ok tests (p : mat3x1 Nm) : exists b, all_inside tests p = Ok b.
  Proof.
    unfold all_inside. induction tests as [| [v n] l [b IH]]; [exists true; reflexivity |].
    destruct p as [[]], v as [[]], n as [[]]. cbn in *. match goal with |- context [ngt ?x ?y] => destruct (ngt x y) end; cbn.
    - eexists. reflexivity.
    - exists b. exact IH.
  Qed.
  Lemma triprism_tests_ok (t : triprism Nm) : exists l, triprism_tests t = Ok l.
  Proof. destruct t as [[[[]] [[]] [[]]] [[[]] [[]] [[]]] [[]] tb tv]. eexists. reflexivity. Qed.
  Lemma triprism_point_good (t : triprism Nm) (q : point3 Nm) : good (triprism_point t (shape_get_shape_data (SPoint q))).
  Proof.
    unfold triprism_point. destruct q as [[[]] qb qv]. cbn [shape_get_shape_data pt_ori vec_data v3x1 list3 vec_at idx nth_error bind Nat.add].
    destruct (triprism_tests_ok t) as [l ->]. cbn [bind].
    match goal with |- context [all_inside l ?p] => destruct (all_inside_ok l p) as [b ->] end. cbn [bind].
    destruct b; [apply good_hit | apply good_miss].
  Qed.
  Lemma apart_whole_free (a b : aabb Nm) : exists c, aabb_intersect a (BBox b) = Ok c.
  Proof. rewrite intersect_eval. eexists. reflexivity. Qed.
  Lemma ray_plane_get (r : ray3 Nm) (q : plane Nm) : good (ray_get_intersect r (SPlane q)).
  Proof.
    unfold ray_get_intersect. change (ibound_intersect _ _) with (aabb_intersect (ray_bound r) (BBox (pl_bound q))). rewrite intersect_eval. cbn [bind].
    apply good_if; [apply good_miss | apply ray_plane_good].
  Qed.
  Lemma plane_of_ok (o n : mat3x1 Nm) : exists p, plane_of o n = Ok p.
  Proof. destruct o as [[]], n as [[]]. eexists. reflexivity. Qed.
  Lemma ray_init_ok (o n : mat3x1 Nm) : exists p, ray_init (vec_data o) (vec_data n) = Ok p.
  Proof. destruct o as [[]], n as [[]]. eexists. reflexivity. Qed.
  Lemma facets_ok (a : mat3x1 Nm) (mag : Nm) r tests fs : exists o,
    for_ret fs (fun i =>
          let! res := ray_get_intersect r (SPlane i) in
          if fst res then
            let! collide_point := unwrap (snd res) in
            let! df := unwrap (mat3x1_minus collide_point a) in
            let! mag2 := unwrap (mat3x1_magnitude df) in
            let! is_point_inside := all_inside tests collide_point in
            if (negb is_point_inside || ngt mag2 mag)%bool then Ok Next
            else Ok (Ret (snd res))
          else Ok Next) = Ok o /\ forall p, o = Some p -> exists q, p = Some q.
  Proof.
    induction fs as [| f fs [o [IH1 IH2]]]; [exists None; split; [reflexivity | discriminate] |].
    cbn [for_ret]. destruct (ray_plane_get r f) as [[b l] [-> Ha]]. cbn [bind fst snd]. destruct b.
    - destruct (proj1 Ha eq_refl) as [p Hp]. cbn in Hp. subst l. cbn [unwrap bind].
      destruct (all_inside_ok tests p) as [c Hc]. destruct p as [[]], a as [[]]. cbn [mat3x1_minus mat3x1_magnitude unwrap bind].
      rewrite Hc. cbn [bind]. match goal with |- context [if ?x then _ else _] => destruct x end; cbn [bind].
      + exists o. split; assumption.
      + eexists. split; [reflexivity |]. intros q Hq. injection Hq as <-. eexists. reflexivity.
    - exists o. split; assumption.
  Qed.
  Lemma triprism_line_good (t : triprism Nm) (q : line3 Nm) : good (triprism_line t (shape_get_shape_data (SLine q))).
  Proof.
    unfold triprism_line. cbn [shape_get_shape_data]. rewrite vec_at_data. cbn [bind].
    rewrite <- (app_nil_r (vec_data (ln_b q))), vec_at_data3. cbn [bind].
    destruct (triprism_tests_ok t) as [l ->]. cbn [bind].
    destruct (all_inside_ok l (ln_a q)) as [ia ->]. destruct (all_inside_ok l (ln_b q)) as [ib ->]. cbn [bind].
    apply good_if; [apply good_hit |]. apply good_if; [apply good_hit |].
    assert (Hm : exists v, mat3x1_minus (ln_b q) (ln_a q) = Some v) by (destruct (ln_b q) as [[]], (ln_a q) as [[]]; eexists; reflexivity).
    destruct Hm as [v ->]. cbn [unwrap bind].
    assert (Hm : exists m, mat3x1_magnitude v = Some m) by (destruct v as [[]]; eexists; reflexivity).
    destruct Hm as [m ->]. cbn [unwrap bind]. destruct (ray_init_ok (ln_a q) v) as [r ->]. cbn [bind].
    assert (Hs : forall x s, exists y, @mat3x1_scale Nm x s = Some y) by (intros [[]] s; eexists; reflexivity).
    destruct (Hs (tp_nh t) (nlit Nm (-1) 1)) as [n0' ->]. cbn [unwrap bind].
    assert (Hn : forall x y z, exists w, @side_normal Nm x y z = Ok w) by (intros [[]] [[]] [[]]; eexists; reflexivity).
    destruct t as [[b0 b1 b2] [c0 c1 c2] nh tb tv]. cbn [tp_base tp_base2 tp_nh].
    destruct (Hn b0 b1 nh) as [x2 ->], (Hn b1 b2 nh) as [x3 ->], (Hn b2 b0 nh) as [x4 ->]. cbn [bind].
    destruct (plane_of_ok b0 n0') as [p0 ->], (plane_of_ok c0 nh) as [p1 ->], (plane_of_ok b0 x2) as [p2 ->],
      (plane_of_ok b1 x3) as [p3 ->], (plane_of_ok b2 x4) as [p4 ->]. cbn [bind].
    destruct (facets_ok (ln_a q) m r l [p0; p1; p2; p3; p4]) as [o [-> Ho]]. cbn [bind]. destruct o as [p |].
    - destruct (Ho p eq_refl) as [y ->]. apply good_hit.
    - apply good_miss.
  Qed.

  (** every supported pair gives an answer; every other pair an answer or a panic, depending on the bounds *)
  Lemma ibb (x y : aabb Nm) : ibound_intersect (BBox x) (BBox y) = aabb_intersect x (BBox y).
  Proof. reflexivity. Qed.
  Definition overlap (a b : shape Nm) : bool :=
    match ibound_intersect (shape_get_bound a) (shape_get_bound b) with Ok x => x | Panic _ => false end.
  Lemma overlap_eval a b : ibound_intersect (shape_get_bound a) (shape_get_bound b) = Ok (overlap a b).
  Proof.
    unfold overlap, shape_get_bound. rewrite ibb, intersect_eval. reflexivity.
  Qed.
End Any.

Section Ordd.
  Context {Nm : Num} (O : ordered Nm).
  Lemma overlap_sym (a b : shape Nm) : overlap a b = overlap b a.
  Proof.
    unfold overlap, shape_get_bound. rewrite !ibb, (proj1 (intersect_sym O _ _)). reflexivity.
  Qed.
  (** the answer of a supported pair once the bounds overlap *)
  Definition core (a b : shape Nm) : res hit :=
    match a, b with
    | SPoint p, SPoint _ => point_point p (shape_get_shape_data b)
    | SRay r, SRay _ => ray_ray r (shape_get_shape_data b)
    | SSphere s, SSphere _ => sphere_sphere s (shape_get_shape_data b)
    | SRay r, SPoint _ => ray_point r (shape_get_shape_data b)
    | SPoint _, SRay r => ray_point r (shape_get_shape_data a)
    | SSphere r, SPoint _ => sphere_point r (shape_get_shape_data b)
    | SPoint _, SSphere r => sphere_point r (shape_get_shape_data a)
    | SPlane r, SPoint _ => plane_point r (shape_get_shape_data b)
    | SPoint _, SPlane r => plane_point r (shape_get_shape_data a)
    | SBox _, SPoint p | SPoint p, SBox _ => Ok (true, Some (pt_ori p))
    | SPrism r, SPoint _ => triprism_point r (shape_get_shape_data b)
    | SPoint _, SPrism r => triprism_point r (shape_get_shape_data a)
    | SRay r, SSphere _ => ray_sphere r (shape_get_shape_data b)
    | SSphere _, SRay r => ray_sphere r (shape_get_shape_data a)
    | SRay r, SPlane _ => ray_plane r (shape_get_shape_data b)
    | SPlane _, SRay r => ray_plane r (shape_get_shape_data a)
    | SSphere r, SPlane _ => sphere_plane r (shape_get_shape_data b)
    | SPlane _, SSphere r => sphere_plane r (shape_get_shape_data a)
    | SPrism r, SLine _ => triprism_line r (shape_get_shape_data b)
    | SLine _, SPrism r => triprism_line r (shape_get_shape_data a)
    | _, _ => Panic PUnimplemented
    end.
  Lemma intersect_core (a b : shape Nm) : shape_get_intersect a b = if overlap a b then core a b else Ok miss.
  Proof.
    assert (Hd : forall p : point3 Nm, vec_at (vec_data (pt_ori p)) 0 = Ok (pt_ori p)) by (intros [[[]] pb pv]; reflexivity).
    destruct a, b; cbn [shape_get_intersect core];
      unfold point_get_intersect, ray_get_intersect, sphere_get_intersect, plane_get_intersect, line_get_intersect,
        recbox_get_intersect, triprism_get_intersect, sphere_get_intersect, ray_get_intersect, plane_get_intersect,
        recbox_get_intersect, triprism_get_intersect;
      rewrite ?overlap_eval; cbn [bind shape_get_type shape_get_shape_data];
      match goal with |- _ = (if overlap ?x ?y then _ else _) => try rewrite (overlap_sym y x); destruct (overlap x y) eqn:Eo end;
      cbn [negb bind]; rewrite ?Hd; reflexivity.
  Qed.
  Lemma core_sym (a b : shape Nm) : shape_get_type a <> shape_get_type b -> core a b = core b a.
  Proof. destruct a, b; cbn [shape_get_type core]; intro H; try reflexivity; contradiction. Qed.
  Lemma intersect_symmetric (a b : shape Nm) : shape_get_type a <> shape_get_type b ->
    shape_get_intersect a b = shape_get_intersect b a.
  Proof. intro H. rewrite !intersect_core, (overlap_sym b a), (core_sym a b H). reflexivity. Qed.
  Lemma core_supported (a b : shape Nm) : if supported (shape_get_type a) (shape_get_type b) then good (core a b)
    else core a b = Panic PUnimplemented.
  Proof.
    destruct a, b; cbn [shape_get_type supported core]; try reflexivity;
      try apply good_hit; try apply point_point_good; try apply ray_point_good; try apply sphere_point_good; try apply plane_point_good;
      try apply triprism_point_good; try apply ray_ray_good; try apply ray_sphere_good; try apply ray_plane_good;
      try apply sphere_sphere_good; try apply sphere_plane_good; try apply triprism_line_good.
  Qed.
  Lemma intersect_answer (a b : shape Nm) h : shape_get_intersect a b = Ok h -> answer h.
  Proof.
    rewrite intersect_core. pose proof (core_supported a b) as C. destruct (overlap a b).
    - destruct (supported _ _).
      + destruct C as [h' [-> Hh]]. intro H. injection H as <-. exact Hh.
      + rewrite C. discriminate.
    - intro H. injection H as <-. destruct (@good_miss Nm) as [h' [H' Hh]]. injection H' as <-. exact Hh.
  Qed.
  Lemma intersect_panics (a b : shape Nm) :
    (exists k, shape_get_intersect a b = Panic k) <->
    ibound_intersect (shape_get_bound a) (shape_get_bound b) = Ok true /\ supported (shape_get_type a) (shape_get_type b) = false.
  Proof.
    rewrite intersect_core, overlap_eval. pose proof (core_supported a b) as C. destruct (overlap a b).
    - destruct (supported _ _).
      + destruct C as [h' [-> Hh]]. split; [intros [k Hk]; discriminate Hk | intros [_ H]; discriminate H].
      + rewrite C. split; [intros _; split; reflexivity | intros _; eexists; reflexivity].
    - split; [intros [k Hk]; discriminate Hk | intros [H _]; discriminate H].
  Qed.
  Lemma intersect_panic_kind (a b : shape Nm) k : shape_get_intersect a b = Panic k -> k = PUnimplemented.
  Proof.
    rewrite intersect_core. pose proof (core_supported a b) as C. destruct (overlap a b); [| discriminate].
    destruct (supported _ _).
    - destruct C as [h' [-> Hh]]. discriminate.
    - rewrite C. intro H. injection H as <-. reflexivity.
  Qed.
  Lemma intersect_disjoint (a b : shape Nm) : ibound_intersect (shape_get_bound a) (shape_get_bound b) = Ok false ->
    shape_get_intersect a b = Ok miss.
  Proof. rewrite intersect_core, overlap_eval. intro H. injection H as ->. reflexivity. Qed.
End Ordd.

(** vicinity *)
Section Vicinity.
  Context {Nm : Num}.
  Lemma vicinity_set (s : shape Nm) e :
    let s' := shape_set_vicinity s e in
    shape_vicinity s' = nabs Nm e /\ shape_get_type s' = shape_get_type s /\ shape_get_bound s' = shape_get_bound s /\
    shape_get_shape_data s' = shape_get_shape_data s /\ (forall v, shape_get_support s' v = shape_get_support s v) /\
    (forall e2, shape_set_vicinity s' e2 = shape_set_vicinity s e2) /\ (shape_vicinity s = nabs Nm e -> s' = s).
  Proof.
    destruct s as [x|x|x|x|x|x|x]; destruct x; cbn; repeat split; intro H; try (rewrite H; reflexivity); try reflexivity.
  Qed.
End Vicinity.
Lemma within_exact (eps : R) (zs : XR -> bool) v a b : @within (Exact eps zs) (Fin v) (Fin a) (Fin b) = true <-> Rabs (a - b) <= v.
Proof.
  unfold within. rewrite andb_true_iff, (nge_iff (exact_ordered eps zs)), (nle_iff (exact_ordered eps zs)). simpl.
  split; [intros; apply Rabs_le; lra | intro H]. unfold Rabs in H. destruct (Rcase_abs (a - b)); lra.
Qed.
Section VicIeee.
  Context (prec emax : Z) {Hp : Prec_gt_0 prec} {Hm : Prec_lt_emax prec emax} (lm : libm (binary_float prec emax)).
  Notation F := (@Ieee prec emax Hp Hm lm).
  Lemma within_nan (v a b : F) : nisnan v = true \/ nisnan a = true \/ nisnan b = true -> within v a b = false.
  Proof.
    rewrite !(nisnan_iff (ieee_ordered prec emax lm)). cbn [emb ieee_ordered]. rewrite !b2x_nan.
    unfold within. intros [-> | [-> | ->]].
    - destruct a; reflexivity.
    - reflexivity.
    - apply andb_false_iff. left. unfold nge. rewrite ncmp_F. cbn. destruct (b2x prec emax _); reflexivity.
  Qed.
  Lemma nabs_neg (e : F) : nabs F (nneg F e) = nabs F e.
  Proof. destruct e; reflexivity. Qed.
  Lemma vicinity_sign (s : shape F) e : shape_set_vicinity s (nneg F e) = shape_set_vicinity s e.
  Proof. unfold shape_set_vicinity. rewrite nabs_neg. reflexivity. Qed.
End VicIeee.
Lemma within_shape (eps : R) (zs : XR -> bool) (s : shape (Exact eps zs)) (v a b : R) : shape_vicinity s = Fin v ->
  (shape_within_vicinity s (Fin a : Exact eps zs) (Fin b) = true <-> Rabs (a - b) <= v).
Proof. intro H. unfold shape_within_vicinity. rewrite H. apply within_exact. Qed.
