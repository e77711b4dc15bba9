(** PGjk1.v — one iteration of the GJK loop on two spheres, as an operation on vectors of R^3; no panic (C63) and
    soundness of the answer "false" (C60). *)
From Coq Require Import Reals List ZArith NArith Bool Lra Lia Psatz Arith.
Import ListNotations.
From Verif Require Import Base Num Vec Mat Bound Shape Gjk Exact SpecMat SpecGeom SpecBound SpecShape
  ExactFacts FloatFacts Order PMat PShape PGeo1 PGeo2 PSup.
Local Open Scope R_scope.

(** the support point of the Minkowski difference of two balls, a ball with centre [C] and radius [K] *)
Definition sp (C : V3) (K : R) (d : V3) : V3 := vadd C (vscale K (unit d)).
Definition neg (v : V3) : V3 := vscale (-1) v.
Definition trip (u v w : V3) : V3 := vcross (vcross u v) w.
Definition nab (p q a : V3) : V3 := trip (vsub p a) (vsub q a) (vsub q a).
Definition nac (p q a : V3) : V3 := trip (vsub q a) (vsub p a) (vsub p a).
(** second and later iterations: simplex [p; q], direction [d] *)
Definition step (C : V3) (K : R) (p q d : V3) : bool + V3 * V3 * V3 :=
  let a := sp C K d in
  if Rlt_dec 0 (vdot a d) then
    if Rlt_dec 0 (vdot (nab p q a) (neg a)) then inr (q, a, nab p q a)
    else if Rlt_dec 0 (vdot (nac p q a) (neg a)) then inr (p, a, nac p q a)
    else inl true
  else inl false.
(** first iteration: simplex [p] *)
Definition step0 (C : V3) (K : R) (p d : V3) : bool + V3 * V3 * V3 :=
  let a := sp C K d in
  if Rlt_dec 0 (vdot a d) then
    let n := trip (vsub p a) (neg a) (neg a) in
    if Req_EM_T (norm n) 0 then inl true else inr (p, a, n)
  else inl false.

Lemma norm_neg v : norm (neg v) = norm v.
Proof. unfold neg. rewrite norm_vscale. replace (-1) with (- (1)) by ring. rewrite Rabs_Ropp, Rabs_R1. ring. Qed.
Lemma neg_nz v : v <> vzero -> neg v <> vzero.
Proof. intros H C. apply H. pose proof (f_equal vx C). pose proof (f_equal vy C). pose proof (f_equal vz C). simpl in *. apply V3_eq; simpl; lra. Qed.
Lemma unit_neg v : unit (neg v) = neg (unit v).
Proof. unfold unit. rewrite norm_neg. apply V3_eq; simpl; ring. Qed.
Lemma dot_pos_nz u v : 0 < vdot u v -> u <> vzero.
Proof. intros H C. subst. unfold vdot in H. simpl in H. lra. Qed.

Section PGjk.
  Variable eps : R.
  Variable zs : XR -> bool.
  Notation E := (Exact eps zs).
  Notation ev := (ev eps zs).
  Variables (ca cb : V3) (ra rb ea eb : R).
  Notation A := (SSphere (esphere eps zs ca ra ea)).
  Notation B := (SSphere (esphere eps zs cb rb eb)).
  Notation C := (vsub ca cb).
  Notation K := (ra + rb).

  Lemma support_eval d : d <> vzero -> gjk_support A B (ev d) = Ok (Some (ev (sp C K d))).
  Proof.
    intro Hd. unfold gjk_support. cbn [shape_get_support]. rewrite sphere_support by exact Hd. cbn [bind].
    change (@minus1 E) with (Fin (-1) : E). rewrite ev_scale. cbn [unwrap bind]. fold (neg d).
    rewrite sphere_support by (apply neg_nz, Hd). cbn [bind]. rewrite ev_minus. cbn [unwrap bind]. do 3 f_equal.
    rewrite unit_neg. unfold sp. apply V3_eq; simpl; ring.
  Qed.
  Lemma start_eval : gjk_start A B = Ok ([ev (sp C K (V (-1) 0 0))], ev (V 1 0 0)).
  Proof.
    unfold gjk_start. cbn [shape_get_type bind]. change (M3x1 (A3 minus1 n0 n0 : arr3 E)) with (ev (V (-1) 0 0)).
    rewrite support_eval by (intro H; apply (f_equal vx) in H; simpl in H; lra). cbn [bind unwrap].
    change (@minus1 E) with (Fin (-1) : E). rewrite ev_scale. cbn [unwrap bind]. do 3 f_equal. apply V3_eq; simpl; ring.
  Qed.
  Definition lift (r : bool + V3 * V3 * V3) : option bool + list (mat3x1 E) * mat3x1 E :=
    match r with inl b => inl (Some b) | inr (p, q, d) => inr ([ev p; ev q], ev d) end.
  Lemma iter_two p q d : d <> vzero -> gjk_iter A B [ev p; ev q] (ev d) = Ok (lift (step C K p q d)).
  Proof.
    intro Hd. unfold gjk_iter. rewrite support_eval by exact Hd. cbn [bind unwrap app length Nat.leb assert]. unfold last_vert, pass_minkowski_origin. cbn [rev app bind].
    rewrite ev_dot. cbn [unwrap bind]. change (n0 : E) with (Fin 0 : E). rewrite ngt_fin. unfold step. set (a := sp C K d).
    destruct (Rlt_dec 0 (vdot a d)); cbn [negb]; [| reflexivity].
    unfold contains_minkowski_origin, last_vert. cbn [rev app bind length Nat.eqb idx nth_error]. change (@minus1 E) with (Fin (-1) : E). rewrite ev_scale.
    cbn [unwrap bind]. rewrite !ev_minus. cbn [unwrap bind]. rewrite !ev_cross. cbn [unwrap bind]. rewrite !ev_cross. cbn [unwrap bind].
    rewrite !ev_dot. cbn [unwrap bind]. change (n0 : E) with (Fin 0 : E). rewrite !ngt_fin. fold (neg a).
    change (vcross (vcross (vsub p a) (vsub q a)) (vsub q a)) with (nab p q a). change (vcross (vcross (vsub q a) (vsub p a)) (vsub p a)) with (nac p q a).
    destruct (Rlt_dec 0 (vdot (nab p q a) (neg a))); [reflexivity |]. destruct (Rlt_dec 0 (vdot (nac p q a) (neg a))); reflexivity.
  Qed.
  Lemma iter_one p d : d <> vzero -> gjk_iter A B [ev p] (ev d) = Ok (lift (step0 C K p d)).
  Proof.
    intro Hd. unfold gjk_iter. rewrite support_eval by exact Hd. cbn [bind unwrap app length Nat.leb assert]. unfold last_vert, pass_minkowski_origin. cbn [rev app bind].
    rewrite ev_dot. cbn [unwrap bind]. change (n0 : E) with (Fin 0 : E). rewrite ngt_fin. unfold step0. set (a := sp C K d).
    destruct (Rlt_dec 0 (vdot a d)); cbn [negb]; [| reflexivity].
    unfold contains_minkowski_origin, last_vert. cbn [rev app bind length Nat.eqb idx nth_error]. change (@minus1 E) with (Fin (-1) : E). rewrite ev_scale.
    cbn [unwrap bind]. rewrite ev_minus. cbn [unwrap bind]. rewrite !ev_cross. cbn [unwrap bind]. rewrite !ev_cross. cbn [unwrap bind].
    rewrite ev_magnitude. cbn [unwrap bind]. change (n0 : E) with (Fin 0 : E). rewrite neqb_fin. fold (neg a). unfold trip.
    destruct (Req_EM_T _ 0); reflexivity.
  Qed.
  Lemma step_nz p q d p' q' d' : step C K p q d = inr (p', q', d') -> d' <> vzero.
  Proof.
    unfold step. destruct (Rlt_dec _ _); [| discriminate]. destruct (Rlt_dec _ _) as [H | H].
    - intro Q. injection Q as <- <- <-. exact (dot_pos_nz _ _ H).
    - clear H. destruct (Rlt_dec _ _) as [H | H]; [| discriminate]. intro Q. injection Q as <- <- <-. exact (dot_pos_nz _ _ H).
  Qed.
  Lemma step0_nz p d p' q' d' : step0 C K p d = inr (p', q', d') -> d' <> vzero.
  Proof.
    unfold step0. destruct (Rlt_dec _ _); [| discriminate]. destruct (Req_EM_T _ 0) as [H | H]; [discriminate |].
    intro Q. injection Q as <- <- <-. intro Z. apply H. rewrite Z. apply norm_vzero.
  Qed.
  Lemma loop_two f p q d : d <> vzero -> gjk_loop (S f) A B [ev p; ev q] (ev d) =
    match step C K p q d with inl b => Done (Ok (Some b)) | inr (p', q', d') => gjk_loop f A B [ev p'; ev q'] (ev d') end.
  Proof.
    intro Hd. change (gjk_loop (S f) A B [ev p; ev q] (ev d)) with (match gjk_iter A B [ev p; ev q] (ev d) with
        | Panic k => Done (Panic k) | Ok (inl r) => Done (Ok r) | Ok (inr (s', d')) => gjk_loop f A B s' d' end).
    rewrite iter_two by exact Hd. destruct (step C K p q d) as [b | [[p' q'] d']]; reflexivity.
  Qed.
  Definition p0 : V3 := sp C K (V (-1) 0 0).
  Lemma query_eval f : query_intersect (S f) A B =
    match step0 C K p0 (V 1 0 0) with inl b => Done (Ok (Some b)) | inr (p', q', d') => gjk_loop f A B [ev p'; ev q'] (ev d') end.
  Proof.
    unfold query_intersect. rewrite start_eval.
    change (gjk_loop (S f) A B [ev (sp C K (V (-1) 0 0))] (ev (V 1 0 0))) with (match gjk_iter A B [ev p0] (ev (V 1 0 0)) with
        | Panic k => Done (Panic k) | Ok (inl r) => Done (Ok r) | Ok (inr (s', d')) => gjk_loop f A B s' d' end).
    rewrite iter_one by (intro H; apply (f_equal vx) in H; simpl in H; lra).
    destruct (step0 C K p0 (V 1 0 0)) as [b | [[p' q'] d']]; reflexivity.
  Qed.

  (** ---- C63: no panic ---- *)
  Lemma loop_total f : forall p q d, d <> vzero -> gjk_loop f A B [ev p; ev q] (ev d) = OutOfFuel \/
    exists b, gjk_loop f A B [ev p; ev q] (ev d) = Done (Ok (Some b)).
  Proof.
    induction f as [| f IH]; intros p q d Hd; [left; reflexivity |]. rewrite loop_two by exact Hd.
    destruct (step C K p q d) as [b | [[p' q'] d']] eqn:St; [right; exists b; reflexivity |]. apply IH. exact (step_nz _ _ _ _ _ _ St).
  Qed.
  Lemma query_total f : query_intersect f A B = OutOfFuel \/ exists b, query_intersect f A B = Done (Ok (Some b)).
  Proof.
    destruct f as [| f]; [left; unfold query_intersect; rewrite start_eval; reflexivity |]. rewrite query_eval.
    destruct (step0 C K p0 (V 1 0 0)) as [b | [[p' q'] d']] eqn:St; [right; exists b; reflexivity |]. apply loop_total. exact (step0_nz _ _ _ _ _ St).
  Qed.

  (** ---- C60: "false" ---- *)
  Lemma sep d : d <> vzero -> vdot (sp C K d) d <= 0 -> K <= norm C.
  Proof.
    intros Hd H. pose proof (norm_nz d Hd) as Hn. unfold sp in H. rewrite (vdot_comm _ d), vdot_add_r, vdot_scale_r in H.
    assert (Hu : vdot d (unit d) = norm d) by (rewrite (unit_scale d Hd) at 1; rewrite vdot_scale_l, (unit_dot d Hd); ring).
    rewrite Hu in H. pose proof (cauchy d C) as Hc. assert (- (norm d * norm C) <= vdot d C) by (apply Rabs_le_inv in Hc; lra). nra.
  Qed.
  Lemma loop_false f : forall p q d, d <> vzero -> gjk_loop f A B [ev p; ev q] (ev d) = Done (Ok (Some false)) -> K <= norm C.
  Proof.
    induction f as [| f IH]; intros p q d Hd; [discriminate |]. rewrite loop_two by exact Hd.
    destruct (step C K p q d) as [b | [[p' q'] d']] eqn:St.
    - intro Q. injection Q as ->. unfold step in St. destruct (Rlt_dec _ _) as [H | H].
      + repeat (destruct (Rlt_dec _ _) in St; try discriminate St).
      + apply (sep d Hd). lra.
    - apply IH. exact (step_nz _ _ _ _ _ _ St).
  Qed.
  Lemma query_false f : query_intersect f A B = Done (Ok (Some false)) -> K <= norm C.
  Proof.
    destruct f as [| f]; [unfold query_intersect; rewrite start_eval; discriminate |]. rewrite query_eval.
    destruct (step0 C K p0 (V 1 0 0)) as [b | [[p' q'] d']] eqn:St.
    - intro Q. injection Q as ->. unfold step0 in St. destruct (Rlt_dec _ _) as [H | H]; [destruct (Req_EM_T _ _) in St; discriminate St |].
      apply (sep (V 1 0 0)); [| lra]. intro Z; apply (f_equal vx) in Z; simpl in Z; lra.
    - apply loop_false. exact (step0_nz _ _ _ _ _ St).
  Qed.

  (** once answered, more fuel gives the same answer *)
  Lemma loop_mono f : forall p q d b, d <> vzero -> gjk_loop f A B [ev p; ev q] (ev d) = Done (Ok (Some b)) ->
    forall g, (f <= g)%nat -> gjk_loop g A B [ev p; ev q] (ev d) = Done (Ok (Some b)).
  Proof.
    induction f as [| f IH]; intros p q d b Hd Q; [discriminate Q |]. intros [| g] Hg; [lia |]. rewrite loop_two in * by exact Hd.
    destruct (step C K p q d) as [b' | [[p' q'] d']] eqn:St; [exact Q |]. apply (IH _ _ _ _ (step_nz _ _ _ _ _ _ St) Q). lia.
  Qed.
  Lemma query_mono f b : query_intersect f A B = Done (Ok (Some b)) -> forall g, (f <= g)%nat -> query_intersect g A B = Done (Ok (Some b)).
  Proof.
    destruct f as [| f]; [unfold query_intersect; rewrite start_eval; discriminate |]. intros Q [| g] Hg; [lia |]. rewrite query_eval in *.
    destruct (step0 C K p0 (V 1 0 0)) as [b' | [[p' q'] d']] eqn:St; [exact Q |]. apply (loop_mono f _ _ _ _ (step0_nz _ _ _ _ _ St) Q). lia.
  Qed.
End PGjk.
