(** PGeo3.v — prism queries against points and segments in exact arithmetic (C55-C58). *)
From Coq Require Import Reals List ZArith NArith Bool Lra Lia Psatz Classical.
Import ListNotations.
From Verif Require Import Base Num Vec Mat Bound Shape Intersect Exact SpecMat SpecGeom SpecBound SpecShape SpecInter
  ExactFacts FloatFacts Order PMat PBound PShape PInter PQuat2 PVec PGeo1 PGeo2.
Local Open Scope R_scope.

(** the five (vertex, outward normal) pairs *)
Definition ptests (a b c : V3) (h : R) : list (V3 * V3) :=
  let w := pnh a b c h in
  [(a, vscale (-1) w); (vadd a w, w); (a, vcross (vsub b a) w); (b, vcross (vsub c b) w); (c, vcross (vsub a c) w)].
Definition val (q : V3 * V3) (x : V3) : R := vdot (vsub x (fst q)) (snd q).
Definition inside (l : list (V3 * V3)) (x : V3) : bool := forallb (fun q => if Rlt_dec 0 (val q x) then false else true) l.
Lemma inside_iff l x : inside l x = true <-> forall q, In q l -> val q x <= 0.
Proof.
  unfold inside. rewrite forallb_forall. split; intros H q Hq; specialize (H q Hq); destruct (Rlt_dec 0 (val q x)); try lra; try discriminate; reflexivity.
Qed.
Lemma inside_false l x : inside l x = false <-> ~ inside l x = true.
Proof. destruct (inside l x); split; intro H; try reflexivity; try discriminate; [exfalso; apply H; reflexivity]. Qed.

(** coordinates of a point relative to the base triangle *)
Section Coords.
  Variables a b c : V3.
  Let e1 := vsub b a.
  Let e2 := vsub c a.
  Let N := vcross e1 e2.
  Definition ca (p : V3) : R := vdot (vcross (vsub p a) e2) N / vdot N N.
  Definition cb (p : V3) : R := vdot (vcross e1 (vsub p a)) N / vdot N N.
  Definition cg (p : V3) : R := vdot (vsub p a) N / norm N.
  Hypothesis ok : tri_ok a b c.
  Lemma N_pos : 0 < vdot N N.
  Proof. assert (H : 0 < norm N) by (apply norm_nz; exact ok). rewrite <- (norm_sq N). nra. Qed.
  Lemma N_norm : 0 < norm N. Proof. apply norm_nz. exact ok. Qed.
  Lemma coords p : p = vadd (vadd a (vadd (vscale (ca p) e1) (vscale (cb p) e2))) (vscale (cg p) (tri_normal a b c)).
  Proof.
    pose proof N_pos as HN. pose proof N_norm as Hn.
    assert (D : forall q, vscale (vdot N N) q = vadd (vadd (vscale (vdot (vcross q e2) N) e1) (vscale (vdot (vcross e1 q) N) e2)) (vscale (vdot q N) N)).
    { intro q. unfold N. apply V3_eq; unfold vdot, vcross, vadd, vscale; simpl; ring. }
    specialize (D (vsub p a)). pose proof (f_equal vx D) as D1. pose proof (f_equal vy D) as D2. pose proof (f_equal vz D) as D3.
    unfold tri_normal. fold e1 e2 N. unfold ca, cb, cg.
    assert (G : vdot (vsub p a) N / norm N * / norm N = vdot (vsub p a) N / vdot N N) by (rewrite <- (norm_sq N); field; lra).
    assert (Cmp : forall K x y z u v w g d, 0 < K -> g = z / K -> K * d = x * u + y * v + z * w -> d = x / K * u + y / K * v + g * w).
    { clear. intros K x y z u v w g d HK -> H. apply (Rmult_eq_reg_l K); [| lra]. rewrite H. field. lra. }
    cbn [vadd vscale vx vy vz] in D1, D2, D3.
    apply (Cmp _ _ _ _ _ _ _ _ _ HN G) in D1. apply (Cmp _ _ _ _ _ _ _ _ _ HN G) in D2. apply (Cmp _ _ _ _ _ _ _ _ _ HN G) in D3.
    apply V3_eq; cbn [vadd vscale vx vy vz]; rewrite <- Rmult_assoc; [rewrite Rplus_assoc, <- D1 | rewrite Rplus_assoc, <- D2 | rewrite Rplus_assoc, <- D3];
      unfold vsub; cbn [vx vy vz]; ring.
  Qed.
  Lemma coords_inv s t g p : p = vadd (vadd a (vadd (vscale s e1) (vscale t e2))) (vscale g (tri_normal a b c)) -> ca p = s /\ cb p = t /\ cg p = g.
  Proof.
    intros ->. pose proof N_pos as HN. pose proof N_norm as Hn. unfold tri_normal. fold e1 e2 N. unfold ca, cb, cg. set (m := / norm N).
    assert (Hq : vsub (vadd (vadd a (vadd (vscale s e1) (vscale t e2))) (vscale g (vscale m N))) a = vadd (vadd (vscale s e1) (vscale t e2)) (vscale (g * m) N))
      by (apply V3_eq; simpl; ring).
    rewrite Hq. set (k := g * m). repeat split.
    - replace (vdot (vcross (vadd (vadd (vscale s e1) (vscale t e2)) (vscale k N)) e2) N) with (s * vdot N N); [field; lra |].
      unfold N. unfold vdot, vcross, vadd, vscale. simpl. ring.
    - replace (vdot (vcross e1 (vadd (vadd (vscale s e1) (vscale t e2)) (vscale k N))) N) with (t * vdot N N); [field; lra |].
      unfold N. unfold vdot, vcross, vadd, vscale. simpl. ring.
    - replace (vdot (vadd (vadd (vscale s e1) (vscale t e2)) (vscale k N)) N) with (k * vdot N N).
      + rewrite <- (norm_sq N). unfold k, m. field. lra.
      + unfold N. unfold vdot, vcross, vadd, vscale. simpl. ring.
  Qed.
  (** the five test values *)
  Lemma test_vals h p : map (fun q => val q p) (ptests a b c h) =
    [- h * cg p; h * (cg p - h); - h * cb p * norm N; h * (ca p + cb p - 1) * norm N; - h * ca p * norm N].
  Proof.
    pose proof N_pos as HN. pose proof N_norm as Hn.
    assert (V0 : forall k, vdot (vsub p a) (vscale k (tri_normal a b c)) = k * cg p).
    { intro k. rewrite vdot_scale_r. unfold cg, tri_normal. fold e1 e2 N. rewrite vdot_scale_r. field. lra. }
    assert (V1 : vdot (tri_normal a b c) (tri_normal a b c) = 1) by (apply (unit_dot N ok)).
    assert (M : norm N = vdot N N * / norm N) by (rewrite <- (norm_sq N); field; lra).
    unfold ptests, val. cbn [map fst snd]. unfold pnh. repeat apply f_equal2; [| | | | | reflexivity].
    - replace (vscale (-1) (vscale h (tri_normal a b c))) with (vscale (- h) (tri_normal a b c)) by (apply V3_eq; simpl; ring). rewrite V0. ring.
    - replace (vsub p (vadd a (vscale h (tri_normal a b c)))) with (vsub (vsub p a) (vscale h (tri_normal a b c))) by (apply V3_eq; simpl; ring).
      replace (vdot (vsub (vsub p a) (vscale h (tri_normal a b c))) (vscale h (tri_normal a b c)))
        with (vdot (vsub p a) (vscale h (tri_normal a b c)) - h * h * vdot (tri_normal a b c) (tri_normal a b c))
        by (unfold vdot, vsub, vscale; simpl; ring).
      rewrite V0, V1. ring.
    - rewrite M. unfold cb, tri_normal. fold e1 e2 N. set (m := / norm N).
      replace (- h * (vdot (vcross e1 (vsub p a)) N / vdot N N) * (vdot N N * m)) with (- h * m * vdot (vcross e1 (vsub p a)) N) by (field; lra).
      unfold vdot, vcross, vscale, e1. simpl. ring.
    - rewrite M. unfold ca, cb, tri_normal. fold e1 e2 N. set (m := / norm N).
      replace (h * (vdot (vcross (vsub p a) e2) N / vdot N N + vdot (vcross e1 (vsub p a)) N / vdot N N - 1) * (vdot N N * m))
        with (h * m * (vdot (vcross (vsub p a) e2) N + vdot (vcross e1 (vsub p a)) N - vdot N N)) by (field; lra).
      unfold N at 3. unfold vdot, vcross, vscale, vsub, e1, e2. simpl. ring.
    - rewrite M. unfold ca, tri_normal. fold e1 e2 N. set (m := / norm N).
      replace (- h * (vdot (vcross (vsub p a) e2) N / vdot N N) * (vdot N N * m)) with (- h * m * vdot (vcross (vsub p a) e2) N) by (field; lra).
      unfold vdot, vcross, vscale, vsub, e2. simpl. ring.
  Qed.
  Lemma inside_vals h p : inside (ptests a b c h) p = true <->
    (- h * cg p <= 0 /\ h * (cg p - h) <= 0 /\ - h * cb p * norm N <= 0 /\ h * (ca p + cb p - 1) * norm N <= 0 /\ - h * ca p * norm N <= 0).
  Proof.
    rewrite inside_iff. rewrite <- (Forall_forall (fun q => val q p <= 0)), <- (Forall_map (fun q => val q p) (fun x => x <= 0)), test_vals. split.
    - intro H. repeat match goal with H : Forall _ (_ :: _) |- _ => inversion H; subst; clear H end. tauto.
    - intros [H1 [H2 [H3 [H4 H5]]]]. repeat (apply Forall_cons; [assumption |]). apply Forall_nil.
  Qed.
  Lemma prism_coords h p : 0 < h -> (s_prism a b c h p <-> (0 <= ca p /\ 0 <= cb p /\ ca p + cb p <= 1 /\ 0 <= cg p <= h)).
  Proof.
    intro Hh. split.
    - intros [y [k [[s [t [Hs [Ht [Hst Hy]]]]] [Hk Hp]]]]. subst y. apply coords_inv in Hp. destruct Hp as [-> [-> ->]]. repeat split; try assumption; nra.
    - intros [H1 [H2 [H3 H4]]]. exists (vadd a (vadd (vscale (ca p) e1) (vscale (cb p) e2))), (cg p / h). split; [| split].
      + exists (ca p), (cb p). repeat split; assumption.
      + split; [apply Rmult_le_pos; [lra | left; apply Rinv_0_lt_compat, Hh] |]. apply (Rmult_le_reg_r h); [exact Hh |].
        unfold Rdiv. rewrite Rmult_assoc, Rinv_l by lra. lra.
      + replace (cg p / h * h) with (cg p) by (field; lra). apply coords.
  Qed.
  Lemma inside_prism h p : 0 < h -> (inside (ptests a b c h) p = true <-> s_prism a b c h p).
  Proof.
    intro Hh. rewrite inside_vals, (prism_coords h p Hh). pose proof N_norm as Hn. pose proof (Rmult_lt_0_compat _ _ Hh Hn) as Hhn.
    set (x := ca p). set (y := cb p). set (g := cg p). split.
    - intros [H1 [H2 [H3 [H4 H5]]]]. repeat split; apply Rnot_lt_le; intro C.
      + assert (0 < (- x) * (h * norm N)) by (apply Rmult_lt_0_compat; lra). lra.
      + assert (0 < (- y) * (h * norm N)) by (apply Rmult_lt_0_compat; lra). lra.
      + assert (0 < (x + y - 1) * (h * norm N)) by (apply Rmult_lt_0_compat; lra). lra.
      + nra.
      + nra.
    - intros [H1 [H2 [H3 H4]]]. split; [nra | split; [nra | split; [| split]]].
      + assert (0 <= y * (h * norm N)) by (apply Rmult_le_pos; lra). lra.
      + assert (0 <= (1 - x - y) * (h * norm N)) by (apply Rmult_le_pos; lra). lra.
      + assert (0 <= x * (h * norm N)) by (apply Rmult_le_pos; lra). lra.
  Qed.
  Lemma inside_negative h p : h < 0 -> inside (ptests a b c h) p = false.
  Proof.
    intro Hh. apply inside_false. rewrite inside_vals. intros [_ [_ [H3 [H4 H5]]]]. pose proof N_norm as Hn.
    assert (Hhn : 0 < - h * norm N) by (apply Rmult_lt_0_compat; lra). set (x := ca p) in *. set (y := cb p) in *.
    assert (x <= 0) by (apply Rnot_lt_le; intro; assert (0 < x * (- h * norm N)) by (apply Rmult_lt_0_compat; lra); lra).
    assert (y <= 0) by (apply Rnot_lt_le; intro; assert (0 < y * (- h * norm N)) by (apply Rmult_lt_0_compat; lra); lra).
    assert (0 < (1 - x - y) * (- h * norm N)) by (apply Rmult_lt_0_compat; lra). lra.
  Qed.
  Lemma inside_flat p : inside (ptests a b c 0) p = true.
  Proof. apply inside_vals. lra. Qed.
  Lemma edge_nz (u v : V3) : vdot u u * vdot v v - vdot u v * vdot u v <> 0 -> vcross u v <> vzero.
  Proof. intros H C. apply H. rewrite <- vcross_lagrange, C, norm_vzero. ring. Qed.
  Lemma nonzero_sq (u : V3) : u <> vzero -> 0 < vdot u u.
  Proof. intro H. pose proof (norm_nz u H). rewrite <- (norm_sq u). nra. Qed.
  Lemma normals_nz h q : h <> 0 -> In q (ptests a b c h) -> snd q <> vzero.
  Proof.
    intros Hh Hq. set (w := pnh a b c h).
    assert (Hw : w <> vzero).
    { intro C. assert (Z : vdot w w = 0) by (rewrite C; unfold vdot; simpl; ring). unfold w, pnh in Z.
      rewrite vdot_scale_l, vdot_scale_r in Z. rewrite (unit_dot N ok : vdot (tri_normal a b c) (tri_normal a b c) = 1) in Z. nra. }
    assert (P1 : vdot e1 w = 0) by (unfold w, pnh, tri_normal; fold e1 e2 N; unfold N; unfold vdot, vscale, vcross; simpl; ring).
    assert (P2 : vdot e2 w = 0) by (unfold w, pnh, tri_normal; fold e1 e2 N; unfold N; unfold vdot, vscale, vcross; simpl; ring).
    pose proof (nonzero_sq w Hw) as Hww.
    assert (EZ : forall u, u <> vzero -> vdot u w = 0 -> vcross u w <> vzero).
    { intros u Hu Pu. apply edge_nz. pose proof (nonzero_sq u Hu). rewrite Pu. nra. }
    assert (E1 : e1 <> vzero) by (intro C; apply ok; fold e1 e2; rewrite C; apply V3_eq; unfold vcross; simpl; ring).
    assert (E2 : e2 <> vzero) by (intro C; apply ok; fold e1 e2; rewrite C; apply V3_eq; unfold vcross; simpl; ring).
    unfold ptests in Hq. fold w in Hq. cbn [In] in Hq. destruct Hq as [<- | [<- | [<- | [<- | [<- | []]]]]]; cbn [snd].
    - intro C. apply Hw. injection C as C1 C2 C3. apply V3_eq; simpl; lra.
    - exact Hw.
    - apply EZ; assumption.
    - apply EZ.
      + intro C. apply ok. fold e1 e2. assert (E : e2 = e1) by (injection C as C1 C2 C3; apply V3_eq; unfold e1, e2; simpl; lra).
        rewrite E. apply V3_eq; unfold vcross; simpl; ring.
      + replace (vsub c b) with (vsub e2 e1) by (apply V3_eq; simpl; ring). rewrite vdot_comm, vdot_sub_r, (vdot_comm w e1), (vdot_comm w e2). lra.
    - apply EZ.
      + intro C. apply E2. injection C as C1 C2 C3. apply V3_eq; unfold e2; simpl; lra.
      + replace (vsub a c) with (vscale (-1) e2) by (apply V3_eq; unfold e2; simpl; ring). rewrite vdot_scale_l. lra.
  Qed.
End Coords.

(** ---- entering a convex set along a segment ---- *)
Lemma val_line q A D t : val q (vadd A (vscale t D)) = val q A + t * vdot D (snd q).
Proof. unfold val, vdot, vsub, vadd, vscale. simpl. ring. Qed.
Lemma entering l A D t0 : 0 <= t0 -> (forall q, In q l -> val q (vadd A (vscale t0 D)) <= 0) ->
  (forall q, In q l -> val q A <= 0) \/
  exists t q, 0 <= t <= t0 /\ In q l /\ vdot D (snd q) < 0 /\ val q (vadd A (vscale t D)) = 0 /\
    forall q', In q' l -> val q' (vadd A (vscale t D)) <= 0.
Proof.
  intros Ht0. induction l as [| q l IH]; intro H.
  - left. intros q [].
  - assert (Hq : val q (vadd A (vscale t0 D)) <= 0) by (apply H; left; reflexivity).
    assert (Hl : forall q', In q' l -> val q' (vadd A (vscale t0 D)) <= 0) by (intros q' Hq'; apply H; right; exact Hq').
    rewrite val_line in Hq. specialize (IH Hl).
    assert (Mid : forall s t x, val x (vadd A (vscale s D)) <= 0 -> val x (vadd A (vscale t0 D)) <= 0 -> s <= t <= t0 -> val x (vadd A (vscale t D)) <= 0).
    { intros s t x. rewrite !val_line. intros H1 H2 H3. destruct (Rle_dec 0 (vdot D (snd x))); nra. }
    assert (Zero : vadd A (vscale 0 D) = A) by (apply V3_eq; simpl; ring).
    assert (Step : forall s, 0 <= s <= t0 -> (forall q', In q' l -> val q' (vadd A (vscale s D)) <= 0) -> 0 < val q (vadd A (vscale s D)) ->
      exists t q1, 0 <= t <= t0 /\ In q1 (q :: l) /\ vdot D (snd q1) < 0 /\ val q1 (vadd A (vscale t D)) = 0 /\
      forall q', In q' (q :: l) -> val q' (vadd A (vscale t D)) <= 0).
    { intros s Hs Hsl Hsq. rewrite val_line in Hsq. set (m := vdot D (snd q)) in *. set (v := val q A) in *.
      assert (Hm : m < 0) by nra. set (t := - v / m). assert (Htm : v + t * m = 0) by (unfold t; field; lra).
      assert (Hst : s <= t <= t0) by nra. exists t, q. repeat split; try lra.
      - left. reflexivity.
      - exact Hm.
      - rewrite val_line. exact Htm.
      - intros q' [<- | Hq']; [rewrite val_line; fold m v; lra |]. apply (Mid s); [apply Hsl, Hq' | apply Hl, Hq' | exact Hst]. }
    destruct IH as [IH | [t [q1 [Ht [Hin [Hs [Hz Hall]]]]]]].
    + destruct (Rle_dec (val q A) 0) as [L | L].
      * left. intros q' [<- | Hq']; [exact L | apply IH, Hq'].
      * right. apply (Step 0); rewrite ?Zero; [lra | exact IH | lra].
    + right. destruct (Rle_dec (val q (vadd A (vscale t D))) 0) as [L | L].
      * exists t, q1. split; [lra | split; [right; exact Hin | split; [exact Hs | split; [exact Hz |]]]]. intros q' [<- | Hq']; [exact L | apply Hall, Hq'].
      * apply (Step t); [exact Ht | exact Hall | lra].
Qed.

Section PGeo3.
  Variable eps : R.
  Variable zs : XR -> bool.
  Notation E := (Exact eps zs).
  Notation ev := (ev eps zs).
  Notation O := (exact_ordered eps zs).
  Notation holds := (holds eps zs).
  Notation eprism := (eprism eps zs).
  Notation eline := (eline eps zs).
  Notation eray := (eray eps zs).

  Definition et (l : list (V3 * V3)) : list (mat3x1 E * mat3x1 E) := map (fun q => (ev (fst q), ev (snd q))) l.
  Lemma side_eval u v w : side_normal (ev u) (ev v) (ev w) = Ok (ev (vcross (vsub v u) w)).
  Proof. unfold side_normal. rewrite ev_minus. cbn [unwrap bind]. rewrite ev_cross. reflexivity. Qed.
  Lemma tests_eval a b c h e : triprism_tests (eprism a b c h e) = Ok (et (ptests a b c h)).
  Proof.
    unfold triprism_tests. cbn [PShape.eprism tp_nh tp_base tp_base2]. change (nlit E (-1) 1) with (Fin (-1) : E).
    rewrite ev_scale. cbn [unwrap bind]. rewrite !side_eval. reflexivity.
  Qed.
  Lemma inside_eval l x : all_inside (et l) (ev x) = Ok (inside l x).
  Proof.
    induction l as [| q l IH]; [reflexivity |]. unfold all_inside in *. cbn [et map iter_all fst snd inside forallb].
    rewrite ev_minus. cbn [unwrap bind]. rewrite ev_dot. cbn [unwrap bind]. change (n0 : E) with (Fin 0 : E). rewrite ngt_fin.
    fold (val q x). destruct (Rlt_dec 0 (val q x)); [reflexivity | exact IH].
  Qed.

  (** ---- prism - point ---- *)
  Lemma hull_nonan p l : nonan (hull eps zs p l).
  Proof. apply fbox_nonan. Qed.
  Lemma prism_point_eval a b c h e p f : overlap (SPrism (eprism a b c h e)) (SPoint (epoint eps zs p f)) = true ->
    shape_get_intersect (SPrism (eprism a b c h e)) (SPoint (epoint eps zs p f)) =
    Ok (if inside (ptests a b c h) p then (true, Some (ev p)) else (false, None)).
  Proof.
    intro Eo. rewrite core_of by exact Eo. cbn [core]. unfold triprism_point. cbn [shape_get_shape_data epoint pt_ori].
    rewrite <- (app_nil_r (vec_data (ev p))), vec_at_data. cbn [bind]. rewrite tests_eval. cbn [bind]. rewrite inside_eval. reflexivity.
  Qed.
  Lemma prism_point_iff a b c h e p f s q : tri_ok a b c -> 0 < h -> is_prism eps zs a b c h e s -> is_point eps zs p f q ->
    (s_prism a b c h p -> shape_get_intersect s q = Ok (true, Some (ev p))) /\
    (~ s_prism a b c h p -> shape_get_intersect s q = Ok (false, None)).
  Proof.
    intros Hok Hh Hs Hq. pose proof Hs as Hs'. apply (is_prism_inv eps zs a b c h e s Hok) in Hs. rewrite is_point_inv in Hq. subst. split.
    - intro Hp. destruct (bound_prism eps zs a b c h e _ p Hok Hs' Hp) as [B [HB HBp]]. injection HB as <-.
      rewrite prism_point_eval.
      + apply (inside_prism a b c Hok h p Hh) in Hp. rewrite Hp. reflexivity.
      + eapply overlap_with_point; [reflexivity | apply hull_nonan | exact HBp].
    - intro Hp. destruct (overlap (SPrism (eprism a b c h e)) (SPoint (epoint eps zs p f))) eqn:Eo; [| apply miss_of, Eo].
      rewrite prism_point_eval by exact Eo. rewrite <- (inside_prism a b c Hok h p Hh) in Hp. apply inside_false in Hp. rewrite Hp. reflexivity.
  Qed.
  Lemma prism_point_negative a b c h e p f s q : tri_ok a b c -> h < 0 -> is_prism eps zs a b c h e s -> is_point eps zs p f q ->
    shape_get_intersect s q = Ok (false, None).
  Proof.
    intros Hok Hh Hs Hq. apply (is_prism_inv eps zs a b c h e s Hok) in Hs. rewrite is_point_inv in Hq. subst.
    destruct (overlap (SPrism (eprism a b c h e)) (SPoint (epoint eps zs p f))) eqn:Eo; [| apply miss_of, Eo].
    rewrite prism_point_eval by exact Eo. rewrite (inside_negative a b c Hok h p Hh). reflexivity.
  Qed.
  (** a flat prism reports every point of its bounding box *)
  Lemma prism_point_flat a b c e p f s q : tri_ok a b c -> is_prism eps zs a b c 0 e s -> is_point eps zs p f q ->
    exists B, shape_get_bound s = BBox B /\ (holds B p -> shape_get_intersect s q = Ok (true, Some (ev p))) /\
      (~ holds B p -> shape_get_intersect s q = Ok (false, None)).
  Proof.
    intros Hok Hs Hq. apply (is_prism_inv eps zs a b c 0 e s Hok) in Hs. rewrite is_point_inv in Hq. subst.
    eexists. split; [reflexivity |]. 
    assert (Ho := overlap_with_point eps zs (SPrism (eprism a b c 0 e)) _ p f eq_refl (hull_nonan a _)).
    split; intro Hp.
    - apply Ho in Hp. rewrite prism_point_eval by exact Hp. rewrite (inside_flat a b c Hok). reflexivity.
    - apply miss_of. destruct (overlap _ _) eqn:Eo; [| reflexivity]. exfalso. apply Hp, Ho. reflexivity.
  Qed.
  Lemma prism_negative_refuted : ~ (forall a b c h e p f s q, tri_ok a b c -> h < 0 -> is_prism eps zs a b c h e s -> is_point eps zs p f q ->
    s_prism a b c h p -> exists l, shape_get_intersect s q = Ok (true, Some l)).
  Proof.
    intro H. set (a := V 0 0 0). set (b := V 1 0 0). set (c := V 0 1 0).
    assert (Hok : tri_ok a b c) by (unfold tri_ok; intro C; injection C; unfold a, b, c; simpl; lra).
    assert (Hs : is_prism eps zs a b c (-1) 0 (SPrism (eprism a b c (-1) 0))) by (apply is_prism_inv; [exact Hok | reflexivity]).
    assert (Hq : is_point eps zs a 0 (SPoint (epoint eps zs a 0))) by (apply is_point_inv; reflexivity).
    destruct (H a b c (-1) 0 a 0 _ _ Hok ltac:(lra) Hs Hq) as [l Hl].
    - exists a, 0. split; [| split; [lra |]].
      + exists 0, 0. repeat split; try lra; apply V3_eq; simpl; ring.
      + apply V3_eq; simpl; ring.
    - rewrite (prism_point_negative a b c (-1) 0 a 0 _ _ Hok ltac:(lra) Hs Hq) in Hl. discriminate Hl.
  Qed.

  (** ---- prism - segment ---- *)
  Section Seg.
    Variables A B : V3.
    Let D := vsub B A.
    Variable tests : list (V3 * V3).
    Definition body (i : plane E) : res (ctl (option (mat3x1 E))) :=
      let! res := ray_get_intersect (eray A D vic6) (SPlane i) in
      if fst res then
        let! collide_point := unwrap (snd res) in
        let! df := unwrap (mat3x1_minus collide_point (ev A)) in
        let! mag2 := unwrap (mat3x1_magnitude df) in
        let! is_point_inside := all_inside (et tests) collide_point in
        if (negb is_point_inside || ngt mag2 (Fin (norm D) : E))%bool then Ok Next
        else Ok (Ret (snd res))
      else Ok Next.
    Definition hitc (q : V3 * V3) (x : V3) : Prop :=
      vdot (snd q) D < 0 /\ s_ray A D x /\ s_plane (fst q) (snd q) x /\ inside tests x = true /\ dist x A <= norm D.
    Hypothesis HD : D <> vzero.
    Hypothesis Hout : inside tests A = false.
    Lemma body_spec q : snd q <> vzero ->
      (body (eplane eps zs (fst q) (snd q) vic6) = Ok Next /\ ~ exists x, hitc q x) \/
      exists x, hitc q x /\ body (eplane eps zs (fst q) (snd q) vic6) = Ok (Ret (Some (ev x))).
    Proof.
      intro Hn. destruct q as [v n]. cbn [fst snd] in *. set (P := eplane eps zs v n vic6). unfold body.
      change (ray_get_intersect (eray A D vic6) (SPlane P)) with (shape_get_intersect (SRay (eray A D vic6)) (SPlane P)).
      assert (HR : is_ray eps zs A D vic6 (SRay (eray A D vic6))) by (apply is_ray_inv; [exact HD | reflexivity]).
      assert (HP : is_plane eps zs v n vic6 (SPlane P)) by (apply is_plane_inv; [exact Hn | reflexivity]).
      assert (Hbody : forall x, (let! collide_point := unwrap (Some (ev x)) in
        let! df := unwrap (mat3x1_minus collide_point (ev A)) in
        let! mag2 := unwrap (mat3x1_magnitude df) in
        let! is_point_inside := all_inside (et tests) collide_point in
        if (negb is_point_inside || ngt mag2 (Fin (norm D) : E))%bool then Ok Next
        else Ok (Ret (Some (ev x)))) = if (negb (inside tests x) || (if Rlt_dec (norm D) (dist x A) then true else false))%bool then Ok Next else Ok (Ret (Some (ev x)))).
      { intro x. cbn [unwrap bind]. rewrite ev_minus. cbn [unwrap bind]. rewrite ev_magnitude. cbn [unwrap bind]. rewrite inside_eval. cbn [bind].
        rewrite ngt_fin. reflexivity. }
      destruct (Rtotal_order (vdot n D) 0) as [L | [Z | G]].
      - destruct (ray_plane_front eps zs A D vic6 v n vic6 _ _ HD Hn HR HP L) as [F1 F2].
        destruct (classic (meets (s_ray A D) (s_plane v n))) as [[x [X1 X2]] | Nm].
        + rewrite (proj1 (F1 x) (conj X1 X2)). cbn [bind fst snd]. rewrite Hbody.
          destruct (inside tests x) eqn:Ein; [destruct (Rlt_dec (norm D) (dist x A)) as [Far | Near] |]; cbn [negb orb].
          * left. split; [reflexivity |]. intros [y [_ [Y1 [Y2 [_ Y3]]]]]. cbn [fst snd] in *.
            assert (Eq : Ok (true, Some (ev y)) = Ok (true, Some (ev x))) by (rewrite <- (proj1 (F1 y) (conj Y1 Y2)); apply F1; split; assumption).
            injection Eq as E1 E2 E3. assert (y = x) by (apply V3_eq; assumption). subst y. lra.
          * right. exists x. split; [| reflexivity]. unfold hitc. cbn [fst snd]. repeat split; try assumption. lra.
          * left. split; [reflexivity |]. intros [y [_ [Y1 [Y2 [Y3 _]]]]]. cbn [fst snd] in *.
            assert (Eq : Ok (true, Some (ev y)) = Ok (true, Some (ev x))) by (rewrite <- (proj1 (F1 y) (conj Y1 Y2)); apply F1; split; assumption).
            injection Eq as E1 E2 E3. assert (y = x) by (apply V3_eq; assumption). subst y. congruence.
        + rewrite (F2 Nm). cbn [bind fst snd]. left. split; [reflexivity |]. intros [y [_ [Y1 [Y2 _]]]]. apply Nm. exists y. split; assumption.
      - left. split; [| intros [y [Y _]]; cbn [fst snd] in Y; lra].
        destruct (ray_plane_inside eps zs A D vic6 v n vic6 _ _ HD Hn HR HP Z) as [F1 F2].
        destruct (classic (s_plane v n A)) as [Pa | Pa]; [rewrite (F1 Pa) | rewrite (F2 Pa); reflexivity].
        cbn [bind fst snd]. rewrite Hbody, Hout. reflexivity.
      - left. split; [| intros [y [Y _]]; cbn [fst snd] in Y; lra].
        rewrite (ray_plane_back eps zs A D vic6 v n vic6 _ _ HD Hn HR HP G). reflexivity.
    Qed.
    Lemma loop_spec l : (forall q, In q l -> snd q <> vzero) ->
      (for_ret (map (fun q => eplane eps zs (fst q) (snd q) vic6) l) body = Ok None /\ ~ exists q x, In q l /\ hitc q x) \/
      exists q x, In q l /\ hitc q x /\ for_ret (map (fun q => eplane eps zs (fst q) (snd q) vic6) l) body = Ok (Some (Some (ev x))).
    Proof.
      induction l as [| q l IH]; intro Hl.
      - left. split; [reflexivity |]. intros [q [x [[] _]]].
      - cbn [map for_ret]. destruct (body_spec q (Hl q (or_introl eq_refl))) as [[-> Hno] | [x [Hx ->]]]; cbn [bind].
        + destruct (IH (fun q' Hq' => Hl q' (or_intror Hq'))) as [[-> Hno'] | [q' [x [Hq' [Hx ->]]]]].
          * left. split; [reflexivity |]. intros [q' [x [[<- | Hq'] Hx]]]; [apply Hno; exists x; exact Hx | apply Hno'; exists q', x; split; assumption].
          * right. exists q', x. split; [right; exact Hq' | split; [exact Hx | reflexivity]].
        + right. exists q, x. split; [left; reflexivity | split; [exact Hx | reflexivity]].
    Qed.
    (** an accepted point is the first shared one *)
    Lemma seg_param t : dist A (vadd A (vscale t D)) = Rabs t * norm D.
    Proof.
      unfold dist. replace (vsub A (vadd A (vscale t D))) with (vscale (- t) D) by (apply V3_eq; simpl; ring).
      rewrite norm_vscale, Rabs_Ropp. reflexivity.
    Qed.
    Lemma hitc_first q x : In q tests -> hitc q x -> s_segment A B x /\
      forall y, s_segment A B y -> inside tests y = true -> dist A x <= dist A y.
    Proof.
      intros Hq [Hs [[t [Ht Hx]] [Hp [Hin Hd]]]]. pose proof (norm_nz D HD) as HDn.
      rewrite dist_sym, Hx, seg_param, Rabs_pos_eq in Hd by exact Ht.
      assert (Ht1 : t <= 1) by nra. split; [exists t; split; [lra | exact Hx] |].
      intros y [s [Hs1 Hy]] Hyin. fold D in Hy. rewrite Hx, Hy, !seg_param, !Rabs_pos_eq by lra.
      apply Rmult_le_compat_r; [lra |]. rewrite inside_iff in Hyin. specialize (Hyin q Hq). rewrite Hy, val_line in Hyin.
      assert (Hv : val q A + t * vdot D (snd q) = 0) by (rewrite <- val_line, <- Hx; unfold s_plane in Hp; unfold val; rewrite vdot_comm; exact Hp).
      rewrite vdot_comm in Hs. nra.
    Qed.
    Lemma hitc_exists : (exists y, s_segment A B y /\ inside tests y = true) -> exists q x, In q tests /\ hitc q x.
    Proof.
      intros [y [[t0 [Ht0 Hy]] Hin]]. fold D in Hy. pose proof (norm_nz D HD) as HDn.
      destruct (entering tests A D t0) as [C | [t [q [Ht [Hq [Hs [Hz Hall]]]]]]].
      - lra.
      - rewrite inside_iff in Hin. intros q Hq. rewrite <- Hy. apply Hin, Hq.
      - exfalso. apply inside_iff in C. congruence.
      - exists q, (vadd A (vscale t D)). split; [exact Hq |]. unfold hitc. split; [rewrite vdot_comm; exact Hs |]. split; [exists t; split; [lra | reflexivity] |].
        split; [unfold s_plane; rewrite vdot_comm; exact Hz |]. split; [apply inside_iff, Hall |].
        rewrite dist_sym, seg_param, Rabs_pos_eq by lra. nra.
    Qed.
  End Seg.

  Lemma plane_of_eval o n : n <> vzero -> plane_of (ev o) (ev n) = Ok (eplane eps zs o n vic6).
  Proof. intro H. exact (plane_eval eps zs o n H). Qed.
  Lemma line_core a b c h e A B f : tri_ok a b c -> h <> 0 -> A <> B -> let tests := ptests a b c h in
    core (SPrism (eprism a b c h e)) (SLine (eline A B f)) =
    if inside tests A then Ok (true, Some (ev A)) else if inside tests B then Ok (true, Some (ev B))
    else let! found := for_ret (map (fun q => eplane eps zs (fst q) (snd q) vic6) tests) (body A B tests) in
      match found with Some p => Ok (true, p) | None => Ok miss end.
  Proof.
    intros Hok Hh HAB tests. cbn [core]. unfold triprism_line. cbn [shape_get_shape_data PShape.eline ln_a ln_b].
    rewrite vec_at_data. rewrite <- (app_nil_r (vec_data (ev B))), vec_at_data3. cbn [bind]. rewrite tests_eval. cbn [bind].
    fold tests. rewrite !inside_eval. cbn [bind]. destruct (inside tests A); [reflexivity |]. destruct (inside tests B); [reflexivity |].
    rewrite ev_minus. cbn [unwrap bind]. rewrite ev_magnitude. cbn [unwrap bind].
    assert (HD : vsub B A <> vzero) by (intro C; apply HAB; injection C as C1 C2 C3; apply V3_eq; lra).
    change (ray_init (vec_data (ev A)) (vec_data (ev (vsub B A)))) with (ray_init (vl eps zs A) (vl eps zs (vsub B A))). rewrite ray_eval by exact HD.
    cbn [bind PShape.eprism tp_nh tp_base tp_base2]. change (nlit E (-1) 1) with (Fin (-1) : E). rewrite ev_scale. cbn [unwrap bind].
    rewrite !side_eval. cbn [bind].
    pose proof (normals_nz a b c Hok h) as Hnz. unfold ptests in Hnz. cbv zeta in Hnz.
    rewrite !plane_of_eval; try (eapply (Hnz (_, _) Hh); cbn [In]; eauto 8; fail).
    cbn [bind]. reflexivity.
  Qed.
  Lemma prism_segment a b c h e A B f s l : tri_ok a b c -> 0 < h -> A <> B -> is_prism eps zs a b c h e s -> is_line eps zs A B f l ->
    (meets (s_prism a b c h) (s_segment A B) -> exists x, shape_get_intersect s l = Ok (true, Some (ev x)) /\ s_prism a b c h x /\ s_segment A B x /\
       (~ s_prism a b c h A -> ~ s_prism a b c h B -> forall y, s_prism a b c h y -> s_segment A B y -> dist A x <= dist A y)) /\
    (~ meets (s_prism a b c h) (s_segment A B) -> shape_get_intersect s l = Ok (false, None)).
  Proof.
    intros Hok Hh HAB Hs Hl. pose proof Hs as Hs'. pose proof Hl as Hl'. apply (is_prism_inv eps zs a b c h e s Hok) in Hs. rewrite is_line_inv in Hl. subst.
    assert (HD : vsub B A <> vzero) by (intro C; apply HAB; injection C as C1 C2 C3; apply V3_eq; lra).
    assert (SA : s_segment A B A) by (exists 0; split; [lra | apply V3_eq; simpl; ring]).
    assert (SB : s_segment A B B) by (exists 1; split; [lra | apply V3_eq; simpl; ring]).
    set (tests := ptests a b c h). assert (Hin : forall p, inside tests p = true <-> s_prism a b c h p) by (intro p; apply inside_prism; assumption).
    pose proof (line_core a b c h e A B f Hok ltac:(lra) HAB) as Hc. cbv zeta in Hc. fold tests in Hc.
    assert (Hnz : forall q, In q tests -> snd q <> vzero) by (intros q Hq; apply (normals_nz a b c Hok h); [lra | exact Hq]).
    split.
    - intros [y [Yp Ys]]. destruct (bound_prism eps zs a b c h e _ y Hok Hs' Yp) as [B1 [HB1 Hy1]]. destruct (bound_line eps zs A B f _ y Hl' Ys) as [B2 [HB2 Hy2]].
      rewrite core_of by (eapply overlap_point; eassumption). rewrite Hc.
      destruct (inside tests A) eqn:EA; [exists A; apply Hin in EA; repeat split; try assumption; intros; contradiction |].
      destruct (inside tests B) eqn:EB; [exists B; apply Hin in EB; repeat split; try assumption; intros; contradiction |].
      destruct (loop_spec A B tests HD EA tests Hnz) as [[_ Hno] | [q [x [Hq [Hx ->]]]]].
      + exfalso. apply Hno. apply (hitc_exists A B tests HD EA). exists y. split; [exact Ys | apply Hin, Yp].
      + cbn [bind]. destruct (hitc_first A B tests HD q x Hq Hx) as [Xs Xf]. exists x. split; [reflexivity |].
        split; [apply Hin; apply Hx |]. split; [exact Xs |]. intros _ _ z Zp Zs. apply Xf; [exact Zs | apply Hin, Zp].
    - intro Hno. destruct (overlap (SPrism (eprism a b c h e)) (SLine (eline A B f))) eqn:Eo; [| apply miss_of, Eo].
      rewrite core_of by exact Eo. rewrite Hc.
      destruct (inside tests A) eqn:EA; [exfalso; apply Hno; exists A; split; [apply Hin, EA | exact SA] |].
      destruct (inside tests B) eqn:EB; [exfalso; apply Hno; exists B; split; [apply Hin, EB | exact SB] |].
      destruct (loop_spec A B tests HD EA tests Hnz) as [[-> _] | [q [x [Hq [Hx _]]]]]; [reflexivity |].
      exfalso. apply Hno. exists x. split; [apply Hin; apply Hx | apply (hitc_first A B tests HD q x Hq Hx)].
  Qed.
  Lemma prism_segment_negative a b c h e A B f s l : tri_ok a b c -> h < 0 -> A <> B -> is_prism eps zs a b c h e s -> is_line eps zs A B f l ->
    shape_get_intersect s l = Ok (false, None).
  Proof.
    intros Hok Hh HAB Hs Hl. apply (is_prism_inv eps zs a b c h e s Hok) in Hs. rewrite is_line_inv in Hl. subst.
    assert (HD : vsub B A <> vzero) by (intro C; apply HAB; injection C as C1 C2 C3; apply V3_eq; lra).
    set (tests := ptests a b c h). assert (Hin : forall p, inside tests p = false) by (intro p; apply inside_negative; assumption).
    pose proof (line_core a b c h e A B f Hok ltac:(lra) HAB) as Hc. cbv zeta in Hc. fold tests in Hc.
    assert (Hnz : forall q, In q tests -> snd q <> vzero) by (intros q Hq; apply (normals_nz a b c Hok h); [lra | exact Hq]).
    destruct (overlap (SPrism (eprism a b c h e)) (SLine (eline A B f))) eqn:Eo; [| apply miss_of, Eo].
    rewrite core_of by exact Eo. rewrite Hc, !Hin.
    destruct (loop_spec A B tests HD (Hin A) tests Hnz) as [[-> _] | [q [x [Hq [Hx _]]]]]; [reflexivity |].
    exfalso. destruct Hx as [_ [_ [_ [Hx _]]]]. rewrite Hin in Hx. discriminate Hx.
  Qed.

  (** ---- degenerate segments ---- *)
  Definition nanv : mat3x1 E := M3x1 (A3 NaN NaN NaN : arr3 E).
  Lemma inside_nan l : all_inside (et l) nanv = Ok true.
  Proof. induction l as [| q l IH]; [reflexivity |]. unfold all_inside in *. cbn [et map iter_all]. exact IH. Qed.
  Lemma ray_zero_eval A : ray_init (vl eps zs A) (vl eps zs vzero) = Ok (MkRay (ev A) nanv (rbox eps zs A vzero) (Fin (Rabs vic6) : E)).
  Proof.
    unfold ray_init. cbn [length SpecShape.vl Nat.eqb assert bind].
    change (vec_of_slice (vl eps zs A)) with (Ok (ev A)). change (vec_of_slice (vl eps zs vzero)) with (Ok (ev vzero)). cbn [bind].
    unfold normalize_unwrap. rewrite ev_normalize_zero. cbn [unwrap bind].
    change (slice (vl eps zs A) 0 3) with (Ok (vl eps zs A)). change (slice (vl eps zs vzero) 0 3) with (Ok (vl eps zs vzero)). cbn [bind].
    rewrite raybox_eval. cbn [bind]. rewrite vic6_eq. reflexivity.
  Qed.
  Lemma ray_nan_plane A o n : ray_get_intersect (MkRay (ev A) nanv (rbox eps zs A vzero) (Fin (Rabs vic6) : E)) (SPlane (eplane eps zs o n vic6)) = Ok (true, Some nanv).
  Proof.
    set (r := MkRay _ _ _ _). change (ray_get_intersect r (SPlane (eplane eps zs o n vic6))) with (shape_get_intersect (SRay r) (SPlane (eplane eps zs o n vic6))).
    rewrite core_of.
    - cbn [core]. unfold ray_plane. cbn [shape_get_shape_data eplane pl_offset pl_normal].
      rewrite vec_at_data. rewrite <- (app_nil_r (vec_data (ev (unit n)))), vec_at_data3. cbn [bind r ray_ori ray_dir]. rewrite !ev_dot. cbn [unwrap bind].
      change (mat3x1_dot (ev (unit n)) nanv) with (Some (NaN : E)). reflexivity.
    - apply (overlap_point eps zs _ _ (rbox eps zs A vzero) (whole eps zs) A); [reflexivity | reflexivity | | apply whole_holds].
      intros i Hi. cases3 i Hi; cbn; unfold rlo, rup; repeat match goal with |- context [Rlt_dec ?x ?y] => destruct (Rlt_dec x y) end; simpl; try lra; auto.
  Qed.
  Lemma prism_degenerate a b c h e A f s l : tri_ok a b c -> 0 < h -> is_prism eps zs a b c h e s -> is_line eps zs A A f l ->
    (s_prism a b c h A -> shape_get_intersect s l = Ok (true, Some (ev A))) /\
    (~ s_prism a b c h A -> exists Bx, shape_get_bound s = BBox Bx /\
       (holds Bx A -> shape_get_intersect s l = Ok (true, Some nanv)) /\ (~ holds Bx A -> shape_get_intersect s l = Ok (false, None))).
  Proof.
    intros Hok Hh Hs Hl. pose proof Hs as Hs'. apply (is_prism_inv eps zs a b c h e s Hok) in Hs. rewrite is_line_inv in Hl. subst.
    set (tests := ptests a b c h). assert (Hin : forall p, inside tests p = true <-> s_prism a b c h p) by (intro p; apply inside_prism; assumption).
    assert (Hnz : forall q, In q tests -> snd q <> vzero) by (intros q Hq; apply (normals_nz a b c Hok h); [lra | exact Hq]).
    set (Bx := hull eps zs a [b; c; vadd a (pnh a b c h); vadd b (pnh a b c h); vadd c (pnh a b c h)]).
    assert (HB : shape_get_bound (SPrism (eprism a b c h e)) = BBox Bx) by reflexivity.
    assert (Hov : overlap (SPrism (eprism a b c h e)) (SLine (eline A A f)) = true <-> holds Bx A).
    { assert (Hhull : hull eps zs A [A] = fbox eps zs A A).
      { assert (M1 : forall x, lmin x [x] = x) by (intro x; unfold lmin; simpl; apply Rmin_left; lra).
        assert (M2 : forall x, lmax x [x] = x) by (intro x; unfold lmax; simpl; apply Rmax_left; lra).
        unfold hull. cbn [map]. rewrite !M1, !M2. destruct A; reflexivity. }
      split.
      - intros H i Hi. pose proof (overlap_axis eps zs (SPrism (eprism a b c h e)) (SLine (eline A A f)) Bx (hull eps zs A [A]) eq_refl eq_refl (hull_nonan _ _) (hull_nonan _ _) H i Hi) as [H1 H2].
        rewrite Hhull in H1, H2. cases3 i Hi; split; assumption.
      - intro H. apply (overlap_point eps zs _ _ Bx (hull eps zs A [A]) A); [reflexivity | reflexivity | exact H |]. apply hull_pts. left. reflexivity. }
    assert (Hc : core (SPrism (eprism a b c h e)) (SLine (eline A A f)) = Ok (if inside tests A then (true, Some (ev A)) else (true, Some nanv))).
    { cbn [core]. unfold triprism_line. cbn [shape_get_shape_data PShape.eline ln_a ln_b].
      change (vec_at (vec_data (ev A) ++ vec_data (ev A)) 0) with (Ok (ev A)).
      change (vec_at (vec_data (ev A) ++ vec_data (ev A)) 3) with (Ok (ev A)). cbn [bind]. rewrite tests_eval. cbn [bind].
      fold tests. rewrite !inside_eval. cbn [bind]. destruct (inside tests A); [reflexivity |].
      rewrite ev_minus. cbn [unwrap bind]. rewrite ev_magnitude. cbn [unwrap bind].
      replace (vsub A A) with vzero by (apply V3_eq; simpl; ring).
      change (ray_init (vec_data (ev A)) (vec_data (ev vzero))) with (ray_init (vl eps zs A) (vl eps zs vzero)). rewrite ray_zero_eval.
      cbn [bind PShape.eprism tp_nh tp_base tp_base2]. change (nlit E (-1) 1) with (Fin (-1) : E). rewrite ev_scale. cbn [unwrap bind].
      rewrite !side_eval. cbn [bind]. unfold tests, ptests in Hnz. cbv zeta in Hnz.
      rewrite !plane_of_eval; try (eapply (Hnz (_, _)); cbn [In]; eauto 8; fail).
      cbn [bind for_ret]. rewrite ray_nan_plane. cbn [bind fst snd unwrap]. rewrite inside_nan. reflexivity. }
    split.
    - intro Hp. rewrite core_of, Hc.
      + apply Hin in Hp. rewrite Hp. reflexivity.
      + apply Hov. destruct (bound_prism eps zs a b c h e _ A Hok Hs' Hp) as [B1 [HB1 Hy1]]. injection HB1 as <-. exact Hy1.
    - intro Hp. exists Bx. split; [exact HB |]. split; intro Hb.
      + rewrite core_of by (apply Hov, Hb). rewrite Hc. rewrite <- Hin in Hp. apply inside_false in Hp. rewrite Hp. reflexivity.
      + apply miss_of. destruct (overlap _ _) eqn:Eo; [| reflexivity]. exfalso. apply Hb, Hov. reflexivity.
  Qed.
  Lemma degenerate_refuted : ~ (forall a b c h e A f s l p, tri_ok a b c -> 0 < h -> is_prism eps zs a b c h e s -> is_line eps zs A A f l ->
    ~ s_prism a b c h A -> shape_get_intersect s l <> Ok (true, p)).
  Proof.
    intro H. set (a := V 0 0 0). set (b := V 1 0 0). set (c := V 1 1 0). set (A := V (1 / 10) (9 / 10) (1 / 2)).
    assert (Hok : tri_ok a b c) by (unfold tri_ok; intro C; injection C; unfold a, b, c; simpl; lra).
    assert (Hs : is_prism eps zs a b c 1 0 (SPrism (eprism a b c 1 0))) by (apply is_prism_inv; [exact Hok | reflexivity]).
    assert (Hl : is_line eps zs A A 0 (SLine (eline A A 0))) by (apply is_line_inv; reflexivity).
    assert (HN : vcross (vsub b a) (vsub c a) = V 0 0 1) by (unfold a, b, c; apply V3_eq; simpl; ring).
    assert (Hp : ~ s_prism a b c 1 A).
    { rewrite (prism_coords a b c Hok 1 A) by lra. unfold ca. rewrite HN. unfold a, b, c, A, vdot, vcross, vsub. cbn [vx vy vz].
      intros [C _]. lra. }
    destruct (prism_degenerate a b c 1 0 A 0 _ _ Hok Rlt_0_1 Hs Hl) as [_ Hd]. destruct (Hd Hp) as [Bx [HB [Hd1 _]]].
    apply (H a b c 1 0 A 0 _ _ (Some nanv) Hok Rlt_0_1 Hs Hl Hp). apply Hd1. injection HB as <-.
    assert (Hw : pnh a b c 1 = V 0 0 1).
    { unfold pnh, tri_normal. rewrite HN. rewrite (norm_val (V 0 0 1) 1) by (try lra; unfold vdot; simpl; ring). apply V3_eq; simpl; field. }
    rewrite Hw. set (l := [b; c; vadd a (V 0 0 1); vadd b (V 0 0 1); vadd c (V 0 0 1)]).
    assert (Ha : holds (hull eps zs a l) a) by (apply hull_pts; left; reflexivity).
    assert (Hc : holds (hull eps zs a l) (vadd c (V 0 0 1))) by (apply hull_pts; cbn; tauto).
    unfold hull in *. apply fbox_holds in Ha, Hc. apply fbox_holds. unfold a, c, A in *. simpl in Ha, Hc |- *. lra.
  Qed.
End PGeo3.
