(** PSup.v — support points in exact arithmetic (C59). *)
From Coq Require Import Reals List ZArith NArith Bool Lra Lia Psatz Arith.
Import ListNotations.
From Verif Require Import Base Num Vec Mat Bound Shape Exact SpecMat SpecGeom SpecBound SpecShape
  ExactFacts FloatFacts Order PMat PShape PGeo1 PGeo2.
Local Open Scope R_scope.

Section PSup.
  Variable eps : R.
  Variable zs : XR -> bool.
  Notation E := (Exact eps zs).
  Notation ev := (ev eps zs).

  Lemma mag_nonzero v : v <> vzero -> magnitude_nonzero (ev v) = true.
  Proof.
    intro H. unfold magnitude_nonzero. rewrite ev_magnitude. change (n0 : E) with (Fin 0 : E). rewrite nne_fin.
    pose proof (norm_nz v H). destruct (Req_EM_T (norm v) 0); [lra | reflexivity].
  Qed.
  Lemma mag_zero : magnitude_nonzero (ev vzero) = false.
  Proof.
    unfold magnitude_nonzero. rewrite ev_magnitude. change (n0 : E) with (Fin 0 : E). rewrite nne_fin, norm_vzero.
    destruct (Req_EM_T 0 0); [reflexivity | contradiction].
  Qed.
  (** the reduction of [max_by] over indexed products *)
  Lemma furthest_from (v : V3) pts : forall i j x r, @map R E Fin r = @map R E Fin (map (fun q => vdot q v) pts) ->
    exists m y, max_by_from (fun a b : nat * E => unwrap (ncmp E (snd a) (snd b))) (i, Fin x : E) (combine (seq j (length r)) (@map R E Fin r)) = Ok (m, Fin y : E) /\
      x <= y /\ (forall q, In q pts -> vdot q v <= y) /\
      ((m = i /\ y = x) \/ exists k q, m = (j + k)%nat /\ nth_error pts k = Some q /\ y = vdot q v).
  Proof.
    induction pts as [| p pts IH]; intros i j x r Hr.
    - destruct r; [| discriminate Hr]. exists i, x. cbn. split; [reflexivity |]. split; [lra |]. split; [intros q [] | left; split; reflexivity].
    - destruct r as [| z r]; [discriminate Hr |]. cbn [map] in Hr. injection Hr as Hz Hr. subst z.
      cbn [length seq map combine max_by_from]. cbn [snd]. 
      change (ncmp E (Fin x) (Fin (vdot p v))) with (xcmp (Fin x) (Fin (vdot p v))).
      assert (Hcmp : exists c, unwrap (xcmp (Fin x) (Fin (vdot p v))) = Ok c /\ (c = Gt -> vdot p v < x) /\ (c <> Gt -> x <= vdot p v)).
      { unfold xcmp. destruct (Rlt_dec x (vdot p v)); [eexists; split; [reflexivity |]; split; [discriminate | lra] |].
        destruct (Rlt_dec (vdot p v) x); eexists; (split; [reflexivity |]); split; try discriminate; try lra; intro C; exfalso; apply C; reflexivity. }
      destruct Hcmp as [c [-> [C1 C2]]]. cbn [bind]. destruct c.
      1, 2: destruct (IH j (S j) (vdot p v) r Hr) as [m [y [-> [H1 [H2 H3]]]]]; exists m, y; (split; [reflexivity |]);
        assert (x <= vdot p v) by (apply C2; discriminate); (split; [lra |]); (split; [intros q [<- | Hq]; [exact H1 | apply H2, Hq] |]); right;
        (destruct H3 as [[-> ->] | [k [q [-> [Hk ->]]]]]; [exists 0%nat, p; split; [lia | split; reflexivity] | exists (S k), q; split; [lia | split; [exact Hk | reflexivity]]]).
      destruct (IH i (S j) x r Hr) as [m [y [-> [H1 [H2 H3]]]]]. exists m, y. split; [reflexivity |]. split; [exact H1 |].
      assert (vdot p v < x) by (apply C1; reflexivity). split; [intros q [<- | Hq]; [lra | apply H2, Hq] |].
      destruct H3 as [[-> ->] | [k [q [-> [Hk ->]]]]]; [left; split; reflexivity | right; exists (S k), q; split; [lia | split; [exact Hk | reflexivity]]].
  Qed.
  Lemma dots_eval v pts : iter_map (map ev pts) (fun x => unwrap (mat3x1_dot x (ev v))) = Ok (@map R E Fin (map (fun q => vdot q v) pts)).
  Proof. induction pts as [| p pts IH]; [reflexivity |]. cbn [map iter_map]. rewrite ev_dot. cbn [unwrap bind]. rewrite IH. reflexivity. Qed.
  Lemma furthest_spec v p0 pts : exists f p, furthest_index (map ev (p0 :: pts)) (ev v) = Ok f /\ nth_error (p0 :: pts) f = Some p /\
    forall q, In q (p0 :: pts) -> vdot q v <= vdot p v.
  Proof.
    unfold furthest_index. rewrite dots_eval. cbn [bind map]. unfold max_by, enumerate. cbn [length seq combine].
    destruct (furthest_from v pts 0 1 (vdot p0 v) (map (fun q => vdot q v) pts) eq_refl) as [m [y [Hm [H1 [H2 H3]]]]].
    rewrite !map_length in *. rewrite Hm. cbn [bind unwrap fst].
    destruct H3 as [[-> ->] | [k [q [-> [Hk ->]]]]].
    - exists 0%nat, p0. split; [reflexivity |]. split; [reflexivity |]. intros q [<- | Hq]; [lra | apply H2, Hq].
    - exists (1 + k)%nat, q. split; [reflexivity |]. split; [exact Hk |]. intros q' [<- | Hq]; [exact H1 | apply H2, Hq].
  Qed.
  Lemma nth_map_ev pts f p : nth_error pts f = Some p -> idx (map ev pts) f = Ok (ev p).
  Proof. intro H. unfold idx. rewrite (map_nth_error ev f pts H). reflexivity. Qed.

  (** ---- sphere ---- *)
  Lemma sphere_support c r e v : v <> vzero -> sphere_get_support (esphere eps zs c r e) (ev v) = Ok (Some (ev (vadd c (vscale r (unit v))))).
  Proof.
    intro Hv. unfold sphere_get_support. rewrite mag_nonzero by exact Hv. rewrite normalize_unwrap_eval by exact Hv. cbn [bind esphere sp_ori sp_radius].
    rewrite ev_scale. cbn [unwrap bind]. rewrite ev_plus. reflexivity.
  Qed.
  Lemma support_sphere c r e s v : 0 <= r -> v <> vzero -> is_sphere eps zs c r e s ->
    exists x, shape_get_support s (ev v) = Ok (Some (ev x)) /\ s_ball c r x /\ forall y, s_ball c r y -> vdot v y <= vdot v x.
  Proof.
    intros Hr Hv Hs. rewrite is_sphere_inv in Hs. subst. cbn [shape_get_support]. rewrite sphere_support by exact Hv.
    eexists. split; [reflexivity |]. split.
    - unfold s_ball, dist. replace (vsub (vadd c (vscale r (unit v))) c) with (vscale r (unit v)) by (apply V3_eq; simpl; ring).
      rewrite norm_vscale, (unit_norm v Hv), Rabs_pos_eq by exact Hr. lra.
    - intros y Hy. unfold s_ball, dist in Hy. pose proof (cauchy' v (vsub y c)) as Hc. pose proof (norm_pos v) as Hn.
      rewrite vdot_sub_r in Hc. rewrite vdot_add_r, vdot_scale_r.
      assert (Hu : vdot v (unit v) = norm v).
      { rewrite (unit_scale v Hv) at 1. rewrite vdot_scale_l, (unit_dot v Hv). ring. }
      rewrite Hu. nra.
  Qed.
  (** ---- box ---- *)
  Definition corners (h : R) : list V3 :=
    [V h h h; V (- h) h h; V h (- h) h; V (- h) (- h) h; V h h (- h); V (- h) h (- h); V h (- h) (- h); V (- h) (- h) (- h)].
  Lemma corners_eval h : recbox_corners (Fin h : E) = map ev (corners h).
  Proof. reflexivity. Qed.
  Lemma corner_reach h x v : 0 <= h -> Rabs (vx x) <= h -> Rabs (vy x) <= h -> Rabs (vz x) <= h -> exists q, In q (corners h) /\ vdot x v <= vdot q v.
  Proof.
    intros Hh H1 H2 H3. apply Rabs_le_inv in H1, H2, H3.
    assert (Ax : forall a t, - h <= a <= h -> exists k, (k = h \/ k = - h) /\ a * t <= k * t).
    { intros a t Ha. destruct (Rle_dec 0 t); [exists h | exists (- h)]; (split; [tauto | nra]). }
    destruct (Ax _ (vx v) H1) as [k1 [K1 L1]], (Ax _ (vy v) H2) as [k2 [K2 L2]], (Ax _ (vz v) H3) as [k3 [K3 L3]].
    exists (V k1 k2 k3). split; [| unfold vdot; simpl; lra].
    destruct K1 as [-> | ->], K2 as [-> | ->], K3 as [-> | ->]; cbn [corners In]; tauto.
  Qed.
  Lemma support_box c h e s v : 0 <= h -> v <> vzero -> is_box eps zs c h e s ->
    exists x, shape_get_support s (ev v) = Ok (Some (ev x)) /\ s_cube c h x /\ forall y, s_cube c h y -> vdot v y <= vdot v x.
  Proof.
    intros Hh Hv Hs. rewrite is_box_inv in Hs. subst. cbn [shape_get_support]. unfold recbox_get_support. rewrite mag_nonzero by exact Hv.
    cbn [ebox bx_size bx_ori]. rewrite corners_eval. unfold corners at 1.
    destruct (furthest_spec v (V h h h) (tl (corners h))) as [f [p [Hf [Hp Hmax]]]]. cbn [corners tl] in Hf, Hp, Hmax. rewrite Hf. cbn [bind].
    rewrite (nth_map_ev (corners h) f p Hp). cbn [bind]. rewrite ev_plus. cbn [unwrap bind].
    exists (vadd c p). split; [reflexivity |]. split.
    - apply nth_error_In in Hp. cbn [In] in Hp. unfold s_cube.
      repeat (destruct Hp as [<- | Hp]; [simpl; repeat split; apply Rabs_le; lra |]). contradiction.
    - intros y [Y1 [Y2 Y3]]. destruct (corner_reach h (vsub y c) v Hh Y1 Y2 Y3) as [q [Hq Hqv]]. specialize (Hmax q Hq).
      rewrite vdot_add_r. rewrite (vdot_comm (vsub y c)), vdot_sub_r in Hqv. rewrite (vdot_comm p) in Hmax. lra.
  Qed.
  (** ---- prism ---- *)
  Lemma support_prism a b c h e s v : tri_ok a b c -> v <> vzero -> is_prism eps zs a b c h e s ->
    exists x, shape_get_support s (ev v) = Ok (Some (ev x)) /\ s_prism a b c h x /\ forall y, s_prism a b c h y -> vdot v y <= vdot v x.
  Proof.
    intros Hok Hv Hs. apply (is_prism_inv eps zs a b c h e s Hok) in Hs. subst. cbn [shape_get_support]. unfold triprism_get_support.
    rewrite mag_nonzero by exact Hv. set (w := pnh a b c h).
    change (list3 (tp_base (eprism eps zs a b c h e)) ++ list3 (tp_base2 (eprism eps zs a b c h e)))
      with (map ev [a; b; c; vadd a w; vadd b w; vadd c w]).
    destruct (furthest_spec v a [b; c; vadd a w; vadd b w; vadd c w]) as [f [p [Hf [Hp Hmax]]]]. rewrite Hf. cbn [bind].
    rewrite (nth_map_ev _ f p Hp). cbn [bind]. exists p. split; [reflexivity |]. split.
    - apply nth_error_In in Hp. cbn [In] in Hp.
      assert (T : forall p s t k, 0 <= s -> 0 <= t -> s + t <= 1 -> 0 <= k <= 1 ->
        p = vadd (vadd a (vadd (vscale s (vsub b a)) (vscale t (vsub c a)))) (vscale k w) -> s_prism a b c h p).
      { intros q s t k H1 H2 H3 H4 ->. exists (vadd a (vadd (vscale s (vsub b a)) (vscale t (vsub c a)))), k. split; [exists s, t; repeat split; assumption |].
        split; [exact H4 |]. unfold w, pnh. apply V3_eq; simpl; ring. }
      destruct Hp as [<- | [<- | [<- | [<- | [<- | [<- | []]]]]]].
      + apply (T _ 0 0 0); try lra. apply V3_eq; simpl; ring.
      + apply (T _ 1 0 0); try lra. apply V3_eq; simpl; ring.
      + apply (T _ 0 1 0); try lra. apply V3_eq; simpl; ring.
      + apply (T _ 0 0 1); try lra. apply V3_eq; simpl; ring.
      + apply (T _ 1 0 1); try lra. apply V3_eq; simpl; ring.
      + apply (T _ 0 1 1); try lra. apply V3_eq; simpl; ring.
    - intros y [z [k [[s [t [H1 [H2 [H3 ->]]]]] [Hk ->]]]].
      assert (Ma := Hmax a ltac:(cbn [In]; tauto)). assert (Mb := Hmax b ltac:(cbn [In]; tauto)). assert (Mc := Hmax c ltac:(cbn [In]; tauto)).
      assert (Na := Hmax (vadd a w) ltac:(cbn [In]; tauto)). assert (Nb := Hmax (vadd b w) ltac:(cbn [In]; tauto)). assert (Nc := Hmax (vadd c w) ltac:(cbn [In]; tauto)).
      rewrite (vdot_comm p) in Ma, Mb, Mc, Na, Nb, Nc. rewrite (vdot_comm a) in Ma. rewrite (vdot_comm b) in Mb. rewrite (vdot_comm c) in Mc.
      rewrite (vdot_comm (vadd a w)), vdot_add_r in Na. rewrite (vdot_comm (vadd b w)), vdot_add_r in Nb. rewrite (vdot_comm (vadd c w)), vdot_add_r in Nc.
      replace (vdot v (vadd (vadd a (vadd (vscale s (vsub b a)) (vscale t (vsub c a)))) (vscale (k * h) (tri_normal a b c))))
        with ((1 - s - t) * vdot v a + s * vdot v b + t * vdot v c + k * vdot v w) by (unfold w, pnh, vdot, vadd, vsub, vscale; simpl; ring).
      set (M := vdot v p) in *. assert (0 <= 1 - s - t) by lra. destruct (Rle_dec 0 (vdot v w)); nra.
  Qed.
  (** ---- the zero direction, points, rays and planes ---- *)
  Lemma support_zero : (forall c r e s, is_sphere eps zs c r e s -> shape_get_support s (ev vzero) = Ok None) /\
    (forall c h e s, is_box eps zs c h e s -> shape_get_support s (ev vzero) = Ok None) /\
    (forall a b c h e s, tri_ok a b c -> is_prism eps zs a b c h e s -> shape_get_support s (ev vzero) = Ok None).
  Proof.
    repeat split.
    - intros c r e s Hs. rewrite is_sphere_inv in Hs. subst. cbn [shape_get_support]. unfold sphere_get_support. rewrite mag_zero. reflexivity.
    - intros c h e s Hs. rewrite is_box_inv in Hs. subst. cbn [shape_get_support]. unfold recbox_get_support. rewrite mag_zero. reflexivity.
    - intros a b c h e s Hok Hs. apply (is_prism_inv eps zs a b c h e s Hok) in Hs. subst. cbn [shape_get_support]. unfold triprism_get_support. rewrite mag_zero. reflexivity.
  Qed.
  Lemma support_point p e s v : is_point eps zs p e s -> shape_get_support s v = Ok (Some (ev p)).
  Proof. rewrite is_point_inv. intros ->. reflexivity. Qed.
End PSup.
