(** PNan.v — queries on shapes with NaN data (C92), in both arithmetics. *)
From Coq Require Import Reals List ZArith NArith Bool Lra Lia.
From Flocq Require Import Core BinarySingleNaN.
Import ListNotations.
From Verif Require Import Base Num Vec Mat Bound Shape Intersect Float Exact SpecMat SpecGeom SpecBound SpecShape SpecInter SpecBuild SpecNan
  ExactFacts FloatFacts Order PMat PBound PInter PBuild PIeee1.

(** NaN goes through every operation and compares with nothing *)
Record nan_laws (Nm : Num) : Prop := {
  nl_add_l : forall a b : Nm, nisnan a = true -> nisnan (nadd Nm a b) = true;
  nl_add_r : forall a b : Nm, nisnan b = true -> nisnan (nadd Nm a b) = true;
  nl_sub_l : forall a b : Nm, nisnan a = true -> nisnan (nsub Nm a b) = true;
  nl_sub_r : forall a b : Nm, nisnan b = true -> nisnan (nsub Nm a b) = true;
  nl_mul_l : forall a b : Nm, nisnan a = true -> nisnan (nmul Nm a b) = true;
  nl_mul_r : forall a b : Nm, nisnan b = true -> nisnan (nmul Nm a b) = true;
  nl_div_l : forall a b : Nm, nisnan a = true -> nisnan (ndiv Nm a b) = true;
  nl_div_r : forall a b : Nm, nisnan b = true -> nisnan (ndiv Nm a b) = true;
  nl_neg : forall a : Nm, nisnan a = true -> nisnan (nneg Nm a) = true;
  nl_sqrt : forall a : Nm, nisnan a = true -> nisnan (nsqrt Nm a) = true;
  nl_zero : forall a b c d : Nm, neqb a n0 = true -> neqb b n0 = true -> neqb c n0 = true -> neqb d n0 = true ->
    nisnan (ndiv Nm a (nsqrt Nm (nadd Nm (nadd Nm (npowi2 b) (npowi2 c)) (npowi2 d)))) = true
}.

Lemma exact_nan eps zs (a : Exact eps zs) : nisnan a = true <-> a = NaN.
Proof. exact (nisnan_iff (exact_ordered eps zs) a). Qed.
Lemma exact_zero eps zs (a : Exact eps zs) : neqb a n0 = true -> a = Fin 0.
Proof.
  intro H. apply (neqb_iff (exact_ordered eps zs)) in H as [H _]. cbn in H. rewrite H. reflexivity.
Qed.
Lemma exact_laws eps zs : nan_laws (Exact eps zs).
Proof.
  split; intros *; try (rewrite !exact_nan; intros ->; try destruct a; try destruct b; reflexivity).
  intros Ha Hb Hc Hd. apply exact_zero in Ha, Hb, Hc, Hd. subst. apply exact_nan. unfold npowi2. cbn.
  destruct (Rlt_dec _ 0); [reflexivity |]. replace (0 * 0 + 0 * 0 + 0 * 0)%R with 0%R by ring. rewrite sqrt_0.
  destruct (Req_EM_T 0 0); [reflexivity | contradiction].
Qed.

Section LawsIeee.
  Context (prec emax : Z) {Hp : Prec_gt_0 prec} {Hm : Prec_lt_emax prec emax} (lm : libm (binary_float prec emax)).
  Notation F := (@Ieee prec emax Hp Hm lm).
  Lemma ieee_nan (a : F) : nisnan a = true <-> a = (B754_nan : binary_float prec emax).
  Proof. rewrite (nisnan_iff (ieee_ordered prec emax lm) a). cbn [emb ieee_ordered]. apply b2x_nan. Qed.
  Lemma ieee_zero (a : F) : neqb a n0 = true -> exists s, a = (B754_zero s : binary_float prec emax).
  Proof.
    intro H. apply (neqb_iff (ieee_ordered prec emax lm)) in H as [H _]. change (emb (ieee_ordered prec emax lm)) with (b2x prec emax) in H. rewrite (n0_x prec emax lm) in H.
    destruct a as [s | s | | s m e Hb]; cbn in H.
    - exists s. reflexivity.
    - destruct s; discriminate H.
    - discriminate H.
    - exfalso. injection H as H. apply eq_0_F2R in H. destruct s; discriminate H.
  Qed.
  Lemma ieee_laws : nan_laws F.
  Proof.
    split; intros *; try (rewrite !ieee_nan; intros ->; try destruct a; try destruct b; reflexivity).
    intros Ha Hb Hc Hd. apply ieee_zero in Ha as [s ->], Hb as [t ->], Hc as [q ->], Hd as [r ->].
    apply ieee_nan. unfold npowi2. destruct s, t, q, r; reflexivity.
  Qed.
End LawsIeee.

Section PNan.
  Context {Nm : Num} (O : ordered Nm) (L : nan_laws Nm).
  Notation bad x := (nisnan x = true).
  Definition nan_neg := nl_neg _ L.
  Definition nan_sqrt := nl_sqrt _ L.
  Definition nan_add_l := nl_add_l _ L.
  Definition nan_add_r := nl_add_r _ L.
  Definition nan_sub_l := nl_sub_l _ L.
  Definition nan_sub_r := nl_sub_r _ L.
  Definition nan_mul_l := nl_mul_l _ L.
  Definition nan_mul_r := nl_mul_r _ L.
  Definition nan_div_l := nl_div_l _ L.
  Definition nan_div_r := nl_div_r _ L.
  Local Hint Resolve nan_neg nan_sqrt nan_add_l nan_add_r nan_sub_l nan_sub_r nan_mul_l nan_mul_r nan_div_l nan_div_r : nan.

  Lemma bad_cmp (a b : Nm) : bad a \/ bad b -> ncmp Nm a b = None.
  Proof.
    rewrite !(nisnan_iff O), (emb_cmp O). intros [-> | ->]; [reflexivity | destruct (emb O a); reflexivity].
  Qed.
  Lemma bad_ngt (a b : Nm) : bad a \/ bad b -> ngt a b = false. Proof. intro H. unfold ngt. rewrite bad_cmp by exact H. reflexivity. Qed.
  Lemma bad_nlt (a b : Nm) : bad a \/ bad b -> nlt a b = false. Proof. intro H. unfold nlt. rewrite bad_cmp by exact H. reflexivity. Qed.
  Lemma bad_neqb (a b : Nm) : bad a \/ bad b -> neqb a b = false. Proof. intro H. unfold neqb. rewrite bad_cmp by exact H. reflexivity. Qed.
  Lemma bad_within (v a b : Nm) : bad v \/ bad a \/ bad b -> within v a b = false.
  Proof.
    intros H. unfold within, nge. rewrite bad_cmp; [reflexivity |]. destruct H as [H | [H | H]]; auto 9 with nan.
  Qed.
  Lemma dot_bad (u v : mat3x1 Nm) : some_nan u \/ some_nan v -> exists x, mat3x1_dot u v = Some x /\ bad x.
  Proof.
    destruct u as [[a b c]], v as [[x y z]]. intro H. eexists. split; [reflexivity |].
    destruct H as [[H | [H | H]] | [H | [H | H]]]; auto 9 with nan.
  Qed.
  Lemma minus_bad (u v : mat3x1 Nm) : some_nan u \/ some_nan v -> exists x, mat3x1_minus u v = Some x /\ some_nan x.
  Proof.
    destruct u as [[a b c]], v as [[x y z]]. intro H. eexists. split; [reflexivity |]. cbn.
    destruct H as [[H | [H | H]] | [H | [H | H]]]; auto 9 with nan.
  Qed.
  Lemma along_bad (u o : mat3x1 Nm) (t : Nm) : bad t -> exists p, along u t o = Ok p /\ all_nan p.
  Proof.
    destruct u as [[a b c]], o as [[x y z]]. intro H. eexists. split; [reflexivity |]. cbn. auto 9 with nan.
  Qed.
  Lemma minus_some (u v : mat3x1 Nm) : exists w, mat3x1_minus u v = Some w. Proof. destruct u as [[]], v as [[]]. eexists. reflexivity. Qed.
  Lemma cross_some (u v : mat3x1 Nm) : exists w, mat3x1_cross u v = Some w. Proof. destruct u as [[]], v as [[]]. eexists. reflexivity. Qed.
  Lemma dot_some (u v : mat3x1 Nm) : exists w, mat3x1_dot u v = Some w. Proof. destruct u as [[]], v as [[]]. eexists. reflexivity. Qed.

  (** bounds *)
  Lemma ngt_inf (x : Nm) : ngt x (ninf Nm) = false.
  Proof. unfold ngt. rewrite (emb_cmp O), (emb_inf _ O). destruct (emb O x); reflexivity. Qed.
  Lemma nlt_ninf (x : Nm) : nlt x (nninf Nm) = false.
  Proof. unfold nlt. rewrite (emb_cmp O), (emb_ninf _ O). destruct (emb O x); reflexivity. Qed.
  Lemma overlap_apart (a b : shape Nm) (A B : aabb Nm) : shape_get_bound a = BBox A -> shape_get_bound b = BBox B ->
    (forall i, (i < 3)%N -> apart A B i = false) -> overlap a b = true.
  Proof. intros HA HB H. unfold overlap. rewrite HA, HB, ibb, intersect_eval, !H by reflexivity. reflexivity. Qed.
  Lemma plane_overlap (a b : shape Nm) : shape_get_bound b = BBox whole_any -> overlap a b = true.
  Proof.
    intro H. eapply overlap_apart; [reflexivity | exact H |]. intros i Hi. unfold apart.
    cases3 i Hi; cbn; rewrite ngt_inf, nlt_ninf; reflexivity.
  Qed.
  Lemma nan_overlap (a b : shape Nm) (B : aabb Nm) : shape_get_bound b = BBox B -> (forall i, (i < 3)%N -> bad (lo B i) /\ bad (up B i)) ->
    overlap a b = true.
  Proof.
    intros H HB. eapply overlap_apart; [reflexivity | exact H |]. intros i Hi. destruct (HB i Hi). unfold apart.
    rewrite bad_ngt, bad_nlt by (right; assumption). reflexivity.
  Qed.
  Lemma hit_of (a b : shape Nm) : overlap a b = true -> shape_get_intersect a b = core a b.
  Proof. intro H. rewrite (intersect_core O), H. reflexivity. Qed.
  Lemma miss_any (a b : shape Nm) : core a b = Ok miss -> shape_get_intersect a b = Ok miss.
  Proof. intro H. rewrite (intersect_core O), H. destruct (overlap a b); reflexivity. Qed.
  Lemma vec_at1 (v : mat3x1 Nm) : vec_at (vec_data v) 0 = Ok v.
  Proof. rewrite <- (app_nil_r (vec_data v)). apply vec_at_data. Qed.
  Lemma vec_at2 (v w : mat3x1 Nm) : vec_at (vec_data v ++ vec_data w) 3 = Ok w.
  Proof. rewrite <- (app_nil_r (vec_data w)). apply vec_at_data3. Qed.

  (** ---- a point with a NaN coordinate ---- *)
  Section Point.
    Variables (p : mat3x1 Nm) (e : Nm) (P : shape Nm).
    Hypotheses (HP : mk_point p e P) (Hn : some_nan p).
    Lemma nan_point_point q f Q : mk_point q f Q -> shape_get_intersect P Q = Ok miss /\ shape_get_intersect Q P = Ok miss.
    Proof.
      intro HQ. apply point_any in HP as ->. apply point_any in HQ as ->.
      destruct p as [[x y z]], q as [[x' y' z']].
      split; apply miss_any; cbn [core]; unfold point_point; cbn -[within]; destruct Hn as [H | [H | H]].
      - rewrite (bad_within _ x) by auto. reflexivity.
      - rewrite (bad_within _ y) by auto. cbn. rewrite orb_true_r. reflexivity.
      - rewrite (bad_within _ z) by auto. cbn. rewrite orb_true_r. reflexivity.
      - rewrite (bad_within _ x') by auto. reflexivity.
      - rewrite (bad_within _ y') by auto. cbn. rewrite orb_true_r. reflexivity.
      - rewrite (bad_within _ z') by auto. cbn. rewrite orb_true_r. reflexivity.
    Qed.
    Lemma nan_point_plane o n f Q : mk_plane o n f Q -> shape_get_intersect P Q = Ok miss /\ shape_get_intersect Q P = Ok miss.
    Proof.
      intro HQ. apply point_any in HP as ->. apply plane_any in HQ as ->.
      split; apply miss_any; cbn [core shape_get_shape_data pt_ori]; unfold plane_point; rewrite vec_at1; cbn [bind pl_normal pl_offset pl_vic];
        destruct (dot_some (nrm n) o) as [k ->]; destruct (dot_bad (nrm n) p (or_intror Hn)) as [x [-> Hx]]; cbn [unwrap bind];
        rewrite bad_within by auto 9 with nan; reflexivity.
    Qed.
    Lemma nan_point_ray o d f Q : mk_ray o d f Q -> shape_get_intersect P Q = Ok miss /\ shape_get_intersect Q P = Ok miss.
    Proof.
      intro HQ. apply point_any in HP as ->. apply ray_any_eq in HQ as ->.
      split; apply miss_any; cbn [core shape_get_shape_data pt_ori]; unfold ray_point; rewrite vec_at1; cbn [bind ray_dir ray_ori ray_vic];
        destruct p as [[x y z]], o as [[a b c]], (nrm d) as [[u v w]]; cbn -[within];
        destruct Hn as [H | [H | H]];
        first [rewrite (bad_within _ (ndiv Nm (nsub Nm x a) u)) by auto 9 with nan; reflexivity
              | rewrite (bad_within _ (ndiv Nm (nsub Nm x a) u)) by auto 9 with nan; reflexivity
              | rewrite (bad_within _ (ndiv Nm (nsub Nm y b) v)) by auto 9 with nan; cbn; rewrite orb_true_r; reflexivity].
    Qed.
    Lemma all_inside_bad tests : all_inside tests p = Ok true.
    Proof.
      unfold all_inside. induction tests as [| [v n] l IH]; [reflexivity |]. cbn [iter_all fst snd].
      destruct (minus_bad p v (or_introl Hn)) as [d [-> Hd]]. cbn [unwrap bind].
      destruct (dot_bad d n (or_introl Hd)) as [x [-> Hx]]. cbn [unwrap bind]. rewrite bad_ngt by auto. exact IH.
    Qed.
    Lemma nan_point_prism a b c h f Q : mk_prism a b c h f Q ->
      (overlap Q P = true -> shape_get_intersect Q P = Ok (true, Some p)) /\ (overlap Q P = false -> shape_get_intersect Q P = Ok miss).
    Proof.
      intro HQ. apply point_any in HP as ->. apply prism_any in HQ as ->. split; intro Ho; rewrite (intersect_core O), Ho; [| reflexivity].
      cbn [core shape_get_shape_data pt_ori]. unfold triprism_point. rewrite vec_at1. cbn [bind].
      match goal with |- context [triprism_tests ?t] => destruct (triprism_tests_ok t) as [l ->] end. cbn [bind].
      rewrite all_inside_bad. reflexivity.
    Qed.
  End Point.
  (** all coordinates NaN: inside everything that has an inside *)
  Section PointAll.
    Variables (p : mat3x1 Nm) (e : Nm) (P : shape Nm).
    Hypotheses (HP : mk_point p e P) (Hn : all_nan p).
    Lemma all_some : some_nan p. Proof. destruct p as [[x y z]]. left. apply Hn. Qed.
    Lemma all_overlap Q : overlap Q P = true.
    Proof.
      apply point_any in HP as ->. eapply nan_overlap; [reflexivity |]. destruct p as [[x y z]]. destruct Hn as [H1 [H2 H3]].
      intros i Hi. cases3 i Hi; cbn; split; assumption.
    Qed.
    Lemma nan_all_box c h f Q : mk_box c h f Q -> shape_get_intersect Q P = Ok (true, Some p).
    Proof. intro HQ. rewrite hit_of by apply all_overlap. apply point_any in HP as ->. apply box_any in HQ as ->. reflexivity. Qed.
    Lemma nan_all_prism a b c h f Q : mk_prism a b c h f Q -> shape_get_intersect Q P = Ok (true, Some p).
    Proof. intro HQ. eapply nan_point_prism; [exact HP | exact all_some | exact HQ | apply all_overlap]. Qed.
    Lemma nan_all_sphere c r f Q : mk_sphere c r f Q -> shape_get_intersect Q P = Ok (true, Some p).
    Proof.
      intro HQ. rewrite hit_of by apply all_overlap. apply point_any in HP as ->. apply sphere_any in HQ as ->.
      cbn [core shape_get_shape_data pt_ori]. unfold sphere_point. rewrite vec_at1. cbn [bind sp_ori sp_radius].
      destruct p as [[x y z]], c as [[a b c]]. destruct Hn as [H1 [H2 H3]]. cbn -[ngt].
      rewrite !bad_ngt by auto 9 with nan. reflexivity.
    Qed.
  End PointAll.

  (** ---- a sphere whose radius is NaN ---- *)
  Section Radius.
    Variables (c : mat3x1 Nm) (r e : Nm) (S : shape Nm).
    Hypotheses (HS : mk_sphere c r e S) (Hr : bad r).
    Lemma radius_overlap Q : overlap Q S = true.
    Proof.
      apply sphere_any in HS as ->. eapply nan_overlap; [reflexivity |]. destruct c as [[x y z]].
      intros i Hi. cases3 i Hi; cbn; auto 9 with nan.
    Qed.
    Lemma nan_radius_point p f Q : mk_point p f Q -> shape_get_intersect Q S = Ok (true, Some p).
    Proof.
      intro HQ. rewrite hit_of by apply radius_overlap. apply point_any in HQ as ->. apply sphere_any in HS as ->.
      cbn [core shape_get_shape_data pt_ori]. unfold sphere_point. rewrite vec_at1. cbn [bind sp_ori sp_radius].
      destruct p as [[x y z]], c as [[a b c']]. cbn -[ngt]. rewrite !bad_ngt by auto 9 with nan. reflexivity.
    Qed.
    Lemma nan_radius_plane o n f Q : mk_plane o n f Q -> exists x, shape_get_intersect Q S = Ok (true, Some x).
    Proof.
      intro HQ. rewrite hit_of by apply radius_overlap. apply plane_any in HQ as ->. apply sphere_any in HS as ->.
      cbn [core shape_get_shape_data pl_offset pl_normal]. unfold sphere_plane. rewrite vec_at_data, vec_at2. cbn [bind sp_ori sp_radius].
      destruct (dot_some (nrm n) o) as [k ->], (dot_some (nrm n) c) as [k' ->]. cbn [unwrap bind]. rewrite bad_ngt by auto.
      destruct (nrm n) as [[u v w]], c as [[x y z]]. eexists. reflexivity.
    Qed.
    Lemma nan_radius_ray o d f Q : mk_ray o d f Q -> exists x, shape_get_intersect Q S = Ok (true, Some x) /\ all_nan x.
    Proof.
      intro HQ. rewrite hit_of by apply radius_overlap. apply ray_any_eq in HQ as ->. apply sphere_any in HS as ->.
      cbn [core shape_get_shape_data sp_ori sp_radius]. unfold ray_sphere. rewrite vec_at_data.
      replace (idx (vec_data c ++ [r]) 3) with (Ok r) by (destruct c as [[x y z]]; reflexivity). cbn [bind ray_dir ray_ori].
      destruct (minus_some o c) as [q ->]. cbn [unwrap bind]. destruct (dot_some q (nrm d)) as [k ->], (dot_some q q) as [k' ->]. cbn [unwrap bind].
      rewrite (bad_ngt (nsub Nm k' _)) by auto 9 with nan. rewrite andb_false_r.
      rewrite (bad_nlt (nsub Nm (nmul Nm k k) _)) by auto 9 with nan. rewrite !bad_nlt by auto 9 with nan.
      match goal with |- context [along ?u ?t ?o'] => destruct (along_bad u o' t) as [x [-> Hx]]; [auto 9 with nan |] end.
      exists x. split; [reflexivity | exact Hx].
    Qed.
    Lemma nan_radius_sphere q s f Q : mk_sphere q s f Q ->
      (exists x, shape_get_intersect Q S = Ok (true, Some x) /\ all_nan x) /\ exists x, shape_get_intersect S Q = Ok (true, Some x) /\ all_nan x.
    Proof.
      intro HQ. assert (Ov : overlap S Q = true) by (rewrite (overlap_sym O); apply radius_overlap).
      rewrite !hit_of by (exact Ov || apply radius_overlap). clear Ov.
      apply sphere_any in HQ as ->. apply sphere_any in HS as ->. cbn [core shape_get_shape_data]. unfold sphere_sphere.
      destruct c as [[a b c']], q as [[x y z]]. cbn -[ngt]. rewrite !bad_ngt by auto 9 with nan. cbn.
      split; (eexists; split; [reflexivity |]; cbn; auto 9 with nan).
    Qed.
  End Radius.

  Lemma unit_nrm (d u : mat3x1 Nm) : unit_of d u -> u = nrm d.
  Proof. unfold unit_of. rewrite normalize_nrm. intro H. injection H as <-. reflexivity. Qed.
  (** ---- a ray whose stored direction has a NaN entry ---- *)
  Section Ray.
    Variables (o d u : mat3x1 Nm) (e : Nm) (R : shape Nm).
    Hypotheses (HR : mk_ray o d e R) (Hu : unit_of d u) (Hn : some_nan u).
    Lemma nan_ray_point p f Q : mk_point p f Q -> shape_get_intersect R Q = Ok miss.
    Proof.
      intro HQ. apply point_any in HQ as ->. apply ray_any_eq in HR as ->. rewrite (unit_nrm _ _ Hu) in Hn.
      apply miss_any; cbn [core shape_get_shape_data pt_ori]; unfold ray_point; rewrite vec_at1; cbn [bind ray_dir ray_ori ray_vic].
      destruct p as [[x y z]], o as [[a b c]], (nrm d) as [[v0 v1 v2]]; cbn -[within];
        destruct Hn as [H | [H | H]];
        first [rewrite (bad_within _ (ndiv Nm (nsub Nm x a) v0)) by auto 9 with nan; reflexivity
              | rewrite (bad_within _ (ndiv Nm (nsub Nm x a) v0)) by auto 9 with nan; reflexivity
              | rewrite (bad_within _ (ndiv Nm (nsub Nm y b) v1)) by auto 9 with nan; cbn; rewrite orb_true_r; reflexivity].
    Qed.
    Lemma nan_ray_ray p g f Q : mk_ray p g f Q -> shape_get_intersect R Q = Ok miss /\ shape_get_intersect Q R = Ok miss.
    Proof.
      intro HQ. apply ray_any_eq in HQ as ->. apply ray_any_eq in HR as ->. rewrite (unit_nrm _ _ Hu) in Hn.
      split; apply miss_any; cbn [core shape_get_shape_data ray_ori ray_dir]; unfold ray_ray; rewrite vec_at_data, vec_at2; cbn [bind ray_dir ray_ori ray_vic].
      - destruct (minus_bad (nrm g) (nrm d) (or_intror Hn)) as [w [-> Hw]], (cross_some (nrm d) (nrm g)) as [v ->]. cbn [unwrap bind].
        destruct (dot_bad v w (or_intror Hw)) as [k [-> Hk]]. cbn [unwrap bind]. rewrite bad_within by auto. reflexivity.
      - destruct (minus_bad (nrm d) (nrm g) (or_introl Hn)) as [w [-> Hw]], (cross_some (nrm g) (nrm d)) as [v ->]. cbn [unwrap bind].
        destruct (dot_bad v w (or_intror Hw)) as [k [-> Hk]]. cbn [unwrap bind]. rewrite bad_within by auto. reflexivity.
    Qed.
    Lemma nan_ray_plane q n f Q : mk_plane q n f Q -> exists x, shape_get_intersect R Q = Ok (true, Some x) /\ all_nan x.
    Proof.
      intro HQ. apply plane_any in HQ as ->. apply ray_any_eq in HR as ->. rewrite (unit_nrm _ _ Hu) in Hn.
      rewrite hit_of by (apply plane_overlap; reflexivity).
      cbn [core shape_get_shape_data pl_offset pl_normal]. unfold ray_plane. rewrite vec_at_data, vec_at2. cbn [bind ray_dir ray_ori].
      destruct (dot_some q (nrm n)) as [k ->], (dot_some (nrm n) o) as [k' ->]. cbn [unwrap bind].
      destruct (dot_bad (nrm n) (nrm d) (or_intror Hn)) as [x [-> Hx]]. cbn [unwrap bind].
      rewrite bad_neqb, bad_ngt by auto. rewrite bad_nlt by auto 9 with nan.
      match goal with |- context [along ?u ?t ?o'] => destruct (along_bad u o' t) as [y [-> Hy]]; [auto 9 with nan |] end.
      exists y. split; [reflexivity | exact Hy].
    Qed.
    Lemma nan_ray_sphere c r f Q : mk_sphere c r f Q ->
      (overlap R Q = true -> exists x, shape_get_intersect R Q = Ok (true, Some x) /\ all_nan x) /\
      (overlap R Q = false -> shape_get_intersect R Q = Ok miss).
    Proof.
      intro HQ. apply sphere_any in HQ as ->. apply ray_any_eq in HR as ->. rewrite (unit_nrm _ _ Hu) in Hn.
      split; intro Ho; rewrite (intersect_core O), Ho; [| reflexivity].
      cbn [core shape_get_shape_data sp_ori sp_radius]. unfold ray_sphere. rewrite vec_at_data.
      replace (idx (vec_data c ++ [r]) 3) with (Ok r) by (destruct c as [[x y z]]; reflexivity). cbn [bind ray_dir ray_ori].
      destruct (minus_some o c) as [q ->]. cbn [unwrap bind]. destruct (dot_bad q (nrm d) (or_intror Hn)) as [k [-> Hk]], (dot_some q q) as [k' ->]. cbn [unwrap bind].
      rewrite (bad_ngt k) by auto. cbn [andb].
      rewrite (bad_nlt (nsub Nm (nmul Nm k k) _)) by auto 9 with nan. rewrite !bad_nlt by auto 9 with nan.
      match goal with |- context [along ?u ?t ?o'] => destruct (along_bad u o' t) as [x [-> Hx]]; [auto 9 with nan |] end.
      exists x. split; [reflexivity | exact Hx].
    Qed.
  End Ray.

  (** ---- a plane whose stored normal has a NaN entry ---- *)
  Section Plane.
    Variables (o n u : mat3x1 Nm) (e : Nm) (P : shape Nm).
    Hypotheses (HP : mk_plane o n e P) (Hu : unit_of n u) (Hn : some_nan u).
    Lemma nan_plane_point p f Q : mk_point p f Q -> shape_get_intersect P Q = Ok miss.
    Proof.
      intro HQ. apply point_any in HQ as ->. apply plane_any in HP as ->. rewrite (unit_nrm _ _ Hu) in Hn.
      apply miss_any; cbn [core shape_get_shape_data pt_ori]; unfold plane_point; rewrite vec_at1; cbn [bind pl_normal pl_offset pl_vic].
      destruct (dot_bad (nrm n) o (or_introl Hn)) as [k [-> Hk]]; destruct (dot_some (nrm n) p) as [x ->]; cbn [unwrap bind].
      rewrite bad_within by auto 9 with nan; reflexivity.
    Qed.
    Lemma nan_plane_sphere c r f Q : mk_sphere c r f Q -> exists x, shape_get_intersect P Q = Ok (true, Some x) /\ all_nan x.
    Proof.
      intro HQ. apply sphere_any in HQ as ->. apply plane_any in HP as ->. rewrite (unit_nrm _ _ Hu) in Hn.
      rewrite hit_of by (rewrite (overlap_sym O); apply plane_overlap; reflexivity).
      cbn [core shape_get_shape_data pl_offset pl_normal]. unfold sphere_plane. rewrite vec_at_data, vec_at2. cbn [bind sp_ori sp_radius].
      destruct (dot_bad (nrm n) o (or_introl Hn)) as [k [-> Hk]], (dot_some (nrm n) c) as [k' ->]. cbn [unwrap bind]. rewrite bad_ngt by auto 9 with nan.
      match goal with |- context [along ?u ?t ?o'] => destruct (along_bad u o' t) as [x [-> Hx]]; [auto 9 with nan |] end.
      exists x. split; [reflexivity | exact Hx].
    Qed.
    Lemma nan_plane_ray p d f Q : mk_ray p d f Q -> exists x, shape_get_intersect P Q = Ok (true, Some x) /\ all_nan x.
    Proof.
      intro HQ. apply ray_any_eq in HQ as ->. apply plane_any in HP as ->. rewrite (unit_nrm _ _ Hu) in Hn.
      rewrite hit_of by (rewrite (overlap_sym O); apply plane_overlap; reflexivity).
      cbn [core shape_get_shape_data pl_offset pl_normal]. unfold ray_plane. rewrite vec_at_data, vec_at2. cbn [bind ray_dir ray_ori].
      destruct (dot_some o (nrm n)) as [k ->], (dot_some (nrm n) p) as [k' ->]. cbn [unwrap bind].
      destruct (dot_bad (nrm n) (nrm d) (or_introl Hn)) as [x [-> Hx]]. cbn [unwrap bind].
      rewrite bad_neqb, bad_ngt by auto. rewrite bad_nlt by auto 9 with nan.
      match goal with |- context [along ?u ?t ?o'] => destruct (along_bad u o' t) as [y [-> Hy]]; [auto 9 with nan |] end.
      exists y. split; [reflexivity | exact Hy].
    Qed.
  End Plane.
  (** the zero vector has no unit vector *)
  Lemma zero_unit (d u : mat3x1 Nm) : zero3 d -> unit_of d u -> all_nan u.
  Proof.
    intros H Hu. rewrite (unit_nrm _ _ Hu). destruct d as [[x y z]]. destruct H as [H1 [H2 H3]]. cbn.
    repeat split; apply (nl_zero _ L); assumption.
  Qed.
End PNan.
Lemma laws (Nm : Num) : library_arith Nm -> nan_laws Nm /\ exists O : ordered Nm, True.
Proof.
  intros [eps zs | prec emax Hp Hm lm].
  - split; [apply exact_laws | exists (exact_ordered eps zs); exact I].
  - split; [apply ieee_laws | exists (ieee_ordered prec emax lm); exact I].
Qed.
