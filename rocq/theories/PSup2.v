(** PSup2.v — support points and the GJK loop whatever the arithmetic: when get_support panics (C70), and the only way
    the GJK query can panic on spheres (C69). *)
From Coq Require Import Reals List ZArith NArith Bool Lra Lia Arith.
Import ListNotations.
From Verif Require Import Base Num Vec Mat Bound Shape Gjk Exact Order FloatFacts.

Section Any.
  Context {Nm : Num} (O : ordered Nm).
  Notation "# a" := (emb O a) (at level 9).
  Local Open Scope num_scope.

  Definition vdotn (a b : mat3x1 Nm) : Nm :=
    match a, b with M3x1 (A3 a0 a1 a2), M3x1 (A3 b0 b1 b2) => a0 * b0 + a1 * b1 + a2 * b2 end.
  Lemma dot_any a b : mat3x1_dot a b = Some (vdotn a b).
  Proof. destruct a as [[a0 a1 a2]], b as [[b0 b1 b2]]. reflexivity. Qed.
  Lemma dots_any v pts : iter_map pts (fun x => unwrap (mat3x1_dot x v)) = Ok (map (fun q => vdotn q v) pts).
  Proof. induction pts as [| p pts IH]; [reflexivity |]. cbn [map iter_map]. rewrite dot_any. cbn [unwrap bind]. rewrite IH. reflexivity. Qed.

  Notation cmpf := (fun a b : nat * Nm => unwrap (ncmp Nm (snd a) (snd b))).
  Lemma cmp_cases (x y : Nm) :
    (#x = NaN \/ #y = NaN) /\ ncmp Nm x y = None \/
    (#x <> NaN /\ #y <> NaN) /\ exists c, ncmp Nm x y = Some c /\ (c = Gt -> xle #y #x) /\ (c <> Gt -> xle #x #y).
  Proof.
    rewrite (emb_cmp O). destruct (emb O x), (emb O y); simpl;
      try (left; split; [tauto | reflexivity]); right; (split; [split; discriminate |]);
      repeat match goal with |- context [Rlt_dec ?x ?y] => destruct (Rlt_dec x y) end;
      eexists; (split; [reflexivity |]); split; intro; try discriminate; try tauto; try congruence; try lra.
  Qed.
  Lemma from_any (v : mat3x1 Nm) pts : forall i j x,
    ((#x = NaN /\ pts <> [] \/ exists q, In q pts /\ #(vdotn q v) = NaN) /\
      max_by_from cmpf (i, x) (combine (seq j (length pts)) (map (fun q => vdotn q v) pts)) = Panic PUnwrap) \/
    ((#x <> NaN \/ pts = []) /\ (forall q, In q pts -> #(vdotn q v) <> NaN) /\
      exists m y, max_by_from cmpf (i, x) (combine (seq j (length pts)) (map (fun q => vdotn q v) pts)) = Ok (m, y) /\
        (#x <> NaN -> xle #x #y) /\ (forall q, In q pts -> xle #(vdotn q v) #y) /\
        ((m = i /\ y = x) \/ exists k q, m = (j + k)%nat /\ nth_error pts k = Some q /\ y = vdotn q v)).
  Proof.
    induction pts as [| p pts IH]; intros i j x.
    - right. split; [right; reflexivity |]. split; [intros q [] |]. exists i, x. cbn. split; [reflexivity |].
      split; [intro; apply xle_refl; assumption |]. split; [intros q [] | left; split; reflexivity].
    - cbn [length seq map combine max_by_from]. cbn [snd].
      destruct (cmp_cases x (vdotn p v)) as [[Hn ->] | [[Hx Hp] [c [-> [C1 C2]]]]].
      { left. cbn [unwrap bind]. split; [| reflexivity]. destruct Hn as [H | H]; [left; split; [exact H | discriminate] | right; exists p; split; [left; reflexivity | exact H]]. }
      cbn [unwrap bind]. destruct c.
      1, 2: assert (Hle : xle #x #(vdotn p v)) by (apply C2; discriminate);
        destruct (IH j (S j) (vdotn p v)) as [[Hn ->] | [_ [Hall [m [y [-> [H1 [H2 H3]]]]]]]];
        [left; split; [right; destruct Hn as [[H _] | [q [Hq H]]]; [contradiction | exists q; split; [right; exact Hq | exact H]] | reflexivity] |];
        right; split; [left; exact Hx |]; split; [intros q [<- | Hq]; [exact Hp | apply Hall, Hq] |]; exists m, y; split; [reflexivity |];
        (split; [intros _; eapply xle_trans; [exact Hle | apply H1, Hp] |]); (split; [intros q [<- | Hq]; [apply H1, Hp | apply H2, Hq] |]); right;
        (destruct H3 as [[-> ->] | [k [q [-> [Hk ->]]]]]; [exists 0%nat, p; split; [lia | split; reflexivity] | exists (S k), q; split; [lia | split; [exact Hk | reflexivity]]]).
      assert (Hle : xle #(vdotn p v) #x) by (apply C1; reflexivity).
      destruct (IH i (S j) x) as [[Hn ->] | [_ [Hall [m [y [-> [H1 [H2 H3]]]]]]]].
      + left. split; [right; destruct Hn as [[H _] | [q [Hq H]]]; [contradiction | exists q; split; [right; exact Hq | exact H]] | reflexivity].
      + right. split; [left; exact Hx |]. split; [intros q [<- | Hq]; [exact Hp | apply Hall, Hq] |]. exists m, y. split; [reflexivity |].
        split; [exact H1 |]. split; [intros q [<- | Hq]; [eapply xle_trans; [exact Hle | apply H1, Hx] | apply H2, Hq] |].
        destruct H3 as [[-> ->] | [k [q [-> [Hk ->]]]]]; [left; split; reflexivity | right; exists (S k), q; split; [lia | split; [exact Hk | reflexivity]]].
  Qed.
  Lemma furthest_any v p0 p1 pts :
    ((exists q, In q (p0 :: p1 :: pts) /\ nisnan (vdotn q v) = true) -> furthest_index (p0 :: p1 :: pts) v = Panic PUnwrap) /\
    ((forall q, In q (p0 :: p1 :: pts) -> nisnan (vdotn q v) = false) -> exists f p, furthest_index (p0 :: p1 :: pts) v = Ok f /\
      nth_error (p0 :: p1 :: pts) f = Some p /\ forall q, In q (p0 :: p1 :: pts) -> nle (vdotn q v) (vdotn p v) = true).
  Proof.
    unfold furthest_index. rewrite dots_any. cbn [bind]. unfold max_by, enumerate. cbn [map length seq combine]. rewrite map_length.
    pose proof (from_any v (p1 :: pts) 0%nat 1%nat (vdotn p0 v)) as F. cbn [map length seq combine] in F.
    destruct F as [[Hn ->] | [Hx [Hall [m [y [-> [H1 [H2 H3]]]]]]]]; cbn [bind unwrap fst]; (split; [intros [q [Hq Hnan]] | intro Hno]).
    - reflexivity.
    - exfalso. destruct Hn as [[H _] | [q [Hq H]]]; apply (nisnan_iff O) in H; rewrite Hno in H; try discriminate H; [left; reflexivity | right; exact Hq].
    - exfalso. apply (nisnan_iff O) in Hnan. destruct Hq as [<- | Hq]; [destruct Hx as [Hx | Hx]; [contradiction | discriminate Hx] | exact (Hall q Hq Hnan)].
    - assert (X0 : #(vdotn p0 v) <> NaN) by (intro C; apply (nisnan_iff O) in C; rewrite Hno in C by (left; reflexivity); discriminate C).
      destruct H3 as [[-> ->] | [k [q [-> [Hk ->]]]]].
      + exists 0%nat, p0. split; [reflexivity |]. split; [reflexivity |]. intros q [<- | Hq]; apply (nle_iff O); [apply xle_refl; exact X0 | apply H2, Hq].
      + exists (1 + k)%nat, q. split; [reflexivity |]. split; [exact Hk |]. intros q' [<- | Hq]; apply (nle_iff O); [apply H1, X0 | apply H2, Hq].
  Qed.

  (** ---- boxes ---- *)
  Lemma corner_in (h s0 s1 s2 : Nm) : In s0 [h; - h] -> In s1 [h; - h] -> In s2 [h; - h] -> In (M3x1 (A3 s0 s1 s2)) (recbox_corners h).
  Proof. intros [<- | [<- | []]] [<- | [<- | []]] [<- | [<- | []]]; cbn [recbox_corners In]; tauto. Qed.
  Lemma corner_inv (h : Nm) q : In q (recbox_corners h) -> exists s0 s1 s2, In s0 [h; - h] /\ In s1 [h; - h] /\ In s2 [h; - h] /\ q = M3x1 (A3 s0 s1 s2).
  Proof.
    cbn [recbox_corners In]. intros H.
    repeat (destruct H as [<- | H]; [do 3 eexists; split; [| split; [| split; [| reflexivity]]]; cbn [In]; tauto |]). contradiction.
  Qed.
  Definition prods (h v0 v1 v2 : Nm) (P : Nm -> Nm -> Nm -> Nm -> Prop) : Prop :=
    forall s0 s1 s2, In s0 [h; - h] -> In s1 [h; - h] -> In s2 [h; - h] -> P s0 s1 s2 (s0 * v0 + s1 * v1 + s2 * v2).
  Lemma box_any (c0 c1 c2 h v0 v1 v2 : Nm) B e : recbox_init [c0; c1; c2] h = Ok B -> neqb (nsqrt Nm (npowi2 v0 + npowi2 v1 + npowi2 v2)) n0 = false ->
    ((exists s0 s1 s2, In s0 [h; - h] /\ In s1 [h; - h] /\ In s2 [h; - h] /\ nisnan (s0 * v0 + s1 * v1 + s2 * v2) = true) ->
      shape_get_support (shape_set_vicinity (SBox B) e) (M3x1 (A3 v0 v1 v2)) = Panic PUnwrap) /\
    ((forall s0 s1 s2, In s0 [h; - h] -> In s1 [h; - h] -> In s2 [h; - h] -> nisnan (s0 * v0 + s1 * v1 + s2 * v2) = false) ->
      exists s0 s1 s2, In s0 [h; - h] /\ In s1 [h; - h] /\ In s2 [h; - h] /\
        shape_get_support (shape_set_vicinity (SBox B) e) (M3x1 (A3 v0 v1 v2)) = Ok (Some (M3x1 (A3 (c0 + s0) (c1 + s1) (c2 + s2)))) /\
        forall t0 t1 t2, In t0 [h; - h] -> In t1 [h; - h] -> In t2 [h; - h] -> nle (t0 * v0 + t1 * v1 + t2 * v2) (s0 * v0 + s1 * v1 + s2 * v2) = true).
  Proof.
    intros HB Hm. cbn in HB. injection HB as <-. cbn [shape_set_vicinity shape_get_support]. unfold recbox_get_support, magnitude_nonzero. cbn [mat3x1_magnitude].
    change (nne (nsqrt Nm (npowi2 v0 + npowi2 v1 + npowi2 v2)) n0) with (negb (neqb (nsqrt Nm (npowi2 v0 + npowi2 v1 + npowi2 v2)) n0)). rewrite Hm. cbn [negb bx_size bx_ori].
    unfold recbox_corners at 1 3.
    destruct (furthest_any (M3x1 (A3 v0 v1 v2)) (M3x1 (A3 h h h)) (M3x1 (A3 (- h) h h)) (tl (tl (recbox_corners h)))) as [F1 F2].
    cbn [recbox_corners tl] in F1, F2. split.
    - intros [s0 [s1 [s2 [H0 [H1 [H2 Hn]]]]]]. rewrite F1; [reflexivity |]. exists (M3x1 (A3 s0 s1 s2)). split; [exact (corner_in h s0 s1 s2 H0 H1 H2) | exact Hn].
    - intro Hno. destruct F2 as [f [p [-> [Hp Hmax]]]].
      { intros q Hq. change (In q (recbox_corners h)) in Hq. apply corner_inv in Hq. destruct Hq as [s0 [s1 [s2 [H0 [H1 [H2 ->]]]]]]. exact (Hno s0 s1 s2 H0 H1 H2). }
      cbn [bind]. change (nth_error (recbox_corners h) f = Some p) in Hp. unfold idx. rewrite Hp.
      apply nth_error_In, corner_inv in Hp. destruct Hp as [s0 [s1 [s2 [H0 [H1 [H2 ->]]]]]]. exists s0, s1, s2. split; [exact H0 |]. split; [exact H1 |]. split; [exact H2 |].
      split; [reflexivity |]. intros t0 t1 t2 T0 T1 T2. exact (Hmax (M3x1 (A3 t0 t1 t2)) (corner_in h t0 t1 t2 T0 T1 T2)).
  Qed.
  (** ---- prisms, whatever their fields ---- *)
  Lemma prism_any (T : triprism Nm) (v0 v1 v2 : Nm) : neqb (nsqrt Nm (npowi2 v0 + npowi2 v1 + npowi2 v2)) n0 = false ->
    let verts := list3 (tp_base T) ++ list3 (tp_base2 T) in let v := M3x1 (A3 v0 v1 v2) in
    ((exists q, In q verts /\ nisnan (vdotn q v) = true) -> shape_get_support (SPrism T) v = Panic PUnwrap) /\
    ((forall q, In q verts -> nisnan (vdotn q v) = false) ->
      exists p, shape_get_support (SPrism T) v = Ok (Some p) /\ In p verts /\ forall q, In q verts -> nle (vdotn q v) (vdotn p v) = true).
  Proof.
    intros Hm verts v. cbn [shape_get_support]. unfold triprism_get_support, magnitude_nonzero, v. cbn [mat3x1_magnitude].
    change (nne (nsqrt Nm (npowi2 v0 + npowi2 v1 + npowi2 v2)) n0) with (negb (neqb (nsqrt Nm (npowi2 v0 + npowi2 v1 + npowi2 v2)) n0)). rewrite Hm. cbn [negb].
    fold verts. fold v. destruct (tp_base T) as [p0 p1 p2] eqn:E1, (tp_base2 T) as [q0 q1 q2] eqn:E2. cbn [list3 app] in verts.
    destruct (furthest_any v p0 p1 [p2; q0; q1; q2]) as [F1 F2]. fold verts in F1, F2. split.
    - intro H. rewrite (F1 H). reflexivity.
    - intro H. destruct (F2 H) as [f [p [-> [Hp Hmax]]]]. cbn [bind]. unfold idx. rewrite Hp. cbn [bind]. exists p. split; [reflexivity |].
      split; [exact (nth_error_In _ _ Hp) | exact Hmax].
  Qed.
End Any.

(** ---- GJK on spheres, any arithmetic ---- *)
Section GjkAny.
  Context {Nm : Num}.
  Lemma sphere_support_any (s : sphere Nm) v : exists o, sphere_get_support s v = Ok o.
  Proof.
    unfold sphere_get_support. destruct (magnitude_nonzero v); [| eexists; reflexivity]. destruct v as [[v0 v1 v2]]. destruct (sp_ori s) as [[o0 o1 o2]] eqn:Ho.
    unfold normalize_unwrap, mat3x1_normalize. cbn [mat3x1_magnitude unwrap bind mat3x1_scale]. rewrite ?Ho. cbn [mat3x1_plus unwrap bind]. eexists. reflexivity.
  Qed.
  Lemma gjk_support_any (a b : sphere Nm) v : exists o, gjk_support (SSphere a) (SSphere b) v = Ok o.
  Proof.
    unfold gjk_support. cbn [shape_get_support]. destruct (sphere_support_any a v) as [[p |] ->]; cbn [bind]; [| eexists; reflexivity].
    destruct v as [[v0 v1 v2]]. cbn [mat3x1_scale unwrap bind]. destruct (sphere_support_any b (M3x1 (A3 (nmul Nm v0 minus1) (nmul Nm v1 minus1) (nmul Nm v2 minus1)))) as [[q |] ->]; cbn [bind]; [| eexists; reflexivity].
    destruct p as [[p0 p1 p2]], q as [[q0 q1 q2]]. cbn [mat3x1_minus unwrap bind]. eexists. reflexivity.
  Qed.
  Lemma iter_any (a b : sphere Nm) s d : length s = 1%nat \/ length s = 2%nat ->
    gjk_iter (SSphere a) (SSphere b) s d = Panic PUnwrap \/ (exists r, gjk_iter (SSphere a) (SSphere b) s d = Ok (inl (Some r))) \/
    exists s' d', gjk_iter (SSphere a) (SSphere b) s d = Ok (inr (s', d')) /\ length s' = 2%nat.
  Proof.
    intro Hs. unfold gjk_iter. destruct (gjk_support_any a b d) as [[x |] ->]; cbn [bind unwrap]; [| left; reflexivity]. right.
    destruct x as [[x0 x1 x2]], d as [[d0 d1 d2]].
    destruct s as [| [[p0 p1 p2]] s]; [simpl in Hs; lia |]. destruct s as [| [[q0 q1 q2]] s]; [| destruct s; [| simpl in Hs; lia]].
    - cbn. destruct (ngt _ _); cbn; [| left; eexists; reflexivity]. destruct (neqb _ _); cbn; [left; eexists; reflexivity | right; eexists; eexists; split; reflexivity].
    - cbn. destruct (ngt _ _); cbn; [| left; eexists; reflexivity]. destruct (ngt _ _); cbn; [right; eexists; eexists; split; reflexivity |].
      destruct (ngt _ _); cbn; [right; eexists; eexists; split; reflexivity | left; eexists; reflexivity].
  Qed.
  Lemma loop_any (a b : sphere Nm) f : forall s d, length s = 1%nat \/ length s = 2%nat ->
    gjk_loop f (SSphere a) (SSphere b) s d = OutOfFuel \/ gjk_loop f (SSphere a) (SSphere b) s d = Done (Panic PUnwrap) \/
    exists r, gjk_loop f (SSphere a) (SSphere b) s d = Done (Ok (Some r)).
  Proof.
    induction f as [| f IH]; intros s d Hs; [left; reflexivity |]. cbn [gjk_loop].
    destruct (iter_any a b s d Hs) as [-> | [[r ->] | [s' [d' [-> Hl]]]]]; [right; left; reflexivity | right; right; exists r; reflexivity |].
    apply IH. right. exact Hl.
  Qed.
  Lemma query_any (a b : sphere Nm) f :
    query_intersect f (SSphere a) (SSphere b) = OutOfFuel \/ query_intersect f (SSphere a) (SSphere b) = Done (Panic PUnwrap) \/
    exists r, query_intersect f (SSphere a) (SSphere b) = Done (Ok (Some r)).
  Proof.
    unfold query_intersect, gjk_start. cbn [shape_get_type bind].
    destruct (gjk_support_any a b (M3x1 (A3 minus1 n0 n0))) as [[x |] ->]; cbn [bind unwrap]; [| right; left; reflexivity].
    cbn [mat3x1_scale unwrap bind]. apply loop_any. left. reflexivity.
  Qed.
End GjkAny.
