(** PSimGjk.v — support points and GJK commute with moving and enlarging (C96). *)
From Coq Require Import Reals List ZArith NArith Bool Lra Lia.
Import ListNotations.
From Verif Require Import Base Num Vec Mat Bound Shape Intersect Gjk Exact SpecMat SpecGeom SpecBound SpecShape SpecBuild SpecSim ExactFacts Order PMat PBound PInter PBuild PSim.
Local Open Scope R_scope.

Definition rmap {A B} (f : A -> B) (r : res A) : res B := match r with Ok a => Ok (f a) | Panic k => Panic k end.
Section SimGjk.
  Context (eps : R) (zs : XR -> bool) (s : R) (t : V3) (Hs : 0 < s).
  Notation E := (Exact eps zs).
  Notation vh := (@moved_v eps zs s t).
  Notation vs := (vs eps zs).
  Notation msh := (msh eps zs s t).
  Lemma mnz k v : 0 < k -> magnitude_nonzero (vs k v) = magnitude_nonzero v.
  Proof. intro Hk. unfold magnitude_nonzero. rewrite !mag_e, s_mag by exact Hk. unfold nne. rewrite c_eq0 by exact Hk. reflexivity. Qed.
  Lemma sphere_support (x : sphere E) k v : 0 < k ->
    shape_get_support (msh (SSphere x)) (vs k v) = rmap (option_map vh) (shape_get_support (SSphere x) v).
  Proof.
    intro Hk. destruct x as [o r B w]. cbn [PSim.msh shape_get_support]. unfold sphere_get_support. rewrite mnz by exact Hk. cbn [sp_radius sp_ori].
    destruct (magnitude_nonzero v); [| reflexivity]. pures. rewrite s_nrm by exact Hk. rewrite s_times, h_plus by exact Hs. reflexivity.
  Qed.
  Lemma gjk_support_sim (x y : sphere E) k d : 0 < k ->
    gjk_support (msh (SSphere x)) (msh (SSphere y)) (vs k d) = rmap (option_map (vs s)) (gjk_support (SSphere x) (SSphere y) d).
  Proof.
    intro Hk. unfold gjk_support. rewrite sphere_support by exact Hk. destruct (shape_get_support (SSphere x) d) as [[p |] |]; cbn [rmap option_map bind]; try reflexivity.
    pures. rewrite s_times_l, sphere_support by exact Hk.
    destruct (shape_get_support (SSphere y) _) as [[q |] |]; cbn [rmap option_map bind]; try reflexivity. pures. rewrite h_minus. reflexivity.
  Qed.
  Lemma last_map (f : mat3x1 E -> mat3x1 E) l : last_vert (map f l) = rmap f (last_vert l).
  Proof. unfold last_vert. rewrite <- map_rev. destruct (rev l); reflexivity. Qed.
  Lemma idx_map (f : mat3x1 E -> mat3x1 E) l i : idx (map f l) i = rmap f (idx l i).
  Proof. unfold idx. rewrite nth_error_map. destruct (nth_error l i); reflexivity. Qed.
  Definition same_state (r' r : res (bool * list (mat3x1 E) * mat3x1 E)) : Prop :=
    match r', r with
    | Ok (c', l', d'), Ok (c, l, d) => c' = c /\ l' = map (vs s) l /\ exists k, 0 < k /\ d' = vs k d
    | Panic j, Panic k => j = k
    | _, _ => False
    end.
  Lemma st_if (c : bool) a b a' b' : same_state a' a -> same_state b' b -> same_state (if c then a' else b') (if c then a else b).
  Proof. destruct c; auto. Qed.
  Lemma contains_sim l k d : 0 < k -> same_state (contains_minkowski_origin (map (vs s) l) (vs k d)) (contains_minkowski_origin l d).
  Proof.
    intro Hk. unfold contains_minkowski_origin. rewrite last_map, map_length, !idx_map. destruct (last_vert l) as [a |]; cbn [rmap bind]; [| reflexivity].
    pose proof (ss s Hs) as S2. pose proof (sss s Hs) as S3. pures. apply st_if.
    - destruct (idx l 1) as [b |]; cbn [rmap bind]; [| reflexivity]. destruct (idx l 0) as [c |]; cbn [rmap bind]; [| reflexivity]. pures.
      rewrite !s_times_l, !s_minus by exact Hs. rewrite !s_cross by assumption. rewrite !s_dot by assumption.
      rewrite !c_gt0 by (apply Rmult_lt_0_compat; assumption). apply st_if; [| apply st_if].
      + destruct (idx l 2) as [e |]; cbn [rmap bind]; [| reflexivity]. repeat split. eexists. split; [| reflexivity]. exact S3.
      + destruct (idx l 2) as [e |]; cbn [rmap bind]; [| reflexivity]. repeat split. eexists. split; [| reflexivity]. exact S3.
      + repeat split. exists k. split; [exact Hk | reflexivity].
    - destruct (idx l 0) as [b |]; cbn [rmap bind]; [| reflexivity]. pures.
      rewrite !s_times_l, !s_minus by exact Hs. rewrite !s_cross by assumption. rewrite s_mag by exact S3. rewrite c_eq0 by exact S3. apply st_if.
      + repeat split. exists k. split; [exact Hk | reflexivity].
      + repeat split. eexists. split; [| reflexivity]. exact S3.
  Qed.
  Lemma loop_sim x y fuel l k d : 0 < k ->
    gjk_loop fuel (msh (SSphere x)) (msh (SSphere y)) (map (vs s) l) (vs k d) = gjk_loop fuel (SSphere x) (SSphere y) l d.
  Proof.
    revert l k d. induction fuel as [| f IH]; intros l k d Hk; [reflexivity |]. cbn [gjk_loop]. unfold gjk_iter. rewrite gjk_support_sim by exact Hk.
    destruct (gjk_support (SSphere x) (SSphere y) d) as [[p |] |]; cbn [rmap option_map bind unwrap]; try reflexivity.
    change [vs s p] with (map (vs s) [p]). rewrite <- map_app, map_length. destruct (assert _) as [[] |]; cbn [bind]; [| reflexivity].
    rewrite last_map. destruct (last_vert (l ++ [p])) as [a |]; cbn [rmap bind]; [| reflexivity].
    unfold pass_minkowski_origin. pures. rewrite s_dot, c_gt0 by (assumption || (apply Rmult_lt_0_compat; assumption)).
    destruct (negb _); [reflexivity |]. pose proof (contains_sim (l ++ [p]) k d Hk) as C.
    destruct (contains_minkowski_origin (l ++ [p]) d) as [[[c l1] d1] | j], (contains_minkowski_origin (map (vs s) (l ++ [p])) (vs k d)) as [[[c' l1'] d1'] | j']; cbn [same_state] in C; try contradiction; cbn [bind].
    - destruct C as [-> [-> [j [Hj ->]]]]. destruct c; [reflexivity |]. apply IH. exact Hj.
    - subst. reflexivity.
  Qed.
  Lemma gjk_sim_msh fuel x y : query_intersect fuel (msh x) (msh y) = query_intersect fuel x y.
  Proof.
    destruct x as [[]|[]|x|[]|[]|[]|[]]; try reflexivity. destruct y as [[]|[]|y|[]|[]|[]|[]]; try (destruct x; reflexivity).
    unfold query_intersect, gjk_start. replace (shape_get_type (msh (SSphere x))) with TSphere by (destruct x; reflexivity).
    replace (shape_get_type (msh (SSphere y))) with TSphere by (destruct y; reflexivity). cbn [shape_get_type bind].
    set (d := M3x1 (A3 minus1 n0 n0) : mat3x1 E). pose proof (gjk_support_sim x y 1 d Rlt_0_1) as G. rewrite vs_1 in G. rewrite G.
    destruct (gjk_support (SSphere x) (SSphere y) d) as [[p |] |]; cbn [rmap option_map bind unwrap]; try reflexivity. pures.
    rewrite <- (vs_1 eps zs (vtimes d minus1)) at 1. change [vs s p] with (map (vs s) [p]). apply loop_sim. lra.
  Qed.
  Theorem gjk_sim fuel D1 D2 x y x' y' : builds eps zs D1 x -> builds eps zs D2 y -> builds eps zs (moved s t D1) x' -> builds eps zs (moved s t D2) y' ->
    query_intersect fuel x' y' = query_intersect fuel x y.
  Proof.
    intros X Y X' Y'. destruct (builds_sim eps zs s t Hs D1 x x' X X') as [_ ->]. destruct (builds_sim eps zs s t Hs D2 y y' Y Y') as [_ ->]. apply gjk_sim_msh.
  Qed.

  (** ---- support points of all kinds ---- *)
  Notation evE := (ev eps zs).
  Definition pf (f : E -> E) (x : nat * E) : nat * E := (fst x, f (snd x)).
  Lemma max_from f x l : (forall x y, xcmp (f x) (f y) = xcmp x y) ->
    let c := fun a b : nat * E => unwrap (ncmp E (snd a) (snd b)) in max_by_from c (pf f x) (map (pf f) l) = rmap (pf f) (max_by_from c x l).
  Proof.
    intros H c. revert x. induction l as [| y l IH]; intro x; [reflexivity |]. cbn [max_by_from map]. unfold c at 1 3. cbn [pf snd ncmp Exact]. rewrite H.
    destruct (xcmp (snd x) (snd y)) as [[] |]; cbn [unwrap bind]; try reflexivity; rewrite <- IH; reflexivity.
  Qed.
  Lemma enum_map (f : E -> E) (l : list E) : enumerate (map f l) = map (pf f) (enumerate l).
  Proof. unfold enumerate. rewrite map_length. generalize (seq 0 (length l)). induction l as [| x l IH]; intros [| n m]; cbn; try reflexivity. rewrite IH. reflexivity. Qed.
  Lemma iter_dots (l : list (mat3x1 E)) v : iter_map l (fun x => unwrap (mat3x1_dot x v)) = Ok (map (fun x => vdotn x v) l).
  Proof. induction l as [| x l IH]; [reflexivity |]. cbn [iter_map map]. rewrite IH. pures. reflexivity. Qed.
  Lemma furthest_sim (f : E -> E) (m : mat3x1 E -> mat3x1 E) l v v' : (forall x y, xcmp (f x) (f y) = xcmp x y) ->
    (forall p, In p l -> vdotn (m p) v' = f (vdotn p v)) -> furthest_index (map m l) v' = furthest_index l v.
  Proof.
    intros H1 H2. unfold furthest_index. rewrite !iter_dots. cbn [bind]. rewrite map_map.
    assert (map (fun x => vdotn (m x) v') l = map f (map (fun x => vdotn x v) l)) as ->.
    { rewrite map_map. apply map_ext_in. exact H2. }
    rewrite enum_map. destruct (enumerate (map (fun x => vdotn x v) l)) as [| x r]; [reflexivity |]. cbn [max_by map]. rewrite max_from by exact H1.
    destruct (max_by_from _ x r) as [[i z] |]; reflexivity.
  Qed.
  Lemma box_support (x : recbox E) k v : 0 < k -> shape_get_support (msh (SBox x)) (vs k v) = rmap (option_map vh) (shape_get_support (SBox x) v).
  Proof.
    intro Hk. destruct x as [o h B w]. cbn [PSim.msh shape_get_support]. unfold recbox_get_support. rewrite mnz by exact Hk. cbn [bx_size bx_ori].
    destruct (magnitude_nonzero v); [| reflexivity].
    assert (recbox_corners (xs s h : E) = map (vs s) (recbox_corners h)) as ->.
    { unfold recbox_corners. cbn [map PSim.vs nneg Exact]. rewrite !xs_neg. reflexivity. }
    rewrite (furthest_sim (xs (s * k) : E -> E) (vs s) _ v (vs k v)).
    - destruct (furthest_index _ v) as [i |]; cbn [bind]; [| reflexivity]. rewrite idx_map. destruct (idx _ i) as [p |]; cbn [rmap bind]; [| reflexivity].
      pures. rewrite h_plus. reflexivity.
    - intros a b. apply xs_cmp. nra.
    - intros p _. apply s_dot; assumption.
  Qed.
  Definition prism_ok (x : triprism E) : Prop := forall p, In p (list3 (tp_base x) ++ list3 (tp_base2 x)) -> fin eps zs p \/ p = nanv eps zs.
  Lemma prism_support (x : triprism E) k u : 0 < k -> prism_ok x ->
    shape_get_support (msh (SPrism x)) (vs k (evE u)) = rmap (option_map vh) (shape_get_support (SPrism x) (evE u)).
  Proof.
    intros Hk Ok. destruct x as [p q h B w]. cbn [PSim.msh shape_get_support]. unfold triprism_get_support. rewrite mnz by exact Hk. cbn [tp_base tp_base2].
    destruct (magnitude_nonzero (evE u)); [| reflexivity].
    assert (list3 (ma eps zs vh p) ++ list3 (ma eps zs vh q) = map vh (list3 p ++ list3 q)) as -> by (destruct p, q; reflexivity).
    rewrite (furthest_sim (moved_x (s * k) (k * vdot t u) : E -> E) vh _ (evE u) (vs k (evE u))).
    - destruct (furthest_index _ (evE u)) as [i |]; cbn [bind]; [| reflexivity]. rewrite idx_map. destruct (idx _ i) as [z |]; reflexivity.
    - intros a b. apply xh_cmp. nra.
    - intros z Hz. destruct (Ok z Hz) as [[c ->] | ->].
      + unfold vdotn. cbn. f_equal. unfold vdot. ring.
      + unfold vdotn. cbn. reflexivity.
  Qed.
  (** every kind of shape; the direction may be any positive multiple *)
  Theorem support_sim D x x' k u : 0 < k -> builds eps zs D x -> builds eps zs (moved s t D) x' ->
    shape_get_support x' (evE (vscale k u)) = rmap (option_map vh) (shape_get_support x (evE u)).
  Proof.
    intros Hk X X'. pose proof (builds_sim eps zs s t Hs D x x' X X') as [W ->]. change (evE (vscale k u)) with (vs k (evE u)).
    destruct x as [[o b w]|[]|x|[]|[]|x|x]; try reflexivity.
    - apply sphere_support. exact Hk.
    - apply box_support. exact Hk.
    - apply prism_support; [exact Hk |]. destruct D; cbn [builds] in X; try (destruct X as [z [_ Z]]; discriminate Z).
      apply (prism_any (evE a) (evE b) (evE c) (Fin h) (Fin e)) in X. injection X as ->. pose proof (hvec_ok eps zs a b c h) as K. cbn zeta in K.
      intros p Hp. cbn [tp_base tp_base2 list3 app In] in Hp.
      assert (forall z, vplus (evE z) (hvec (evE a) (evE b) (evE c) (Fin h : E)) = nanv eps zs \/ fin eps zs (vplus (evE z) (hvec (evE a) (evE b) (evE c) (Fin h : E)))) as Q.
      { intro z. destruct K as [-> | [w ->]]; [left; reflexivity | right; exists (vadd z w); reflexivity]. }
      decompose [or] Hp; try contradiction; subst; try (left; eexists; reflexivity); destruct (Q a), (Q b), (Q c); tauto.
  Qed.
End SimGjk.
