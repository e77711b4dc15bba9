(** PMirror3.v — the GJK query on mirror images that keep the x axis (C108). *)
From Coq Require Import Reals List ZArith NArith Bool Lra Lia.
From Flocq Require Import Core BinarySingleNaN.
Import ListNotations.
From Verif Require Import Base Num Vec Mat Bound Shape Intersect Gjk Float FloatFacts FloatRound Order SpecMat SpecGeom SpecBound SpecBuild SpecMirror
  PMat PBound PShape PInter PBuild PRound PIeee1 PIeee2 PMirror PMirror1.

Section Any.
  Context {Nm : Num}.
  Local Open Scope num_scope.
  Notation vec := (mat3x1 Nm).
  Definition reach (c : vec) (r : Nm) (v : vec) : option vec := if nne (vmag v) n0 then Some (vplus c (vtimes (nrm v) r)) else None.
  Definition mink (c : vec) (r : Nm) (c' : vec) (r' : Nm) (v : vec) : option vec :=
    match reach c r v, reach c' r' (vtimes v minus1) with Some p, Some q => Some (vminus p q) | _, _ => None end.
  Lemma reach_any c r b e v : shape_get_support (SSphere (MkSphere c r b e)) v = Ok (reach c r v).
  Proof.
    destruct c as [[x y z]], v as [[u w t]]. cbn [shape_get_support]. unfold sphere_get_support, magnitude_nonzero. cbn [mat3x1_magnitude]. unfold reach.
    change (vmag (M3x1 (A3 u w t))) with (nsqrt Nm (npowi2 u + npowi2 w + npowi2 t)). destruct (nne _ n0); reflexivity.
  Qed.
  Lemma mink_any c r b e c' r' b' e' v : gjk_support (SSphere (MkSphere c r b e)) (SSphere (MkSphere c' r' b' e')) v = Ok (mink c r c' r' v).
  Proof.
    unfold gjk_support, mink. rewrite reach_any. cbn [bind]. destruct (reach c r v) as [p |]; [| reflexivity].
    assert (S1 : mat3x1_scale v minus1 = Some (vtimes v minus1)) by (destruct v as [[]]; reflexivity). rewrite S1. cbn [unwrap bind]. rewrite reach_any. cbn [bind].
    destruct (reach c' r' _) as [q |]; [| reflexivity]. destruct p as [[]], q as [[]]. reflexivity.
  Qed.
  Definition first (p a d : vec) : option bool + list vec * vec :=
    let ao := vtimes a minus1 in let ab := vminus p a in let n := vcrossn (vcrossn ab ao) ao in
    if negb (ngt (vdotn a d) n0) then inl (Some false) else if neqb (vmag n) n0 then inl (Some true) else inr ([p; a], n).
  Definition next (p q a d : vec) : option bool + list vec * vec :=
    let ao := vtimes a minus1 in let ab := vminus q a in let ac := vminus p a in
    let nb := vcrossn (vcrossn ac ab) ab in let nc := vcrossn (vcrossn ab ac) ac in
    if negb (ngt (vdotn a d) n0) then inl (Some false)
    else if ngt (vdotn nb ao) n0 then inr ([q; a], nb) else if ngt (vdotn nc ao) n0 then inr ([p; a], nc) else inl (Some true).
  Lemma iter_one_any c r b e c' r' b' e' p d : gjk_iter (SSphere (MkSphere c r b e)) (SSphere (MkSphere c' r' b' e')) [p] d =
    match mink c r c' r' d with None => Panic PUnwrap | Some a => Ok (first p a d) end.
  Proof.
    unfold gjk_iter. rewrite mink_any. cbn [bind]. destruct (mink _ _ _ _ d) as [a |]; [| reflexivity]. destruct p as [[]], a as [[]], d as [[]]. unfold first, vmag, vdotn, npowi2. cbn. unfold npowi2.
    repeat match goal with |- context [if negb (ngt ?x n0) then _ else _] => destruct (ngt x n0); cbn | |- context [if neqb ?x n0 then _ else _] => destruct (neqb x n0); cbn end; reflexivity.
  Qed.
  Lemma iter_two_any c r b e c' r' b' e' p q d : gjk_iter (SSphere (MkSphere c r b e)) (SSphere (MkSphere c' r' b' e')) [p; q] d =
    match mink c r c' r' d with None => Panic PUnwrap | Some a => Ok (next p q a d) end.
  Proof.
    unfold gjk_iter. rewrite mink_any. cbn [bind]. destruct (mink _ _ _ _ d) as [a |]; [| reflexivity]. destruct p as [[]], q as [[]], a as [[]], d as [[]]. unfold next, vdotn. cbn.
    repeat match goal with |- context [if negb (ngt ?x n0) then _ else _] => destruct (ngt x n0); cbn | |- context [if ngt ?x n0 then _ else _] => destruct (ngt x n0); cbn end; reflexivity.
  Qed.
  Lemma start_any c r b e c' r' b' e' : gjk_start (SSphere (MkSphere c r b e)) (SSphere (MkSphere c' r' b' e')) =
    let d := M3x1 (A3 minus1 n0 n0) in match mink c r c' r' d with None => Panic PUnwrap | Some a => Ok ([a], vtimes d minus1) end.
  Proof. unfold gjk_start. cbn [shape_get_type bind]. rewrite mink_any. cbn [bind]. cbv zeta. destruct (mink _ _ _ _ _); reflexivity. Qed.
End Any.

Section Mirror3.
  Context (prec emax : Z) {Hp : Prec_gt_0 prec} {Hm : Prec_lt_emax prec emax} (lm : libm (binary_float prec emax)).
  Notation bf := (binary_float prec emax).
  Notation F := (@Ieee prec emax Hp Hm lm).
  Notation E := (E prec emax).
  Notation Ev := (Ev prec emax lm).
  Notation vec := (mat3x1 F).
  Variable s : signs.
  Notation fl := (flip s).
  Definition Eo (a' a : option vec) : Prop := match a', a with Some p', Some p => Ev s p' p | None, None => True | _, _ => False end.
  Lemma Ev_nrm (v v' : vec) : Ev s v' v -> Ev s (nrm v') (nrm v).
  Proof.
    intro H. pose proof (mag_E prec emax lm s v v' H) as M. destruct v as [[x y z]], v' as [[x' y' z']]. destruct H as (A & B & C). unfold vmag in M. cbn [c0 c1 c2] in *. unfold nrm. rewrite M.
    repeat split; cbn [c0 c1 c2]; match goal with |- PMirror.E _ _ ?b (ndiv _ ?x ?m) _ => rewrite <- (xorb_false_r b); change m with (sgn false m) at 1; apply E_div; assumption end.
  Qed.
  Lemma Eo_reach (c v v' : vec) (r : F) : Ev s v' v -> Eo (reach (Nm := F) (fl c) r v') (reach c r v).
  Proof.
    intro H. unfold reach. rewrite (mag_E prec emax lm s v v' H). destruct (nne _ n0); [| exact I].
    apply Ev_plus; [apply Ev_flip |]. apply Ev_times; [apply Ev_nrm; exact H | apply E_refl].
  Qed.
  Lemma Eo_mink (c c' v v' : vec) (r r' : F) : Ev s v' v -> Eo (mink (Nm := F) (fl c) r (fl c') r' v') (mink c r c' r' v).
  Proof.
    intro H. unfold mink. pose proof (Eo_reach c v v' r H) as A.
    pose proof (Eo_reach c' _ _ r' (Ev_times prec emax lm s _ _ minus1 minus1 H (E_refl prec emax _))) as B.
    destruct (reach (Nm := F) (fl c) r v'), (reach c r v); try contradiction A; destruct (reach (Nm := F) (fl c') _ _), (reach c' _ _); try contradiction B; try exact I. apply Ev_minus; assumption.
  Qed.
  Lemma Ev_triple (u u' v v' w w' : vec) : Ev s u' u -> Ev s v' v -> Ev s w' w -> Ev s (vcrossn (vcrossn u' v') w') (vcrossn (vcrossn u v) w).
  Proof.
    intros U V W. pose proof (Ev_cross prec emax lm (ax s) s _ _ _ _ (Ev_cross_same prec emax lm s _ _ _ _ U V) W) as H.
    destruct s as [[] [] []]; apply H; reflexivity.
  Qed.
  Definition El (l' l : list vec) : Prop := match l', l with [p'], [p] => Ev s p' p | [p'; q'], [p; q] => Ev s p' p /\ Ev s q' q | _, _ => False end.
  Definition Es (a' a : option bool + list vec * vec) : Prop :=
    match a', a with inl x', inl x => x' = x | inr (l', d'), inr (l, d) => El l' l /\ Ev s d' d | _, _ => False end.
  Lemma first_E (p p' a a' d d' : vec) : Ev s p' p -> Ev s a' a -> Ev s d' d -> Es (first p' a' d') (first p a d).
  Proof.
    intros P A D. unfold first. cbv zeta.
    pose proof (Ev_times prec emax lm s _ _ minus1 minus1 A (E_refl prec emax _)) as O. pose proof (Ev_minus prec emax lm s _ _ _ _ P A) as AB.
    pose proof (Ev_triple _ _ _ _ _ _ AB O O) as N. rewrite (gt_E prec emax lm _ _ _ _ (E_dot_same prec emax lm s _ _ _ _ A D) (E_zero prec emax lm false)), (mag_E prec emax lm s _ _ N).
    destruct (negb _); [reflexivity |]. destruct (neqb _ _); [reflexivity |]. repeat split; assumption || (destruct P, A, N; tauto).
  Qed.
  Lemma next_E (p p' q q' a a' d d' : vec) : Ev s p' p -> Ev s q' q -> Ev s a' a -> Ev s d' d -> Es (next p' q' a' d') (next p q a d).
  Proof.
    intros P Q A D. unfold next. cbv zeta.
    pose proof (Ev_times prec emax lm s _ _ minus1 minus1 A (E_refl prec emax _)) as O. pose proof (Ev_minus prec emax lm s _ _ _ _ Q A) as AB. pose proof (Ev_minus prec emax lm s _ _ _ _ P A) as AC.
    pose proof (Ev_triple _ _ _ _ _ _ AC AB AB) as N. pose proof (Ev_triple _ _ _ _ _ _ AB AC AC) as N'. pose proof (E_zero prec emax lm false) as Z0.
    rewrite (gt_E prec emax lm _ _ _ _ (E_dot_same prec emax lm s _ _ _ _ A D) Z0), (gt_E prec emax lm _ _ _ _ (E_dot_same prec emax lm s _ _ _ _ N O) Z0), (gt_E prec emax lm _ _ _ _ (E_dot_same prec emax lm s _ _ _ _ N' O) Z0).
    destruct (negb _); [reflexivity |]. destruct (ngt _ _); [split; [split |]; assumption |]. destruct (ngt _ _); [split; [split |]; assumption | reflexivity].
  Qed.
  Lemma loop_E c r b1 b2 e c' r' b1' b2' e' : forall fuel (l l' : list vec) (d d' : vec), El l' l -> Ev s d' d ->
    gjk_loop (N := F) fuel (SSphere (MkSphere (fl c) r b2 e)) (SSphere (MkSphere (fl c') r' b2' e')) l' d' = gjk_loop (N := F) fuel (SSphere (MkSphere c r b1 e)) (SSphere (MkSphere c' r' b1' e')) l d.
  Proof.
    induction fuel as [| f IH]; intros l l' d d' L D; [reflexivity |]. cbn [gjk_loop]. pose proof (Eo_mink c c' d d' r r' D) as M.
    destruct l as [| p [| q [| t l]]], l' as [| p' [| q' [| t' l']]]; try contradiction L.
    - rewrite !(iter_one_any (Nm := F)). destruct (mink (Nm := F) (fl c) _ _ _ _) as [a' |], (mink (Nm := F) c _ _ _ _) as [a |]; try contradiction M; [| reflexivity].
      pose proof (first_E p p' a a' d d' L M D) as S1. destruct (first p' a' d') as [x' | [l' n']], (first p a d) as [x | [l n]]; try contradiction S1; cbn in S1; [rewrite S1; reflexivity |].
      destruct S1 as [L1 N1]. apply IH; assumption.
    - rewrite !(iter_two_any (Nm := F)). destruct L as [L1 L2]. destruct (mink (Nm := F) (fl c) _ _ _ _) as [a' |], (mink (Nm := F) c _ _ _ _) as [a |]; try contradiction M; [| reflexivity].
      pose proof (next_E p p' q q' a a' d d' L1 L2 M D) as S1. destruct (next p' q' a' d') as [x' | [l' n']], (next p q a d) as [x | [l n]]; try contradiction S1; cbn in S1; [rewrite S1; reflexivity |].
      destruct S1 as [L3 N1]. apply IH; assumption.
  Qed.
  Theorem mirror_gjk (c : vec) r e (c' : vec) r' e' (x y x' y' : shape F) fuel : sg0 s = false ->
    mk_sphere c r e x -> mk_sphere c' r' e' y -> mk_sphere (Nm := F) (fl c) r e x' -> mk_sphere (Nm := F) (fl c') r' e' y' ->
    query_intersect fuel x' y' = query_intersect fuel x y.
  Proof.
    intros S0 X Y X' Y'. apply sphere_any in X, Y, X', Y'. subst. unfold query_intersect. rewrite !(start_any (Nm := F)). cbv zeta.
    assert (D : Ev s (M3x1 (A3 minus1 (n0 (N := F)) (n0 (N := F)))) (M3x1 (A3 minus1 (n0 (N := F)) (n0 (N := F))))).
    { repeat split; cbn [c0 c1 c2]; [rewrite S0; apply E_refl | apply E_zero | apply E_zero]. }
    pose proof (Eo_mink c c' _ _ r r' D) as M. destruct (mink (Nm := F) (fl c) _ _ _ _) as [a' |], (mink (Nm := F) c _ _ _ _) as [a |]; try contradiction M; [| reflexivity].
    apply loop_E; [exact M |]. apply Ev_times; [exact D | apply E_refl].
  Qed.
End Mirror3.
