(** PBuild.v — evaluation of the constructors in any arithmetic (C77) *)
From Coq Require Import List ZArith Bool Lia.
Import ListNotations.
From Verif Require Import Base Num Vec Mat Bound Shape SpecGeom SpecCtor SpecBuild.

Section Any.
  Context {Nm : Num}.
  Local Open Scope num_scope.
  Definition mins (x : Nm) (l : list Nm) : Nm := fold_left (fun x y => match ncmp Nm x y with Some Gt => y | _ => x end) l x.
  Definition maxs (x : Nm) (l : list Nm) : Nm := fold_left (fun x y => match ncmp Nm x y with Some Gt => x | _ => y end) l x.
  Lemma slice_min_any x l : slice_min (x :: l) = Ok (mins x l).
  Proof.
    unfold slice_min, min_by, mins. revert x. induction l as [| y l IH]; intro x; [reflexivity |]. cbn [min_by_from fold_left].
    unfold cmp_or_equal at 1. cbn [bind]. rewrite <- IH. destruct (ncmp Nm x y) as [[| |] |]; reflexivity.
  Qed.
  Lemma slice_max_any x l : slice_max (x :: l) = Ok (maxs x l).
  Proof.
    unfold slice_max, max_by, maxs. revert x. induction l as [| y l IH]; intro x; [reflexivity |]. cbn [max_by_from fold_left].
    unfold cmp_or_equal at 1. cbn [bind]. rewrite <- IH. destruct (ncmp Nm x y) as [[| |] |]; reflexivity.
  Qed.

  Definition nrm (v : mat3x1 Nm) : mat3x1 Nm :=
    match v with M3x1 (A3 a b c) => let m := nsqrt Nm (npowi2 a + npowi2 b + npowi2 c) in M3x1 (A3 (a / m) (b / m) (c / m)) end.
  Definition cube_any (c : mat3x1 Nm) (r : Nm) : aabb Nm :=
    match c with M3x1 (A3 x y z) => AABB (A3 (x - r) (y - r) (z - r)) (A3 (x + r) (y + r) (z + r)) end.
  Definition rl (d v : Nm) : Nm := if ngt d n0 then v else if nlt d n0 then nninf Nm else v.
  Definition ru (d v : Nm) : Nm := if ngt d n0 then ninf Nm else if nlt d n0 then v else v.
  Definition ray_any (o d : mat3x1 Nm) : aabb Nm :=
    match o, d with M3x1 (A3 x y z), M3x1 (A3 a b c) => AABB (A3 (rl a x) (rl b y) (rl c z)) (A3 (ru a x) (ru b y) (ru c z)) end.
  Definition whole_any : aabb Nm := AABB (A3 (nninf Nm) (nninf Nm) (nninf Nm)) (A3 (ninf Nm) (ninf Nm) (ninf Nm)).
  Definition c0 (v : mat3x1 Nm) : Nm := match v with M3x1 (A3 x _ _) => x end.
  Definition c1 (v : mat3x1 Nm) : Nm := match v with M3x1 (A3 _ y _) => y end.
  Definition c2 (v : mat3x1 Nm) : Nm := match v with M3x1 (A3 _ _ z) => z end.
  Definition hull_any (p : mat3x1 Nm) (l : list (mat3x1 Nm)) : aabb Nm :=
    AABB (A3 (mins (c0 p) (map c0 l)) (mins (c1 p) (map c1 l)) (mins (c2 p) (map c2 l)))
         (A3 (maxs (c0 p) (map c0 l)) (maxs (c1 p) (map c1 l)) (maxs (c2 p) (map c2 l))).
  (** height vector and top vertices of a prism *)
  Definition vminus (a b : mat3x1 Nm) : mat3x1 Nm := M3x1 (A3 (c0 a - c0 b) (c1 a - c1 b) (c2 a - c2 b)).
  Definition vplus (a b : mat3x1 Nm) : mat3x1 Nm := M3x1 (A3 (c0 a + c0 b) (c1 a + c1 b) (c2 a + c2 b)).
  Definition vcrossn (a b : mat3x1 Nm) : mat3x1 Nm :=
    M3x1 (A3 (c1 a * c2 b - c2 a * c1 b) (c2 a * c0 b - c0 a * c2 b) (c0 a * c1 b - c1 a * c0 b)).
  Definition vtimes (a : mat3x1 Nm) (s : Nm) : mat3x1 Nm := M3x1 (A3 (c0 a * s) (c1 a * s) (c2 a * s)).
  Definition hvec (a b c : mat3x1 Nm) (h : Nm) : mat3x1 Nm := vtimes (nrm (vcrossn (vminus b a) (vminus c a))) h.

  Lemma point_any p e s : mk_point p e s <-> s = SPoint (MkPoint p (AABB (v3x1 p) (v3x1 p)) (nabs Nm e)).
  Proof. destruct p as [[x y z]]. unfold mk_point. split; [intros [q [H ->]]; injection H as <-; reflexivity | intros ->; eexists; split; reflexivity]. Qed.
  Lemma sphere_any c r e s : mk_sphere c r e s <-> s = SSphere (MkSphere c r (cube_any c r) (nabs Nm e)).
  Proof. destruct c as [[x y z]]. unfold mk_sphere. split; [intros [q [H ->]]; injection H as <-; reflexivity | intros ->; eexists; split; reflexivity]. Qed.
  Lemma box_any c r e s : mk_box c r e s <-> s = SBox (MkBox c r (cube_any c r) (nabs Nm e)).
  Proof. destruct c as [[x y z]]. unfold mk_box. split; [intros [q [H ->]]; injection H as <-; reflexivity | intros ->; eexists; split; reflexivity]. Qed.
  Lemma plane_any o n e s : mk_plane o n e s <-> s = SPlane (MkPlane o (nrm n) whole_any (nabs Nm e)).
  Proof. destruct o as [[x y z]], n as [[a b c]]. unfold mk_plane. split; [intros [q [H ->]]; injection H as <-; reflexivity | intros ->; eexists; split; reflexivity]. Qed.
  Lemma ray_init_any o d : ray_init (sl o) (sl d) = Ok (MkRay o (nrm d) (ray_any o d) vicinity0).
  Proof.
    destruct o as [[x y z]], d as [[a b c]]. unfold ray_init. cbn -[aabb_init nlit]. unfold ray_any, rl, ru, normalize_unwrap.
    cbn -[nlit]. destruct (ngt a n0), (nlt a n0), (ngt b n0), (nlt b n0), (ngt c n0), (nlt c n0); reflexivity.
  Qed.
  Lemma ray_any_eq o d e s : mk_ray o d e s <-> s = SRay (MkRay o (nrm d) (ray_any o d) (nabs Nm e)).
  Proof. unfold mk_ray. rewrite ray_init_any. split; [intros [q [H ->]]; injection H as <-; reflexivity | intros ->; eexists; split; reflexivity]. Qed.
  Lemma line_init_any a b : line_init (sl a) (sl b) = Ok (MkLine a b (hull_any a [b]) vicinity0).
  Proof.
    destruct a as [[x y z]], b as [[u v w]]. unfold line_init. cbn [sl length Nat.eqb assert bind idx nth_error].
    rewrite !slice_min_any, !slice_max_any. reflexivity.
  Qed.
  Lemma line_any a b e s : mk_line a b e s <-> s = SLine (MkLine a b (hull_any a [b]) (nabs Nm e)).
  Proof. unfold mk_line. rewrite line_init_any. split; [intros [q [H ->]]; injection H as <-; reflexivity | intros ->; eexists; split; reflexivity]. Qed.
  Lemma iter0 (l : list (mat3x1 Nm)) : iter_map l (fun v => mat3x1_index v 0) = Ok (map c0 l).
  Proof. induction l as [| [[x y z]] l IH]; [reflexivity |]. cbn [iter_map map]. rewrite IH. reflexivity. Qed.
  Lemma iter1 (l : list (mat3x1 Nm)) : iter_map l (fun v => mat3x1_index v 1) = Ok (map c1 l).
  Proof. induction l as [| [[x y z]] l IH]; [reflexivity |]. cbn [iter_map map]. rewrite IH. reflexivity. Qed.
  Lemma iter2 (l : list (mat3x1 Nm)) : iter_map l (fun v => mat3x1_index v 2) = Ok (map c2 l).
  Proof. induction l as [| [[x y z]] l IH]; [reflexivity |]. cbn [iter_map map]. rewrite IH. reflexivity. Qed.
  Lemma prism_init_any a b c h : let w := hvec a b c h in triprism_init (sl a ++ sl b ++ sl c) h =
    Ok (MkPrism (A3 a b c) (A3 (vplus a w) (vplus b w) (vplus c w)) w (hull_any a [b; c; vplus a w; vplus b w; vplus c w]) vicinity0).
  Proof.
    destruct a as [[a0 a1 a2]], b as [[b0 b1 b2]], c as [[x0 x1 x2]]. intro w. unfold triprism_init.
    cbn [sl app length Nat.eqb assert bind idx nth_error mat3x1_minus unwrap mat3x1_cross].
    unfold normalize_unwrap, mat3x1_normalize. cbn [mat3x1_magnitude unwrap bind mat3x1_scale mat3x1_plus].
    rewrite iter0, iter1, iter2. cbn [map bind]. rewrite !slice_min_any, !slice_max_any. reflexivity.
  Qed.
  Lemma prism_any a b c h e s : let w := hvec a b c h in mk_prism a b c h e s <->
    s = SPrism (MkPrism (A3 a b c) (A3 (vplus a w) (vplus b w) (vplus c w)) w (hull_any a [b; c; vplus a w; vplus b w; vplus c w]) (nabs Nm e)).
  Proof. intro w. unfold mk_prism. rewrite prism_init_any. split; [intros [q [H ->]]; injection H as <-; reflexivity | intros ->; eexists; split; reflexivity]. Qed.

  (** ---- slices of any length ---- *)
  Lemma len3_sl (l : list Nm) : length l = 3%nat -> exists p, l = sl p.
  Proof. destruct l as [| x [| y [| z [| t l]]]]; try discriminate. intros _. exists (M3x1 (A3 x y z)). reflexivity. Qed.
  Lemma len9_sl (l : list Nm) : length l = 9%nat -> exists p q r, l = sl p ++ sl q ++ sl r.
  Proof.
    destruct l as [| x0 [| x1 [| x2 [| x3 [| x4 [| x5 [| x6 [| x7 [| x8 [| t l]]]]]]]]]]; try discriminate. intros _.
    exists (M3x1 (A3 x0 x1 x2)), (M3x1 (A3 x3 x4 x5)), (M3x1 (A3 x6 x7 x8)). reflexivity.
  Qed.
  Lemma sl_len p : length (@sl Nm p) = 3%nat. Proof. destruct p as [[x y z]]. reflexivity. Qed.
  (** ---- constructors ---- *)
  Lemma neq_len (l : list Nm) n : length l <> n -> Nat.eqb (length l) n = false. Proof. apply Nat.eqb_neq. Qed.
  Lemma dec_len (l : list Nm) n : length l = n \/ length l <> n. Proof. destruct (Nat.eq_dec (length l) n); [left | right]; assumption. Qed.
  Lemma point_checks (l : list Nm) : checks (length l = 3%nat) (point_init l).
  Proof.
    destruct (dec_len l 3) as [H | H]; [left | right]; (split; [exact H |]).
    - apply len3_sl in H as [p ->]. destruct p as [[x y z]]. eexists. reflexivity.
    - unfold point_init. rewrite neq_len by exact H. reflexivity.
  Qed.
  Lemma sphere_checks (l : list Nm) r : checks (length l = 3%nat) (sphere_init l r).
  Proof.
    destruct (dec_len l 3) as [H | H]; [left | right]; (split; [exact H |]).
    - apply len3_sl in H as [p ->]. destruct p as [[x y z]]. eexists. reflexivity.
    - unfold sphere_init. rewrite neq_len by exact H. reflexivity.
  Qed.
  Lemma box_checks (l : list Nm) r : checks (length l = 3%nat) (recbox_init l r).
  Proof.
    destruct (dec_len l 3) as [H | H]; [left | right]; (split; [exact H |]).
    - apply len3_sl in H as [p ->]. destruct p as [[x y z]]. eexists. reflexivity.
    - unfold recbox_init. rewrite neq_len by exact H. reflexivity.
  Qed.
  Lemma ray_checks (l k : list Nm) : checks (length l = 3%nat /\ length k = 3%nat) (ray_init l k).
  Proof.
    destruct (dec_len l 3) as [H | H]; [destruct (dec_len k 3) as [G | G] |].
    - left. split; [split; assumption |]. apply len3_sl in H as [p ->]. apply len3_sl in G as [q ->]. rewrite ray_init_any. eexists. reflexivity.
    - right. split; [tauto |]. unfold ray_init. rewrite H, (neq_len k) by exact G. reflexivity.
    - right. split; [tauto |]. unfold ray_init. rewrite neq_len by exact H. reflexivity.
  Qed.
  Lemma plane_checks (l k : list Nm) : checks (length l = 3%nat /\ length k = 3%nat) (plane_init l k).
  Proof.
    destruct (dec_len l 3) as [H | H]; [destruct (dec_len k 3) as [G | G] |].
    - left. split; [split; assumption |]. apply len3_sl in H as [[[x y z]] ->]. apply len3_sl in G as [[[a b c]] ->]. eexists. reflexivity.
    - right. split; [tauto |]. unfold plane_init. rewrite H, (neq_len k) by exact G. reflexivity.
    - right. split; [tauto |]. unfold plane_init. rewrite neq_len by exact H. reflexivity.
  Qed.
  Lemma line_checks (l k : list Nm) : checks (length l = 3%nat /\ length k = 3%nat) (line_init l k).
  Proof.
    destruct (dec_len l 3) as [H | H]; [destruct (dec_len k 3) as [G | G] |].
    - left. split; [split; assumption |]. apply len3_sl in H as [p ->]. apply len3_sl in G as [q ->]. rewrite line_init_any. eexists. reflexivity.
    - right. split; [tauto |]. unfold line_init. rewrite H, (neq_len k) by exact G. reflexivity.
    - right. split; [tauto |]. unfold line_init. rewrite neq_len by exact H. reflexivity.
  Qed.
  Lemma prism_checks (l : list Nm) h : checks (length l = 9%nat) (triprism_init l h).
  Proof.
    destruct (dec_len l 9) as [H | H]; [left | right]; (split; [exact H |]).
    - apply len9_sl in H as [p [q [r ->]]]. rewrite prism_init_any. eexists. reflexivity.
    - unfold triprism_init. rewrite neq_len by exact H. reflexivity.
  Qed.
  (** ---- what a built shape says about itself ---- *)
  Lemma vec_data_sl (p : mat3x1 Nm) : vec_data p = sl p. Proof. destruct p as [[x y z]]. reflexivity. Qed.
  Lemma normalize_nrm (p : mat3x1 Nm) : mat3x1_normalize p = Ok (Some (nrm p)).
  Proof. destruct p as [[x y z]]. reflexivity. Qed.
  Lemma point_data p e s : mk_point p e s -> shape_get_type s = TPoint /\ shape_get_shape_data s = sl p /\ shape_vicinity s = nabs Nm e.
  Proof. intro H. apply point_any in H as ->. rewrite <- vec_data_sl. repeat split. Qed.
  Lemma sphere_data c r e s : mk_sphere c r e s -> shape_get_type s = TSphere /\ shape_get_shape_data s = sl c ++ [r] /\ shape_vicinity s = nabs Nm e.
  Proof. intro H. apply sphere_any in H as ->. rewrite <- vec_data_sl. repeat split. Qed.
  Lemma box_data c r e s : mk_box c r e s -> shape_get_type s = TBox /\ shape_get_shape_data s = sl c ++ [r] /\ shape_vicinity s = nabs Nm e.
  Proof. intro H. apply box_any in H as ->. rewrite <- vec_data_sl. repeat split. Qed.
  Lemma line_data a b e s : mk_line a b e s -> shape_get_type s = TLine /\ shape_get_shape_data s = sl a ++ sl b /\ shape_vicinity s = nabs Nm e.
  Proof. intro H. apply line_any in H as ->. rewrite <- !vec_data_sl. repeat split. Qed.
  Lemma ray_data o d e s : mk_ray o d e s -> exists u, mat3x1_normalize d = Ok (Some u) /\
    shape_get_type s = TRay /\ shape_get_shape_data s = sl o ++ sl u /\ shape_vicinity s = nabs Nm e.
  Proof. intro H. apply ray_any_eq in H as ->. exists (nrm d). rewrite <- !vec_data_sl, normalize_nrm. repeat split. Qed.
  Lemma plane_data o n e s : mk_plane o n e s -> exists u, mat3x1_normalize n = Ok (Some u) /\
    shape_get_type s = TPlane /\ shape_get_shape_data s = sl o ++ sl u /\ shape_vicinity s = nabs Nm e.
  Proof. intro H. apply plane_any in H as ->. exists (nrm n). rewrite <- !vec_data_sl, normalize_nrm. repeat split. Qed.
  Lemma prism_data a b c h e s : mk_prism a b c h e s -> exists ab ac n u w, 
    mat3x1_minus b a = Some ab /\ mat3x1_minus c a = Some ac /\ mat3x1_cross ab ac = Some n /\
    mat3x1_normalize n = Ok (Some u) /\ mat3x1_scale u h = Some w /\
    shape_get_type s = TTriPrism /\ shape_get_shape_data s = (sl a ++ sl b ++ sl c) ++ sl w /\ shape_vicinity s = nabs Nm e.
  Proof.
    intro H. apply prism_any in H as ->. exists (vminus b a), (vminus c a), (vcrossn (vminus b a) (vminus c a)), (nrm (vcrossn (vminus b a) (vminus c a))), (hvec a b c h).
    split; [destruct a as [[? ? ?]], b as [[? ? ?]]; reflexivity |]. split; [destruct a as [[? ? ?]], c as [[? ? ?]]; reflexivity |].
    split; [reflexivity |]. split; [apply normalize_nrm |]. split; [unfold hvec; destruct (nrm _) as [[? ? ?]]; reflexivity |].
    rewrite <- !vec_data_sl. repeat split.
  Qed.
End Any.
