(** PTree.v — a search with bounding boxes loses nothing (C123). *)
From Coq Require Import Reals List ZArith NArith Bool Permutation Lra Lia.
From Flocq Require Import Core BinarySingleNaN.
Import ListNotations.
From Verif Require Import Base Num Vec Mat Bound Shape Intersect Float Exact SpecMat SpecGeom SpecBound SpecInter ExactFacts FloatFacts Order PMat PBound PInter SpecTree.

Lemma tree_induction {A} (P : tree A -> Prop) : (forall a, P (Leaf a)) -> (forall l, Forall P l -> P (Node l)) -> forall t, P t.
Proof. intros HL HN. fix IH 1. intros [a | l]; [apply HL |]. apply HN. induction l; constructor; [apply IH | exact IHl]. Qed.

Lemma in_turn_app {A} (l1 l2 : list (res A)) : in_turn (l1 ++ l2) = bind (in_turn l1) (fun a => bind (in_turn l2) (fun b => Ok (a ++ b))).
Proof. induction l1 as [| [a | k] l1 IH]; cbn [in_turn app bind]; [destruct (in_turn l2); reflexivity | | reflexivity]. rewrite IH. destruct (in_turn l1); cbn [bind]; [| reflexivity]. destruct (in_turn l2); reflexivity. Qed.
Lemma appended_app {A} (l1 l2 : list (res (list A))) : appended (l1 ++ l2) = bind (appended l1) (fun a => bind (appended l2) (fun b => Ok (a ++ b))).
Proof. unfold appended. rewrite in_turn_app. destruct (in_turn l1); cbn [bind]; [| reflexivity]. destruct (in_turn l2); cbn [bind]; [| reflexivity]. rewrite concat_app. reflexivity. Qed.
Lemma appended_cons {A} (x : res (list A)) l : appended (x :: l) = bind x (fun a => bind (appended l) (fun b => Ok (a ++ b))).
Proof. unfold appended. cbn [in_turn]. destruct x; cbn [bind]; [| reflexivity]. destruct (in_turn l); reflexivity. Qed.
Lemma appended_none {A B} (f : A -> res (list B)) l : Forall (fun a => f a = Ok []) l -> appended (map f l) = Ok [].
Proof. induction 1 as [| a l Ha Hl IH]; [reflexivity |]. cbn [map]. rewrite appended_cons, Ha. cbn [bind]. rewrite IH. reflexivity. Qed.
Lemma appended_ok {A B} (f : A -> res (list B)) (g : A -> list B) l : (forall a, In a l -> f a = Ok (g a)) -> appended (map f l) = Ok (concat (map g l)).
Proof. induction l as [| a l IH]; intro Hf; [reflexivity |]. cbn [map]. rewrite appended_cons, (Hf a (or_introl eq_refl)). cbn [bind]. rewrite IH by (intros; apply Hf; right; assumption). reflexivity. Qed.
Lemma appended_inv {A B} (f : A -> res (list B)) l r : appended (map f l) = Ok r -> forall a, In a l -> exists x, f a = Ok x.
Proof. revert r. induction l as [| b l IH]; intros r E a Ha; [destruct Ha |]. cbn [map] in E. rewrite appended_cons in E. destruct (f b) eqn:Fb; [| discriminate E]. cbn [bind] in E. destruct (appended (map f l)) eqn:El; [| discriminate E]. destruct Ha as [<- | Ha]; [exists a0; exact Fb | exact (IH _ eq_refl a Ha)]. Qed.
Lemma Permutation_concat {A} (l l' : list (list A)) : Permutation l l' -> Permutation (concat l) (concat l').
Proof. induction 1; cbn [concat]; [constructor | apply Permutation_app_head; assumption | rewrite !app_assoc; apply Permutation_app_tail, Permutation_app_comm | etransitivity; eassumption]. Qed.

Section Ord.
  Context {Nm : Num} (O : ordered Nm).
  Notation "# a" := (emb O a) (at level 9).
  Lemma nonan_emb (a : Nm) : nisnan a = false -> #a <> NaN.
  Proof. intros Ha E. apply (nisnan_iff O) in E. congruence. Qed.
  Lemma apart_mono (u b q : aabb Nm) i : nle (lo u i) (lo b i) = true -> nle (up b i) (up u i) = true -> apart u q i = true -> apart b q i = true.
  Proof.
    intros L U. unfold apart. rewrite !orb_true_iff, !(ngt_iff O), !(nlt_iff O). rewrite (nle_iff O) in L, U. intros [G | G]; [left | right].
    - revert L G. destruct (emb O (lo u i)), (emb O (lo b i)), (emb O (up q i)); cbn; try tauto; intros; lra.
    - revert U G. destruct (emb O (up u i)), (emb O (up b i)), (emb O (lo q i)); cbn; try tauto; intros; lra.
  Qed.
  Lemma meets_mono (u b q : aabb Nm) : encloses u b -> aabb_intersect u (BBox q) = Ok false -> aabb_intersect b (BBox q) = Ok false.
  Proof.
    intros E. rewrite !intersect_eval. intro Fu. injection Fu as Fu. apply f_equal.
    assert (K : forall i, (i < 3)%N -> apart u q i = true -> apart b q i = true) by (intros i Hi; apply apart_mono; apply (E i Hi)).
    specialize (K 0%N eq_refl) as K0. specialize (K 1%N eq_refl) as K1. specialize (K 2%N eq_refl) as K2.
    destruct (apart u q 0), (apart u q 1), (apart u q 2); cbn in Fu; try discriminate Fu; rewrite ?K0, ?K1, ?K2 by reflexivity; rewrite ?andb_false_r; reflexivity.
  Qed.
  Lemma encloses_tr (a b c : aabb Nm) : encloses a b -> encloses b c -> encloses a c.
  Proof. intros A B i Hi. destruct (A i Hi), (B i Hi). split; eapply (nle_trans O); eassumption. Qed.

  Definition box (s : shape Nm) : aabb Nm := match shape_get_bound s with BBox b => b | BSphere => aabb_default end.
  Lemma box_eq s : shape_get_bound s = BBox (box s).
  Proof. reflexivity. Qed.
  Lemma clean_box s : clean s -> nonan (box s).
  Proof. exact (fun c => c). Qed.
  Lemma encloses_self (b : aabb Nm) : nonan b -> encloses b b.
  Proof. intros Hb i Hi. destruct (Hb i Hi). split; apply (nle_refl' O), nonan_emb; assumption. Qed.
  Lemma concat_forall {A} (P : A -> Prop) (l : list (list A)) : Forall P (concat l) -> Forall (Forall P) l.
  Proof. induction l; cbn [concat]; intro F; [constructor |]. apply Forall_app in F. destruct F. constructor; auto. Qed.
  (** the box of a tree encloses the boxes of its leaves *)
  Lemma tree_box (t : tree (shape Nm)) : Forall clean (leaves t) -> exists u, tree_bound t = Ok (BBox u) /\ nonan u /\ forall s, In s (leaves t) -> encloses u (box s).
  Proof.
    induction t as [s | l IH] using tree_induction; cbn [leaves]; intro C.
    - exists (box s). split; [reflexivity |]. inversion C; subst. split; [assumption |]. intros x [<- | []]. apply encloses_self. assumption.
    - cbn [tree_bound]. assert (K : exists us, in_turn (map tree_bound l) = Ok (map BBox us) /\ Forall nonan us /\ forall s, In s (concat (map leaves l)) -> exists u, In u us /\ encloses u (box s)).
      { induction l as [| t l IHl]; [exists []; repeat split; [constructor | intros s []] |]. cbn [map concat] in C |- *. apply Forall_app in C. destruct C as [C1 C2]. inversion IH as [| ? ? I1 I2]; subst.
        destruct (I1 C1) as (u & U1 & U2 & U3). destruct (IHl I2 C2) as (us & V1 & V2 & V3). exists (u :: us). split; [cbn [in_turn]; rewrite U1; cbn [bind]; rewrite V1; reflexivity |]. split; [constructor; assumption |].
        intros s Hs. apply in_app_or in Hs. destruct Hs as [Hs | Hs]; [exists u; split; [left; reflexivity | apply U3, Hs] |]. destruct (V3 s Hs) as (w & W1 & W2). exists w. split; [right; exact W1 | exact W2]. }
      destruct K as (us & K1 & K2 & K3). rewrite K1. cbn [bind]. destruct (union_spec O aabb_default us K2) as (u & U1 & U2 & U3 & _). rewrite U1. cbn [bind]. exists u. split; [reflexivity |]. split; [exact U2 |].
      intros s Hs. destruct (K3 s Hs) as (w & W1 & W2). apply encloses_tr with w; [apply U3, W1 | exact W2].
  Qed.
  Lemma meet_apart q s : aabb_intersect (box s) (shape_get_bound q) = Ok false -> meet q s = Ok [].
  Proof. intro E. unfold meet. rewrite (intersect_disjoint O s q) by exact E. reflexivity. Qed.
  Theorem search_scan q (t : tree (shape Nm)) : Forall clean (leaves t) -> search q t = scan q (leaves t).
  Proof.
    induction t as [s | l IH] using tree_induction; intro C.
    - cbn [search tree_bound bind leaves]. unfold scan. cbn [map]. rewrite appended_cons. rewrite box_eq. unfold ibound_intersect. destruct (proj2 (intersect_sym O (box s) (box q))) as [r E]. rewrite (box_eq q) at 1. rewrite E. cbn [bind]. destruct r.
      + destruct (meet q s); cbn [bind]; [| reflexivity]. unfold appended. cbn. rewrite app_nil_r. reflexivity.
      + rewrite meet_apart by exact E. reflexivity.
    - destruct (tree_box (Node l) C) as (u & U1 & U2 & U3). cbn [search]. rewrite U1. cbn [bind]. unfold ibound_intersect. rewrite (box_eq q). destruct (proj2 (intersect_sym O u (box q))) as [r E]. rewrite E. cbn [bind]. destruct r.
      + clear E U1 U2 U3. cbn [leaves] in C |- *. unfold scan. induction l as [| t l IHl]; [reflexivity |]. cbn [map concat] in C |- *. apply Forall_app in C. destruct C as [C1 C2]. inversion IH as [| ? ? I1 I2]; subst.
        rewrite map_app, appended_app, appended_cons, (I1 C1), (IHl I2 C2). reflexivity.
      + symmetry. apply appended_none. apply Forall_forall. intros s Hs. apply meet_apart. rewrite (box_eq q). apply (meets_mono u); [apply U3, Hs | exact E].
  Qed.
  Theorem clash_cross (t1 t2 : tree (shape Nm)) : Forall clean (leaves t1) -> Forall clean (leaves t2) -> clash t1 t2 = cross (leaves t1) (leaves t2).
  Proof.
    intros C1 C2. destruct (tree_box t2 C2) as (w & W1 & W2 & W3). induction t1 as [s | l IH] using tree_induction.
    - cbn [clash tree_bound]. cbn [bind leaves]. unfold cross. cbn [map]. rewrite appended_cons, W1. cbn [bind]. rewrite (box_eq s). unfold ibound_intersect. destruct (intersect_sym O (box s) w) as [Y [r E]]. rewrite E. cbn [bind]. rewrite search_scan by exact C2. destruct r.
      + destruct (tag s (scan s (leaves t2))); cbn [bind]; [| reflexivity]. unfold appended. cbn. rewrite app_nil_r. reflexivity.
      + assert (K : scan s (leaves t2) = Ok []); [| rewrite K; reflexivity]. apply appended_none, Forall_forall. intros x Hx. apply meet_apart. rewrite (box_eq s). apply (meets_mono w); [apply W3, Hx |]. rewrite <- Y. exact E.
    - destruct (tree_box (Node l) C1) as (u & U1 & U2 & U3). cbn [clash]. rewrite U1, W1. cbn [bind]. unfold ibound_intersect. destruct (intersect_sym O u w) as [Y [r E]]. rewrite E. cbn [bind]. destruct r.
      + clear E U1 U2 U3 Y. cbn [leaves] in C1 |- *. unfold cross. induction l as [| t l IHl]; [reflexivity |]. cbn [map concat] in C1 |- *. apply Forall_app in C1. destruct C1 as [C11 C12]. inversion IH as [| ? ? I1 I2]; subst.
        rewrite map_app, appended_app, appended_cons, (I1 C11), (IHl C12 I2). reflexivity.
      + symmetry. apply appended_none, Forall_forall. intros s Hs. assert (K : scan s (leaves t2) = Ok []); [| rewrite K; reflexivity]. apply appended_none, Forall_forall. intros x Hx. apply meet_apart. rewrite (box_eq s). apply (meets_mono w); [apply W3, Hx |].
        rewrite (proj1 (intersect_sym O w (box s))). apply (meets_mono u); [apply U3, Hs | exact E].
  Qed.
  (** the hits of a search, one by one *)
  Theorem search_hits q (t : tree (shape Nm)) r : Forall clean (leaves t) -> search q t = Ok r -> forall s x, In (s, x) r <-> In s (leaves t) /\ shape_get_intersect s q = Ok (true, x).
  Proof.
    intros C. rewrite search_scan by exact C. unfold scan. intros E s x. revert r E. induction (leaves t) as [| a l IH]; intros r E; [injection E as <-; cbn; tauto |].
    cbn [map] in E. rewrite appended_cons in E. inversion C as [| ? ? C1 C2]; subst. unfold meet in E at 1. destruct (shape_get_intersect a q) as [[b y] |] eqn:Ea; [| discriminate E]. cbn [bind fst snd] in E. destruct (appended (map (meet q) l)) as [r' |] eqn:El; [| discriminate E]. cbn [bind] in E. injection E as <-.
    specialize (IH C2 r' eq_refl). cbn [In]. rewrite in_app_iff, IH. destruct b; cbn [In]; split.
    - intros [[K | []] | [K1 K2]]; [injection K as <- <-; split; [left; reflexivity | exact Ea] | split; [right; exact K1 | exact K2]].
    - intros [[<- | K1] K2]; [left; left; congruence | right; split; assumption].
    - intros [[] | [K1 K2]]. split; [right; exact K1 | exact K2].
    - intros [[<- | K1] K2]; [congruence | right; split; assumption].
  Qed.
  (** trees on the same shapes, in any order, find the same *)
  Theorem search_regroup q (t t' : tree (shape Nm)) r : Permutation (leaves t) (leaves t') -> Forall clean (leaves t) -> search q t = Ok r -> exists r', search q t' = Ok r' /\ Permutation r r'.
  Proof.
    intros P C. assert (C' : Forall clean (leaves t')) by (apply Forall_forall; intros x Hx; rewrite Forall_forall in C; apply C; eapply Permutation_in; [symmetry; exact P | exact Hx]).
    rewrite !search_scan by assumption. unfold scan. intro E. pose proof (appended_inv _ _ _ E) as D.
    set (g := fun s => match meet q s with Ok x => x | Panic _ => [] end). assert (G : forall a, In a (leaves t) -> meet q a = Ok (g a)) by (intros a Ha; destruct (D a Ha) as [x Ex]; unfold g; rewrite Ex; reflexivity).
    rewrite (appended_ok _ g _ G) in E. injection E as <-. exists (concat (map g (leaves t'))). split; [apply appended_ok; intros a Ha; apply G; eapply Permutation_in; [symmetry; exact P | exact Ha] |]. apply Permutation_concat, Permutation_map, P.
  Qed.
End Ord.
