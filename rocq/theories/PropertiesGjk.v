(** PropertiesGjk.v — support points (C59) and the GJK query on spheres (C60-C63, C67, C68, C76).
    Exact arithmetic unless a theorem says otherwise.  [fuel] is the number of loop iterations allowed: a statement for
    every [fuel] covers executions of any length, [OutOfFuel] means the loop has not ended yet. *)
From Coq Require Import Reals List ZArith NArith Bool Lra Lia.
From Flocq Require Import Core BinarySingleNaN.
Import ListNotations.
From Verif Require Import Base Num Vec Mat Bound Shape Gjk Float Exact SpecMat SpecGeom SpecBound SpecShape SpecGjk
  ExactFacts FloatFacts Order PShape PGeo1 PGeo2 PSup PGjk1 PGjk2 PGjk3 PGjk4 PGjk5 PSup2 PropertiesGeo.
Local Open Scope R_scope.

(** interior of a ball *)
Definition s_open_ball (c : V3) (r : R) : pset := fun x => dist x c < r.

Section GjkProps.
Variable eps : R.
Variable zs : XR -> bool.
Notation E := (Exact eps zs).
Notation ev := (ev eps zs).

(** ---- C59: support points are extreme ---- *)
Theorem C59_sphere c r e s v : 0 <= r -> v <> vzero -> is_sphere eps zs c r e s ->
  exists x, shape_get_support s (ev v) = Ok (Some (ev x)) /\ s_ball c r x /\ forall y, s_ball c r y -> vdot v y <= vdot v x.
Proof. exact (support_sphere eps zs c r e s v). Qed.
Theorem C59_box c h e s v : 0 <= h -> v <> vzero -> is_box eps zs c h e s ->
  exists x, shape_get_support s (ev v) = Ok (Some (ev x)) /\ s_cube c h x /\ forall y, s_cube c h y -> vdot v y <= vdot v x.
Proof. exact (support_box eps zs c h e s v). Qed.
Theorem C59_prism a b c h e s v : tri_ok a b c -> v <> vzero -> is_prism eps zs a b c h e s ->
  exists x, shape_get_support s (ev v) = Ok (Some (ev x)) /\ s_prism a b c h x /\ forall y, s_prism a b c h y -> vdot v y <= vdot v x.
Proof. exact (support_prism eps zs a b c h e s v). Qed.
Theorem C59_zero : (forall c r e s, is_sphere eps zs c r e s -> shape_get_support s (ev vzero) = Ok None) /\
  (forall c h e s, is_box eps zs c h e s -> shape_get_support s (ev vzero) = Ok None) /\
  (forall a b c h e s, tri_ok a b c -> is_prism eps zs a b c h e s -> shape_get_support s (ev vzero) = Ok None).
Proof. exact (support_zero eps zs). Qed.
Theorem C59_point p e s v : is_point eps zs p e s -> shape_get_support s v = Ok (Some (ev p)).
Proof. exact (support_point eps zs p e s v). Qed.
Theorem C59_unbounded s v : (shape_get_type s = TRay \/ shape_get_type s = TPlane) -> @shape_get_support E s v = Ok None.
Proof. destruct s; simpl; intros [H | H]; try discriminate H; reflexivity. Qed.
Theorem C59_segment (Nm : Num) (s : shape Nm) v : shape_get_type s = TLine -> shape_get_support s v = Panic PUnimplemented.
Proof. destruct s; simpl; intro H; try discriminate H; reflexivity. Qed.
Example C59_case : exists s, is_box eps zs (V 1 2 3) 1 0 s /\ V 1 1 0 <> vzero /\
  exists x, shape_get_support s (ev (V 1 1 0)) = Ok (Some (ev x)) /\ vdot (V 1 1 0) x = 5.
Proof.
  exists (SBox (ebox eps zs (V 1 2 3) 1 0)). assert (Hs : is_box eps zs (V 1 2 3) 1 0 (SBox (ebox eps zs (V 1 2 3) 1 0))) by (apply is_box_inv; reflexivity).
  assert (Hv : V 1 1 0 <> vzero) by (intro H; apply (f_equal vx) in H; simpl in H; lra).
  split; [exact Hs |]. split; [exact Hv |]. destruct (C59_box (V 1 2 3) 1 0 _ (V 1 1 0) ltac:(lra) Hv Hs) as [x [Hx [Hc Hm]]]. exists x. split; [exact Hx |].
  assert (M := Hm (V 2 3 3)). unfold s_cube in *. simpl in *. destruct Hc as [C1 [C2 _]]. apply Rabs_le_inv in C1, C2. unfold vdot in *. simpl in *.
  assert (5 <= 1 * vx x + 1 * vy x + 0 * vz x); [| lra]. eapply Rle_trans; [| apply M; repeat split; apply Rabs_le; lra]. lra.
Qed.

(** ---- C60: "false" is sound ---- *)
Theorem C60_false_sound ca ra ea cb rb eb a b fuel : 0 <= ra -> 0 <= rb -> is_sphere eps zs ca ra ea a -> is_sphere eps zs cb rb eb b ->
  query_intersect fuel a b = Done (Ok (Some false)) -> ~ meets (s_open_ball ca ra) (s_open_ball cb rb).
Proof.
  intros Hra Hrb Ha Hb Q [x [Xa Xb]]. rewrite is_sphere_inv in Ha, Hb. subst. apply query_false in Q.
  unfold s_open_ball in *. fold (dist ca cb) in Q.
  assert (dist ca cb <= dist x ca + dist x cb).
  { rewrite (dist_sym x ca). unfold dist. replace (vsub ca cb) with (vadd (vsub ca x) (vsub x cb)) by (apply V3_eq; simpl; ring). apply triangle. }
  lra.
Qed.

(** ---- C61: "true" ---- *)
(** full statement: if the answer is true the balls intersect.  False: with the centres on a line parallel to the x axis
    any receiver far enough in the +x direction is reported. *)
Theorem C61_refuted : ~ (forall ca ra ea cb rb eb a b fuel, 0 <= ra -> 0 <= rb -> is_sphere eps zs ca ra ea a -> is_sphere eps zs cb rb eb b ->
  query_intersect fuel a b = Done (Ok (Some true)) -> meets (s_ball ca ra) (s_ball cb rb)).
Proof.
  intro H. assert (Ha : is_sphere eps zs (V 10 0 0) 1 0 (SSphere (esphere eps zs (V 10 0 0) 1 0))) by (apply is_sphere_inv; reflexivity).
  assert (Hb : is_sphere eps zs (V 0 0 0) 1 0 (SSphere (esphere eps zs (V 0 0 0) 1 0))) by (apply is_sphere_inv; reflexivity).
  specialize (H _ _ _ _ _ _ _ _ 1%nat Rle_0_1 Rle_0_1 Ha Hb). rewrite query_degenerate in H by (right; split; reflexivity).
  simpl in H. destruct (Rlt_dec 0 (10 - 0 + (1 + 1))); [| lra]. specialize (H eq_refl). apply balls_meet in H; [| lra | lra].
  unfold dist in H. rewrite (norm_val _ 10) in H; unfold vdot; simpl; lra.
Qed.
(** proved: everywhere else.  Missing: the centres differing in x only, or both radii 0 (C68 says what happens there). *)
Theorem C61_partial ca ra ea cb rb eb a b fuel : 0 <= ra -> 0 <= rb -> is_sphere eps zs ca ra ea a -> is_sphere eps zs cb rb eb b ->
  0 < ra + rb -> vy ca <> vy cb \/ vz ca <> vz cb ->
  query_intersect fuel a b = Done (Ok (Some true)) -> meets (s_ball ca ra) (s_ball cb rb).
Proof.
  intros Hra Hrb Ha Hb HK Hoff Q. rewrite is_sphere_inv in Ha, Hb. subst. apply balls_meet; [exact Hra | exact Hrb |]. rewrite dist_sym. unfold dist.
  apply Rlt_le, (query_true eps zs ca cb ra rb ea eb HK) with fuel; [| exact Q]. simpl. destruct Hoff; [left | right]; lra.
Qed.

(** ---- C67: the loop ends with the right answer ---- *)
(** full statement: on any two balls the loop ends, and the answer is true exactly when they intersect.
    False: on touching balls whose centres have the same x coordinate the loop never ends. *)
Theorem C67_refuted ca ra ea cb rb eb a b : 0 <= ra -> 0 <= rb -> is_sphere eps zs ca ra ea a -> is_sphere eps zs cb rb eb b ->
  0 < ra + rb -> dist ca cb = ra + rb -> vx ca = vx cb -> forall fuel, query_intersect fuel a b = OutOfFuel.
Proof.
  intros Hra Hrb Ha Hb HK Ht Hx fuel. rewrite is_sphere_inv in Ha, Hb. subst. exact (touch_forever eps zs ca cb ra rb ea eb HK Ht Hx fuel).
Qed.
Example C67_refuted_case : exists a b, is_sphere eps zs (V 0 0 0) (1 / 2) 0 a /\ is_sphere eps zs (V 0 1 0) (1 / 2) 0 b /\
  forall fuel, query_intersect fuel a b = OutOfFuel.
Proof.
  exists (SSphere (esphere eps zs (V 0 0 0) (1 / 2) 0)), (SSphere (esphere eps zs (V 0 1 0) (1 / 2) 0)).
  assert (Ha : is_sphere eps zs (V 0 0 0) (1 / 2) 0 (SSphere (esphere eps zs (V 0 0 0) (1 / 2) 0))) by (apply is_sphere_inv; reflexivity).
  assert (Hb : is_sphere eps zs (V 0 1 0) (1 / 2) 0 (SSphere (esphere eps zs (V 0 1 0) (1 / 2) 0))) by (apply is_sphere_inv; reflexivity).
  split; [exact Ha |]. split; [exact Hb |]. apply (C67_refuted (V 0 0 0) (1 / 2) 0 (V 0 1 0) (1 / 2) 0 _ _ ltac:(lra) ltac:(lra) Ha Hb); [lra | | reflexivity].
  unfold dist. apply norm_val; unfold vdot; simpl; lra.
Qed.
(** proved: for balls that do not touch and whose centres differ in y or z.
    Missing: touching balls (C76 says what happens there), and the degenerate pairs of C68. *)
Theorem C67_partial ca ra ea cb rb eb a b : 0 <= ra -> 0 <= rb -> is_sphere eps zs ca ra ea a -> is_sphere eps zs cb rb eb b ->
  0 < ra + rb -> vy ca <> vy cb \/ vz ca <> vz cb -> dist ca cb <> ra + rb ->
  exists n, (meets (s_ball ca ra) (s_ball cb rb) -> forall fuel, (n <= fuel)%nat -> query_intersect fuel a b = Done (Ok (Some true))) /\
            (~ meets (s_ball ca ra) (s_ball cb rb) -> forall fuel, (n <= fuel)%nat -> query_intersect fuel a b = Done (Ok (Some false))).
Proof.
  intros Hra Hrb Ha Hb HK Hoff Hne. rewrite is_sphere_inv in Ha, Hb. subst.
  assert (Hoff' : vy (vsub ca cb) <> 0 \/ vz (vsub ca cb) <> 0) by (simpl; destruct Hoff; [left | right]; lra).
  assert (M := balls_meet ca ra cb rb Hra Hrb). rewrite dist_sym in M.
  destruct (Rlt_dec (dist ca cb) (ra + rb)) as [Hi | Hi].
  - destruct (query_inside eps zs ca cb ra rb ea eb HK Hoff' Hi) as [n Hn]. exists n. split; [intros _; exact Hn |].
    intro C. exfalso. apply C, M. lra.
  - assert (Ho : ra + rb < dist ca cb) by lra. destruct (query_outside eps zs ca cb ra rb ea eb HK Hoff' Ho) as [n Hn]. exists n. split; [| intros _; exact Hn].
    intro C. exfalso. apply M in C. lra.
Qed.
Example C67_case : exists a b, is_sphere eps zs (V 1 2 3) 1 0 a /\ is_sphere eps zs (V 0 0 0) 2 0 b /\
  exists n, query_intersect n a b = Done (Ok (Some false)).
Proof.
  exists (SSphere (esphere eps zs (V 1 2 3) 1 0)), (SSphere (esphere eps zs (V 0 0 0) 2 0)).
  assert (Ha : is_sphere eps zs (V 1 2 3) 1 0 (SSphere (esphere eps zs (V 1 2 3) 1 0))) by (apply is_sphere_inv; reflexivity).
  assert (Hb : is_sphere eps zs (V 0 0 0) 2 0 (SSphere (esphere eps zs (V 0 0 0) 2 0))) by (apply is_sphere_inv; reflexivity).
  split; [exact Ha |]. split; [exact Hb |].
  assert (D : 1 + 2 < dist (V 1 2 3) (V 0 0 0)).
  { pose proof (norm_sq (vsub (V 1 2 3) (V 0 0 0))) as S. pose proof (norm_pos (vsub (V 1 2 3) (V 0 0 0))). unfold dist. unfold vdot in S. simpl in S. nra. }
  destruct (C67_partial (V 1 2 3) 1 0 (V 0 0 0) 2 0 _ _ ltac:(lra) ltac:(lra) Ha Hb) as [n [_ H]]; [lra | left; simpl; lra | lra |].
  exists n. apply H; [| lia]. intro M. apply balls_meet in M; [| lra | lra]. rewrite dist_sym in M. lra.
Qed.

(** the same pair shows that C60 is not vacuous; overlapping balls for C61 and C62: *)
Example C61_case : exists a b, is_sphere eps zs (V 1 1 0) 1 0 a /\ is_sphere eps zs (V 0 0 0) 1 0 b /\
  exists n, query_intersect n a b = Done (Ok (Some true)).
Proof.
  exists (SSphere (esphere eps zs (V 1 1 0) 1 0)), (SSphere (esphere eps zs (V 0 0 0) 1 0)).
  assert (Ha : is_sphere eps zs (V 1 1 0) 1 0 (SSphere (esphere eps zs (V 1 1 0) 1 0))) by (apply is_sphere_inv; reflexivity).
  assert (Hb : is_sphere eps zs (V 0 0 0) 1 0 (SSphere (esphere eps zs (V 0 0 0) 1 0))) by (apply is_sphere_inv; reflexivity).
  split; [exact Ha |]. split; [exact Hb |].
  assert (D : dist (V 1 1 0) (V 0 0 0) < 1 + 1).
  { pose proof (norm_sq (vsub (V 1 1 0) (V 0 0 0))) as S. pose proof (norm_pos (vsub (V 1 1 0) (V 0 0 0))). unfold dist. unfold vdot in S. simpl in S. nra. }
  destruct (C67_partial (V 1 1 0) 1 0 (V 0 0 0) 1 0 _ _ ltac:(lra) ltac:(lra) Ha Hb) as [n [H _]]; [lra | left; simpl; lra | lra |].
  exists n. apply H; [| lia]. apply balls_meet; [lra | lra |]. rewrite dist_sym. lra.
Qed.

(** ---- C76: the exact loop decides whether the open balls overlap ---- *)
Theorem C76_decides ca ra ea cb rb eb a b fuel r : is_sphere eps zs ca ra ea a -> is_sphere eps zs cb rb eb b ->
  0 < ra + rb -> vy ca <> vy cb \/ vz ca <> vz cb ->
  query_intersect fuel a b = Done (Ok (Some r)) -> (r = true <-> dist ca cb < ra + rb).
Proof.
  intros Ha Hb HK Hoff Q. rewrite is_sphere_inv in Ha, Hb. subst. destruct r.
  - split; [intros _ | reflexivity]. apply (query_true eps zs ca cb ra rb ea eb HK) with fuel; [| exact Q]. simpl. destruct Hoff; [left | right]; lra.
  - split; [discriminate |]. intro D. apply query_false in Q. fold (dist ca cb) in Q. lra.
Qed.
(** balls that touch: the direction from [ca] to [cb] makes the angle [ph] with the x axis; the loop ends exactly when
    [(3 ph - 2 PI) / (2 PI - ph)] is dyadic, and then with the answer false *)
Theorem C76_touching ca ra ea cb rb eb a b ph : is_sphere eps zs ca ra ea a -> is_sphere eps zs cb rb eb b ->
  0 < ra + rb -> vy ca <> vy cb \/ vz ca <> vz cb -> dist ca cb = ra + rb ->
  0 <= ph <= PI -> vx cb - vx ca = (ra + rb) * cos ph ->
  (dyadic ((3 * ph - 2 * PI) / (2 * PI - ph)) -> exists n, forall fuel, (n <= fuel)%nat -> query_intersect fuel a b = Done (Ok (Some false))) /\
  (~ dyadic ((3 * ph - 2 * PI) / (2 * PI - ph)) -> forall fuel, query_intersect fuel a b = OutOfFuel).
Proof.
  intros Ha Hb HK Hoff Ht Hp Hx. rewrite is_sphere_inv in Ha, Hb. subst.
  assert (Hoff' : vy (vsub ca cb) <> 0 \/ vz (vsub ca cb) <> 0) by (simpl; destruct Hoff; [left | right]; lra).
  assert (Ep : phi ca cb ra rb = ph).
  { unfold phi. simpl. replace (- (vx ca - vx cb) / (ra + rb)) with (cos ph); [apply acos_cos, Hp |].
    replace (- (vx ca - vx cb)) with ((ra + rb) * cos ph) by lra. field. lra. }
  pose proof (touch_ends eps zs ca cb ra rb ea eb HK Ht Hoff') as H1.
  pose proof (fun f => touch_never eps zs ca cb ra rb ea eb HK Ht Hoff' f) as H2. unfold ratio in H1, H2. rewrite Ep in H1, H2.
  split; [exact H1 | intros N f; exact (H2 f N)].
Qed.
(** at 120 degrees the ratio is 0: the loop ends, and the answer for these touching balls is false *)
Example C76_case : exists a b, is_sphere eps zs (V (1 / 2) (sqrt 3 / 2) 0) (1 / 2) 0 a /\ is_sphere eps zs (V 0 0 0) (1 / 2) 0 b /\
  meets (s_ball (V (1 / 2) (sqrt 3 / 2) 0) (1 / 2)) (s_ball (V 0 0 0) (1 / 2)) /\
  exists n, query_intersect n a b = Done (Ok (Some false)).
Proof.
  set (c := V (1 / 2) (sqrt 3 / 2) 0).
  exists (SSphere (esphere eps zs c (1 / 2) 0)), (SSphere (esphere eps zs (V 0 0 0) (1 / 2) 0)).
  assert (Ha : is_sphere eps zs c (1 / 2) 0 (SSphere (esphere eps zs c (1 / 2) 0))) by (apply is_sphere_inv; reflexivity).
  assert (Hb : is_sphere eps zs (V 0 0 0) (1 / 2) 0 (SSphere (esphere eps zs (V 0 0 0) (1 / 2) 0))) by (apply is_sphere_inv; reflexivity).
  split; [exact Ha |]. split; [exact Hb |].
  assert (S3 : sqrt 3 * sqrt 3 = 3) by (apply sqrt_sqrt; lra). assert (P3 : 0 < sqrt 3) by (apply sqrt_lt_R0; lra).
  assert (D : dist c (V 0 0 0) = 1 / 2 + 1 / 2) by (unfold dist; apply norm_val; unfold vdot; simpl; nra).
  split; [apply balls_meet; [lra | lra |]; rewrite dist_sym; lra |].
  pose proof PI_RGT_0.
  destruct (C76_touching c (1 / 2) 0 (V 0 0 0) (1 / 2) 0 _ _ (2 * (PI / 3)) Ha Hb) as [H1 _].
  - lra.
  - left. simpl. lra.
  - exact D.
  - lra.
  - rewrite cos_2PI3. simpl. lra.
  - destruct H1 as [n Hn]; [exists 0%Z, 0%nat; simpl; field; lra |]. exists n. apply Hn. lia.
Qed.
(** at 90 degrees the ratio is -1/3: the loop never ends *)
Example C76_forever_case : ~ dyadic ((3 * (PI / 2) - 2 * PI) / (2 * PI - PI / 2)).
Proof.
  intros [m [n E]]. assert (P : 0 < 2 ^ n) by (apply pow_lt; lra). pose proof PI_RGT_0.
  replace ((3 * (PI / 2) - 2 * PI) / (2 * PI - PI / 2)) with (- (1) / 3) in E by (field; lra).
  assert (F : - (2 ^ n) = 3 * IZR m) by (replace (3 * IZR m) with (3 * (IZR m / 2 ^ n) * 2 ^ n) by (field; lra); rewrite <- E; field).
  rewrite pow_IZR, <- opp_IZR, <- mult_IZR in F. apply eq_IZR in F.
  assert (G : (3 | 2 ^ Z.of_nat n)%Z) by (exists (- m)%Z; lia).
  assert (H3 : forall k, ~ (3 | 2 ^ Z.of_nat k)%Z).
  { induction k as [| k IH]; [intros [w Hw]; simpl in Hw; lia |]. rewrite Nat2Z.inj_succ, Z.pow_succ_r by lia. intros [w Hw]. apply IH. exists (2 ^ Z.of_nat k - w)%Z. lia. }
  exact (H3 n G).
Qed.

(** ---- C68: the degenerate pairs: one comparison decides ---- *)
Theorem C68_axis ca ra ea cb rb eb a b : is_sphere eps zs ca ra ea a -> is_sphere eps zs cb rb eb b ->
  ra + rb = 0 \/ (vy ca = vy cb /\ vz ca = vz cb) -> forall fuel, (1 <= fuel)%nat ->
  (vx cb - (ra + rb) < vx ca -> query_intersect fuel a b = Done (Ok (Some true))) /\
  (vx ca <= vx cb - (ra + rb) -> query_intersect fuel a b = Done (Ok (Some false))).
Proof.
  intros Ha Hb D [| fuel] Hf; [lia |]. rewrite is_sphere_inv in Ha, Hb. subst. rewrite query_degenerate by exact D. simpl.
  split; intro H; destruct (Rlt_dec 0 (vx ca - vx cb + (ra + rb))); try reflexivity; lra.
Qed.
Example C68_case : exists a b, is_sphere eps zs (V 10 0 0) 1 0 a /\ is_sphere eps zs (V 0 0 0) 1 0 b /\ query_intersect 1 a b = Done (Ok (Some true)).
Proof.
  exists (SSphere (esphere eps zs (V 10 0 0) 1 0)), (SSphere (esphere eps zs (V 0 0 0) 1 0)).
  assert (Ha : is_sphere eps zs (V 10 0 0) 1 0 (SSphere (esphere eps zs (V 10 0 0) 1 0))) by (apply is_sphere_inv; reflexivity).
  assert (Hb : is_sphere eps zs (V 0 0 0) 1 0 (SSphere (esphere eps zs (V 0 0 0) 1 0))) by (apply is_sphere_inv; reflexivity).
  split; [exact Ha |]. split; [exact Hb |]. apply (C68_axis _ _ _ _ _ _ _ _ Ha Hb); [right; split; reflexivity | lia | simpl; lra].
Qed.

(** ---- C62: order of the arguments ---- *)
(** full statement: swapping the arguments does not change the answer.  False along the x axis. *)
Theorem C62_refuted : ~ (forall ca ra ea cb rb eb a b fuel, is_sphere eps zs ca ra ea a -> is_sphere eps zs cb rb eb b ->
  query_intersect fuel a b = query_intersect fuel b a).
Proof.
  intro H. assert (Ha : is_sphere eps zs (V 10 0 0) 1 0 (SSphere (esphere eps zs (V 10 0 0) 1 0))) by (apply is_sphere_inv; reflexivity).
  assert (Hb : is_sphere eps zs (V 0 0 0) 1 0 (SSphere (esphere eps zs (V 0 0 0) 1 0))) by (apply is_sphere_inv; reflexivity).
  specialize (H _ _ _ _ _ _ _ _ 1%nat Ha Hb).
  rewrite (proj1 (C68_axis _ _ _ _ _ _ _ _ Ha Hb ltac:(right; split; reflexivity) 1%nat ltac:(lia))) in H by (simpl; lra).
  rewrite (proj2 (C68_axis _ _ _ _ _ _ _ _ Hb Ha ltac:(right; split; reflexivity) 1%nat ltac:(lia))) in H by (simpl; lra). discriminate H.
Qed.
(** proved: same answer for balls that do not touch and whose centres differ in y or z *)
Theorem C62_partial ca ra ea cb rb eb a b : 0 <= ra -> 0 <= rb -> is_sphere eps zs ca ra ea a -> is_sphere eps zs cb rb eb b ->
  0 < ra + rb -> vy ca <> vy cb \/ vz ca <> vz cb -> dist ca cb <> ra + rb ->
  exists n r, forall fuel, (n <= fuel)%nat -> query_intersect fuel a b = Done (Ok (Some r)) /\ query_intersect fuel b a = Done (Ok (Some r)).
Proof.
  intros Hra Hrb Ha Hb HK Hoff Hne.
  destruct (C67_partial _ _ _ _ _ _ _ _ Hra Hrb Ha Hb HK Hoff Hne) as [n [N1 N2]].
  destruct (C67_partial _ _ _ _ _ _ _ _ Hrb Hra Hb Ha) as [m [M1 M2]]; [lra | destruct Hoff; [left | right]; lra | rewrite dist_sym; lra |].
  assert (S : meets (s_ball ca ra) (s_ball cb rb) <-> meets (s_ball cb rb) (s_ball ca ra)) by (split; intros [x [H1 H2]]; exists x; split; assumption).
  destruct (Rle_dec (dist cb ca) (ra + rb)) as [H | H].
  - apply (balls_meet ca ra cb rb Hra Hrb) in H. exists (Nat.max n m), true. intros fuel Hf. split; [apply N1; [exact H | lia] | apply M1; [apply S, H | lia]].
  - assert (Hn : ~ meets (s_ball ca ra) (s_ball cb rb)) by (intro C; apply (balls_meet ca ra cb rb Hra Hrb) in C; contradiction).
    exists (Nat.max n m), false. intros fuel Hf. split; [apply N2; [exact Hn | lia] | apply M2; [intro C; apply Hn, S, C | lia]].
Qed.

(** ---- C63: no panic on spheres; immediate panic on anything else ---- *)
Theorem C63_spheres ca ra ea cb rb eb a b fuel : is_sphere eps zs ca ra ea a -> is_sphere eps zs cb rb eb b ->
  query_intersect fuel a b = OutOfFuel \/ exists r, query_intersect fuel a b = Done (Ok (Some r)).
Proof. intros Ha Hb. rewrite is_sphere_inv in Ha, Hb. subst. apply query_total. Qed.
End GjkProps.
(** whatever the arithmetic and the contents of the shapes *)
Theorem C63_others (Nm : Num) (a b : shape Nm) fuel : shape_get_type a <> TSphere \/ shape_get_type b <> TSphere ->
  query_intersect fuel a b = Done (Panic PExplicit).
Proof.
  intro H. unfold query_intersect, gjk_start. destruct a, b; try reflexivity. simpl in H. destruct H as [H | H]; contradiction H; reflexivity.
Qed.
Example C63_others_case : exists (a b : shape (Exact 1 (fun _ => true))), query_intersect 5 a b = Done (Panic PExplicit).
Proof.
  exists (SBox (ebox 1 (fun _ => true) (V 1 2 3) 1 0)), (SSphere (esphere 1 (fun _ => true) (V 0 0 0) 1 0)).
  apply C63_others. left. discriminate.
Qed.

(** ---- the same queries in IEEE arithmetic, by evaluation ---- *)
Section GjkFloat.
Context {Nm : Num}.
Definition gjk_flag (fuel : nat) (a b : res (shape Nm)) : option (outcome (option bool)) :=
  match a, b with Ok x, Ok y => Some (query_intersect fuel x y) | _, _ => None end.
End GjkFloat.
(** C61, C62 fail in binary64: unit spheres at distance 10 along x *)
Theorem C61_refuted_f64 lm : gjk_flag (Nm := F64 lm) 1 (b_sphere (l3 10 0 0 1) n1) (b_sphere (l3 0 0 0 1) n1) = Some (Done (Ok (Some true))).
Proof. vm_compute. reflexivity. Qed.
Theorem C62_refuted_f64 lm : gjk_flag (Nm := F64 lm) 1 (b_sphere (l3 0 0 0 1) n1) (b_sphere (l3 10 0 0 1) n1) = Some (Done (Ok (Some false))).
Proof. vm_compute. reflexivity. Qed.
(** off the x axis too: spheres of radius 10^-8 at distance 3 along y are reported *)
Theorem C61_rounding_refuted_f64 lm : gjk_flag (Nm := F64 lm) 2 (b_sphere (l3 0 3 0 1) (nlit (F64 lm) 1 (10 ^ 8))) (b_sphere (l3 0 0 0 1) (nlit (F64 lm) 1 (10 ^ 8))) = Some (Done (Ok (Some true))).
Proof. vm_compute. reflexivity. Qed.

(** ---- C69: panics of the query in IEEE arithmetic ---- *)
(** full statement: the query never panics on two spheres in f32 or f64.  False: spheres of radius 10^-8 at distance 10^-6
    in binary32, of radius 10^-58 at distance 10^-50 in binary64: the search direction underflows and the [unwrap] of
    the support point panics *)
Theorem C69_refuted_f32 lm : gjk_flag (Nm := F32 lm) 5 (b_sphere (l3 0 1 0 (10 ^ 6)) (nlit (F32 lm) 1 (10 ^ 8))) (b_sphere (l3 0 0 0 1) (nlit (F32 lm) 1 (10 ^ 8))) = Some (Done (Panic PUnwrap)).
Proof. vm_compute. reflexivity. Qed.
Theorem C69_refuted_f64 lm : gjk_flag (Nm := F64 lm) 5 (b_sphere (l3 0 1 0 (10 ^ 50)) (nlit (F64 lm) 1 (10 ^ 58))) (b_sphere (l3 0 0 0 1) (nlit (F64 lm) 1 (10 ^ 58))) = Some (Done (Panic PUnwrap)).
Proof. vm_compute. reflexivity. Qed.
(** proved: in every arithmetic and whatever the centres and radii, that [unwrap] is the only way to panic; the assertion
    on the size of the simplex and the indexing never fail *)
Theorem C69_partial (Nm : Num) (a b : sphere Nm) fuel :
  query_intersect fuel (SSphere a) (SSphere b) = OutOfFuel \/ query_intersect fuel (SSphere a) (SSphere b) = Done (Panic PUnwrap) \/
  exists r, query_intersect fuel (SSphere a) (SSphere b) = Done (Ok (Some r)).
Proof. exact (query_any a b fuel). Qed.

(** ---- C70: support points in IEEE arithmetic ---- *)
Section SupIeee.
Context (prec emax : Z) {Hp : Prec_gt_0 prec} {Hm : Prec_lt_emax prec emax} (lm : libm (binary_float prec emax)).
Notation F := (@Ieee prec emax Hp Hm lm).
Local Open Scope num_scope.
(** the direction has a non-zero computed length; a corner has coordinates +-h *)
Theorem C70_box (c0 c1 c2 h v0 v1 v2 : F) B e : recbox_init [c0; c1; c2] h = Ok B -> neqb (nsqrt F (v0 * v0 + v1 * v1 + v2 * v2)) n0 = false ->
  ((exists s0 s1 s2, In s0 [h; - h] /\ In s1 [h; - h] /\ In s2 [h; - h] /\ nisnan (s0 * v0 + s1 * v1 + s2 * v2) = true) ->
    shape_get_support (shape_set_vicinity (SBox B) e) (M3x1 (A3 v0 v1 v2)) = Panic PUnwrap) /\
  ((forall s0 s1 s2, In s0 [h; - h] -> In s1 [h; - h] -> In s2 [h; - h] -> nisnan (s0 * v0 + s1 * v1 + s2 * v2) = false) ->
    exists s0 s1 s2, In s0 [h; - h] /\ In s1 [h; - h] /\ In s2 [h; - h] /\
      shape_get_support (shape_set_vicinity (SBox B) e) (M3x1 (A3 v0 v1 v2)) = Ok (Some (M3x1 (A3 (c0 + s0) (c1 + s1) (c2 + s2)))) /\
      forall t0 t1 t2, In t0 [h; - h] -> In t1 [h; - h] -> In t2 [h; - h] -> nle (t0 * v0 + t1 * v1 + t2 * v2) (s0 * v0 + s1 * v1 + s2 * v2) = true).
Proof. exact (box_any (ieee_ordered prec emax lm) c0 c1 c2 h v0 v1 v2 B e). Qed.
Theorem C70_prism (T : triprism F) (v0 v1 v2 : F) : neqb (nsqrt F (v0 * v0 + v1 * v1 + v2 * v2)) n0 = false ->
  let verts := list3 (tp_base T) ++ list3 (tp_base2 T) in
  let prod (q : mat3x1 F) := match q with M3x1 (A3 q0 q1 q2) => q0 * v0 + q1 * v1 + q2 * v2 end in
  ((exists q, In q verts /\ nisnan (prod q) = true) -> shape_get_support (SPrism T) (M3x1 (A3 v0 v1 v2)) = Panic PUnwrap) /\
  ((forall q, In q verts -> nisnan (prod q) = false) ->
    exists p, shape_get_support (SPrism T) (M3x1 (A3 v0 v1 v2)) = Ok (Some p) /\ In p verts /\ forall q, In q verts -> nle (prod q) (prod p) = true).
Proof. exact (prism_any (ieee_ordered prec emax lm) T v0 v1 v2). Qed.
End SupIeee.
Example C70_case lm : exists B, @recbox_init (F64 lm) [n0; n0; n0] n1 = Ok B /\
  (match shape_get_support (SBox B) (M3x1 (A3 n1 (nlit (F64 lm) 2 1) n1)) with
   | Ok (Some (M3x1 (A3 a b c))) => neqb a n1 && neqb b n1 && neqb c n1 | _ => false end = true) /\
  match shape_get_support (SBox B) (M3x1 (A3 (ninf (F64 lm)) (ninf (F64 lm)) n1)) with Panic PUnwrap => true | _ => false end = true.
Proof. eexists. split; [reflexivity |]. split; vm_compute; reflexivity. Qed.

Print Assumptions C59_sphere.
Print Assumptions C59_box.
Print Assumptions C59_prism.
Print Assumptions C59_zero.
Print Assumptions C59_point.
Print Assumptions C59_unbounded.
Print Assumptions C59_segment.
Print Assumptions C60_false_sound.
Print Assumptions C61_refuted.
Print Assumptions C61_partial.
Print Assumptions C62_refuted.
Print Assumptions C62_partial.
Print Assumptions C63_spheres.
Print Assumptions C63_others.
Print Assumptions C67_refuted.
Print Assumptions C67_partial.
Print Assumptions C76_decides.
Print Assumptions C76_touching.
Print Assumptions C68_axis.
Print Assumptions C61_refuted_f64.
Print Assumptions C62_refuted_f64.
Print Assumptions C61_rounding_refuted_f64.
Print Assumptions C69_refuted_f32.
Print Assumptions C69_refuted_f64.
Print Assumptions C69_partial.
Print Assumptions C70_box.
Print Assumptions C70_prism.
