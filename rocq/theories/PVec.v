(** PVec.v — laws of the six vector types (C13, C14, C15), stated once over a table of the types' methods. *)
From Coq Require Import Reals List ZArith NArith Bool Lra Lia.
From Flocq Require Import Core BinarySingleNaN.
Import ListNotations.
From Verif Require Import Base Num Vec Mat Float Exact FloatFacts Order SpecMat SpecReal SpecGeom ExactFacts.
Local Open Scope R_scope.

(** the six types, and for each method the table of its six versions *)
Inductive vkind := K2x1 | K1x2 | K3x1 | K1x3 | K4x1 | K1x4.
Definition vcar (T : Type) (k : vkind) : Type :=
  match k with | K2x1 => mat2x1 T | K1x2 => mat1x2 T | K3x1 => mat3x1 T | K1x3 => mat1x3 T | K4x1 => mat4x1 T | K1x4 => mat1x4 T end.
Definition vlen (k : vkind) : nat :=
  match k with | K2x1 => 2 | K1x2 => 2 | K3x1 => 3 | K1x3 => 3 | K4x1 => 4 | K1x4 => 4 end%nat.
(** the components [_val[0], _val[1], ..] *)
Definition vcomps {T : Type} {k : vkind} : vcar T k -> list T :=
  match k with | K2x1 => fun v => list2 (v2x1 v) | K1x2 => fun v => list2 (v1x2 v) | K3x1 => fun v => list3 (v3x1 v) | K1x3 => fun v => list3 (v1x3 v) | K4x1 => fun v => list4 (v4x1 v) | K1x4 => fun v => list4 (v1x4 v) end.
Definition vec_dot {Nm : Num} {k : vkind} : vcar Nm k -> vcar Nm k -> option Nm :=
  match k with | K2x1 => mat2x1_dot | K1x2 => mat1x2_dot | K3x1 => mat3x1_dot | K1x3 => mat1x3_dot | K4x1 => mat4x1_dot | K1x4 => mat1x4_dot end.
Definition vec_plus {Nm : Num} {k : vkind} : vcar Nm k -> vcar Nm k -> option (vcar Nm k) :=
  match k with | K2x1 => mat2x1_plus | K1x2 => mat1x2_plus | K3x1 => mat3x1_plus | K1x3 => mat1x3_plus | K4x1 => mat4x1_plus | K1x4 => mat1x4_plus end.
Definition vec_minus {Nm : Num} {k : vkind} : vcar Nm k -> vcar Nm k -> option (vcar Nm k) :=
  match k with | K2x1 => mat2x1_minus | K1x2 => mat1x2_minus | K3x1 => mat3x1_minus | K1x3 => mat1x3_minus | K4x1 => mat4x1_minus | K1x4 => mat1x4_minus end.
Definition vec_mul_elem {Nm : Num} {k : vkind} : vcar Nm k -> vcar Nm k -> option (vcar Nm k) :=
  match k with | K2x1 => mat2x1_mul_elem | K1x2 => mat1x2_mul_elem | K3x1 => mat3x1_mul_elem | K1x3 => mat1x3_mul_elem | K4x1 => mat4x1_mul_elem | K1x4 => mat1x4_mul_elem end.
Definition vec_div {Nm : Num} {k : vkind} : vcar Nm k -> vcar Nm k -> option (vcar Nm k) :=
  match k with | K2x1 => mat2x1_div | K1x2 => mat1x2_div | K3x1 => mat3x1_div | K1x3 => mat1x3_div | K4x1 => mat4x1_div | K1x4 => mat1x4_div end.
Definition vec_magnitude {Nm : Num} {k : vkind} : vcar Nm k -> option Nm :=
  match k with | K2x1 => mat2x1_magnitude | K1x2 => mat1x2_magnitude | K3x1 => mat3x1_magnitude | K1x3 => mat1x3_magnitude | K4x1 => mat4x1_magnitude | K1x4 => mat1x4_magnitude end.
Definition vec_normalize {Nm : Num} {k : vkind} : vcar Nm k -> res (option (vcar Nm k)) :=
  match k with | K2x1 => mat2x1_normalize | K1x2 => mat1x2_normalize | K3x1 => mat3x1_normalize | K1x3 => mat1x3_normalize | K4x1 => mat4x1_normalize | K1x4 => mat1x4_normalize end.
Definition vec_scale {Nm : Num} {k : vkind} : vcar Nm k -> Nm -> option (vcar Nm k) :=
  match k with | K2x1 => mat2x1_scale | K1x2 => mat1x2_scale | K3x1 => mat3x1_scale | K1x3 => mat1x3_scale | K4x1 => mat4x1_scale | K1x4 => mat1x4_scale end.
Definition vec_cross {Nm : Num} {k : vkind} : vcar Nm k -> vcar Nm k -> option (vcar Nm k) :=
  match k with | K2x1 => mat2x1_cross | K1x2 => mat1x2_cross | K3x1 => mat3x1_cross | K1x3 => mat1x3_cross | K4x1 => mat4x1_cross | K1x4 => mat1x4_cross end.
Definition vec_is_equal {Nm : Num} {k : vkind} : vcar Nm k -> vcar Nm k -> Nm -> option bool :=
  match k with | K2x1 => mat2x1_is_equal | K1x2 => mat1x2_is_equal | K3x1 => mat3x1_is_equal | K1x3 => mat1x3_is_equal | K4x1 => mat4x1_is_equal | K1x4 => mat1x4_is_equal end.

(** real lists *)
Fixpoint ldot (l r : list R) : R := match l, r with x :: l', y :: r' => x * y + ldot l' r' | _, _ => 0 end.
Definition lnorm (l : list R) : R := sqrt (ldot l l).
Fixpoint lzip {T} (op : T -> T -> T) (l r : list T) : list T :=
  match l, r with x :: l', y :: r' => op x y :: lzip op l' r' | _, _ => nil end.

Lemma ldot_pos l : 0 <= ldot l l.
Proof. induction l; simpl; [lra | nra]. Qed.
Lemma lnorm_pos l : 0 <= lnorm l.
Proof. apply sqrt_pos. Qed.
Lemma lnorm_sq l : lnorm l * lnorm l = ldot l l.
Proof. apply sqrt_sqrt, ldot_pos. Qed.
Lemma lnorm_zero l : lnorm l = 0 <-> Forall (fun x => x = 0) l.
Proof.
  split.
  - intro H. assert (Hd : ldot l l = 0) by (rewrite <- lnorm_sq, H; ring). clear H.
    induction l as [|x l IH]; constructor; simpl in Hd; pose proof (ldot_pos l); [nra | apply IH; nra].
  - intro H. unfold lnorm. replace (ldot l l) with 0; [apply sqrt_0 |].
    induction H as [|x l Hx _ IH]; simpl; [reflexivity | rewrite Hx, <- IH; ring].
Qed.
Lemma ldot_map k l r : ldot (map (Rmult k) l) r = k * ldot l r.
Proof. revert r. induction l as [|x l IH]; intros [|y r]; simpl; try ring. rewrite IH. ring. Qed.
Lemma ldot_comm l r : ldot l r = ldot r l.
Proof. revert r. induction l as [|x l IH]; intros [|y r]; simpl; try ring. rewrite IH. ring. Qed.
Lemma lnorm_map k l : lnorm (map (Rmult k) l) = Rabs k * lnorm l.
Proof.
  unfold lnorm. rewrite ldot_map, ldot_comm, ldot_map, <- Rmult_assoc.
  rewrite sqrt_mult by (try apply ldot_pos; nra). f_equal. rewrite <- sqrt_Rsqr_abs. reflexivity.
Qed.
Lemma lcauchy l r : Rabs (ldot l r) <= lnorm l * lnorm r.
Proof.
  revert r. induction l as [|x l IH]; intros [|y r]; simpl.
  1-3: rewrite Rabs_R0; apply Rmult_le_pos; apply lnorm_pos.
  specialize (IH r). set (s := ldot l r) in *. set (a := lnorm l) in *. set (b := lnorm r) in *.
  assert (Ha : ldot l l = a * a) by (symmetry; apply lnorm_sq). assert (Hb : ldot r r = b * b) by (symmetry; apply lnorm_sq).
  unfold lnorm. simpl. rewrite Ha, Hb.
  rewrite <- sqrt_mult by nra. rewrite <- sqrt_Rsqr_abs. apply sqrt_le_1; [apply Rle_0_sqr | nra |].
  unfold Rsqr.
  assert (Ha0 : 0 <= a) by apply lnorm_pos. assert (Hb0 : 0 <= b) by apply lnorm_pos.
  assert (Hs : s * s <= (a * b) * (a * b)).
  { rewrite <- (Rabs_pos_eq (a * b)) by nra. change (s * s) with (Rsqr s).
    replace (Rabs (a * b) * Rabs (a * b)) with (Rsqr (a * b)) by (rewrite Rsqr_abs; reflexivity).
    apply Rsqr_le_abs_1. rewrite (Rabs_pos_eq (a * b)) by nra. exact IH. }
  assert (Hx : s * (x * y) <= a * b * Rabs (x * y)).
  { pose proof (Rle_abs (s * (x * y))). rewrite Rabs_mult in H. pose proof (Rabs_pos (x * y)). nra. }
  assert (H2 : 2 * (a * b * Rabs (x * y)) <= a * a * (y * y) + b * b * (x * x)).
  { rewrite Rabs_mult. pose proof (Rle_0_sqr (a * Rabs y - b * Rabs x)). unfold Rsqr in H.
    assert (Rabs x * Rabs x = x * x) by (rewrite <- Rabs_mult; apply Rabs_pos_eq; nra).
    assert (Rabs y * Rabs y = y * y) by (rewrite <- Rabs_mult; apply Rabs_pos_eq; nra). nra. }
  nra.
Qed.
Lemma ldot_lzip l r : length l = length r ->
  ldot (lzip Rplus l r) (lzip Rplus l r) = ldot l l + 2 * ldot l r + ldot r r.
Proof.
  revert r. induction l as [|x l IH]; intros [|y r] H; try discriminate; simpl; [ring |].
  injection H as H. rewrite (IH r H). ring.
Qed.
Lemma ltriangle l r : length l = length r -> lnorm (lzip Rplus l r) <= lnorm l + lnorm r.
Proof.
  intro H. pose proof (lnorm_pos l). pose proof (lnorm_pos r).
  apply Rsqr_incr_0; [| apply lnorm_pos | lra]. unfold Rsqr. rewrite lnorm_sq, ldot_lzip by exact H.
  pose proof (lcauchy l r). pose proof (Rle_abs (ldot l r)). rewrite <- (lnorm_sq l), <- (lnorm_sq r). nra.
Qed.

Section GenericVec.
  Context {Nm : Num}.
  Ltac vcase k u v := destruct k; destruct u as [[]]; destruct v as [[]].

  Lemma vcomps_len k (v : vcar Nm k) : length (vcomps v) = vlen k.
  Proof. destruct k; destruct v as [[]]; reflexivity. Qed.
  (** equal components: equal vectors *)
  Lemma vcomps_inj k (u v : vcar Nm k) : vcomps u = vcomps v -> u = v.
  Proof. vcase k u v; cbn; intro H; injection H; intros; subst; reflexivity. Qed.

  Lemma vec_plus_comps k (u v : vcar Nm k) : exists w, vec_plus u v = Some w /\ vcomps w = lzip (nadd Nm) (vcomps u) (vcomps v).
  Proof. vcase k u v; (eexists; split; reflexivity). Qed.
  Lemma vec_minus_comps k (u v : vcar Nm k) : exists w, vec_minus u v = Some w /\ vcomps w = lzip (nsub Nm) (vcomps u) (vcomps v).
  Proof. vcase k u v; (eexists; split; reflexivity). Qed.
  Lemma vec_mul_elem_comps k (u v : vcar Nm k) : exists w, vec_mul_elem u v = Some w /\ vcomps w = lzip (nmul Nm) (vcomps u) (vcomps v).
  Proof. vcase k u v; (eexists; split; reflexivity). Qed.
  Lemma vec_div_comps k (u v : vcar Nm k) : exists w, vec_div u v = Some w /\ vcomps w = lzip (ndiv Nm) (vcomps u) (vcomps v).
  Proof. vcase k u v; (eexists; split; reflexivity). Qed.
  Lemma vec_scale_comps k (u : vcar Nm k) s : exists w, vec_scale u s = Some w /\ vcomps w = map (fun x => nmul Nm x s) (vcomps u).
  Proof. destruct k; destruct u as [[]]; (eexists; split; reflexivity). Qed.

  Lemma vec_normalize_comps k (u : vcar Nm k) m : vec_magnitude u = Some m ->
    exists w, vec_normalize u = Ok (Some w) /\ vcomps w = map (fun x => ndiv Nm x m) (vcomps u).
  Proof. destruct k; destruct u as [[]]; cbn; intro H; injection H as <-; (eexists; split; reflexivity). Qed.

  (** commutativity from commutativity of the scalars *)
  Lemma vec_dot_comm k (u v : vcar Nm k) : (forall x y : Nm, nmul Nm x y = nmul Nm y x) -> vec_dot u v = vec_dot v u.
  Proof. intro H. vcase k u v; cbn; f_equal; repeat (apply (f_equal2 (nadd Nm)); [| apply H]); apply H. Qed.
  Lemma lzip_comm (op : Nm -> Nm -> Nm) l r : (forall x y, op x y = op y x) -> lzip op l r = lzip op r l.
  Proof. intro H. revert r. induction l as [|x l IH]; intros [|y r]; simpl; try reflexivity. rewrite H, IH. reflexivity. Qed.
  Lemma vec_plus_comm k (u v : vcar Nm k) : (forall x y : Nm, nadd Nm x y = nadd Nm y x) -> vec_plus u v = vec_plus v u.
  Proof.
    intro H. destruct (vec_plus_comps k u v) as [w [E1 C1]]. destruct (vec_plus_comps k v u) as [w' [E2 C2]].
    rewrite E1, E2. f_equal. apply vcomps_inj. rewrite C1, C2. apply lzip_comm, H.
  Qed.
  Lemma vec_mul_elem_comm k (u v : vcar Nm k) : (forall x y : Nm, nmul Nm x y = nmul Nm y x) -> vec_mul_elem u v = vec_mul_elem v u.
  Proof.
    intro H. destruct (vec_mul_elem_comps k u v) as [w [E1 C1]]. destruct (vec_mul_elem_comps k v u) as [w' [E2 C2]].
    rewrite E1, E2. f_equal. apply vcomps_inj. rewrite C1, C2. apply lzip_comm, H.
  Qed.

  (** cross is None for all but the 3-vectors *)
  Lemma vec_cross_none k (u v : vcar Nm k) : vlen k <> 3%nat -> vec_cross u v = None.
  Proof. destruct k; intro H; try reflexivity; exfalso; apply H; reflexivity. Qed.
End GenericVec.

Section ExactVec.
  Context (eps : R) (zs : XR -> bool).
  Notation E := (Exact eps zs).

  (** a vector with real components *)
  Definition isv {k} (v : vcar E k) (l : list R) : Prop := vcomps v = map Fin l.

  Lemma lzip_Fin op opr l r : (forall x y, op (Fin x) (Fin y) = Fin (opr x y)) ->
    lzip op (map Fin l) (map Fin r) = map Fin (lzip opr l r).
  Proof. intro H. revert r. induction l as [|x l IH]; intros [|y r]; simpl; try reflexivity. rewrite H, IH. reflexivity. Qed.

  Ltac lens2 l := destruct l as [|? [|? [|]]]; try discriminate.
  Ltac vinv H := cbn in H; injection H; clear H; intros; subst.
  Ltac lens H :=
    match type of H with isv _ ?l =>
      unfold isv in H; destruct l as [|? [|? [|? [|? [|]]]]]; try discriminate H; vinv H end.

  Lemma vec_dot_exact k (u v : vcar E k) l r : isv u l -> isv v r -> vec_dot u v = Some (Fin (ldot l r) : E).
  Proof.
    intros Hu Hv. destruct k; destruct u as [[]]; destruct v as [[]]; lens Hu; lens Hv; cbn; do 2 f_equal; ring.
  Qed.
  Lemma vec_magnitude_exact k (u : vcar E k) l : isv u l -> vec_magnitude u = Some (Fin (lnorm l) : E).
  Proof.
    intros Hu. pose proof (ldot_pos l) as Hp. unfold lnorm.
    destruct k; destruct u as [[]]; lens Hu; cbn in Hp |- *; unfold npowi2; cbn;
      (destruct (Rlt_dec _ 0) as [Hn|Hn]; [exfalso; nra | do 3 f_equal; ring]).
  Qed.
  Lemma vec_plus_exact k (u v : vcar E k) l r : isv u l -> isv v r ->
    exists w, vec_plus u v = Some w /\ isv w (lzip Rplus l r).
  Proof.
    intros Hu Hv. destruct (vec_plus_comps k u v) as [w [E1 C1]]. exists w. split; [exact E1 |].
    unfold isv in *. rewrite C1, Hu, Hv. apply lzip_Fin. reflexivity.
  Qed.
  Lemma vec_scale_exact k (u : vcar E k) l s : isv u l ->
    exists w, vec_scale u (Fin s : E) = Some w /\ isv w (map (Rmult s) l).
  Proof.
    intros Hu. destruct (vec_scale_comps k u (Fin s : E)) as [w [E1 C1]]. exists w. split; [exact E1 |].
    unfold isv in *. rewrite C1, Hu, !map_map. apply map_ext. intro x. cbn. f_equal. ring.
  Qed.
  Lemma vec_normalize_exact k (u : vcar E k) l : isv u l ->
    (lnorm l <> 0 -> exists w, vec_normalize u = Ok (Some w) /\ isv w (map (Rmult (/ lnorm l)) l)) /\
    (lnorm l = 0 -> exists w, vec_normalize u = Ok (Some w) /\ Forall (fun x => x = NaN) (vcomps w)).
  Proof.
    intros Hu. pose proof (vec_magnitude_exact k u l Hu) as Hm. split; intro Hz.
    - destruct (vec_normalize_comps k u _ Hm) as [w [E1 C1]]. exists w. split; [exact E1 |].
      unfold isv in *. rewrite C1, Hu, !map_map. apply map_ext. intro x. rewrite ndiv_fin by exact Hz. f_equal. unfold Rdiv. ring.
    - destruct (vec_normalize_comps k u _ Hm) as [w [E1 C1]]. exists w. split; [exact E1 |].
      rewrite C1, Hu, map_map, Hz. apply lnorm_zero in Hz. clear - Hz.
      induction Hz as [|x l Hx _ IH]; constructor; [rewrite Hx; apply ndiv_0_0 | exact IH].
  Qed.
  Lemma lnorm_unit l : lnorm l <> 0 -> lnorm (map (Rmult (/ lnorm l)) l) = 1.
  Proof.
    intro H. rewrite lnorm_map, Rabs_pos_eq.
    - field. exact H.
    - pose proof (lnorm_pos l). apply Rlt_le, Rinv_0_lt_compat. lra.
  Qed.

  (** the row-vector cross product is the column one *)
  Lemma cross_1x3 (u v : V3) :
    mat1x3_cross (M1x3 (v3x1 (ev eps zs u))) (M1x3 (v3x1 (ev eps zs v))) = Some (M1x3 (v3x1 (ev eps zs (vcross u v)))).
  Proof. reflexivity. Qed.
End ExactVec.

(** cross product identities *)
Lemma vcross_orth u v : vdot u (vcross u v) = 0 /\ vdot v (vcross u v) = 0.
Proof. unfold vdot, vcross; simpl; split; ring. Qed.
Lemma vcross_anti u v : vcross u v = vscale (-1) (vcross v u).
Proof. unfold vcross, vscale; simpl. f_equal; ring. Qed.
Lemma vcross_bilin a b u v w :
  vcross (vadd (vscale a u) (vscale b v)) w = vadd (vscale a (vcross u w)) (vscale b (vcross v w)) /\
  vcross w (vadd (vscale a u) (vscale b v)) = vadd (vscale a (vcross w u)) (vscale b (vcross w v)).
Proof. unfold vcross, vadd, vscale; simpl. split; f_equal; ring. Qed.
Lemma vcross_lagrange u v : norm (vcross u v) * norm (vcross u v) = vdot u u * vdot v v - vdot u v * vdot u v.
Proof. rewrite norm_sq. unfold vdot, vcross; simpl. ring. Qed.

(** normalizing a zero vector in IEEE arithmetic: NaN components *)
Section IeeeVec.
  Context (prec emax : Z) {Hp : Prec_gt_0 prec} {Hm : Prec_lt_emax prec emax} (lm : libm (binary_float prec emax)).
  Notation F := (@Ieee prec emax Hp Hm lm).

  Lemma vec_normalize_zero k (u : vcar F k) : Forall (fun x : F => exists s, x = B754_zero s) (vcomps u) ->
    exists w, vec_normalize u = Ok (Some w) /\ Forall (fun x : F => x = B754_nan) (vcomps w).
  Proof.
    intro H.
    assert (Hm0 : exists s, vec_magnitude u = Some (B754_zero s : F)).
    { destruct k; destruct u as [[]]; cbn in H;
      repeat match goal with H : Forall _ (_ :: _) |- _ => inversion H; clear H; subst end;
      repeat match goal with H : exists s, _ = B754_zero s |- _ => destruct H as [[] ?] end; subst;
      (eexists; reflexivity). }
    destruct Hm0 as [s Hm0]. destruct (vec_normalize_comps k u _ Hm0) as [w [E1 C1]]. exists w. split; [exact E1 |].
    rewrite C1. clear - H. induction H as [|x l [t ->] _ IH]; constructor; [reflexivity | exact IH].
  Qed.
End IeeeVec.
