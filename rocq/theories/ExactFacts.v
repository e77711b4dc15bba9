(** ExactFacts.v — working with the exact instance: comparisons of finite values, finite vectors. *)
From Coq Require Import Reals ZArith Bool Lra List.
Import ListNotations.
From Verif Require Import Base Num Vec Exact SpecGeom.
Local Open Scope R_scope.

Lemma vdot_pos v : 0 <= vdot v v.
Proof. unfold vdot. nra. Qed.
Lemma norm_pos v : 0 <= norm v.
Proof. apply sqrt_pos. Qed.
Lemma norm_sq v : norm v * norm v = vdot v v.
Proof. apply sqrt_sqrt, vdot_pos. Qed.
Lemma vdot_zero v : vdot v v = 0 -> v = vzero.
Proof.
  destruct v as [x y z]; unfold vdot, vzero; simpl; intro H.
  assert (x = 0) by nra. assert (y = 0) by nra. assert (z = 0) by nra. subst. reflexivity.
Qed.
Lemma norm_zero v : norm v = 0 -> v = vzero.
Proof. intro H. apply vdot_zero. rewrite <- norm_sq, H. ring. Qed.
Lemma norm_vzero : norm vzero = 0.
Proof. unfold norm, vdot, vzero; simpl. replace (0 * 0 + 0 * 0 + 0 * 0) with 0 by ring. apply sqrt_0. Qed.
Lemma norm_nz v : v <> vzero -> 0 < norm v.
Proof.
  intro H. destruct (norm_pos v) as [H1 | H1]; [exact H1 |].
  exfalso. apply H, norm_zero. symmetry; exact H1.
Qed.
Lemma V3_eq u v : vx u = vx v -> vy u = vy v -> vz u = vz v -> u = v.
Proof. destruct u, v; simpl; intros; subst; reflexivity. Qed.
Lemma norm_vscale k v : norm (vscale k v) = Rabs k * norm v.
Proof.
  unfold norm. rewrite <- sqrt_Rsqr_abs, <- sqrt_mult; [f_equal; unfold vdot, vscale, Rsqr; simpl; ring | apply Rle_0_sqr | apply vdot_pos].
Qed.
Lemma cauchy u v : Rabs (vdot u v) <= norm u * norm v.
Proof.
  unfold norm. rewrite <- sqrt_mult by apply vdot_pos. rewrite <- sqrt_Rsqr_abs. apply sqrt_le_1.
  - apply Rle_0_sqr.
  - apply Rmult_le_pos; apply vdot_pos.
  - destruct u as [a b c], v as [d e f]; unfold vdot, Rsqr; simpl.
    pose proof (Rle_0_sqr (a * e - b * d)). pose proof (Rle_0_sqr (a * f - c * d)).
    pose proof (Rle_0_sqr (b * f - c * e)). unfold Rsqr in *. nra.
Qed.
Lemma cauchy' u v : vdot u v <= norm u * norm v.
Proof. pose proof (cauchy u v). pose proof (Rle_abs (vdot u v)). lra. Qed.
Lemma triangle u v : norm (vadd u v) <= norm u + norm v.
Proof.
  apply Rsqr_incr_0; [| apply norm_pos | pose proof (norm_pos u); pose proof (norm_pos v); lra].
  unfold Rsqr. rewrite norm_sq.
  replace (vdot (vadd u v) (vadd u v)) with (vdot u u + 2 * vdot u v + vdot v v)
    by (unfold vdot, vadd; simpl; ring).
  pose proof (cauchy' u v). rewrite <- (norm_sq u), <- (norm_sq v). nra.
Qed.

(** reading the truth value of a decided comparison *)
Definition isT {P : Prop} (d : {P} + {~ P}) : bool := if d then true else false.

Section ExactFacts.
  Context (eps : R) (zs : XR -> bool).
  Notation E := (Exact eps zs).

  Lemma nlt_fin a b : @nlt E (Fin a) (Fin b) = if Rlt_dec a b then true else false.
  Proof. unfold nlt; simpl. destruct (Rlt_dec a b); [reflexivity |]. destruct (Rlt_dec b a); reflexivity. Qed.
  Lemma ngt_fin a b : @ngt E (Fin a) (Fin b) = if Rlt_dec b a then true else false.
  Proof. unfold ngt; simpl. destruct (Rlt_dec a b), (Rlt_dec b a); try reflexivity. exfalso; lra. Qed.
  Lemma nle_fin a b : @nle E (Fin a) (Fin b) = if Rle_dec a b then true else false.
  Proof. unfold nle; simpl. destruct (Rlt_dec a b), (Rlt_dec b a), (Rle_dec a b); try reflexivity; exfalso; lra. Qed.
  Lemma nge_fin a b : @nge E (Fin a) (Fin b) = if Rle_dec b a then true else false.
  Proof. unfold nge; simpl. destruct (Rlt_dec a b), (Rlt_dec b a), (Rle_dec b a); try reflexivity; exfalso; lra. Qed.
  Lemma neqb_fin a b : @neqb E (Fin a) (Fin b) = if Req_EM_T a b then true else false.
  Proof. unfold neqb; simpl. destruct (Rlt_dec a b), (Rlt_dec b a), (Req_EM_T a b); try reflexivity; exfalso; lra. Qed.
  Lemma nne_fin a b : @nne E (Fin a) (Fin b) = if Req_EM_T a b then false else true.
  Proof. unfold nne. rewrite neqb_fin. destruct (Req_EM_T a b); reflexivity. Qed.

  Lemma ndiv_fin a b : b <> 0 -> ndiv E (Fin a) (Fin b) = Fin (a / b).
  Proof. intro H. simpl. destruct (Req_EM_T b 0); [contradiction | reflexivity]. Qed.
  Lemma ndiv_0_0 : ndiv E (Fin 0) (Fin 0) = NaN.
  Proof. simpl. destruct (Req_EM_T 0 0); [reflexivity | contradiction]. Qed.
  Lemma nsqrt_fin a : 0 <= a -> nsqrt E (Fin a) = Fin (sqrt a).
  Proof. intro H. simpl. destruct (Rlt_dec a 0); [lra | reflexivity]. Qed.
  Lemma nsqrt_neg a : a < 0 -> nsqrt E (Fin a) = NaN.
  Proof. intro H. simpl. destruct (Rlt_dec a 0); [reflexivity | lra]. Qed.

  (** finite vectors *)
  Definition ev (v : V3) : mat3x1 E := M3x1 (A3 (Fin (vx v)) (Fin (vy v)) (Fin (vz v)) : arr3 E).

  Lemma ev_inj u v : ev u = ev v -> u = v.
  Proof. destruct u, v; unfold ev; simpl; intro H; inversion H; reflexivity. Qed.

  Lemma ev_dot u v : mat3x1_dot (ev u) (ev v) = Some (Fin (vdot u v) : E).
  Proof. reflexivity. Qed.
  Lemma ev_minus u v : mat3x1_minus (ev u) (ev v) = Some (ev (vsub u v)).
  Proof. reflexivity. Qed.
  Lemma ev_plus u v : mat3x1_plus (ev u) (ev v) = Some (ev (vadd u v)).
  Proof. reflexivity. Qed.
  Lemma ev_cross u v : mat3x1_cross (ev u) (ev v) = Some (ev (vcross u v)).
  Proof. reflexivity. Qed.
  Lemma ev_scale u k : mat3x1_scale (ev u) (Fin k : E) = Some (ev (vscale k u)).
  Proof. unfold ev, vscale; simpl. rewrite (Rmult_comm k), (Rmult_comm k), (Rmult_comm k). reflexivity. Qed.
  Lemma ev_magnitude u : mat3x1_magnitude (ev u) = Some (Fin (norm u) : E).
  Proof.
    unfold mat3x1_magnitude, ev, npowi2. f_equal.
    change (nadd E (nadd E (nmul E (Fin (vx u)) (Fin (vx u))) (nmul E (Fin (vy u)) (Fin (vy u)))) (nmul E (Fin (vz u)) (Fin (vz u))))
      with (Fin (vdot u u)). apply nsqrt_fin, vdot_pos.
  Qed.
  Lemma ev_normalize u : u <> vzero -> mat3x1_normalize (ev u) = Ok (Some (ev (vscale (/ norm u) u))).
  Proof.
    intro H. unfold mat3x1_normalize. rewrite ev_magnitude. simpl.
    pose proof (norm_nz u H). destruct (Req_EM_T (norm u) 0); [lra |].
    unfold ev, vscale, Rdiv; simpl. rewrite !(Rmult_comm (/ norm u)). reflexivity.
  Qed.
  Lemma ev_normalize_zero : mat3x1_normalize (ev vzero) = Ok (Some (M3x1 (A3 NaN NaN NaN : arr3 E))).
  Proof.
    unfold mat3x1_normalize. rewrite ev_magnitude, norm_vzero. simpl.
    destruct (Req_EM_T 0 0); [reflexivity | contradiction].
  Qed.
  Lemma ev_index0 u : mat3x1_index (ev u) 0 = Ok (Fin (vx u) : E). Proof. reflexivity. Qed.
  Lemma ev_index1 u : mat3x1_index (ev u) 1 = Ok (Fin (vy u) : E). Proof. reflexivity. Qed.
  Lemma ev_index2 u : mat3x1_index (ev u) 2 = Ok (Fin (vz u) : E). Proof. reflexivity. Qed.

  (** finite scalars and vectors are exactly the values that are not infinite or NaN *)
  Definition finite (x : E) : Prop := exists r, x = Fin r.
End ExactFacts.
