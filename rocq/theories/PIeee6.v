(** PIeee6.v — quaternion inverse and plane components in IEEE arithmetic (C87). *)
From Coq Require Import Reals List ZArith NArith Bool Lra Lia Psatz.
From Flocq Require Import Core BinarySingleNaN Relative.
Import ListNotations.
From Verif Require Import Base Num Vec Mat Quat Float Exact FloatFacts FloatRound Order SpecMat SpecGeom SpecBound SpecQuat
  SpecRound SpecBuild SpecFq ExactFacts PMat PShape PGeo1 PQuat PRound PRound2 PRound3 PIeee1 PIeee2 PIeee3 PIeee4 PIeee5.
Local Open Scope R_scope.

Lemma inv_core u d e f : 0 <= u <= / 1024 -> Rabs d <= 503 / 100 * u -> Rabs e <= u -> Rabs f <= u -> Rabs ((1 + e) * (1 + f) / (1 + d) - 1) <= 72 / 10 * u.
Proof.
  intros U Hd He Hf. apply Rabs_le_inv in Hd, He, Hf. assert (P : 0 < 1 + d) by lra.
  replace ((1 + e) * (1 + f) / (1 + d) - 1) with ((e + f + e * f - d) / (1 + d)) by (field; lra). unfold Rdiv. rewrite Rabs_mult, (Rabs_pos_eq (/ (1 + d))) by (left; apply Rinv_0_lt_compat; exact P).
  assert (A : Rabs (e + f + e * f - d) <= 704 / 100 * u) by (apply Rabs_le; nra).
  assert (B : / (1 + d) <= 101 / 100).
  { replace (101 / 100) with (/ (100 / 101)) by field. apply Rinv_le_contravar; lra. }
  apply Rle_trans with (704 / 100 * u * (101 / 100)); [apply Rmult_le_compat; try assumption; [apply Rabs_pos | left; apply Rinv_0_lt_compat; exact P] | lra].
Qed.

Lemma half_dist (s : bool) p a b : dist (vscale (/ 2) (if s then vsub p a else vadd p a)) (vscale (/ 2) (if s then vsub p b else vadd p b)) = / 2 * dist a b.
Proof.
  unfold dist. destruct s.
  - replace (vsub (vscale (/ 2) (vsub p a)) (vscale (/ 2) (vsub p b))) with (vscale (- (/ 2)) (vsub a b)) by (apply V3_eq; cbn [vx vy vz vsub vscale]; ring). rewrite norm_scale_abs, Rabs_Ropp, Rabs_pos_eq by lra. reflexivity.
  - replace (vsub (vscale (/ 2) (vadd p a)) (vscale (/ 2) (vadd p b))) with (vscale (/ 2) (vsub a b)) by (apply V3_eq; cbn [vx vy vz vsub vadd vscale]; ring). rewrite norm_scale_pos by lra. reflexivity.
Qed.
Section Ieee6.
  Context (prec emax : Z) {Hp : Prec_gt_0 prec} {Hm : Prec_lt_emax prec emax} (lm : libm (binary_float prec emax)).
  Notation bf := (binary_float prec emax).
  Notation fmt := (SpecFloat.fexp prec emax).
  Notation rnd := (round radix2 fmt ZnearestE).
  Notation val := (@B2R prec emax).
  Notation fin x := (is_finite (x : bf) = true).
  Notation u := (uro prec).
  Notation et := (eta prec emax).
  Notation fv := (fv prec emax).
  Notation bnd := (bnd prec emax).
  Notation F := (@Ieee prec emax Hp Hm lm).
  Notation qval := (@qval prec emax).
  Notation qfin := (@qfin prec emax).

  Lemma rnd_rel x : bpow radix2 (2 - emax) <= Rabs x -> exists e, Rabs e <= u /\ rnd x = x * (1 + e).
  Proof.
    intro H. destruct (relative_error_N_FLT_ex radix2 (3 - emax - prec) prec Hp (fun t => negb (Z.even t)) x) as [e [He Re]].
    - replace (3 - emax - prec + prec - 1)%Z with (2 - emax)%Z by lia. exact H.
    - exists e. split; [| exact Re]. eapply Rle_trans; [exact He |]. unfold uro. replace (- prec + 1)%Z with (1 + - prec)%Z by lia. rewrite bpow_plus. change (bpow radix2 1) with 2. lra.
  Qed.
  Lemma qinverse_ieee (q : quat F) : (9 < prec)%Z -> qfin q -> bpow radix2 (6 - emax) <= hdot (qval q) (qval q) -> hlen (qval q) <= bpow radix2 (emax / 2 - 3) ->
    exists r, quat_inverse q = Ok r /\ qfin r /\ hdist (qval r) (hscale (/ hdot (qval q) (qval q)) (hconj (qval q))) <= 8 * u * / hlen (qval q) + 2 * et.
  Proof.
    intros P Fq HS HL. pose proof (half_k prec emax P) as [Hk1 Hk2]. assert (HM : (prec < emax)%Z) by exact Hm. assert (HP : (0 < prec)%Z) by exact Hp.
    set (k := (emax / 2 - 3)%Z) in *. assert (Z1 : (3 - emax - prec <= k + k)%Z) by lia. assert (Z2 : (k + k + 3 < emax)%Z) by lia. assert (Z2' : (k + k < emax)%Z) by lia. assert (Z3 : (k + k <= emax - 6)%Z) by lia.
    assert (Z4 : (emax - 2 < emax)%Z) by lia. assert (Z5 : (3 - emax - prec <= emax - 2)%Z) by lia. assert (Z6 : (2 - emax <= 5 - emax)%Z) by lia. assert (Z7 : (0 <= emax - 6)%Z) by lia.
    destruct (qconj_val prec emax lm q Fq) as [Fc Ec]. assert (Lc : hlen (qval (quat_conjugate q)) = hlen (qval q)) by (rewrite Ec; apply hlen_conj).
    assert (Sc : hdot (qval (quat_conjugate q)) (qval (quat_conjugate q)) = hdot (qval q) (qval q)) by (rewrite <- !hlen_sq, Lc; reflexivity).
    rewrite <- Ec, <- Lc, <- Sc. rewrite <- Sc in HS. rewrite <- Lc in HL. unfold quat_inverse. set (c := quat_conjugate q) in *. clearbody c. clear Ec Lc Sc Fq q.
    destruct (comp_bnd prec emax lm k c Fc HL) as (B0 & B1 & B2 & B3). set (L := hlen (qval c)) in *. pose proof (hlen_pos (qval c)) as L0. fold L in L0. pose proof (hlen_sq (qval c)) as LS. fold L in LS.
    destruct (mult_bnd prec emax k k (qx c) (qx c) Z1 Z2' B0 B0) as [_ M0]. destruct (mult_bnd prec emax k k (qy c) (qy c) Z1 Z2' B1 B1) as [_ M1].
    destruct (mult_bnd prec emax k k (qz c) (qz c) Z1 Z2' B2 B2) as [_ M2]. destruct (mult_bnd prec emax k k (qw c) (qw c) Z1 Z2' B3 B3) as [_ M3].
    pose proof (sum4_fin prec emax false false false (k + k) _ _ _ _ Z1 Z2 M0 M1 M2 M3) as Bn. cbv zeta iota in Bn.
    pose proof (u_small prec P) as U. pose proof (u_pos prec) as U0. pose proof (et_pos prec emax) as T0. pose proof (et_small prec emax P) as Ts.
    set (S := hdot (qval c) (qval c)) in *. assert (S0 : 0 < S) by (eapply Rlt_le_trans; [apply bpow_gt_0 | exact HS]). assert (Lp : 0 < L) by nra.
    destruct (proj1 (sum4_approx prec emax false false false (qx c) (qx c) (qy c) (qy c) (qz c) (qz c) (qw c) (qw c) (proj1 Bn))) as [Fn Hn].
    change (quat_length_squared c) with (Bplus mode_NE (Bplus mode_NE (Bplus mode_NE (Bmult mode_NE (qx c) (qx c)) (Bmult mode_NE (qy c) (qy c))) (Bmult mode_NE (qz c) (qz c))) (Bmult mode_NE (qw c) (qw c)) : F).
    cbv zeta iota in Fn, Hn. cbn [pm rpm] in Fn, Hn. set (nr := Bplus mode_NE _ (Bmult mode_NE (qw c) (qw c))) in *.
    assert (ES : val (qx c) * val (qx c) + val (qy c) * val (qy c) + val (qz c) * val (qz c) + val (qw c) * val (qw c) = S) by reflexivity.
    rewrite ES in Hn. rewrite !sqr_abs in Hn. rewrite ES in Hn.
    assert (Ed : exists d, Rabs d <= 503 / 100 * u /\ val nr = S * (1 + d)).
    { exists ((val nr - S) / S). split; [| field; lra]. unfold Rdiv. rewrite Rabs_mult, (Rabs_pos_eq (/ S)) by (left; apply Rinv_0_lt_compat; exact S0).
      apply (Rmult_le_reg_r S); [exact S0 |]. rewrite Rmult_assoc, Rinv_l, Rmult_1_r by lra. eapply Rle_trans; [exact Hn |]. unfold err.
      pose proof (under_small prec emax 4 S ltac:(lia) HS) as US. assert (Q : (1 + u) ^ 4 - 1 <= 402 / 100 * u) by (simpl; nra). assert (((1 + u) ^ 4 - 1) * S <= 402 / 100 * u * S) by (apply Rmult_le_compat_r; lra).
      assert (0 <= u * S) by (apply Rmult_le_pos; lra). lra. }
    destruct Ed as [d [Hd Vd]]. assert (Hd' := Rabs_le_inv _ _ Hd).
    assert (Nn : 99 / 100 * S <= val nr <= 101 / 100 * S) by (rewrite Vd; nra).
    destruct (@fv_lit_0 prec emax Hp Hm) as [F0 V0]. change (@f_lit prec emax Hp Hm 0 1) with (@n0 F) in F0, V0.
    destruct (@fv_lit_1 prec emax Hp Hm) as [F1 V1]. change (@f_lit prec emax Hp Hm 1 1) with (@n1 F) in F1, V1.
    assert (NE : nne (nr : F) n0 = true) by (unfold nne; rewrite (neqb_val_false prec emax lm) by (try assumption; rewrite V0; lra); reflexivity).
    rewrite NE. cbn [assert bind]. eexists. split; [reflexivity |].
    assert (I0 : 0 < / val nr) by (apply Rinv_0_lt_compat; lra).
    assert (SU : S <= bpow radix2 (emax - 6)).
    { rewrite <- LS. apply Rle_trans with (bpow radix2 k * bpow radix2 k); [apply Rmult_le_compat; assumption |]. rewrite <- bpow_plus. apply bpow_le. exact Z3. }
    assert (IL : / S <= bpow radix2 (emax - 6)) by (replace (bpow radix2 (emax - 6)) with (/ bpow radix2 (6 - emax)) by (rewrite <- bpow_opp; f_equal; lia); apply Rinv_le_contravar; [apply bpow_gt_0 | exact HS]).
    assert (IU : bpow radix2 (6 - emax) <= / S) by (replace (bpow radix2 (6 - emax)) with (/ bpow radix2 (emax - 6)) by (rewrite <- bpow_opp; f_equal; lia); apply Rinv_le_contravar; [exact S0 | exact SU]).
    assert (IS0 : 0 < / S) by (apply Rinv_0_lt_compat; exact S0).
    assert (In : 99 / 100 * / S <= / val nr <= 102 / 100 * / S).
    { rewrite Vd, Rinv_mult. assert (0 < / (1 + d)) by (apply Rinv_0_lt_compat; lra). assert ((1 + d) * / (1 + d) = 1) by (apply Rinv_r; lra).
      assert (99 / 100 <= / (1 + d) <= 102 / 100) by nra. nra. }
    assert (Q2 : 2 * bpow radix2 (5 - emax) = bpow radix2 (6 - emax)) by (replace (6 - emax)%Z with (5 - emax + 1)%Z by lia; rewrite bpow_plus; change (bpow radix2 1) with 2; ring).
    assert (Q3 : 16 * bpow radix2 (emax - 6) = bpow radix2 (emax - 2)) by (replace (emax - 2)%Z with (emax - 6 + 4)%Z by lia; rewrite bpow_plus; change (bpow radix2 4) with 16; ring).
    assert (Q1 : 1 <= bpow radix2 (emax - 6)) by (change 1 with (bpow radix2 0); apply bpow_le; exact Z7).
    destruct (rnd_rel (/ val nr)) as [e [He Re]].
    { rewrite Rabs_pos_eq by lra. apply Rle_trans with (bpow radix2 (5 - emax)); [apply bpow_le; exact Z6 | pose proof (bpow_gt_0 radix2 (5 - emax)); lra]. }
    assert (He' := Rabs_le_inv _ _ He).
    assert (Bk : Rabs (rnd (/ val nr)) <= bpow radix2 (emax - 2)) by (apply (rnd_bpow prec emax); [exact Z5 | rewrite Rabs_pos_eq by lra; lra]).
    destruct (proj1 (div_round prec emax (@n1 F) nr F1 ltac:(lra))) as [Fk Vk].
    { rewrite V1. unfold Rdiv. rewrite Rmult_1_l. exact (below_big emax (emax - 2) _ Z4 Bk). }
    rewrite V1 in Vk. unfold Rdiv in Vk. rewrite Rmult_1_l, Re in Vk.
    change (ndiv F n1 nr) with (Bdiv mode_NE (@n1 F : bf) nr : F). set (kk := Bdiv mode_NE (@n1 F : bf) nr) in *.
    assert (Kk : 0 < val kk <= 103 / 100 * / S) by (rewrite Vk; nra).
    assert (C : forall x : bf, fin x -> Rabs (val x) <= L -> fin (Bmult mode_NE x kk) /\ Rabs (val (Bmult mode_NE x kk) - val x * / S) <= 72 / 10 * u * Rabs (val x * / S) + et).
    { intros x Fx Lx. assert (X1 : Rabs (val x * val kk) <= 103 / 100 * (L * / S)).
      { rewrite Rabs_mult, (Rabs_pos_eq (val kk)) by lra. apply Rle_trans with (L * (103 / 100 * / S)); [apply Rmult_le_compat; try lra; apply Rabs_pos | lra]. }
      assert (X2 : L * / S <= bpow radix2 (emax - 6)).
      { destruct (Rle_or_lt L 1) as [H | H]; [apply Rle_trans with (1 * / S); [apply Rmult_le_compat_r; lra | lra] |]. apply Rle_trans with 1; [| exact Q1]. rewrite <- LS.
        rewrite Rinv_mult. rewrite <- Rmult_assoc, Rinv_r, Rmult_1_l by lra. rewrite <- Rinv_1 at 1. apply Rinv_le_contravar; lra. }
      assert (X3 : Rabs (rnd (val x * val kk)) <= bpow radix2 (emax - 2)) by (apply (rnd_bpow prec emax); [exact Z5 | lra]).
      destruct (proj1 (mult_round prec emax x kk Fx Fk) (below_big emax (emax - 2) _ Z4 X3)) as [Fr Vr]. split; [exact Fr |].
      destruct (rnd_err prec emax (val x * val kk)) as [f [h [Hf [Hh Rf]]]]. rewrite Vr, Rf, Vk, Vd.
      replace (val x * (/ (S * (1 + d)) * (1 + e)) * (1 + f) + h - val x * / S) with ((val x * / S) * ((1 + e) * (1 + f) / (1 + d) - 1) + h) by (field; lra).
      eapply Rle_trans; [apply Rabs_triang |]. apply Rplus_le_compat; [| exact Hh]. rewrite Rabs_mult, Rmult_comm. apply Rmult_le_compat_r; [apply Rabs_pos |]. apply inv_core; try assumption. lra. }
    destruct (hlen_comp (qval c)) as (C0 & C1 & C2 & C3). fold L in C0, C1, C2, C3. destruct Fc as (G0 & G1 & G2 & G3).
    destruct (C _ G0 C0) as [I1 E1], (C _ G1 C1) as [I2 E2], (C _ G2 C2) as [I3 E3], (C _ G3 C3) as [I4 E4].
    split; [repeat split; assumption |].
    (* the four components together *)
    set (Y := hscale (/ S) (qval c)). assert (LY : hlen Y = / L).
    { unfold hlen. replace (hdot Y Y) with (/ S * / S * S) by (unfold Y, S, hdot, vdot, hscale, vscale; cbn [hv hs vx vy vz]; ring). replace (/ S * / S * S) with (/ L * / L) by (rewrite <- LS; field; lra). apply sqrt_square. left. apply Rinv_0_lt_compat. exact Lp. }
    set (W := H (V (Rabs (vx (hv Y))) (Rabs (vy (hv Y))) (Rabs (vz (hv Y)))) (Rabs (hs Y))). set (O := H (V et et et) et).
    assert (LW : hlen W = / L) by (rewrite <- LY; unfold hlen, hdot, vdot, W; cbn [hv hs vx vy vz]; rewrite <- !Rabs_mult, !sqr_abs; reflexivity).
    assert (LO : hlen O <= 2 * et) by (apply hlen_box; unfold O; cbn [hv hs vx vy vz]; try lra; rewrite Rabs_pos_eq; lra).
    assert (M : hdist (qval (quat_scale c (kk : F))) Y <= hlen (hadd (hscale (72 / 10 * u) W) O)).
    { unfold hdist. apply hlen_mono; unfold W, O, Y; cbn [hv hs vx vy vz hadd hsub hscale vadd vsub vscale]; rewrite ?(Rmult_comm (/ S)); assumption. }
    eapply Rle_trans; [exact M |]. eapply Rle_trans; [apply hlen_triangle |].
    replace (hlen (hscale (72 / 10 * u) W)) with (72 / 10 * u * / L).
    - assert (0 < / L) by (apply Rinv_0_lt_compat; exact Lp). assert (0 <= u * / L) by (apply Rmult_le_pos; lra). lra.
    - rewrite <- LW. unfold hlen at 2. replace (hdot (hscale (72 / 10 * u) W) (hscale (72 / 10 * u) W)) with ((72 / 10 * u) * (72 / 10 * u) * hdot W W) by (unfold hdot, vdot, hscale, vscale; cbn [hv hs vx vy vz]; ring).
      rewrite sqrt_mult_alt by nra. rewrite sqrt_square by lra. reflexivity.
  Qed.
  Lemma lit_half : (9 < prec)%Z -> fv (@f_lit prec emax Hp Hm 1 2) (/ 2).
  Proof.
    intro P. assert (HP : (0 < prec)%Z) by exact Hp. assert (HM : (prec < emax)%Z) by exact Hm.
    unfold f_lit. destruct (@fv_int1 prec emax Hp Hm) as [F1 V1], (@fv_int2 prec emax Hp Hm) as [F2 V2].
    assert (E : rnd (/ 2) = / 2).
    { apply round_generic; [apply valid_rnd_N |]. change (/ 2) with (bpow radix2 (-1)). apply generic_format_bpow. change fmt with (FLT_exp (3 - emax - prec) prec). unfold FLT_exp. lia. }
    destruct (proj1 (div_round prec emax _ (@f_int prec emax Hp Hm 2) F1 ltac:(lra))) as [A B].
    - rewrite V1, V2. unfold Rdiv. rewrite Rmult_1_l, E. rewrite Rabs_pos_eq by lra. apply Rlt_trans with 1; [lra |]. change 1 with (bpow radix2 0). apply bpow_lt. lia.
    - split; [exact A |]. rewrite B, V1, V2. unfold Rdiv. rewrite Rmult_1_l. exact E.
  Qed.
  Lemma half_comp s (x y : bf) : (9 < prec)%Z -> bnd (emax - 5) x -> bnd (emax - 5) y ->
    let r := Bmult mode_NE (pm prec emax s x y) (@f_lit prec emax Hp Hm 1 2) in
    fin r /\ Rabs (val r - rpm s (val x) (val y) / 2) <= 101 / 100 * u * (Rabs (val x) + Rabs (val y)) + et.
  Proof.
    intros P Bx By r. assert (HM : (prec < emax)%Z) by exact Hm. assert (Z1 : (3 - emax - prec <= emax - 5)%Z) by lia. assert (Z2 : (emax - 5 + 1 < emax)%Z) by lia.
    assert (Z3 : (3 - emax - prec <= emax - 5 + 1 + 0)%Z) by lia. assert (Z4 : (emax - 5 + 1 + 0 < emax)%Z) by lia.
    destruct (lit_half P) as [Fh Vh]. assert (Bh : bnd 0 (@f_lit prec emax Hp Hm 1 2)) by (split; [exact Fh | rewrite Vh, Rabs_pos_eq by lra; simpl; lra]).
    pose proof (u_small prec P) as U. pose proof (u_pos prec) as U0.
    assert (A : exists e, Rabs e <= u /\ val (pm prec emax s x y) = rpm s (val x) (val y) * (1 + e) /\ bnd (emax - 5 + 1) (pm prec emax s x y)).
    { destruct s; cbn [pm rpm].
      - destruct (minus_bnd prec emax (emax - 5) x y Z1 Z2 Bx By) as [[_ V] B]. destruct (minus_rel prec emax x y) as [e [He Re]]. exists e. split; [exact He |]. split; [rewrite V; exact Re | exact B].
      - destruct (plus_bnd prec emax (emax - 5) x y Z1 Z2 Bx By) as [[_ V] B]. destruct (plus_rel prec emax x y) as [e [He Re]]. exists e. split; [exact He |]. split; [rewrite V; exact Re | exact B]. }
    destruct A as [e [He [Ve Be]]]. destruct (mult_bnd prec emax (emax - 5 + 1) 0 _ _ Z3 Z4 Be Bh) as [[_ Vr] [Fr _]]. fold r in Vr, Fr. split; [exact Fr |].
    destruct (rnd_err prec emax (val (pm prec emax s x y) * val (@f_lit prec emax Hp Hm 1 2))) as [f [h [Hf [Hh Rf]]]]. rewrite Vr, Rf, Ve, Vh.
    set (w := rpm s (val x) (val y)). assert (W : Rabs w <= Rabs (val x) + Rabs (val y)).
    { unfold w. destruct s; cbn [rpm]; [| apply Rabs_triang]. unfold Rminus. eapply Rle_trans; [apply Rabs_triang | rewrite Rabs_Ropp; lra]. }
    replace (w * (1 + e) * / 2 * (1 + f) + h - w / 2) with (w * ((e + f + e * f) / 2) + h) by field.
    eapply Rle_trans; [apply Rabs_triang |]. apply Rplus_le_compat; [| exact Hh]. rewrite Rabs_mult, Rmult_comm. apply Rmult_le_compat; try apply Rabs_pos; [| exact W].
    apply Rabs_le_inv in He, Hf. apply Rabs_le. nra.
  Qed.
  Definition comps (s : bool) (q : quat F) (p : mat3x1 F) : mat3x1 F := if s then quat_orthogonal_component_of_plane q p else quat_parallel_component_of_plane q p.
  Lemma comps_ieee s (q : quat F) (p : mat3x1 F) : (9 < prec)%Z -> qfin q -> fin3 p -> hlen (qval q) <= 2 -> norm (v3 p) <= bpow radix2 (emax - 8) ->
    let T := hv (hmul (hmul (qval q) (H (v3 p) 0)) (qval q)) in
    fin3 (comps s q p) /\ dist (v3 (comps s q p)) (vscale (/ 2) (if s then vsub (v3 p) T else vadd (v3 p) T)) <= u * (2 + 11 * hdot (qval q) (qval q)) * norm (v3 p) + 17 * et.
  Proof.
    intros P Fq Fp Lq Lp T. assert (HM : (prec < emax)%Z) by exact Hm. assert (Z1 : (emax - 8 <= emax - 5)%Z) by lia. assert (Z0 : (0 <= emax - 8)%Z) by lia.
    pose proof (u_small prec P) as U. pose proof (u_pos prec) as U0. pose proof (et_pos prec emax) as T0. pose proof (et_small prec emax P) as Ts.
    destruct (sandwich prec emax lm q q p P Fq Fq Fp Lq Lq Lp) as [Ft Dt]. set (t := quat_mul (quat_mul q (quat_of_vec p)) q) in *. rewrite hlen_sq in Dt.
    pose proof (Rle_trans _ _ _ (vpart _ _) Dt) as Dv. fold T in Dv. set (tv := hv (qval t)) in *. set (n := norm (v3 p)) in *. set (Q := hdot (qval q) (qval q)) in *.
    assert (N0 : 0 <= n) by apply norm_pos. pose proof (hlen_pos (qval q)) as L0. assert (Q0 : 0 <= Q <= 4) by (unfold Q; rewrite <- hlen_sq; nra).
    assert (LT : norm T <= Q * n).
    { replace (Q * n) with (hlen (hmul (hmul (qval q) (H (v3 p) 0)) (qval q))) by (rewrite !hlen_mul, norm_hlen; unfold Q; rewrite <- hlen_sq; fold n; ring).
      unfold T, norm, hlen. apply sqrt_le_1_alt. unfold hdot. match goal with |- _ <= _ + ?z * ?z => pose proof (Rle_0_sqr z) as SZ; unfold Rsqr in SZ end. lra. }
    assert (Lt : norm tv <= (Q + 19 * u * Q) * n + 28 * et).
    { replace ((Q + 19 * u * Q) * n + 28 * et) with (Q * n + (19 * u * (Q * n) + 28 * et)) by ring. eapply Rle_trans; [apply norm_near | apply Rplus_le_compat; eassumption]. }
    assert (B1 : bpow radix2 (emax - 5) = 8 * bpow radix2 (emax - 8)) by (replace (emax - 5)%Z with (3 + (emax - 8))%Z by lia; rewrite bpow_plus; reflexivity).
    assert (B2 : 1 <= bpow radix2 (emax - 8)) by (change 1 with (bpow radix2 0); apply bpow_le; exact Z0).
    assert (U1 : 0 <= 19 * u * Q <= 1) by (split; nra).
    assert (Lb : norm tv <= bpow radix2 (emax - 5)).
    { rewrite B1. assert ((Q + 19 * u * Q) * n <= 5 * bpow radix2 (emax - 8)) by (apply Rmult_le_compat; lra). lra. }
    assert (CB : forall v (a : bf), norm v <= bpow radix2 (emax - 5) -> fin a -> val a = vx v \/ val a = vy v \/ val a = vz v -> bnd (emax - 5) a).
    { intros v a H Fa E. split; [exact Fa |]. destruct (abs_comp_norm v) as (X & Y & Z). destruct E as [-> | [-> | ->]]; lra. }
    assert (Lp' : norm (v3 p) <= bpow radix2 (emax - 5)) by (fold n; lra).
    destruct p as [[px py pz]]. destruct Fp as (F1 & F2 & F3). destruct Ft as (G1 & G2 & G3 & _).
    destruct (half_comp s px (qx t) P (CB _ _ Lp' F1 (or_introl eq_refl)) (CB _ _ Lb G1 (or_introl eq_refl))) as [I1 E1].
    destruct (half_comp s py (qy t) P (CB _ _ Lp' F2 (or_intror (or_introl eq_refl))) (CB _ _ Lb G2 (or_intror (or_introl eq_refl)))) as [I2 E2].
    destruct (half_comp s pz (qz t) P (CB _ _ Lp' F3 (or_intror (or_intror eq_refl))) (CB _ _ Lb G3 (or_intror (or_intror eq_refl)))) as [I3 E3].
    set (r := M3x1 (A3 (Bmult mode_NE (pm prec emax s px (qx t)) (@f_lit prec emax Hp Hm 1 2)) (Bmult mode_NE (pm prec emax s py (qy t)) (@f_lit prec emax Hp Hm 1 2)) (Bmult mode_NE (pm prec emax s pz (qz t)) (@f_lit prec emax Hp Hm 1 2))) : mat3x1 F).
    assert (ER : comps s q (M3x1 (A3 px py pz)) = r) by (destruct s; reflexivity). rewrite ER. split; [split; [exact I1 | split; [exact I2 | exact I3]] |].
    set (pv := v3 (M3x1 (A3 px py pz))) in *.
    set (M := vscale (/ 2) (if s then vsub pv tv else vadd pv tv)).
    assert (D1 : dist (v3 r) M <= 101 / 100 * u * n + 101 / 100 * u * norm tv + 2 * et).
    { unfold dist, n. assert (0 <= 101 / 100 * u) by lra. apply norm_comb; try lra; unfold M; destruct s; cbn [vx vy vz vsub vadd vscale rpm] in *; rewrite <- Rmult_plus_distr_l, (Rmult_comm (/ 2)); assumption. }
    assert (D2 : dist M (vscale (/ 2) (if s then vsub pv T else vadd pv T)) = / 2 * dist tv T).
    { unfold M. apply half_dist. }
    eapply Rle_trans; [apply (dist_tri3 _ M) |]. rewrite D2. clear - D1 Dv Lt U U0 T0 N0 Q0.
    set (a := dist (v3 r) M) in *. set (b := dist tv T) in *. set (c := norm tv) in *. clearbody a b c. clear - D1 Dv Lt U U0 T0 N0 Q0.
    assert (X1 : u * c <= u * ((Q + 19 * u * Q) * n + 28 * et)) by (apply Rmult_le_compat_l; lra).
    assert (X2 : 0 <= u * Q * n) by (apply Rmult_le_pos; [apply Rmult_le_pos |]; lra). assert (X3 : 0 <= u * n) by (apply Rmult_le_pos; lra).
    assert (X4 : u * (u * Q * n) <= / 1024 * (u * Q * n)) by (apply Rmult_le_compat_r; lra). assert (X5 : u * et <= / 1024 * et) by (apply Rmult_le_compat_r; lra).
    replace (u * ((Q + 19 * u * Q) * n + 28 * et)) with (u * Q * n + 19 * (u * (u * Q * n)) + 28 * (u * et)) in X1 by ring.
    replace (u * (2 + 11 * Q) * n) with (2 * (u * n) + 11 * (u * Q * n)) by ring. replace (19 * u * (Q * n)) with (19 * (u * Q * n)) in Dv by ring. lra.
  Qed.
End Ieee6.
(** the reference: reflection, and with it both components, of a unit normal *)
Lemma sandwich_plane (n p : V3) : vdot n n = 1 -> let T := hv (hmul (hmul (H n 0) (H p 0)) (H n 0)) in
  T = vsub p (vscale (2 * vdot n p) n) /\ vscale (/ 2) (vsub p T) = vscale (vdot n p) n /\ vscale (/ 2) (vadd p T) = vsub p (vscale (vdot n p) n).
Proof.
  intros N T. assert (E : T = vsub p (vscale (2 * vdot n p) n)).
  { unfold T. clear T. destruct n as [a b c], p as [x y z]. unfold hmul, vdot, vsub, vscale, vadd, vcross in *. cbn [hv hs vx vy vz] in *. apply V3_eq; cbn [vx vy vz].
    - transitivity ((a * a + b * b + c * c) * x - 2 * (a * x + b * y + c * z) * a); [ring | rewrite N; ring].
    - transitivity ((a * a + b * b + c * c) * y - 2 * (a * x + b * y + c * z) * b); [ring | rewrite N; ring].
    - transitivity ((a * a + b * b + c * c) * z - 2 * (a * x + b * y + c * z) * c); [ring | rewrite N; ring]. }
  clearbody T. subst T.
  split; [reflexivity |]. split; apply V3_eq; unfold vsub, vadd, vscale; cbn [vx vy vz]; field.
Qed.
Lemma hmul_sub q r i : hmul q (hsub r i) = hsub (hmul q r) (hmul q i) /\ hmul (hsub r i) q = hsub (hmul r q) (hmul i q).
Proof.
  destruct q as [[q1 q2 q3] q4], r as [[r1 r2 r3] r4], i as [[i1 i2 i3] i4]. unfold hmul, hsub, vdot, vsub, vscale, vadd, vcross. cbn [hv hs vx vy vz].
  split; (f_equal; [f_equal |]); ring.
Qed.
Lemma hinv_product q r : 0 < hdot q q -> hdist (hmul q r) hone = hlen q * hdist r (hscale (/ hdot q q) (hconj q)) /\ hdist (hmul r q) hone = hlen q * hdist r (hscale (/ hdot q q) (hconj q)).
Proof.
  intro S0. set (i := hscale (/ hdot q q) (hconj q)).
  assert (E1 : hmul q i = hone).
  { unfold i. destruct q as [[a b c] d]. unfold hdot, vdot in *. unfold hmul, hscale, hconj, hone, vzero, vscale, vdot, vadd, vcross. cbn [hv hs vx vy vz] in *. f_equal; [f_equal |]; try (field; lra); ring. }
  assert (E2 : hmul i q = hone).
  { unfold i. destruct q as [[a b c] d]. unfold hdot, vdot in *. unfold hmul, hscale, hconj, hone, vzero, vscale, vdot, vadd, vcross. cbn [hv hs vx vy vz] in *. f_equal; [f_equal |]; try (field; lra); ring. }
  clearbody i. destruct (hmul_sub q r i) as [A B]. split.
  - unfold hdist. rewrite <- E1, <- A, hlen_mul. reflexivity.
  - unfold hdist. rewrite <- E2, <- B, hlen_mul. ring.
Qed.
